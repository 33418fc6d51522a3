(** What prefix search should do, and when it does. *)
From Verif Require Import Base KeyModel LsmModel.

Definition prefix_of (p k : key) : Prop := exists t, k = p ++ t.

(** The level has at most one table whose minimum key is longer than the prefix and starts with it;
    so the keys with the prefix are in at most two tables of the level, neighbours. *)
Definition two_tables_hold (p : key) (ts : list tbl) : Prop :=
  forall t u, In t ts -> In u ts -> prefix_of p (b_min t) -> prefix_of p (b_min u) -> b_min t <> p -> b_min u <> p -> b_min t = b_min u.
