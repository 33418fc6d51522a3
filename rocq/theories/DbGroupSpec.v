(** Words used in the statements about groups of named databases. *)
From Verif Require Import Base DbGroupModel.
Local Open Scope N_scope.

(** Names without the faults of C97: not empty, at most 255 bytes, no zero byte. *)
Definition good (n : name) : Prop := n <> [] /\ blen n <= 255 /\ Forall (fun b => 0 < b < 256) n.

(** Histories with such names and without a crash in the middle of adding a new name.  (Opening with
    an empty name is refused.) *)
Definition plain (o : gop) : Prop := match o with OpenDb n => n = [] \/ good n | CrashIn _ _ => False | _ => True end.

(** Each name has one number and each number one name. *)
Definition one_to_one (tr : list (name * N)) : Prop :=
  forall n1 i1 n2 i2, In (n1, i1) tr -> In (n2, i2) tr -> (n1 = n2 <-> i1 = i2).
