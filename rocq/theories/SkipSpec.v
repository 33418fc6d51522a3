(** What callers of the index (SkipModel.v) may expect, in terms of when each entry was in the index:
    from the step that finished its insertion ([s_born]) to the step that began to unlink it ([s_died]).
    A call lasts from [t0] to [t1]; both are readings of a clock that ticks once per step. *)
From Coq Require Import NArith Arith List Bool.
From Verif Require Import Base SkipModel.
Local Open Scope nat_scope.

(** In the index at some moment of the call. *)
Definition alive_in (s : st) (t0 t1 y : nat) : Prop :=
  exists b, s_born s y = Some b /\ b < t1 /\ forall d, s_died s y = Some d -> t0 < d.

(** In the index during the whole call. *)
Definition throughout (s : st) (t0 t1 z : nat) : Prop :=
  exists b, s_born s z = Some b /\ b < t0 /\ forall d, s_died s z = Some d -> t1 < d.

(** The key [a] of an answer to a query for [q]. *)
Definition meets (m : mode) (a q : N) : Prop :=
  match m with SM => (a < q)%N | SMEQ => (a <= q)%N | EQ => a = q | GTEQ => (q <= a)%N | GT => (q <= a)%N end.

(** A key [b] that answers the query must not be missed ... *)
Definition asked (m : mode) (b q : N) : Prop :=
  match m with SM => (b < q)%N | SMEQ => (b <= q)%N | EQ => b = q | GTEQ => (q <= b)%N | GT => (q < b)%N end.

(** ... in favour of a key [a] that is further from the query. *)
Definition nearer (m : mode) (a b : N) : Prop :=
  match m with SM | SMEQ => (b <= a)%N | EQ => a = b | GTEQ | GT => (a <= b)%N end.

(** The answer [r] of a search: it was in the index during the call and fits the query; and if some
    entry that fits was in the index during the whole call, there is an answer at least as near. *)
Definition found_ok (key : nat -> N) (s : st) (t0 t1 : nat) (q : N) (m : mode) (r : option nat) : Prop :=
  (forall y, r = Some y -> meets m (key y) q /\ alive_in s t0 t1 y) /\
  (forall z, throughout s t0 t1 z -> asked m (key z) q -> exists y, r = Some y /\ nearer m (key y) (key z)).

(** Keys of entries lie strictly between those of head and tail (skiplist.cc:221-230). *)
Definition ordered (key : nat -> N) : Prop :=
  key head = 0%N /\ key tail <> 0%N /\ forall x, user x -> (0 < key x < key tail)%N.

(** How callers use the index.  Indexes filled by plain insertion have distinct keys (numbers of log
    files and of tables, sequence numbers).  A query lies between head and tail, or is the tail itself
    in skiplist_end (999-1001); mode GT is used by skiplist_next only (977). *)
Definition guard (key : nat -> N) (e : ev) : Prop :=
  match e with
  | Start _ (JIns n false) => forall x, user x -> key x = key n -> x = n
  | Start _ (JFind q m) => m <> GT /\ (0 < q)%N /\ ((q < key tail)%N \/ m = SM /\ q = key tail)
  | _ => True
  end.

(** Every state that any number of threads can reach, their steps interleaved in any way. *)
Inductive reach (key : nat -> N) (top : nat -> nat) (maxl : nat) : st -> Prop :=
| reach_new : reach key top maxl sl_new
| reach_step : forall e s s', reach key top maxl s -> guard key e -> step key top maxl false e s = Some s' -> reach key top maxl s'.

(** The [k]-th entry of a layer, counted from the head. *)
Fixpoint walk (s : st) (l k : nat) : nat := match k with O => head | S i => s_nx s (walk s l i) l end.

(** The same when calls do not overlap: a call starts only when no other is under way. *)
Inductive reach1 (key : nat -> N) (top : nat -> nat) (maxl : nat) : st -> Prop :=
| reach1_new : reach1 key top maxl sl_new
| reach1_step : forall e s s', reach1 key top maxl s -> guard key e -> (forall T j, e = Start T j -> forall U, idle (s_th s U) = true) ->
    step key top maxl false e s = Some s' -> reach1 key top maxl s'.
