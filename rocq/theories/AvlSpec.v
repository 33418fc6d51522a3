(** What the tree of AvlModel.v should be: a set of entries, at most one for each key. *)
From Coq Require Import Arith List Bool.
From Verif Require Import AvlModel.
Import ListNotations.
Local Open Scope nat_scope.

Section Spec.
Variable A : Type.
Variable cmp : A -> A -> comparison.

(** A comparison function that orders what the entries hold: total, transitive; entries that compare
    equal compare alike with everything. *)
Definition ordering : Prop :=
  (forall a b, cmp b a = CompOpp (cmp a b)) /\
  (forall a b c, cmp a b = Lt -> cmp b c = Lt -> cmp a c = Lt) /\
  (forall a b c, cmp a b = Eq -> cmp a c = cmp b c).

Definition same (k : A) (e : nat * A) : bool := match cmp (snd e) k with Eq => true | _ => false end.

(** Entries are pairs of a node and what it holds; the order in this list means nothing. *)
Definition s_ins (x : nat) (k : A) (s : list (nat * A)) : list (nat * A) := if existsb (same k) s then s else (x, k) :: s.
Definition s_rem (x : nat) (s : list (nat * A)) : list (nat * A) := filter (fun e => negb (fst e =? x)) s.
Definition s_do (o : op A) (s : list (nat * A)) : list (nat * A) := match o with Ins _ x k => s_ins x k s | Rem _ x => s_rem x s end.
Fixpoint s_run (os : list (op A)) (s : list (nat * A)) : list (nat * A) := match os with [] => s | o :: os' => s_run os' (s_do o s) end.

(** Correct use: a node that is in the tree is not inserted again (nor is the null pointer), and only
    nodes that are in the tree are removed. *)
Definition s_ok1 (o : op A) (s : list (nat * A)) : Prop :=
  match o with Ins _ x _ => x <> 0 /\ ~ In x (map fst s) | Rem _ x => In x (map fst s) end.
Fixpoint s_ok (os : list (op A)) (s : list (nat * A)) : Prop := match os with [] => True | o :: os' => s_ok1 o s /\ s_ok os' (s_do o s) end.

(** The first node of a list that satisfies a condition; the null pointer if none does. *)
Definition pick (f : nat -> bool) (l : list nat) : nat := match find f l with Some x => x | None => 0 end.
End Spec.
