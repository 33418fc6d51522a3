(** Properties C85 and C86: the ordered tree the iterators keep their sources in. *)
From Coq Require Import ZArith Arith List Bool Lia Sorted Permutation.
From Verif Require Import AvlModel AvlSpec AvlProofs AvlProofs8.
Import ListNotations.
Local Open Scope nat_scope.

(** C85.  Any sequence of insertions and removals, from any memory (only the root is initialised):
    no null pointer is followed, no balance factor outside the two bits is stored, and the loops end
    within the given rounds; the tree then holds exactly the entries of a plain set, walks give them in
    the order of the comparison function and in the opposite order, and the three searches give the
    entry with an equal key, the least one not smaller, the greatest one not greater. *)
Theorem C85_ordered_set : forall (A : Type) (cmp : A -> A -> comparison), ordering A cmp ->
  forall (os : list (op A)) (h0 : heap A) (fuel : nat),
  s_ok A cmp os [] -> 2 * Nat.log2 (length os + 1) + 1 < fuel ->
  exists h L, run cmp fuel os (avl_init h0) = Some h /\
    Permutation (map (fun x => (x, h_key h x)) L) (s_run A cmp os []) /\
    StronglySorted (fun x y => cmp (h_key h x) (h_key h y) = Lt) L /\
    (forall steps, length os < steps -> forwards steps fuel h = Some L /\ backwards steps fuel h = Some (rev L)) /\
    (forall k, avl_search cmp fuel h k = Some (pick (fun x => match cmp (h_key h x) k with Eq => true | _ => false end) L)) /\
    (forall k, avl_search_greater cmp fuel h k = Some (pick (fun x => match cmp (h_key h x) k with Lt => false | _ => true end) L)) /\
    (forall k, avl_search_smaller cmp fuel h k = Some (pick (fun x => match cmp (h_key h x) k with Gt => false | _ => true end) (rev L))).
Proof. intros A cmp H os h0 fuel. exact (tree_ok cmp H os h0 fuel). Qed.
Print Assumptions C85_ordered_set.

(** C86.  On a tree of n entries no loop of any call takes more than 2 log2 (n + 1) + 2 rounds; and an
    insertion says truly whether an entry with an equal key is there. *)
Theorem C86_logarithmic : forall (A : Type) (cmp : A -> A -> comparison), ordering A cmp ->
  forall (os : list (op A)) (h0 : heap A) (big : nat) (h : heap A) (fuel : nat),
  s_ok A cmp os [] -> 2 * Nat.log2 (length os + 1) + 1 < big -> run cmp big os (avl_init h0) = Some h ->
  2 * Nat.log2 (length (s_run A cmp os []) + 1) + 1 < fuel ->
  (forall x k, x <> 0 -> ~ In x (map fst (s_run A cmp os [])) -> exists h' n, avl_insert cmp fuel h x k = Some (h', n) /\
     (if existsb (same A cmp k) (s_run A cmp os []) then exists e, In e (s_run A cmp os []) /\ fst e = n /\ cmp (snd e) k = Eq else n = x)) /\
  (forall x, In x (map fst (s_run A cmp os [])) -> exists h', avl_remove fuel h x = Some h') /\
  (forall x, In x (map fst (s_run A cmp os [])) -> exists y z, avl_next fuel h x = Some y /\ avl_prev fuel h x = Some z) /\
  (exists x y, avl_first fuel h = Some x /\ avl_last fuel h = Some y) /\
  (forall k, exists x y z, avl_search cmp fuel h k = Some x /\ avl_search_greater cmp fuel h k = Some y /\ avl_search_smaller cmp fuel h k = Some z).
Proof. intros A cmp H os h0 big h fuel. exact (cost_ok cmp H os h0 big h fuel). Qed.
Print Assumptions C86_logarithmic.

(** A case: nodes 1 to 9 with keys 3 7 1 9 5 7 2 8 4 (6 is a duplicate), then 2 and 1 removed and 2
    inserted again with another key; the memory is full of garbage before. *)
Definition c85_ops : list (op nat) :=
  [Ins 1 3; Ins 2 7; Ins 3 1; Ins 4 9; Ins 5 5; Ins 6 7; Ins 7 2; Ins 8 8; Ins 9 4; Rem 2; Rem 1; Ins 2 6].
Definition c85_heap : heap nat := mkH (fun _ => 77) (fun x => x + 1) (fun x => 5 * x) (fun _ => 1%Z) (fun _ => 13) 42.
Example C85_case : ordering nat Nat.compare /\ s_ok nat Nat.compare c85_ops [] /\
  match run Nat.compare 11 c85_ops (avl_init c85_heap) with
  | Some h => forwards 13 11 h = Some [3; 7; 9; 5; 2; 8; 4] /\ backwards 13 11 h = Some [4; 8; 2; 5; 9; 7; 3] /\
              avl_search Nat.compare 11 h 7 = Some 0 /\ avl_search_greater Nat.compare 11 h 7 = Some 8 /\ avl_search_smaller Nat.compare 11 h 7 = Some 2 /\
              s_run nat Nat.compare c85_ops [] = [(2, 6); (9, 4); (8, 8); (7, 2); (5, 5); (4, 9); (3, 1)]
  | None => False
  end.
Proof.
  split.
  { split; [exact Nat.compare_antisym|]. split.
    - intros a b c. rewrite !Nat.compare_lt_iff. lia.
    - intros a b c H. apply Nat.compare_eq in H. subst. reflexivity. }
  split; [cbn; repeat split; intuition discriminate|]. vm_compute. repeat split.
Qed.
Example C86_case : 2 * Nat.log2 (length (s_run nat Nat.compare c85_ops []) + 1) + 1 < 8 /\
  match run Nat.compare 11 c85_ops (avl_init c85_heap) with
  | Some h => avl_insert Nat.compare 8 h 6 8 = Some (set_key 6 8 h, 8) /\ match avl_remove 8 h 5 with Some h' => forwards 13 8 h' = Some [3; 7; 9; 2; 8; 4] | None => False end
  | None => False
  end.
Proof. split; [vm_compute; repeat constructor|]. vm_compute. repeat split. Qed.
