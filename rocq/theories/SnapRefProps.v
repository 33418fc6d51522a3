(** C54: a snapshot holds one reference per log file it lists, and gives each back once. *)
From Verif Require Import Base SnapRefModel.
From Coq Require Import ZArith Lia Arith.

Lemma held_app : forall f a b, held f (a ++ b) = (held f a + held f b)%Z.
Proof. intros f. induction a as [|e a IH]; intros b; [reflexivity|]. cbn [app held fold_right]. fold (held f (a ++ b)). rewrite IH. fold (held f a). lia. Qed.
Definition times (f : nat) (l : list nat) : nat := count_occ Nat.eq_dec l f.
Lemma held_takes : forall f l, held f (takes l) = Z.of_nat (times f l).
Proof.
  intros f. induction l as [|x l IH]; [reflexivity|]. unfold times in *. cbn [takes map held fold_right fst snd]. fold (takes l). fold (held f (takes l)). rewrite IH.
  cbn [count_occ]. destruct (Nat.eq_dec x f) as [E|E]; [rewrite E, Nat.eqb_refl|rewrite (proj2 (Nat.eqb_neq x f) E)]; lia.
Qed.
Lemma held_gives : forall f l, held f (gives l) = (- Z.of_nat (times f l))%Z.
Proof.
  intros f. induction l as [|x l IH]; [reflexivity|]. unfold times in *. cbn [gives map held fold_right fst snd]. fold (gives l). fold (held f (gives l)). rewrite IH.
  cbn [count_occ]. destruct (Nat.eq_dec x f) as [E|E]; [rewrite E, Nat.eqb_refl|rewrite (proj2 (Nat.eqb_neq x f) E)]; lia.
Qed.

(** Every pass that has to be repeated failed at its first file: then the snapshot holds one
    reference for each file on its list, and none after it was closed. *)
Theorem C54_references_balanced_partial : forall ps evs l,
  (forall p, In p ps -> p_stop p = AllGot \/ p_got p = []) -> open_snap_refs ps = Some (evs, l) ->
  forall f, held f evs = Z.of_nat (count_occ Nat.eq_dec l f) /\ held f (evs ++ close_snap_refs l) = 0%Z.
Proof.
  intros ps evs l Hp Ho f.
  assert (E : held f evs = Z.of_nat (times f l)).
  { unfold open_snap_refs in Ho. revert evs l Ho. induction ps as [|p ps IH]; cbn [open_loop]; intros evs l Ho; [discriminate Ho|].
    destruct (Hp p (or_introl eq_refl)) as [Q|Q].
    - rewrite Q in Ho. cbn [app] in Ho. injection Ho as <- <-. apply held_takes.
    - rewrite Q in Ho. cbn [app] in Ho. specialize (IH (fun q Hq => Hp q (or_intror Hq))). destruct (p_stop p).
      + injection Ho as <- <-. reflexivity.
      + destruct (open_loop ps []) as [[evs' l']|] eqn:E; [|discriminate Ho]. injection Ho as <- <-. cbn [takes gives map app]. apply (IH evs' l' eq_refl).
      + destruct (open_loop ps []) as [[evs' l']|] eqn:E; [|discriminate Ho]. injection Ho as <- <-. specialize (IH evs' l' eq_refl). cbn [takes gives map app held fold_right fst snd]. fold (held f evs'). rewrite IH. destruct (Nat.eqb _ f); lia. }
  split; [exact E|]. unfold close_snap_refs. rewrite held_app, E, held_gives. lia.
Qed.
Print Assumptions C54_references_balanced_partial.
Example ex_snap_refs : open_snap_refs [mkPass [] (Marked 3); mkPass [] Gone; mkPass [4; 5]%nat AllGot]
  = Some ([(3%nat, 1%Z); (3%nat, (-1)%Z); (4%nat, 1%Z); (5%nat, 1%Z)], [4; 5]%nat).
Proof. reflexivity. Qed.

(** Files 3 and 4 are removed by a flush after the snapshot took file 3 and before it takes 4: file 3
    stays on its list without a reference, and closing releases it a second time. *)
Theorem C54_retry_refuted : exists ps evs l f,
  open_snap_refs ps = Some (evs, l) /\ In f l /\ held f evs = 0%Z /\ (held f (evs ++ close_snap_refs l) < 0)%Z.
Proof.
  exists [mkPass [3]%nat Gone; mkPass [5]%nat AllGot]. do 2 eexists. exists 3%nat. split; [reflexivity|]. split; [left; reflexivity|]. split; reflexivity.
Qed.
Print Assumptions C54_retry_refuted.
