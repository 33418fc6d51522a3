(** Descent, insertion and removal. *)
From Coq Require Import ZArith Arith List Bool Lia.
From Verif Require Import AvlModel AvlProofs AvlProofs2 AvlProofs3.
Import ListNotations.
Local Open Scope nat_scope.

Section P.
Context {A : Type}.
Notation heap := (heap A).

(** * Changing the child at the bottom of a context *)
Lemma rpc_set : forall c (h h' : heap) a a' p q q' pq,
  rpc h a p c q pq -> nodup (cl c ++ cr c) ->
  (forall y, 1 <= cnt y (cl c) + cnt y (cr c) -> y <> p -> fsame h h' y) ->
  match c with
  | [] => q' = a'
  | FL x _ _ :: _ => q' = q /\ h_lft h' x = a' /\ h_rgt h' x = h_rgt h x /\ h_par h' x = h_par h x /\ h_bf h' x = h_bf h x
  | FR _ x _ :: _ => q' = q /\ h_rgt h' x = a' /\ h_lft h' x = h_lft h x /\ h_par h' x = h_par h x /\ h_bf h' x = h_bf h x
  end -> rpc h' a' p c q' pq.
Proof.
  intros [|[x b r|l x b] c] h h' a a' p q q' pq Hc Hn Hs Hq; cbn [rpc] in *.
  - destruct Hc; subst; auto.
  - destruct Hc as (-> & Hx & Ha & Hb & Hr & Hc). destruct Hq as (-> & Q1 & Q2 & Q3 & Q4). rewrite Q1, Q2, Q3, Q4.
    cbn [cl cr] in *. assert (Hnx := Hn x). cnts. rewrite Nat.eqb_refl in Hnx.
    do 4 (split; [auto|]). split.
    + apply (rep_same r h); [|assumption]. intros y Hy. apply Hs; [cnts; lia|intros ->; lia].
    + apply (rpc_same c h); [|assumption]. intros y Hy. apply Hs; [cnts; lia|intros ->; lia].
  - destruct Hc as (-> & Hx & Ha & Hb & Hr & Hc). destruct Hq as (-> & Q1 & Q2 & Q3 & Q4). rewrite Q1, Q2, Q3, Q4.
    cbn [cl cr] in *. assert (Hnx := Hn x). cnts. rewrite Nat.eqb_refl in Hnx.
    do 4 (split; [auto|]). split.
    + apply (rep_same l h); [|assumption]. intros y Hy. apply Hs; [cnts; lia|intros ->; lia].
    + apply (rpc_same c h); [|assumption]. intros y Hy. apply Hs; [cnts; lia|intros ->; lia].
Qed.

Lemma top_in : forall c (h : heap) a p q pq, rpc h a p c q pq -> c <> [] -> 1 <= cnt q (cl c) + cnt q (cr c).
Proof.
  induction c as [|f c IH]; intros h a p q pq Hc Hne; [congruence|].
  cbn [rpc] in Hc. destruct f as [x b r|l x b]; destruct Hc as (-> & Hx & Ha & Hb & Hr & Hc); cbn [cl cr]; cnts.
  - destruct c as [|f c]; [cbn [rpc] in Hc; destruct Hc as (-> & _); rewrite Nat.eqb_refl; lia|].
    assert (Q := IH _ _ _ _ _ Hc). assert (f :: c <> []) by discriminate. apply Q in H. lia.
  - destruct c as [|f c]; [cbn [rpc] in Hc; destruct Hc as (-> & _); rewrite Nat.eqb_refl; lia|].
    assert (Q := IH _ _ _ _ _ Hc). assert (f :: c <> []) by discriminate. apply Q in H. lia.
Qed.

Lemma rpc_top : forall c (h h' : heap) a p q pq pq',
  rpc h a p c q pq -> nodup (cl c ++ cr c) ->
  (forall y, 1 <= cnt y (cl c) + cnt y (cr c) -> csame h h' y) ->
  (forall y, 1 <= cnt y (cl c) + cnt y (cr c) -> y <> q -> h_par h' y = h_par h y) ->
  (c <> [] -> h_par h' q = pq') ->
  rpc h' a (match c with [] => pq' | _ => p end) c q pq'.
Proof.
  induction c as [|f c IH]; intros h h' a p q pq pq' Hc Hn Hs Hp Hq; cbn [rpc] in *; [tauto|].
  specialize (Hq ltac:(discriminate)).
  assert (Hti : forall y, c <> [] -> y = q -> 1 <= cnt y (cl c) + cnt y (cr c)).
  { intros y Hne ->. destruct f; destruct Hc as (_ & _ & _ & _ & _ & Hc); apply (top_in _ _ _ _ _ _ Hc Hne). }
  assert (Hbot : c = [] -> fnode f = q).
  { intros ->. destruct f; destruct Hc as (_ & _ & _ & _ & _ & Hc & _); exact Hc. }
  destruct f as [x b r|l x b]; destruct Hc as (-> & Hx & Ha & Hb & Hr & Hc); cbn [cl cr fnode] in *.
  - assert (Hnx := Hn x). cnts. rewrite Nat.eqb_refl in Hnx.
    destruct (Hs x) as (S1 & S2 & S3); [cnts; rewrite Nat.eqb_refl; lia|]. rewrite S1, S2, S3.
    do 4 (split; [auto|]). split.
    + apply (rep_same r h); [|assumption]. intros y Hy. split; [|apply Hs; cnts; lia].
      apply Hp; [cnts; lia|]. intro Q. specialize (Hn y). cnts. destruct c as [|f c].
      * rewrite (Hbot eq_refl), <- Q in Hnx. lia.
      * specialize (Hti y ltac:(discriminate) Q). lia.
    + assert (R := IH h h' x (h_par h x) q pq pq' Hc).
      replace (h_par h' x) with (match c with [] => pq' | _ => h_par h x end).
      * apply R; auto.
        -- intro y. specialize (Hn y). cnts. lia.
        -- intros y Hy. apply Hs. cnts. lia.
        -- intros y Hy. apply Hp. cnts. lia.
      * destruct c as [|f c]; [rewrite (Hbot eq_refl); auto|]. symmetry. apply Hp; [cnts; rewrite Nat.eqb_refl; lia|].
        intro Q. specialize (Hti x ltac:(discriminate) Q). lia.
  - assert (Hnx := Hn x). cnts. rewrite Nat.eqb_refl in Hnx.
    destruct (Hs x) as (S1 & S2 & S3); [cnts; rewrite Nat.eqb_refl; lia|]. rewrite S1, S2, S3.
    do 4 (split; [auto|]). split.
    + apply (rep_same l h); [|assumption]. intros y Hy. split; [|apply Hs; cnts; lia].
      apply Hp; [cnts; lia|]. intro Q. specialize (Hn y). cnts. destruct c as [|f c].
      * rewrite (Hbot eq_refl), <- Q in Hnx. lia.
      * specialize (Hti y ltac:(discriminate) Q). lia.
    + assert (R := IH h h' x (h_par h x) q pq pq' Hc).
      replace (h_par h' x) with (match c with [] => pq' | _ => h_par h x end).
      * apply R; auto.
        -- intro y. specialize (Hn y). cnts. lia.
        -- intros y Hy. apply Hs. cnts. lia.
        -- intros y Hy. apply Hp. cnts. lia.
      * destruct c as [|f c]; [rewrite (Hbot eq_refl); auto|]. symmetry. apply Hp; [cnts; rewrite Nat.eqb_refl; lia|].
        intro Q. specialize (Hti x ltac:(discriminate) Q). lia.
Qed.

(** * Finding a node of the tree *)
Lemma focus : forall t (h : heap) a p c q pq x, rep h p a t -> rpc h a p c q pq -> 1 <= cnt x (ino t) ->
  exists c' l b r, rep h (h_par h x) x (T l x b r) /\ rpc h x (h_par h x) c' q pq /\ plug c' (T l x b r) = plug c t.
Proof.
  induction t as [|l IHl y b r IHr]; intros h a p c q pq x Hr Hc Hx; cbn [ino cnt] in Hx; [lia|].
  assert (Hr0 := Hr). cbn [rep] in Hr. destruct Hr as (-> & Hy & Hp & Hb & Hl & Hrr).
  rewrite cnt_app in Hx. cbn [cnt] in Hx. destruct (Nat.eqb_spec x y) as [->|Hne].
  - exists c, l, b, r. rewrite Hp. auto.
  - destruct (cnt x (ino l)) eqn:El.
    + destruct (IHr h (h_rgt h y) y (FR l y b :: c) q pq x Hrr) as (c' & l' & b' & r' & Q1 & Q2 & Q3); [cbn [rpc]; rewrite Hp; tauto|lia|].
      exists c', l', b', r'. rewrite Q3. auto.
    + destruct (IHl h (h_lft h y) y (FL y b r :: c) q pq x Hl) as (c' & l' & b' & r' & Q1 & Q2 & Q3); [cbn [rpc]; rewrite Hp; tauto|lia|].
      exists c', l', b', r'. rewrite Q3. auto.
Qed.

Fixpoint allL (c : list frame) : Prop := match c with [] => True | FL _ _ _ :: c' => allL c' | FR _ _ _ :: _ => False end.
Fixpoint allR (c : list frame) : Prop := match c with [] => True | FR _ _ _ :: c' => allR c' | FL _ _ _ :: _ => False end.

Lemma leftmost_ok : forall t fuel (h : heap) a p p0 d q pq, rep h p a t -> rpc h a p d q pq -> allL d -> (hgt t < Z.of_nat fuel)%Z ->
  match t with
  | E => leftmost fuel h p0 a = Some p0
  | _ => exists d' n nb nr pn, leftmost fuel h p0 a = Some n /\ rep h pn n (T E n nb nr) /\ rpc h n pn d' q pq /\ allL d' /\ plug d' (T E n nb nr) = plug d t
  end.
Proof.
  induction t as [|l IHl y b r IHr]; intros fuel h a p p0 d q pq Hr Hc HL HF; pose proof (hgt_pos) as HP;
    (destruct fuel as [|fuel]; [match type of HF with (hgt ?t < _)%Z => specialize (HP t) end; lia|]); cbn [leftmost].
  - cbn [rep] in Hr. subst. reflexivity.
  - assert (Hr0 := Hr). cbn [rep] in Hr. destruct Hr as (-> & Hy & Hp & Hb & Hl & Hrr).
    rewrite (proj2 (Nat.eqb_neq y 0)) by assumption.
    assert (HF2 : (hgt l < Z.of_nat fuel)%Z) by (cbn [hgt] in HF; lia).
    specialize (IHl fuel h (h_lft h y) y y (FL y b r :: d) q pq Hl). destruct l as [|l1 y1 b1 r1].
    + rewrite IHl; [|cbn [rpc]; rewrite Hp; tauto|assumption|assumption]. exists d, y, b, r, p. auto.
    + destruct IHl as (d' & n & nb & nr & pn & Q1 & Q2 & Q3 & Q4 & Q5); [cbn [rpc]; rewrite Hp; tauto|assumption|assumption|].
      exists d', n, nb, nr, pn. rewrite Q5. auto.
Qed.
Lemma rightmost_ok : forall t fuel (h : heap) a p p0 d q pq, rep h p a t -> rpc h a p d q pq -> allR d -> (hgt t < Z.of_nat fuel)%Z ->
  match t with
  | E => rightmost fuel h p0 a = Some p0
  | _ => exists d' n nb nl pn, rightmost fuel h p0 a = Some n /\ rep h pn n (T nl n nb E) /\ rpc h n pn d' q pq /\ allR d' /\ plug d' (T nl n nb E) = plug d t
  end.
Proof.
  induction t as [|l IHl y b r IHr]; intros fuel h a p p0 d q pq Hr Hc HL HF; pose proof (hgt_pos) as HP;
    (destruct fuel as [|fuel]; [match type of HF with (hgt ?t < _)%Z => specialize (HP t) end; lia|]); cbn [rightmost].
  - cbn [rep] in Hr. subst. reflexivity.
  - assert (Hr0 := Hr). cbn [rep] in Hr. destruct Hr as (-> & Hy & Hp & Hb & Hl & Hrr).
    rewrite (proj2 (Nat.eqb_neq y 0)) by assumption.
    assert (HF2 : (hgt r < Z.of_nat fuel)%Z) by (cbn [hgt] in HF; lia).
    specialize (IHr fuel h (h_rgt h y) y y (FR l y b :: d) q pq Hrr). destruct r as [|l1 y1 b1 r1].
    + rewrite IHr; [|cbn [rpc]; rewrite Hp; tauto|assumption|assumption]. exists d, y, b, l, p. auto.
    + destruct IHr as (d' & n & nb & nr & pn & Q1 & Q2 & Q3 & Q4 & Q5); [cbn [rpc]; rewrite Hp; tauto|assumption|assumption|].
      exists d', n, nb, nr, pn. rewrite Q5. auto.
Qed.
Lemma allL_cl : forall d, allL d -> cl d = [].
Proof. induction d as [|[x b r|l x b] d IH]; cbn; tauto. Qed.
Lemma allR_cr : forall d, allR d -> cr d = [].
Proof. induction d as [|[x b r|l x b] d IH]; cbn; tauto. Qed.
Lemma cbal_app : forall d H f c, cbal H (d ++ f :: c) ->
  forall f', (forall t, hgt (fplug f' t) = hgt (fplug f t)) -> (forall K, cbal K (f :: c) -> cbal K (f' :: c)) -> cbal H (d ++ f' :: c).
Proof.
  induction d as [|[x b r|l x b] d IH]; intros H f c HB f' Hf Hk; cbn [app] in *; [auto| |]; cbn [cbal] in *; intuition eauto.
Qed.
End P.
