From Verif Require Import Base KeyModel.
Local Open Scope N_scope.

Lemma kcmp_refl : forall a, kcmp a a = Eq.
Proof. induction a as [|x a IH]; cbn [kcmp]; [reflexivity|]. now rewrite N.compare_refl. Qed.

Lemma kcmp_eq : forall a b, kcmp a b = Eq <-> a = b.
Proof.
  split; [|intros ->; apply kcmp_refl].
  revert b; induction a as [|x a IH]; intros [|y b]; cbn [kcmp]; try discriminate; [reflexivity|].
  destruct (x ?= y) eqn:E; try discriminate.
  intros H. apply N.compare_eq in E. f_equal; auto.
Qed.

Lemma kcmp_antisym : forall a b, kcmp b a = CompOpp (kcmp a b).
Proof.
  induction a as [|x a IH]; intros [|y b]; cbn [kcmp]; try reflexivity.
  rewrite (N.compare_antisym x y). destruct (x ?= y); cbn; auto.
Qed.

Lemma klt_trans : forall a b c, klt a b -> klt b c -> klt a c.
Proof.
  unfold klt. induction a as [|x a IH]; intros [|y b] [|z c]; cbn [kcmp]; try discriminate; auto.
  intros Ha Hb.
  destruct (N.compare_spec x y) as [H1|H1|H1]; try discriminate;
    destruct (N.compare_spec y z) as [H2|H2|H2]; try discriminate;
    destruct (N.compare_spec x z) as [H3|H3|H3]; try lia; auto.
  eapply IH; eauto.
Qed.

Lemma klt_irrefl : forall a, ~ klt a a.
Proof. unfold klt; intros a; rewrite kcmp_refl; discriminate. Qed.

Lemma kcmp_gt : forall a b, kcmp a b = Gt <-> klt b a.
Proof.
  unfold klt; intros a b; rewrite (kcmp_antisym a b). destruct (kcmp a b); cbn; split; congruence.
Qed.

Lemma klt_asym : forall a b, klt a b -> ~ klt b a.
Proof. intros a b H H'. exact (klt_irrefl _ (klt_trans _ _ _ H H')). Qed.

Lemma ktrichotomy : forall a b, klt a b \/ a = b \/ klt b a.
Proof.
  intros a b. destruct (kcmp a b) eqn:E.
  - right; left; now apply kcmp_eq.
  - left; exact E.
  - right; right; now apply kcmp_gt.
Qed.

Lemma kle_lt_or_eq : forall a b, kle a b <-> klt a b \/ a = b.
Proof.
  unfold kle, klt; intros a b; destruct (kcmp a b) eqn:E; split; intros H; auto; try congruence.
  - right; now apply kcmp_eq.
  - destruct H as [H|H]; [discriminate|]. subst; rewrite kcmp_refl in E; discriminate.
Qed.

Lemma kle_not_lt : forall a b, kle a b <-> ~ klt b a.
Proof. intros a b. unfold kle. rewrite kcmp_gt. reflexivity. Qed.

Lemma kle_refl : forall a, kle a a.
Proof. intros a. apply kle_lt_or_eq. now right. Qed.
Lemma klt_kle : forall a b, klt a b -> kle a b.
Proof. intros a b H. apply kle_lt_or_eq. now left. Qed.
Lemma kle_trans : forall a b c, kle a b -> kle b c -> kle a c.
Proof.
  intros a b c H1 H2. apply kle_lt_or_eq in H1, H2. apply kle_lt_or_eq.
  destruct H1 as [H1| ->], H2 as [H2|H2]; subst; auto. left; eapply klt_trans; eauto.
Qed.
Lemma klt_kle_trans : forall a b c, klt a b -> kle b c -> klt a c.
Proof. intros a b c H1 H2. apply kle_lt_or_eq in H2. destruct H2 as [H2| <-]; auto. eapply klt_trans; eauto. Qed.
Lemma kle_klt_trans : forall a b c, kle a b -> klt b c -> klt a c.
Proof. intros a b c H1 H2. apply kle_lt_or_eq in H1. destruct H1 as [H1| ->]; auto. eapply klt_trans; eauto. Qed.
Lemma kle_antisym : forall a b, kle a b -> kle b a -> a = b.
Proof.
  intros a b H1 H2. apply kle_lt_or_eq in H1, H2.
  destruct H1 as [H1|]; auto. destruct H2 as [H2|]; auto. now apply klt_asym in H1.
Qed.
Lemma kle_total : forall a b, kle a b \/ kle b a.
Proof. intros a b. destruct (ktrichotomy a b) as [H|[->|H]]; auto using klt_kle, kle_refl. Qed.
Lemma klt_not_eq : forall a b, klt a b -> a <> b.
Proof. intros a b H ->. now apply klt_irrefl in H. Qed.

Lemma keqb_spec : forall a b, reflect (a = b) (keqb a b).
Proof.
  intros a b; unfold keqb; destruct (kcmp a b) eqn:E; constructor.
  - now apply kcmp_eq.
  - intros ->; rewrite kcmp_refl in E; discriminate.
  - intros ->; rewrite kcmp_refl in E; discriminate.
Qed.
Lemma keqb_true : forall a b, keqb a b = true <-> a = b.
Proof. intros a b; destruct (keqb_spec a b); split; congruence. Qed.
Lemma keqb_false : forall a b, keqb a b = false <-> a <> b.
Proof. intros a b; destruct (keqb_spec a b); split; congruence. Qed.
Lemma keqb_refl : forall a, keqb a a = true.
Proof. intros a; now apply keqb_true. Qed.
Lemma kltb_spec : forall a b, reflect (klt a b) (kltb a b).
Proof. intros a b; unfold kltb, klt; destruct (kcmp a b); constructor; congruence. Qed.
Lemma kleb_spec : forall a b, reflect (kle a b) (kleb a b).
Proof. intros a b; unfold kleb, kle; destruct (kcmp a b); constructor; congruence. Qed.
Lemma kltb_true : forall a b, kltb a b = true <-> klt a b.
Proof. intros a b; destruct (kltb_spec a b); split; congruence. Qed.
Lemma kleb_true : forall a b, kleb a b = true <-> kle a b.
Proof. intros a b; destruct (kleb_spec a b); split; intros; auto; try discriminate; contradiction. Qed.
Lemma kltb_false : forall a b, kltb a b = false <-> kle b a.
Proof. intros a b. rewrite kle_not_lt. destruct (kltb_spec a b); split; intros; try discriminate; tauto. Qed.
Lemma kleb_false : forall a b, kleb a b = false <-> klt b a.
Proof. intros a b. unfold kleb. rewrite <- kcmp_gt. destruct (kcmp a b); split; congruence. Qed.
Lemma key_eq_dec : forall a b : key, {a = b} + {a <> b}.
Proof. intros a b. destruct (keqb a b) eqn:E; [left|right]; [now apply keqb_true|now apply keqb_false]. Qed.

(** * [sb_cmp] has the sign of the lexicographic order *)
Definition zsign (z : Z) : comparison := (z ?= 0)%Z.

Lemma memcmp_kcmp : forall l r, length l = length r -> zsign (memcmp (length l) l r) = kcmp l r.
Proof.
  unfold zsign. induction l as [|x l IH]; intros [|y r] H; cbn [length] in H; try discriminate; [reflexivity|].
  cbn [length memcmp kcmp]. injection H as H.
  destruct (N.eqb_spec x y) as [->|Hn].
  - rewrite N.compare_refl. now apply IH.
  - destruct (N.ltb_spec x y) as [Hl|Hl]; destruct (N.compare_spec x y); try lia; reflexivity.
Qed.

Lemma memcmp_prefix : forall n l r, (n <= length l)%nat -> (n <= length r)%nat ->
  match memcmp n l r with
  | 0%Z => firstn n l = firstn n r
  | z => zsign z = kcmp l r
  end.
Proof.
  induction n as [|n IH]; intros l r Hl Hr; [reflexivity|].
  destruct l as [|x l], r as [|y r]; cbn [length] in Hl, Hr; try lia.
  cbn [memcmp kcmp firstn]. destruct (N.eqb_spec x y) as [->|Hn].
  - rewrite N.compare_refl. specialize (IH l r ltac:(lia) ltac:(lia)).
    destruct (memcmp n l r); auto. now f_equal.
  - destruct (N.ltb_spec x y) as [Hlt|Hlt]; destruct (N.compare_spec x y); try lia; reflexivity.
Qed.

Lemma kcmp_shorter : forall l r, (length l < length r)%nat -> l = firstn (length l) r -> kcmp l r = Lt.
Proof.
  induction l as [|x l IH]; intros [|y r] Hlt Hp; cbn [length] in Hlt; try lia; [reflexivity|].
  cbn [length firstn] in Hp. cbn [kcmp].
  assert (x = y) by congruence. assert (l = firstn (length l) r) by congruence. subst y.
  rewrite N.compare_refl. apply IH; [lia|assumption].
Qed.

Lemma to_int_small : forall n, n < 2 ^ 31 -> to_int n = Z.of_N n.
Proof.
  intros n H. unfold to_int. rewrite N.mod_small by (eapply N.lt_trans; [exact H|reflexivity]).
  apply N.ltb_lt in H. now rewrite H.
Qed.

Lemma sb_cmp_kcmp : forall l r, blen l < 2 ^ 31 -> blen r < 2 ^ 31 ->
  exists z, sb_cmp l r = Some z /\ zsign z = kcmp l r.
Proof.
  intros l r Hl Hr. unfold sb_cmp. unfold blen in *.
  destruct (N.eqb_spec (N.of_nat (length l)) (N.of_nat (length r))) as [He|Hne].
  - assert (He' : length l = length r) by lia.
    destruct (N.eqb_spec (N.of_nat (length l)) 0) as [H0|H0].
    + exists 0%Z. split; [reflexivity|].
      destruct l; [|cbn [length] in H0; lia]. destruct r; [reflexivity|cbn [length] in He'; lia].
    + eexists. split; [reflexivity|]. now apply memcmp_kcmp.
  - rewrite N2Nat.inj_min, !Nat2N.id.
    pose proof (memcmp_prefix (Nat.min (length l) (length r)) l r ltac:(lia) ltac:(lia)) as Hm.
    destruct (memcmp (Nat.min (length l) (length r)) l r) as [|p|p] eqn:E.
    + cbn [Z.eqb]. rewrite !to_int_small by assumption. unfold int_sub.
      change (2 ^ 31) with 2147483648 in *. change (2 ^ 31)%Z with 2147483648%Z.
      assert (Hb : (((- (2147483648) <=? Z.of_N (N.of_nat (length l)) - Z.of_N (N.of_nat (length r))) &&
               (Z.of_N (N.of_nat (length l)) - Z.of_N (N.of_nat (length r)) <? 2147483648))%Z) = true) by lia.
      rewrite Hb. eexists. split; [reflexivity|]. unfold zsign.
      destruct (Nat.lt_ge_cases (length l) (length r)) as [Hlt|Hge].
      * rewrite Nat.min_l, firstn_all in Hm by lia. rewrite (kcmp_shorter l r) by assumption.
        apply Z.compare_lt_iff. lia.
      * assert (Hlt : (length r < length l)%nat) by lia.
        rewrite Nat.min_r, firstn_all in Hm by lia.
        rewrite (kcmp_antisym r l), (kcmp_shorter r l) by (lia || congruence).
        cbn [CompOpp]. apply Z.compare_gt_iff. lia.
    + eexists; split; [reflexivity|assumption].
    + eexists; split; [reflexivity|assumption].
Qed.

(** * The relational operators are the lexicographic order, for every size *)
Lemma memcmp_shorter : forall l r, (length l < length r)%nat ->
  (memcmp (length l) l r <=? 0)%Z = kltb l r.
Proof.
  unfold kltb. induction l as [|x l IH]; intros [|y r] H; cbn [length] in H; try lia; [reflexivity|].
  cbn [length memcmp kcmp]. destruct (N.eqb_spec x y) as [->|Hn].
  - rewrite N.compare_refl. apply IH. lia.
  - destruct (N.ltb_spec x y); destruct (N.compare_spec x y); try lia; reflexivity.
Qed.
Lemma memcmp_longer : forall l r, (length r < length l)%nat ->
  (memcmp (length r) l r <? 0)%Z = kltb l r.
Proof.
  unfold kltb. induction l as [|x l IH]; intros [|y r] H; cbn [length] in H; try lia; [reflexivity|].
  cbn [length memcmp kcmp]. destruct (N.eqb_spec x y) as [->|Hn].
  - rewrite N.compare_refl. apply IH. lia.
  - destruct (N.ltb_spec x y); destruct (N.compare_spec x y); try lia; reflexivity.
Qed.
Lemma kcmp_len_eq : forall l r, kcmp l r = Eq -> length l = length r.
Proof. intros l r H. apply kcmp_eq in H. now subst. Qed.

Lemma sb_lt_kltb : forall l r, sb_lt l r = kltb l r.
Proof.
  intros l r. unfold sb_lt, blen.
  destruct (N.eqb_spec (N.of_nat (length l)) (N.of_nat (length r))) as [He|Hne].
  - assert (He' : length l = length r) by lia. pose proof (memcmp_kcmp l r He') as H. unfold zsign in H.
    unfold kltb. rewrite <- H. destruct (N.eqb_spec (N.of_nat (length l)) 0) as [H0|H0].
    + destruct l; [reflexivity|cbn [length] in H0; lia].
    + destruct (Z.compare_spec (memcmp (length l) l r) 0); lia.
  - destruct (N.ltb_spec (N.of_nat (length l)) (N.of_nat (length r))) as [Hlt|Hge].
    + rewrite memcmp_shorter by lia. destruct (N.eqb_spec (N.of_nat (length l)) 0) as [H0|H0]; [|reflexivity].
      destruct l; [|cbn [length] in H0; lia]. destruct r; [cbn [length] in Hlt; lia|reflexivity].
    + rewrite memcmp_longer by lia. destruct (N.eqb_spec (N.of_nat (length r)) 0) as [H0|H0]; [|reflexivity].
      destruct r; [|cbn [length] in H0; lia]. destruct l; [cbn [length] in Hne; lia|reflexivity].
Qed.

Lemma sb_le_kleb : forall l r, sb_le l r = kleb l r.
Proof.
  intros l r. unfold sb_le, blen.
  destruct (N.eqb_spec (N.of_nat (length l)) (N.of_nat (length r))) as [He|Hne].
  - assert (He' : length l = length r) by lia. pose proof (memcmp_kcmp l r He') as H. unfold zsign in H.
    unfold kleb. rewrite <- H. destruct (N.eqb_spec (N.of_nat (length l)) 0) as [H0|H0].
    + destruct l; [reflexivity|cbn [length] in H0; lia].
    + destruct (Z.compare_spec (memcmp (length l) l r) 0); lia.
  - assert (Hk : kleb l r = kltb l r).
    { unfold kleb, kltb. destruct (kcmp l r) eqn:E; try reflexivity. apply kcmp_len_eq in E. lia. }
    rewrite Hk. rewrite <- sb_lt_kltb. unfold sb_lt, blen.
    destruct (N.eqb_spec (N.of_nat (length l)) (N.of_nat (length r))); [lia|]. reflexivity.
Qed.

Lemma sb_eq_keqb : forall l r, sb_eq l r = keqb l r.
Proof.
  intros l r. unfold sb_eq, blen.
  destruct (N.eqb_spec (N.of_nat (length l)) (N.of_nat (length r))) as [He|Hne]; cbn [negb].
  - assert (He' : length l = length r) by lia. pose proof (memcmp_kcmp l r He') as H. unfold zsign in H.
    unfold keqb. rewrite <- H. destruct (N.eqb_spec (N.of_nat (length l)) 0) as [H0|H0]; cbn [negb].
    + destruct l; [reflexivity|cbn [length] in H0; lia].
    + destruct (Z.compare_spec (memcmp (length l) l r) 0); lia.
  - unfold keqb. destruct (kcmp l r) eqn:E; try reflexivity. apply kcmp_len_eq in E. lia.
Qed.

Lemma sb_operators : forall l r,
  (sb_lt l r = true <-> klt l r) /\ (sb_le l r = true <-> kle l r) /\ (sb_eq l r = true <-> l = r) /\
  (sb_gt l r = true <-> klt r l) /\ (sb_ge l r = true <-> kle r l).
Proof.
  intros l r. unfold sb_gt, sb_ge. rewrite sb_lt_kltb, sb_le_kleb, sb_eq_keqb.
  rewrite !negb_true_iff.
  split; [apply kltb_true|]. split; [apply kleb_true|]. split; [apply keqb_true|].
  split; [apply kleb_false|apply kltb_false].
Qed.
