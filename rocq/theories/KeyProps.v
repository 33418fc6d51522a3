(** C36: the default key comparison is a total order consistent with equality. *)
From Verif Require Import Base KeyModel KeyProofs.
Local Open Scope N_scope.

(** Keys shorter than 2 GiB. *)
Definition short_key (k : key) : Prop := blen k < 2 ^ 31.

Lemma C36_lemma :
  (forall a b, short_key a -> short_key b -> exists z, sb_cmp a b = Some z /\ (z = 0%Z <-> a = b)) /\
  (forall a b x y, short_key a -> short_key b -> sb_cmp a b = Some x -> sb_cmp b a = Some y ->
     ((x < 0)%Z <-> (0 < y)%Z) /\ ((0 < x)%Z <-> (y < 0)%Z)) /\
  (forall a b c x y z, short_key a -> short_key b -> short_key c ->
     sb_cmp a b = Some x -> sb_cmp b c = Some y -> sb_cmp a c = Some z ->
     (x <= 0)%Z -> (y <= 0)%Z -> (z <= 0)%Z) /\
  (forall p a b, short_key (p ++ a) -> short_key (p ++ b) ->
     exists x y, sb_cmp (p ++ a) (p ++ b) = Some x /\ sb_cmp a b = Some y /\ Z.sgn x = Z.sgn y) /\
  (forall p a, short_key (p ++ a) -> a <> [] -> exists x, sb_cmp p (p ++ a) = Some x /\ (x < 0)%Z).
Proof.
  unfold short_key.
  assert (Sg : forall z c, zsign z = c -> match c with Eq => z = 0 | Lt => z < 0 | Gt => z > 0 end%Z).
  { intros z c <-. unfold zsign. destruct (Z.compare_spec z 0); lia. }
  assert (Happ : forall p a b, kcmp (p ++ a) (p ++ b) = kcmp a b).
  { induction p as [|x p IH]; intros a b; cbn [app kcmp]; [reflexivity|]. rewrite N.compare_refl. apply IH. }
  repeat split.
  - intros a b Ha Hb. destruct (sb_cmp_kcmp a b Ha Hb) as [z [E S]]. exists z. split; [exact E|].
    apply Sg in S. rewrite <- kcmp_eq. destruct (kcmp a b); split; intros; try lia; congruence.
  - intros Hx. destruct (sb_cmp_kcmp a b) as [x' [E S]]; try assumption.
    destruct (sb_cmp_kcmp b a) as [y' [E' S']]; try assumption.
    rewrite (kcmp_antisym a b) in S'. apply Sg in S, S'.
    assert (x' = x) by congruence. assert (y' = y) by congruence. subst. destruct (kcmp a b); cbn in *; lia.
  - intros Hx. destruct (sb_cmp_kcmp a b) as [x' [E S]]; try assumption.
    destruct (sb_cmp_kcmp b a) as [y' [E' S']]; try assumption.
    rewrite (kcmp_antisym a b) in S'. apply Sg in S, S'.
    assert (x' = x) by congruence. assert (y' = y) by congruence. subst. destruct (kcmp a b); cbn in *; lia.
  - intros Hx. destruct (sb_cmp_kcmp a b) as [x' [E S]]; try assumption.
    destruct (sb_cmp_kcmp b a) as [y' [E' S']]; try assumption.
    rewrite (kcmp_antisym a b) in S'. apply Sg in S, S'.
    assert (x' = x) by congruence. assert (y' = y) by congruence. subst. destruct (kcmp a b); cbn in *; lia.
  - intros Hx. destruct (sb_cmp_kcmp a b) as [x' [E S]]; try assumption.
    destruct (sb_cmp_kcmp b a) as [y' [E' S']]; try assumption.
    rewrite (kcmp_antisym a b) in S'. apply Sg in S, S'.
    assert (x' = x) by congruence. assert (y' = y) by congruence. subst. destruct (kcmp a b); cbn in *; lia.
  - intros a b c x y z Ha Hb Hc Ex Ey Ez Hx Hy.
    destruct (sb_cmp_kcmp a b Ha Hb) as [x' [E1 S1]]. destruct (sb_cmp_kcmp b c Hb Hc) as [y' [E2 S2]].
    destruct (sb_cmp_kcmp a c Ha Hc) as [z' [E3 S3]].
    assert (x' = x) by congruence. assert (y' = y) by congruence. assert (z' = z) by congruence. subst.
    apply Sg in S1, S2, S3.
    assert (H1 : kle a b) by (unfold kle; intros Hg; rewrite Hg in S1; lia).
    assert (H2 : kle b c) by (unfold kle; intros Hg; rewrite Hg in S2; lia).
    pose proof (kle_trans _ _ _ H1 H2) as H3. unfold kle in H3. destruct (kcmp a c); lia || congruence.
  - intros p a b Ha Hb. destruct (sb_cmp_kcmp _ _ Ha Hb) as [x [E S]].
    unfold blen in *. rewrite app_length in Ha, Hb.
    destruct (sb_cmp_kcmp a b) as [y [E' S']]; [unfold blen; lia|unfold blen; lia|].
    exists x, y. split; [exact E|]. split; [exact E'|].
    rewrite Happ in S. apply Sg in S, S'. destruct (kcmp a b); lia.
  - intros p a Ha Hne. destruct (sb_cmp_kcmp p (p ++ a)) as [x [E S]]; [|assumption|].
    + unfold blen in *. rewrite app_length in Ha. lia.
    + exists x. split; [exact E|]. apply Sg in S.
      assert (Hk : kcmp p (p ++ a) = kcmp [] a) by (rewrite <- (app_nil_r p) at 1; apply Happ).
      rewrite Hk in S. destruct a; [congruence|]. exact S.
Qed.

(** For keys shorter than 2 GiB: the comparison is defined, is zero exactly for identical
    keys, is antisymmetric and transitive (hence a total order), ignores a common prefix,
    and sorts a key before each of its proper extensions. *)
Theorem C36_total_order :
  (forall a b, short_key a -> short_key b -> exists z, sb_cmp a b = Some z /\ (z = 0%Z <-> a = b)) /\
  (forall a b x y, short_key a -> short_key b -> sb_cmp a b = Some x -> sb_cmp b a = Some y ->
     ((x < 0)%Z <-> (0 < y)%Z) /\ ((0 < x)%Z <-> (y < 0)%Z)) /\
  (forall a b c x y z, short_key a -> short_key b -> short_key c ->
     sb_cmp a b = Some x -> sb_cmp b c = Some y -> sb_cmp a c = Some z ->
     (x <= 0)%Z -> (y <= 0)%Z -> (z <= 0)%Z) /\
  (forall p a b, short_key (p ++ a) -> short_key (p ++ b) ->
     exists x y, sb_cmp (p ++ a) (p ++ b) = Some x /\ sb_cmp a b = Some y /\ Z.sgn x = Z.sgn y) /\
  (forall p a, short_key (p ++ a) -> a <> [] -> exists x, sb_cmp p (p ++ a) = Some x /\ (x < 0)%Z).
Proof. exact C36_lemma. Qed.
Print Assumptions C36_total_order.

Lemma C36_lexicographic_lemma : forall p x y a b, short_key (p ++ x :: a) -> short_key (p ++ y :: b) ->
  x < y -> exists z, sb_cmp (p ++ x :: a) (p ++ y :: b) = Some z /\ (z < 0)%Z.
Proof.
  intros p x y a b Ha Hb Hxy. destruct (sb_cmp_kcmp _ _ Ha Hb) as [z [E S]]. exists z. split; [exact E|].
  assert (Hk : kcmp (p ++ x :: a) (p ++ y :: b) = Lt).
  { clear - Hxy. induction p as [|w p IH]; cbn [app kcmp].
    - now apply N.compare_lt_iff in Hxy as ->.
    - rewrite N.compare_refl. exact IH. }
  rewrite Hk in S. unfold zsign in S. now apply Z.compare_lt_iff in S.
Qed.

(** ... and it is the lexicographic order: the first differing byte decides. *)
Theorem C36_lexicographic : forall p x y a b, short_key (p ++ x :: a) -> short_key (p ++ y :: b) ->
  x < y -> exists z, sb_cmp (p ++ x :: a) (p ++ y :: b) = Some z /\ (z < 0)%Z.
Proof. exact C36_lexicographic_lemma. Qed.
Print Assumptions C36_lexicographic.

(** The relational operators of [SizedBuf] agree with each other and with the lexicographic
    order for keys of every size. *)
Theorem C36_operators : forall l r,
  (sb_lt l r = true <-> klt l r) /\ (sb_le l r = true <-> kle l r) /\ (sb_eq l r = true <-> l = r) /\
  (sb_gt l r = true <-> klt r l) /\ (sb_ge l r = true <-> kle r l).
Proof. exact sb_operators. Qed.
Print Assumptions C36_operators.

Lemma C36_huge_lemma : exists a b z y,
  a <> b /\ is_bytes a /\ is_bytes b /\ blen a < 2 ^ 32 /\ blen b < 2 ^ 32 /\
  sb_cmp a b = Some z /\ (z < 0)%Z /\ b = [] /\ sb_cmp (repeat 0 (N.to_nat (2 ^ 31))) [] = Some y /\ (y < 0)%Z /\
  sb_cmp [] (repeat 0 (N.to_nat (2 ^ 31))) = None.
Proof.
  set (n := N.to_nat (2 ^ 31 + 1)).
  assert (Hb : forall m, is_bytes (repeat 0 m)).
  { intros m. apply Forall_forall. intros x Hx. apply repeat_spec in Hx. subst. reflexivity. }
  assert (Hlen : forall m, blen (repeat 0 (N.to_nat m)) = m).
  { intros m. unfold blen. rewrite repeat_length. apply N2Nat.id. }
  assert (Hmem : forall l, memcmp (N.to_nat 0) l [] = 0%Z) by (intros []; reflexivity).
  assert (Hmem' : forall l, memcmp (N.to_nat 0) [] l = 0%Z) by reflexivity.
  exists (repeat 0 n), [], (- 2 ^ 31 + 1)%Z, (- 2 ^ 31)%Z.
  assert (E : forall m, 2 ^ 31 <= m -> m < 2 ^ 32 ->
    sb_cmp (repeat 0 (N.to_nat m)) [] = Some (Z.of_N m - 2 ^ 32)%Z).
  { intros m H1 H2. unfold sb_cmp. rewrite Hlen. change (blen []) with 0.
    assert (m =? 0 = false) by (apply N.eqb_neq; intros ->; vm_compute in H1; congruence). rewrite H.
    rewrite N.min_r by apply N.le_0_l. rewrite Hmem. cbn [Z.eqb].
    unfold to_int. rewrite (N.mod_small m) by assumption.
    apply N.ltb_ge in H1 as H1'. rewrite H1'. change (0 mod 2 ^ 32 <? 2 ^ 31) with true. cbn iota.
    unfold int_sub. cbv zeta. rewrite Z.sub_0_r.
    change (2 ^ 31) with 2147483648 in *. change (2 ^ 32) with 4294967296 in *.
    change (2 ^ 31)%Z with 2147483648%Z. change (2 ^ 32)%Z with 4294967296%Z.
    replace ((- (2147483648) <=? Z.of_N m - 4294967296)%Z && (Z.of_N m - 4294967296 <? 2147483648)%Z) with true by lia.
    reflexivity. }
  split. { intros H. apply (f_equal blen) in H. unfold n in H. rewrite Hlen in H. discriminate H. }
  split; [apply Hb|]. split; [constructor|].
  split. { unfold n. rewrite Hlen. reflexivity. }
  split; [reflexivity|].
  split. { unfold n. rewrite E by (vm_compute; congruence). reflexivity. }
  split; [reflexivity|]. split; [reflexivity|].
  split. { rewrite E by (vm_compute; congruence). reflexivity. }
  split; [reflexivity|].
  unfold sb_cmp. rewrite Hlen. reflexivity.
Qed.

(** Beyond that size (lengths still fit the 32-bit length field of the record format) the
    size difference no longer fits an int: a key of 2^31+1 zero bytes sorts *before* the empty
    key, and comparing the empty key with one of 2^31 bytes overflows (undefined behaviour). *)
Theorem C36_huge_keys_refuted : exists a b z y,
  a <> b /\ is_bytes a /\ is_bytes b /\ blen a < 2 ^ 32 /\ blen b < 2 ^ 32 /\
  sb_cmp a b = Some z /\ (z < 0)%Z /\ b = [] /\ sb_cmp (repeat 0 (N.to_nat (2 ^ 31))) [] = Some y /\ (y < 0)%Z /\
  sb_cmp [] (repeat 0 (N.to_nat (2 ^ 31))) = None.
Proof. exact C36_huge_lemma. Qed.
Print Assumptions C36_huge_keys_refuted.

Example ex_keys : sb_cmp [1;2] [1;2;0] = Some (-1)%Z /\ sb_cmp [2] [1;255;255] = Some 1%Z /\ sb_cmp [] [] = Some 0%Z
  /\ short_key [1;2;0].
Proof. repeat split; vm_compute; reflexivity. Qed.
