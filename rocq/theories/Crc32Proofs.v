(** Proofs about the CRC model. *)
From Verif Require Import Base Crc32Table Crc32Model Crc32Spec.
From Coq Require Import ZifyBool ZifyNat ZifyN Btauto.
Local Open Scope N_scope.

Fixpoint iter {A} (n : nat) (f : A -> A) (x : A) : A :=
  match n with O => x | S n' => f (iter n' f x) end.

Lemma iter_succ_r : forall {A} n (f : A -> A) x, iter (S n) f x = iter n f (f x).
Proof. intros A n f x. induction n as [|n IH]; [reflexivity|]. cbn [iter] in *. now rewrite IH. Qed.

Lemma iter_add : forall {A} n m (f : A -> A) x, iter (n + m) f x = iter n f (iter m f x).
Proof. intros A n m f x. induction n as [|n IH]; [reflexivity|]. cbn [iter Nat.add] in *. now rewrite IH. Qed.

Lemma shift1_lxor : forall a b, shift1 (N.lxor a b) = N.lxor (shift1 a) (shift1 b).
Proof.
  intros a b. unfold shift1.
  rewrite <- !N.bit0_odd, N.lxor_spec, !N.div2_spec, N.shiftr_lxor.
  destruct (N.testbit a 0), (N.testbit b 0); cbn [xorb];
    apply N.bits_inj; intro k; rewrite ?N.lxor_spec;
    destruct (N.testbit (N.shiftr a 1) k), (N.testbit (N.shiftr b 1) k), (N.testbit crc_poly k);
    reflexivity.
Qed.

Lemma iter_shift1_lxor : forall n a b,
  iter n shift1 (N.lxor a b) = N.lxor (iter n shift1 a) (iter n shift1 b).
Proof.
  induction n as [|n IH]; intros a b; [reflexivity|].
  change (shift1 (iter n shift1 (N.lxor a b)) = N.lxor (shift1 (iter n shift1 a)) (shift1 (iter n shift1 b))).
  now rewrite IH, shift1_lxor.
Qed.

Lemma iter_shift1_0 : forall n, iter n shift1 0 = 0.
Proof. induction n as [|n IH]; [reflexivity|]. change (shift1 (iter n shift1 0) = 0). now rewrite IH. Qed.

Lemma shift1_double : forall x, shift1 (N.double x) = x.
Proof. intros [|p]; reflexivity. Qed.

Lemma iter_shift1_shiftl : forall n x, iter n shift1 (N.shiftl x (N.of_nat n)) = x.
Proof.
  induction n as [|n IH]; intros x.
  - cbn. apply N.shiftl_0_r.
  - rewrite iter_succ_r, Nat2N.inj_succ, N.shiftl_succ_r.
    replace (N.shiftl (N.double x) (N.of_nat n)) with (N.double (N.shiftl x (N.of_nat n)))
      by (rewrite !N.double_spec, !N.shiftl_mul_pow2; lia).
    rewrite shift1_double. apply IH.
Qed.

(** Value of a bit string, first bit least significant. *)
Fixpoint bval (bs : list bool) : N :=
  match bs with [] => 0 | b :: bs' => N.lxor (if b then 1 else 0) (N.double (bval bs')) end.

Lemma feed_bits : forall bs r,
  fold_left feed_bit bs r = iter (length bs) shift1 (N.lxor r (bval bs)).
Proof.
  induction bs as [|b bs IH]; intros r; cbn [fold_left length bval].
  - cbn. now rewrite N.lxor_0_r.
  - rewrite IH, iter_succ_r. f_equal. unfold feed_bit.
    rewrite <- N.lxor_assoc. rewrite (shift1_lxor (N.lxor r _)). now rewrite shift1_double.
Qed.

Lemma byte_bits_val : forall b, b < 256 -> bval (byte_bits b) = b.
Proof.
  intros b Hb. apply N.eqb_eq.
  apply (forallb_below (fun b => bval (byte_bits b) =? b) 256); [vm_compute; reflexivity|exact Hb].
Qed.

Lemma feed_byte : forall b r, b < 256 ->
  fold_left feed_bit (byte_bits b) r = iter 8 shift1 (N.lxor r b).
Proof. intros b r Hb. rewrite feed_bits, byte_bits_val by exact Hb. reflexivity. Qed.

Ltac tab := intros i Hi; apply N.eqb_eq; revert i Hi;
  match goal with |- forall i, _ -> (lut ?t i =? iter ?n shift1 i) = true =>
    apply (forallb_below (fun i => lut t i =? iter n shift1 i) 256); vm_compute; reflexivity end.

Lemma tab0 : forall i, i < 256 -> lut crc_lookup_0 i = iter 8 shift1 i.  Proof. tab. Qed.
Lemma tab1 : forall i, i < 256 -> lut crc_lookup_1 i = iter 16 shift1 i. Proof. tab. Qed.
Lemma tab2 : forall i, i < 256 -> lut crc_lookup_2 i = iter 24 shift1 i. Proof. tab. Qed.
Lemma tab3 : forall i, i < 256 -> lut crc_lookup_3 i = iter 32 shift1 i. Proof. tab. Qed.
Lemma tab4 : forall i, i < 256 -> lut crc_lookup_4 i = iter 40 shift1 i. Proof. tab. Qed.
Lemma tab5 : forall i, i < 256 -> lut crc_lookup_5 i = iter 48 shift1 i. Proof. tab. Qed.
Lemma tab6 : forall i, i < 256 -> lut crc_lookup_6 i = iter 56 shift1 i. Proof. tab. Qed.
Lemma tab7 : forall i, i < 256 -> lut crc_lookup_7 i = iter 64 shift1 i. Proof. tab. Qed.

Lemma land255 : forall x, N.land x 255 = x mod 256.
Proof. intros x. change 255 with (N.ones 8). now rewrite N.land_ones. Qed.

Lemma land255_lt : forall x, N.land x 255 < 256.
Proof. intros x. rewrite land255. apply N.mod_lt. discriminate. Qed.

Lemma testbit_high : forall x n k, x < 2 ^ n -> n <= k -> N.testbit x k = false.
Proof.
  intros x n k Hx Hk. destruct (N.eq_dec x 0) as [->|Hz]; [apply N.bits_0|].
  apply N.bits_above_log2.
  assert (N.log2 x < n) by (apply N.log2_lt_pow2; lia). lia.
Qed.

Lemma lt_pow2_bits : forall x n, (forall k, n <= k -> N.testbit x k = false) -> x < 2 ^ n.
Proof.
  intros x n H. destruct (N.eq_dec x 0) as [->|Hz].
  - assert (2 ^ n <> 0) by (apply N.pow_nonzero; discriminate). lia.
  - apply N.log2_lt_pow2; [lia|].
    destruct (N.lt_ge_cases (N.log2 x) n) as [Hlt|Hge]; [exact Hlt|].
    specialize (H (N.log2 x) Hge). rewrite N.bit_log2 in H by exact Hz. discriminate.
Qed.

Lemma lxor_lt : forall n a b, a < 2 ^ n -> b < 2 ^ n -> N.lxor a b < 2 ^ n.
Proof.
  intros n a b Ha Hb. apply lt_pow2_bits. intros k Hk.
  rewrite N.lxor_spec, !(testbit_high _ n) by assumption. reflexivity.
Qed.

(** Splitting off the low byte. *)
Lemma low_byte_split : forall x, x = N.lxor (N.shiftl (N.shiftr x 8) 8) (N.land x 255).
Proof.
  intros x. apply N.bits_inj. intro k.
  rewrite N.lxor_spec, N.land_spec.
  change 255 with (N.ones 8).
  destruct (N.lt_ge_cases k 8) as [Hk|Hk].
  - rewrite N.shiftl_spec_low by exact Hk.
    rewrite N.ones_spec_low by exact Hk. destruct (N.testbit x k); reflexivity.
  - rewrite N.shiftl_spec_high' by exact Hk.
    rewrite N.shiftr_spec', N.ones_spec_high by exact Hk.
    rewrite andb_false_r, xorb_false_r. f_equal. lia.
Qed.

Lemma iter8_shr : forall x, iter 8 shift1 x = N.lxor (N.shiftr x 8) (iter 8 shift1 (N.land x 255)).
Proof.
  intros x. rewrite (low_byte_split x) at 1. rewrite iter_shift1_lxor.
  change 8 with (N.of_nat 8) at 2. rewrite iter_shift1_shiftl. reflexivity.
Qed.

Lemma shiftr8_byte : forall b, b < 256 -> N.shiftr b 8 = 0.
Proof. intros b Hb. rewrite N.shiftr_div_pow2. apply N.div_small. exact Hb. Qed.

Lemma land255_byte : forall b, b < 256 -> N.land b 255 = b.
Proof. intros b Hb. rewrite land255. now apply N.mod_small. Qed.

Lemma land_lxor_l : forall a b c, N.land (N.lxor a b) c = N.lxor (N.land a c) (N.land b c).
Proof.
  intros a b c. apply N.bits_inj; intro k.
  rewrite ?N.land_spec, ?N.lxor_spec, ?N.land_spec.
  destruct (N.testbit a k), (N.testbit b k), (N.testbit c k); reflexivity.
Qed.

(** The index of every byte-step look-up is inside the table. *)
Lemma crc_lut_in_range : forall crc b, b < 256 -> N.lxor (N.land crc 255) b < 256.
Proof.
  intros crc b Hb. change 256 with (2 ^ 8). apply lxor_lt; [apply land255_lt|exact Hb].
Qed.

Lemma crc_byte_spec : forall crc b, b < 256 -> crc_byte crc b = iter 8 shift1 (N.lxor crc b).
Proof.
  intros crc b Hb. unfold crc_byte.
  rewrite tab0 by (apply crc_lut_in_range; exact Hb).
  rewrite (iter8_shr (N.lxor crc b)).
  rewrite N.shiftr_lxor, (shiftr8_byte b Hb), N.lxor_0_r.
  now rewrite land_lxor_l, (land255_byte b Hb).
Qed.

Lemma feed_bits_of : forall data r, is_bytes data ->
  fold_left feed_bit (bits_of data) r = fold_left crc_byte data r.
Proof.
  unfold bits_of.
  induction data as [|b data IH]; intros r H; [reflexivity|].
  inversion H as [|? ? Hb Hd]; subst.
  cbn [flat_map fold_left]. rewrite fold_left_app, feed_byte, <- crc_byte_spec by exact Hb.
  now apply IH.
Qed.

Theorem crc32_1_is_spec : forall data prev, is_bytes data ->
  crc32_1 data prev = crc32_spec data prev.
Proof.
  intros data prev H. unfold crc32_1, crc32_spec, not32. now rewrite feed_bits_of.
Qed.

Lemma crc_byte_lt : forall crc b, crc < 2 ^ 32 -> b < 256 -> crc_byte crc b < 2 ^ 32.
Proof.
  intros crc b Hc Hb. unfold crc_byte. apply lxor_lt.
  - rewrite N.shiftr_div_pow2. assert (crc / 2 ^ 8 <= crc) by (apply N.div_le_upper_bound; [discriminate|lia]). lia.
  - assert (E : forallb (fun i => lut crc_lookup_0 i <? 2 ^ 32) (map N.of_nat (seq 0 256)) = true)
      by (vm_compute; reflexivity).
    apply N.ltb_lt. apply (forallb_below _ 256 E). apply crc_lut_in_range. exact Hb.
Qed.

Lemma fold_crc_byte_lt : forall data crc, is_bytes data -> crc < 2 ^ 32 ->
  fold_left crc_byte data crc < 2 ^ 32.
Proof.
  induction data as [|b data IH]; intros crc H Hc; [exact Hc|].
  inversion H; subst. cbn [fold_left]. apply IH; [assumption|]. now apply crc_byte_lt.
Qed.

(** Bytes of a little-endian word xored with a 32-bit register. *)
Definition byte_at (x : N) (i : N) : N := N.land (N.shiftr x (8 * i)) 255.

Lemma le32_bytes : forall b0 b1 b2 b3, b0 < 256 -> b1 < 256 -> b2 < 256 -> b3 < 256 ->
  byte_at (le32 b0 b1 b2 b3) 0 = b0 /\ byte_at (le32 b0 b1 b2 b3) 1 = b1 /\
  byte_at (le32 b0 b1 b2 b3) 2 = b2 /\ byte_at (le32 b0 b1 b2 b3) 3 = b3.
Proof.
  intros b0 b1 b2 b3 H0 H1 H2 H3.
  assert (D : forall a c n, a < 2 ^ n -> N.lor a (N.shiftl c n) = a + c * 2 ^ n).
  { intros a c n Ha. rewrite N.lor_comm. rewrite <- N.shiftl_mul_pow2.
    rewrite N.add_comm. symmetry.
    rewrite N.add_nocarry_lxor.
    - rewrite N.lxor_lor; [reflexivity|]. apply N.bits_inj; intro k.
      rewrite N.land_spec, N.bits_0. destruct (N.lt_ge_cases k n).
      + rewrite N.shiftl_spec_low by assumption. reflexivity.
      + rewrite (testbit_high a n) by assumption. apply andb_false_r.
    - apply N.bits_inj; intro k.
      rewrite N.land_spec, N.bits_0. destruct (N.lt_ge_cases k n).
      + rewrite N.shiftl_spec_low by assumption. reflexivity.
      + rewrite (testbit_high a n) by assumption. apply andb_false_r. }
  assert (E : le32 b0 b1 b2 b3 = b0 + 256 * (b1 + 256 * (b2 + 256 * b3))).
  { unfold le32.
    replace (N.lor (N.shiftl b2 16) (N.shiftl b3 24)) with (N.shiftl (N.lor b2 (N.shiftl b3 8)) 16)
      by (rewrite N.shiftl_lor, N.shiftl_shiftl; reflexivity).
    replace (N.lor (N.shiftl b1 8) (N.shiftl (N.lor b2 (N.shiftl b3 8)) 16))
      with (N.shiftl (N.lor b1 (N.shiftl (N.lor b2 (N.shiftl b3 8)) 8)) 8)
      by (rewrite (N.shiftl_lor b1), N.shiftl_shiftl; reflexivity).
    rewrite !D by (change (2 ^ 8) with 256; lia). change (2 ^ 8) with 256. lia. }
  unfold byte_at. rewrite E, !land255, !N.shiftr_div_pow2.
  change (2 ^ (8 * 0)) with 1. change (2 ^ (8 * 1)) with 256.
  change (2 ^ (8 * 2)) with 65536. change (2 ^ (8 * 3)) with 16777216.
  repeat split; lia.
Qed.

Lemma byte_at_lt : forall x i, byte_at x i < 256.
Proof. intros; apply land255_lt. Qed.

Lemma byte_at_lxor : forall a b i, byte_at (N.lxor a b) i = N.lxor (byte_at a i) (byte_at b i).
Proof. intros a b i. unfold byte_at. now rewrite N.shiftr_lxor, land_lxor_l. Qed.

Lemma iter_of_bytes4 : forall n x, x < 2 ^ 32 ->
  iter (24 + n) shift1 x =
    N.lxor (iter (24 + n) shift1 (byte_at x 0))
   (N.lxor (iter (16 + n) shift1 (byte_at x 1))
   (N.lxor (iter (8 + n) shift1 (byte_at x 2))
           (iter n shift1 (byte_at x 3)))).
Proof.
  intros n x Hx.
  assert (S8 : forall m y, iter (8 + m) shift1 y = N.lxor (iter (8 + m) shift1 (N.land y 255)) (iter m shift1 (N.shiftr y 8))).
  { intros m y. rewrite (Nat.add_comm 8 m), !iter_add. rewrite (iter8_shr y), iter_shift1_lxor.
    apply N.lxor_comm. }
  unfold byte_at. change (8 * 0) with 0. change (8 * 1) with 8. change (8 * 2) with 16. change (8*3) with 24.
  rewrite N.shiftr_0_r.
  change (24 + n)%nat with (8 + (16 + n))%nat at 1. rewrite S8.
  f_equal. change (16 + n)%nat with (8 + (8 + n))%nat at 1. rewrite S8.
  f_equal. rewrite S8. rewrite !N.shiftr_shiftr. change (8 + 8) with 16. change (8 + 16) with 24.
  replace (8 + 8 + 8) with 24 by reflexivity.
  f_equal. f_equal. rewrite ?N.shiftr_shiftr.
  rewrite land255. symmetry. apply N.mod_small.
  rewrite N.shiftr_div_pow2. change (2 ^ 24) with 16777216.
  apply N.div_lt_upper_bound; [discriminate|]. exact Hx.
Qed.

Lemma lut_lt : forall t, forallb (fun i => lut t i <? 2 ^ 32) (map N.of_nat (seq 0 256)) = true ->
  forall i, i < 256 -> lut t i < 2 ^ 32.
Proof. intros t E i Hi. apply N.ltb_lt. exact (forallb_below _ 256 E i Hi). Qed.

Lemma crc_slice_spec : forall crc b0 b1 b2 b3 b4 b5 b6 b7,
  crc < 2 ^ 32 -> is_bytes [b0; b1; b2; b3; b4; b5; b6; b7] ->
  crc_slice crc (le32 b0 b1 b2 b3) (le32 b4 b5 b6 b7) =
  fold_left crc_byte [b0; b1; b2; b3; b4; b5; b6; b7] crc.
Proof.
  intros crc b0 b1 b2 b3 b4 b5 b6 b7 Hc HB.
  repeat match goal with H : is_bytes (_ :: _) |- _ => inversion H; clear H; subst
                       | H : Forall _ (_ :: _) |- _ => inversion H; clear H; subst end.
  unfold is_byte in *.
  cbn [fold_left]. rewrite !crc_byte_spec by assumption.
  unfold crc_slice.
  change (N.land (N.lxor (le32 b0 b1 b2 b3) crc) 255) with (byte_at (N.lxor (le32 b0 b1 b2 b3) crc) 0).
  change (N.land (N.shiftr (N.lxor (le32 b0 b1 b2 b3) crc) 8) 255) with (byte_at (N.lxor (le32 b0 b1 b2 b3) crc) 1).
  change (N.land (N.shiftr (N.lxor (le32 b0 b1 b2 b3) crc) 16) 255) with (byte_at (N.lxor (le32 b0 b1 b2 b3) crc) 2).
  change (N.land (N.shiftr (N.lxor (le32 b0 b1 b2 b3) crc) 24) 255) with (byte_at (N.lxor (le32 b0 b1 b2 b3) crc) 3).
  change (N.land (le32 b4 b5 b6 b7) 255) with (byte_at (le32 b4 b5 b6 b7) 0).
  change (N.land (N.shiftr (le32 b4 b5 b6 b7) 8) 255) with (byte_at (le32 b4 b5 b6 b7) 1).
  change (N.land (N.shiftr (le32 b4 b5 b6 b7) 16) 255) with (byte_at (le32 b4 b5 b6 b7) 2).
  change (N.land (N.shiftr (le32 b4 b5 b6 b7) 24) 255) with (byte_at (le32 b4 b5 b6 b7) 3).
  rewrite tab0, tab1, tab2, tab3, tab4, tab5, tab6, tab7 by apply byte_at_lt.
  rewrite !byte_at_lxor.
  destruct (le32_bytes b0 b1 b2 b3) as (A0 & A1 & A2 & A3); try assumption.
  destruct (le32_bytes b4 b5 b6 b7) as (A4 & A5 & A6 & A7); try assumption.
  rewrite A0, A1, A2, A3, A4, A5, A6, A7.
  rewrite !iter_shift1_lxor, <- !iter_add.
  cbn [Nat.add].
  pose proof (iter_of_bytes4 40 crc Hc) as E4. cbn [Nat.add] in E4. rewrite E4. clear E4.
  generalize (iter 64 shift1 b0) (iter 56 shift1 b1) (iter 48 shift1 b2) (iter 40 shift1 b3)
    (iter 32 shift1 b4) (iter 24 shift1 b5) (iter 16 shift1 b6) (iter 8 shift1 b7)
    (iter 64 shift1 (byte_at crc 0)) (iter 56 shift1 (byte_at crc 1))
    (iter 48 shift1 (byte_at crc 2)) (iter 40 shift1 (byte_at crc 3)).
  intros. apply N.bits_inj; intro k; rewrite !N.lxor_spec.
  btauto.
Qed.

Lemma crc_loop8_spec : forall data crc, is_bytes data -> crc < 2 ^ 32 ->
  crc_loop8 data crc = fold_left crc_byte data crc.
Proof.
  intros data. remember (length data) as n eqn:Hn. revert data Hn.
  induction n as [n IH] using lt_wf_ind; intros data Hn crc HB Hc.
  destruct data as [|b0 [|b1 [|b2 [|b3 [|b4 [|b5 [|b6 [|b7 rest]]]]]]]]; try reflexivity.
  change (b0 :: b1 :: b2 :: b3 :: b4 :: b5 :: b6 :: b7 :: rest)
    with ([b0; b1; b2; b3; b4; b5; b6; b7] ++ rest) in HB.
  apply is_bytes_app in HB. destruct HB as [H8 Hr].
  cbn [crc_loop8]. rewrite crc_slice_spec by assumption.
  rewrite (IH (length rest)).
  - reflexivity.
  - subst n; cbn [length]; lia.
  - reflexivity.
  - exact Hr.
  - apply fold_crc_byte_lt; assumption.
Qed.

Lemma not32_lt : forall x, x < 2 ^ 32 -> not32 x < 2 ^ 32.
Proof. intros x H. unfold not32. apply lxor_lt; [exact H|reflexivity]. Qed.

Lemma not32_invol : forall x, not32 (not32 x) = x.
Proof. intros x. unfold not32. rewrite N.lxor_assoc, N.lxor_nilpotent. apply N.lxor_0_r. Qed.

Theorem crc32_8_is_crc32_1 : forall data prev, is_bytes data -> prev < 2 ^ 32 ->
  crc32_8 data prev = crc32_1 data prev.
Proof.
  intros data prev HB Hp. unfold crc32_8, crc32_1.
  rewrite crc_loop8_spec; [reflexivity|exact HB|apply not32_lt, Hp].
Qed.

Theorem crc32_8_is_spec : forall data prev, is_bytes data -> prev < 2 ^ 32 ->
  crc32_8 data prev = crc32_spec data prev.
Proof. intros. rewrite crc32_8_is_crc32_1 by assumption. now apply crc32_1_is_spec. Qed.

Lemma crc32_8_lt : forall data prev, is_bytes data -> prev < 2 ^ 32 -> crc32_8 data prev < 2 ^ 32.
Proof.
  intros data prev HB Hp. unfold crc32_8. apply not32_lt.
  rewrite crc_loop8_spec by (exact HB || apply not32_lt, Hp).
  apply fold_crc_byte_lt; [exact HB|apply not32_lt, Hp].
Qed.

Theorem crc32_8_chain : forall a b prev, is_bytes a -> is_bytes b -> prev < 2 ^ 32 ->
  crc32_8 b (crc32_8 a prev) = crc32_8 (a ++ b) prev.
Proof.
  intros a b prev Ha Hb Hp.
  rewrite (crc32_8_is_crc32_1 b) by (assumption || now apply crc32_8_lt).
  rewrite (crc32_8_is_crc32_1 a) by assumption.
  rewrite crc32_8_is_crc32_1 by (assumption || now apply is_bytes_app).
  unfold crc32_1. rewrite not32_invol, fold_left_app. reflexivity.
Qed.

Lemma crc32_8_nil : forall prev, crc32_8 [] prev = prev.
Proof. intros prev. unfold crc32_8. cbn. apply not32_invol. Qed.

(** *** Burst errors *)

Lemma shift1_inj0 : forall r, r < 2 ^ 32 -> shift1 r = 0 -> r = 0.
Proof.
  intros r Hr H. unfold shift1 in H. destruct (N.odd r) eqn:O.
  - (* the polynomial's top bit cannot be cancelled by a 31-bit value *)
    exfalso. apply N.lxor_eq in H.
    assert (N.div2 r < 2 ^ 31).
    { rewrite N.div2_div. apply N.div_lt_upper_bound; [discriminate|]. exact Hr. }
    rewrite H in H0. vm_compute in H0. discriminate.
  - rewrite N.div2_div in H. apply N.div_small_iff in H; [|discriminate].
    assert (r = 0 \/ r = 1) as [->| ->] by lia; [reflexivity|discriminate].
Qed.

Lemma shift1_lt : forall r, r < 2 ^ 32 -> shift1 r < 2 ^ 32.
Proof.
  intros r Hr. unfold shift1.
  assert (N.div2 r < 2 ^ 32).
  { rewrite N.div2_div. apply N.div_lt_upper_bound; [discriminate|]. lia. }
  destruct (N.odd r); [apply lxor_lt; [assumption|reflexivity]|assumption].
Qed.

Lemma iter_shift1_lt : forall n r, r < 2 ^ 32 -> iter n shift1 r < 2 ^ 32.
Proof.
  induction n as [|n IH]; intros r Hr; [exact Hr|].
  change (shift1 (iter n shift1 r) < 2 ^ 32). apply shift1_lt, IH, Hr.
Qed.

Lemma iter_shift1_inj0 : forall n r, r < 2 ^ 32 -> iter n shift1 r = 0 -> r = 0.
Proof.
  induction n as [|n IH]; intros r Hr H; [exact H|].
  change (shift1 (iter n shift1 r) = 0) in H.
  apply IH; [exact Hr|]. apply shift1_inj0; [|exact H]. now apply iter_shift1_lt.
Qed.

Lemma lxor_double : forall (b : bool) x, N.lxor (if b then 1 else 0) (N.double x) = (if b then 1 else 0) + 2 * x.
Proof. intros [] [|p]; reflexivity. Qed.

Lemma bval_lt : forall bs, bval bs < 2 ^ N.of_nat (length bs).
Proof.
  induction bs as [|b bs IH]; cbn [bval length]; [reflexivity|].
  rewrite lxor_double, Nat2N.inj_succ, N.pow_succ_r'. destruct b; lia.
Qed.

Lemma bval_zero : forall bs, bval bs = 0 -> bs = repeat false (length bs).
Proof.
  induction bs as [|b bs IH]; intros H; [reflexivity|].
  cbn [bval] in H. rewrite lxor_double in H.
  destruct b; [exfalso; lia|]. cbn [length repeat]. f_equal. apply IH. lia.
Qed.

Lemma bval_repeat_false : forall n, bval (repeat false n) = 0.
Proof. induction n as [|n IH]; [reflexivity|]. cbn [repeat bval]. now rewrite IH. Qed.

(** Xor of two bit strings of the same length. *)
Lemma bval_bxor : forall a b, length a = length b -> bval (bxor a b) = N.lxor (bval a) (bval b).
Proof.
  induction a as [|x a IH]; intros [|y b] H; try discriminate; [reflexivity|].
  cbn [bxor bval]. injection H as H. rewrite (IH b H).
  assert (E : N.double (N.lxor (bval a) (bval b)) = N.lxor (N.double (bval a)) (N.double (bval b))).
  { assert (D : forall x, N.double x = N.shiftl x 1) by (intros [|p]; reflexivity).
    rewrite !D. apply N.shiftl_lxor. }
  rewrite E. generalize (N.double (bval a)) (N.double (bval b)). intros p q.
  apply N.bits_inj; intro k; rewrite !N.lxor_spec.
  destruct x, y; cbn [xorb]; rewrite ?N.bits_0;
    destruct (N.testbit p k), (N.testbit q k), (N.testbit 1 k); reflexivity.
Qed.

Lemma bxor_length : forall a b, length a = length b -> length (bxor a b) = length a.
Proof.
  induction a as [|x a IH]; intros [|y b] H; try discriminate; [reflexivity|].
  cbn [bxor length]. f_equal. apply IH. now injection H.
Qed.

(** Same-length messages: the registers differ by the image of the difference. *)
Lemma feed_diff : forall a b r, length a = length b ->
  N.lxor (fold_left feed_bit a r) (fold_left feed_bit b r) = fold_left feed_bit (bxor a b) 0.
Proof.
  intros a b r H. rewrite !feed_bits, bxor_length by exact H.
  rewrite <- H, <- iter_shift1_lxor. f_equal.
  rewrite bval_bxor by exact H. rewrite N.lxor_0_l.
  apply N.bits_inj; intro k; rewrite !N.lxor_spec.
  destruct (N.testbit r k), (N.testbit (bval a) k), (N.testbit (bval b) k); reflexivity.
Qed.

Lemma feed_zero : forall n, fold_left feed_bit (repeat false n) 0 = 0.
Proof. intros n. rewrite feed_bits, bval_repeat_false. apply iter_shift1_0. Qed.

(** A non-zero difference confined to 32 consecutive bits changes the register. *)
Lemma burst_nonzero : forall i e j, (length e <= 32)%nat -> e <> repeat false (length e) ->
  fold_left feed_bit (repeat false i ++ e ++ repeat false j) 0 <> 0.
Proof.
  intros i e j Hlen Hne H. rewrite !fold_left_app, feed_zero in H.
  rewrite (feed_bits e 0), N.lxor_0_l in H.
  rewrite feed_bits, bval_repeat_false, N.lxor_0_r, <- iter_add in H.
  apply Hne, bval_zero. apply iter_shift1_inj0 in H; [exact H|].
  eapply N.lt_le_trans; [apply bval_lt|]. apply N.pow_le_mono_r; [discriminate|lia].
Qed.

Theorem crc32_burst : forall a b prev i e j,
  is_bytes a -> is_bytes b -> prev < 2 ^ 32 ->
  bits_of b = bxor (bits_of a) (repeat false i ++ e ++ repeat false j) ->
  length (bits_of a) = (i + length e + j)%nat ->
  (length e <= 32)%nat -> e <> repeat false (length e) ->
  crc32_8 b prev <> crc32_8 a prev.
Proof.
  intros a b prev i e j Ha Hb Hp Hd Hl He Hne H.
  rewrite !crc32_8_is_spec in H by assumption.
  unfold crc32_spec in H.
  assert (Heq : fold_left feed_bit (bits_of b) (N.lxor prev 4294967295)
              = fold_left feed_bit (bits_of a) (N.lxor prev 4294967295)).
  { apply (f_equal (fun x => N.lxor x 4294967295)) in H.
    now rewrite !N.lxor_assoc, N.lxor_nilpotent, !N.lxor_0_r in H. }
  clear H. set (d := repeat false i ++ e ++ repeat false j) in *.
  assert (Hdl : length (bits_of a) = length d).
  { unfold d. rewrite !app_length, !repeat_length. lia. }
  assert (HH : N.lxor (fold_left feed_bit (bits_of b) (N.lxor prev 4294967295))
                      (fold_left feed_bit (bits_of a) (N.lxor prev 4294967295)) = 0)
    by (rewrite Heq; apply N.lxor_nilpotent).
  rewrite feed_diff in HH.
  - rewrite Hd in HH.
    assert (E : bxor (bxor (bits_of a) d) (bits_of a) = d).
    { clear -Hdl. clearbody d. revert d Hdl. induction (bits_of a) as [|x l IH]; intros [|y d] H; try discriminate; [reflexivity|].
      cbn [bxor]. f_equal; [destruct x, y; reflexivity|]. apply IH. now injection H. }
    rewrite E in HH. revert HH. apply burst_nonzero; assumption.
  - rewrite Hd. now apply bxor_length.
Qed.

Lemma crc32_burst32 : forall a b prev,
  is_bytes a -> is_bytes b -> prev < 2 ^ 32 -> burst32 a b ->
  crc32_8 b prev <> crc32_8 a prev.
Proof. intros a b prev Ha Hb Hp (i & e & j & H1 & H2 & H3 & H4). now apply (crc32_burst a b prev i e j). Qed.

Lemma bits_of_length : forall l, length (bits_of l) = (8 * length l)%nat.
Proof.
  unfold bits_of. induction l as [|b l IH]; [reflexivity|]. cbn [flat_map length].
  rewrite app_length, IH. cbn. lia.
Qed.

Lemma burst32_length : forall a b, burst32 a b -> length b = length a.
Proof.
  intros a b (i & e & j & H1 & H2 & _). apply (f_equal (@length bool)) in H1.
  rewrite bxor_length in H1.
  - rewrite !bits_of_length in H1. lia.
  - rewrite H2, !app_length, !repeat_length. lia.
Qed.
