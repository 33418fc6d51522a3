From Verif Require Import Base EndianModel.
Local Open Scope N_scope.

Lemma mod256_land : forall x, x mod 256 = N.land x 255.
Proof. intros x. change 255 with (N.ones 8). now rewrite N.land_ones. Qed.

Lemma byte_bits : forall x y j k,
  (forall n, n < 8 -> N.testbit x (n + 8 * j) = N.testbit y (n + 8 * k)) ->
  (x / 256 ^ j) mod 256 = (y / 256 ^ k) mod 256.
Proof.
  intros x y j k H. apply N.bits_inj. intros n.
  rewrite !mod256_land. change 256 with (2 ^ 8). rewrite <- !N.pow_mul_r.
  rewrite <- !N.shiftr_div_pow2, !N.land_spec, !N.shiftr_spec by apply N.le_0_l.
  destruct (N.lt_ge_cases n 8) as [Hn|Hn].
  - now rewrite (H n Hn).
  - change 255 with (N.ones 8). rewrite N.ones_spec_high by assumption. now rewrite !andb_false_r.
Qed.

Ltac rev_bits :=
  intros n Hn;
  assert (Hc : n = 0 \/ n = 1 \/ n = 2 \/ n = 3 \/ n = 4 \/ n = 5 \/ n = 6 \/ n = 7) by lia;
  clear Hn;
  repeat (destruct Hc as [Hc|Hc]); subst n;
  repeat first
    [ rewrite N.lor_spec
    | rewrite N.shiftr_spec by apply N.le_0_l
    | rewrite N.land_spec
    | rewrite N.shiftl_spec_high by (vm_compute; congruence)
    | rewrite N.shiftl_spec_low by (vm_compute; congruence) ];
  repeat match goal with
  | |- context [N.testbit (Npos ?p) ?i] =>
      let b := eval vm_compute in (N.testbit (Npos p) i) in
      change (N.testbit (Npos p) i) with b
  end;
  rewrite ?andb_false_r, ?andb_true_r, ?orb_false_r, ?orb_false_l;
  f_equal; vm_compute; reflexivity.

Lemma rev64_byte : forall v j, j < 8 ->
  (reverse_order_64 v / 256 ^ j) mod 256 = (v / 256 ^ (7 - j)) mod 256.
Proof.
  intros v j Hj. apply byte_bits. unfold reverse_order_64.
  assert (Hc : j = 0 \/ j = 1 \/ j = 2 \/ j = 3 \/ j = 4 \/ j = 5 \/ j = 6 \/ j = 7) by lia.
  clear Hj. repeat (destruct Hc as [Hc|Hc]); subst j; rev_bits.
Qed.

Lemma rev32_byte : forall v j, j < 4 ->
  (reverse_order_32 v / 256 ^ j) mod 256 = (v / 256 ^ (3 - j)) mod 256.
Proof.
  intros v j Hj. apply byte_bits. unfold reverse_order_32.
  assert (Hc : j = 0 \/ j = 1 \/ j = 2 \/ j = 3) by lia.
  clear Hj. repeat (destruct Hc as [Hc|Hc]); subst j; rev_bits.
Qed.

Lemma rev16_byte : forall v j, j < 2 ->
  (reverse_order_16 v / 256 ^ j) mod 256 = (v / 256 ^ (1 - j)) mod 256.
Proof.
  intros v j Hj. apply byte_bits. unfold reverse_order_16.
  assert (Hc : j = 0 \/ j = 1) by lia.
  clear Hj. repeat (destruct Hc as [Hc|Hc]); subst j; rev_bits.
Qed.

Lemma le_bytes_map : forall w v,
  le_bytes w v = map (fun j => (v / 256 ^ N.of_nat j) mod 256) (seq 0 w).
Proof.
  induction w as [|w IH]; intros v; cbn [le_bytes seq map]; [reflexivity|].
  change (N.of_nat 0) with 0. rewrite N.pow_0_r, N.div_1_r. f_equal.
  rewrite IH. rewrite <- seq_shift, map_map. apply map_ext. intros j.
  rewrite N.div_div by (try discriminate; apply N.pow_nonzero; discriminate).
  now rewrite Nat2N.inj_succ, N.pow_succ_r'.
Qed.

Lemma store_64_be : forall v, store_64 v = u64 v.
Proof.
  intros v. unfold store_64. rewrite le_bytes_map. cbn [seq map].
  rewrite !rev64_byte by (vm_compute; reflexivity). reflexivity.
Qed.
Lemma store_32_be : forall v, store_32 v = u32 v.
Proof.
  intros v. unfold store_32. rewrite le_bytes_map. cbn [seq map].
  rewrite !rev32_byte by (vm_compute; reflexivity). reflexivity.
Qed.
Lemma store_16_be : forall v, store_16 v = put_be 2 v.
Proof.
  intros v. unfold store_16. rewrite le_bytes_map. cbn [seq map].
  rewrite !rev16_byte by (vm_compute; reflexivity). reflexivity.
Qed.

(** Loading: the value of [load_64] has the bytes of the argument in reverse, so it is [get_be]. *)
Lemma le_value_byte : forall l j, is_bytes l -> (j < length l)%nat ->
  (le_value l / 256 ^ N.of_nat j) mod 256 = nth j l 0.
Proof.
  induction l as [|b l IH]; intros j Hb Hj; cbn [length] in Hj; [lia|].
  inversion Hb as [|? ? Hb0 Hbl]; subst. unfold is_byte in Hb0. cbn [le_value nth].
  destruct j as [|j].
  - change (N.of_nat 0) with 0. rewrite N.pow_0_r, N.div_1_r.
    rewrite N.mul_comm, N.mod_add by discriminate. now apply N.mod_small.
  - rewrite Nat2N.inj_succ, N.pow_succ_r', <- N.div_div by (try discriminate; apply N.pow_nonzero; discriminate).
    replace ((b + 256 * le_value l) / 256) with (le_value l) by lia.
    apply IH; [assumption|lia].
Qed.

Lemma lor_lt_pow2 : forall k a b, a < 2 ^ k -> b < 2 ^ k -> N.lor a b < 2 ^ k.
Proof.
  intros k a b Ha Hb. destruct (N.eq_dec (N.lor a b) 0) as [Hz|Hz].
  - rewrite Hz. apply N.le_lt_trans with a; [apply N.le_0_l|assumption].
  - apply N.log2_lt_pow2; [lia|]. rewrite N.log2_lor.
    destruct (N.eq_dec a 0) as [->|Ha0], (N.eq_dec b 0) as [->|Hb0].
    + now rewrite N.lor_0_r in Hz.
    + rewrite N.max_r by apply N.le_0_l. apply N.log2_lt_pow2; lia.
    + rewrite N.max_l by apply N.le_0_l. apply N.log2_lt_pow2; lia.
    + apply N.max_lub_lt; apply N.log2_lt_pow2; lia.
Qed.

Lemma land_le_r : forall v m, N.land v m <= m.
Proof.
  intros v m. rewrite N.land_comm.
  assert (N.land m v + N.ldiff m v = m).
  { rewrite N.add_nocarry_lxor.
    - apply N.bits_inj. intros i. rewrite N.lxor_spec, N.land_spec, N.ldiff_spec.
      destruct (N.testbit m i), (N.testbit v i); reflexivity.
    - apply N.bits_inj. intros i. rewrite !N.land_spec, N.ldiff_spec, N.bits_0.
      destruct (N.testbit m i), (N.testbit v i); reflexivity. }
  lia.
Qed.

Ltac rev_lt :=
  repeat apply lor_lt_pow2;
  first [ rewrite N.shiftr_div_pow2; eapply N.le_lt_trans; [apply N.div_le_mono; [vm_compute; congruence|apply land_le_r]|vm_compute; reflexivity]
        | rewrite N.shiftl_mul_pow2; eapply N.le_lt_trans; [apply N.mul_le_mono_r; apply land_le_r|vm_compute; reflexivity] ].

Lemma reverse_order_64_lt : forall v, reverse_order_64 v < 2 ^ 64.
Proof. intros v. unfold reverse_order_64. rev_lt. Qed.
Lemma reverse_order_32_lt : forall v, reverse_order_32 v < 2 ^ 32.
Proof. intros v. unfold reverse_order_32. rev_lt. Qed.
Lemma reverse_order_16_lt : forall v, reverse_order_16 v < 2 ^ 16.
Proof. intros v. unfold reverse_order_16. rev_lt. Qed.

Lemma be_of_bytes : forall w v (l : list N), length l = w -> v < 256 ^ N.of_nat w -> is_bytes l ->
  (forall j, (j < w)%nat -> (v / 256 ^ N.of_nat j) mod 256 = nth (w - 1 - j) l 0) -> v = get_be l.
Proof.
  intros w v l Hl Hv Hb H. rewrite <- (get_put_be_small w v Hv). f_equal.
  subst w. clear Hv Hb. revert v H. induction l as [|b l IH]; intros v H; [reflexivity|].
  cbn [length put_be]. f_equal.
  - rewrite H by (cbn [length]; lia). cbn [length]. now replace (S (length l) - 1 - length l)%nat with 0%nat by lia.
  - apply IH. intros j Hj. rewrite H by (cbn [length]; lia).
    cbn [length]. replace (S (length l) - 1 - j)%nat with (S (length l - 1 - j)) by lia. reflexivity.
Qed.

Lemma load_64_be : forall l, length l = 8%nat -> is_bytes l -> load_64 l = get_be l.
Proof.
  intros l Hl Hb. apply (be_of_bytes 8); [assumption|apply reverse_order_64_lt|assumption|].
  intros j Hj. unfold load_64. rewrite rev64_byte by lia.
  replace (7 - N.of_nat j) with (N.of_nat (7 - j)) by lia.
  rewrite le_value_byte by (assumption || lia). f_equal.
Qed.

Lemma load_32_be : forall l, length l = 4%nat -> is_bytes l -> load_32 l = get_be l.
Proof.
  intros l Hl Hb. apply (be_of_bytes 4); [assumption|apply reverse_order_32_lt|assumption|].
  intros j Hj. unfold load_32. rewrite rev32_byte by lia.
  replace (3 - N.of_nat j) with (N.of_nat (3 - j)) by lia.
  rewrite le_value_byte by (assumption || lia). f_equal.
Qed.
Lemma load_16_be : forall l, length l = 2%nat -> is_bytes l -> load_16 l = get_be l.
Proof.
  intros l Hl Hb. apply (be_of_bytes 2); [assumption|apply reverse_order_16_lt|assumption|].
  intros j Hj. unfold load_16. rewrite rev16_byte by lia.
  replace (1 - N.of_nat j) with (N.of_nat (1 - j)) by lia.
  rewrite le_value_byte by (assumption || lia). f_equal.
Qed.

Lemma load_store_64 : forall v, v < 2 ^ 64 -> load_64 (store_64 v) = v.
Proof.
  intros v H. rewrite store_64_be, load_64_be by (apply u64_len || apply put_be_bytes). now apply u64_get.
Qed.
