From Verif Require Import Base FileModel FileProofs BloomModel.
Local Open Scope N_scope.

(** * Bit array laws *)
Lemma upd_length : forall l i v, (i < length l)%nat -> length (upd l i v) = length l.
Proof. intros l i v H. unfold upd. rewrite app_length, firstn_length. cbn [length]. rewrite skipn_length. lia. Qed.
Lemma upd_nth_same : forall l i v d, (i < length l)%nat -> nth i (upd l i v) d = v.
Proof.
  intros l i v d H. unfold upd. rewrite app_nth2; rewrite firstn_length; [|lia].
  replace (i - Nat.min i (length l))%nat with 0%nat by lia. reflexivity.
Qed.
Lemma upd_nth_other : forall l i j v d, (i < length l)%nat -> i <> j -> nth j (upd l i v) d = nth j l d.
Proof.
  intros l i j v d H Hne. unfold upd.
  destruct (Nat.lt_ge_cases j i) as [Hj|Hj].
  - rewrite app_nth1 by (rewrite firstn_length; lia).
    rewrite <- (firstn_skipn i l) at 2. rewrite app_nth1 by (rewrite firstn_length; lia). reflexivity.
  - rewrite app_nth2 by (rewrite firstn_length; lia). rewrite firstn_length.
    replace (j - Nat.min i (length l))%nat with (S (j - S i)) by lia. cbn [nth].
    rewrite <- (firstn_skipn (S i) l) at 2. rewrite app_nth2 by (rewrite firstn_length; lia).
    rewrite firstn_length. f_equal. lia.
Qed.

Definition wf_bm (b : bitmap) : Prop := bm_bits b <= 8 * blen (bm_bytes b) /\ is_bytes (bm_bytes b).

Lemma idx_split : forall i, i = 8 * N.shiftr i 3 + N.land i 7.
Proof.
  intros i. rewrite N.shiftr_div_pow2. change 7 with (N.ones 3). rewrite N.land_ones. change (2 ^ 3) with 8. lia.
Qed.
Lemma land7_lt : forall i, N.land i 7 < 8.
Proof. intros i. change 7 with (N.ones 3). rewrite N.land_ones. apply N.mod_lt. discriminate. Qed.

Lemma idx_in : forall b i, wf_bm b -> i < bm_bits b -> (N.shiftr i 3 <? blen (bm_bytes b)) = true.
Proof.
  intros b i [Hw _] Hi. apply N.ltb_lt. pose proof (idx_split i). lia.
Qed.

Ltac cases8 o H :=
  assert (Hcases : o = 0 \/ o = 1 \/ o = 2 \/ o = 3 \/ o = 4 \/ o = 5 \/ o = 6 \/ o = 7) by lia;
  clear H; repeat (destruct Hcases as [Hcases|Hcases]); subst o.

Definition bit_of (v off : N) : bool := negb (N.land v (mask8 off) =? 0).

Definition offs8 : list N := [0;1;2;3;4;5;6;7].
Definition calc_table_check : bool :=
  forallb (fun p => forallb (fun o => forallb (fun o' =>
    forallb (fun v =>
      Bool.eqb (bit_of (calc_table p o v) o') (if o' =? o then v else bit_of p o') && (calc_table p o v <? 256))
    [true; false]) offs8) offs8) (map N.of_nat (seq 0 256)).
Lemma calc_table_check_ok : calc_table_check = true.
Proof. vm_compute. reflexivity. Qed.

Lemma in_offs8 : forall o, o < 8 -> In o offs8.
Proof. intros o H. cases8 o H; unfold offs8; cbn; tauto. Qed.

Lemma calc_table_spec : forall p o o' v, p < 256 -> o < 8 -> o' < 8 ->
  bit_of (calc_table p o v) o' = (if o' =? o then v else bit_of p o') /\ calc_table p o v < 256.
Proof.
  intros p o o' v Hp Ho Ho'. pose proof calc_table_check_ok as H. unfold calc_table_check in H.
  pose proof (forallb_below _ 256 H p Hp) as H1. cbv beta in H1.
  rewrite forallb_forall in H1. specialize (H1 o (in_offs8 o Ho)). cbv beta in H1.
  rewrite forallb_forall in H1. specialize (H1 o' (in_offs8 o' Ho')). cbv beta in H1.
  rewrite forallb_forall in H1. specialize (H1 v ltac:(destruct v; cbn; tauto)).
  apply andb_prop in H1 as [H1 H2]. apply Bool.eqb_prop in H1. apply N.ltb_lt in H2. split; assumption.
Qed.

Lemma bytes_nth : forall l i, is_bytes l -> (i < length l)%nat -> nth i l 0 < 256.
Proof. intros l i H Hi. unfold is_bytes in H. rewrite Forall_forall in H. apply H. now apply nth_In. Qed.

Lemma is_bytes_upd : forall l i v, is_bytes l -> v < 256 -> is_bytes (upd l i v).
Proof.
  intros l i v H Hv. unfold upd. apply is_bytes_app. split.
  - rewrite <- (firstn_skipn i l) in H. now apply is_bytes_app in H.
  - constructor; [exact Hv|]. rewrite <- (firstn_skipn (S i) l) in H. now apply is_bytes_app in H.
Qed.

(** The bit array is an array: a set defines one bit and leaves all others. *)
Lemma bm_set_spec : forall b i v, wf_bm b -> i < bm_bits b ->
  exists b', bm_set b i v = Some b' /\ wf_bm b' /\ bm_bits b' = bm_bits b /\
    length (bm_bytes b') = length (bm_bytes b) /\
    forall j, j < bm_bits b -> bm_get b' j = (if j =? i then Some v else bm_get b j).
Proof.
  intros b i v Hw Hi. unfold bm_set. rewrite (idx_in b i Hw Hi).
  pose proof (idx_in b i Hw Hi) as Hin. apply N.ltb_lt in Hin. unfold blen in Hin.
  assert (Hlt : (N.to_nat (N.shiftr i 3) < length (bm_bytes b))%nat) by lia.
  destruct Hw as [Hw1 Hw2].
  assert (Hp : nth (N.to_nat (N.shiftr i 3)) (bm_bytes b) 0 < 256) by (apply bytes_nth; assumption).
  eexists. split; [reflexivity|]. split; [split|split; [|split]]; cbn [bm_bits bm_bytes].
  - unfold blen. rewrite upd_length by assumption. exact Hw1.
  - apply is_bytes_upd; [assumption|]. apply (calc_table_spec _ _ 0); [assumption|apply land7_lt|reflexivity].
  - reflexivity.
  - now apply upd_length.
  - intros j Hj. unfold bm_get. cbn [bm_bytes]. unfold blen. rewrite upd_length by assumption.
    pose proof (idx_in b j (conj Hw1 Hw2) Hj) as Hjn. unfold blen in Hjn. rewrite Hjn.
    destruct (N.eq_dec (N.shiftr j 3) (N.shiftr i 3)) as [He|Hne].
    + rewrite He, upd_nth_same by assumption.
      fold (bit_of (calc_table (nth (N.to_nat (N.shiftr i 3)) (bm_bytes b) 0) (N.land i 7) v) (N.land j 7)).
      destruct (calc_table_spec (nth (N.to_nat (N.shiftr i 3)) (bm_bytes b) 0) (N.land i 7) (N.land j 7) v Hp
                  (land7_lt i) (land7_lt j)) as [Hb _].
      rewrite Hb. destruct (N.eqb_spec (N.land j 7) (N.land i 7)) as [Heo|Hno].
      * assert (j = i) by (rewrite (idx_split j), (idx_split i); congruence). subst. now rewrite N.eqb_refl.
      * assert (Hji : j <> i) by congruence. apply N.eqb_neq in Hji. now rewrite Hji.
    + rewrite upd_nth_other by (try assumption; intros H; apply Hne; lia).
      assert (Hji : j <> i) by congruence. apply N.eqb_neq in Hji. now rewrite Hji.
Qed.

Lemma bm_get_some : forall b i, wf_bm b -> i < bm_bits b -> exists v, bm_get b i = Some v.
Proof. intros b i Hw Hi. unfold bm_get. rewrite (idx_in b i Hw Hi). eexists; reflexivity. Qed.

Lemma bm_create_wf : forall n, wf_bm (bm_create n).
Proof.
  intros n. split; cbn [bm_create bm_bits bm_bytes].
  - unfold blen. rewrite repeat_length, N2Nat.id. lia.
  - apply Forall_forall. intros x Hx. apply repeat_spec in Hx. subst. reflexivity.
Qed.
Lemma bm_create_zero : forall n i, i < n -> bm_get (bm_create n) i = Some false.
Proof.
  intros n i Hi. unfold bm_get. rewrite (idx_in (bm_create n) i (bm_create_wf n) Hi).
  cbn [bm_create bm_bytes]. rewrite nth_repeat. reflexivity.
Qed.

(** * Bloom filter *)
Definition wf_bl (b : bloom) : Prop := wf_bm (bl_map b) /\ 0 < bm_bits (bl_map b).

(** [b'] has at least the bits of [b]. *)
Definition grown (b b' : bloom) : Prop :=
  bl_count b' = bl_count b /\ bm_bits (bl_map b') = bm_bits (bl_map b) /\
  length (bm_bytes (bl_map b')) = length (bm_bytes (bl_map b)) /\
  forall j, j < bm_bits (bl_map b) -> bm_get (bl_map b) j = Some true -> bm_get (bl_map b') j = Some true.

Lemma grown_refl : forall b, grown b b.
Proof. intros b; repeat split; auto. Qed.
Lemma grown_trans : forall a b c, grown a b -> grown b c -> grown a c.
Proof.
  intros a b c (H1 & H2 & H3 & H4) (G1 & G2 & G3 & G4).
  split; [congruence|]. split; [congruence|]. split; [congruence|].
  intros j Hj Hg. apply G4; [congruence|]. auto.
Qed.

Lemma bl_set_loop_spec : forall n ii hp b, wf_bl b ->
  exists b', bl_set_loop n ii hp b = Some b' /\ wf_bl b' /\ grown b b' /\
    (forall k, ii <= k -> k < ii + N.of_nat n ->
       bm_get (bl_map b') (gen_hash k hp mod bm_bits (bl_map b)) = Some true).
Proof.
  induction n as [|n IH]; intros ii hp b Hw.
  - exists b. split; [reflexivity|]. split; [assumption|]. split; [apply grown_refl|]. intros; lia.
  - destruct Hw as [Hw Hpos]. cbn [bl_set_loop]. unfold bl_index.
    assert (Hz : bm_bits (bl_map b) =? 0 = false) by (apply N.eqb_neq; lia). rewrite Hz.
    assert (Hlt : gen_hash ii hp mod bm_bits (bl_map b) < bm_bits (bl_map b)) by (apply N.mod_lt; lia).
    destruct (bm_set_spec (bl_map b) _ true Hw Hlt) as [m [Em [Wm [Bm [Lm Gm]]]]]. rewrite Em.
    set (b1 := {| bl_count := bl_count b; bl_map := m |}).
    assert (Hw1 : wf_bl b1) by (split; cbn [b1 bl_map]; [assumption|rewrite Bm; assumption]).
    assert (Hg1 : grown b b1).
    { split; [reflexivity|]. split; [exact Bm|]. split; [exact Lm|]. cbn [b1 bl_map].
      intros j Hj Hb. rewrite Gm by assumption. destruct (j =? _); auto. }
    destruct (IH (ii + 1) hp b1 Hw1) as [b' [E [W' [G' S']]]].
    exists b'. split; [exact E|]. split; [exact W'|]. split; [eapply grown_trans; eauto|].
    intros k Hk1 Hk2. destruct (N.eq_dec k ii) as [->|Hne].
    + destruct G' as (_ & HB & _ & Hmono). apply Hmono; cbn [b1 bl_map].
      * rewrite Bm; assumption.
      * rewrite Gm by assumption. now rewrite N.eqb_refl.
    + specialize (S' k ltac:(lia) ltac:(lia)). cbn [b1 bl_map] in S'. rewrite Bm in S'. exact S'.
Qed.

Lemma bl_check_loop_true : forall n ii hp b, 0 < bm_bits (bl_map b) ->
  (forall k, ii <= k -> k < ii + N.of_nat n ->
       bm_get (bl_map b) (gen_hash k hp mod bm_bits (bl_map b)) = Some true) ->
  bl_check_loop n ii hp b = Some true.
Proof.
  induction n as [|n IH]; intros ii hp b Hpos H; [reflexivity|].
  cbn [bl_check_loop]. unfold bl_index.
  assert (Hz : bm_bits (bl_map b) =? 0 = false) by (apply N.eqb_neq; lia). rewrite Hz.
  rewrite (H ii) by lia. apply IH; [assumption|]. intros k H1 H2. apply H; lia.
Qed.

Lemma bl_set_all_spec : forall hps b, wf_bl b ->
  exists b', bl_set_all hps b = Some b' /\ wf_bl b' /\ grown b b' /\
    forall hp, In hp hps -> forall k, k < bl_count b ->
       bm_get (bl_map b') (gen_hash k hp mod bm_bits (bl_map b)) = Some true.
Proof.
  induction hps as [|hp hps IH]; intros b Hw; cbn [bl_set_all].
  - exists b. split; [reflexivity|]. split; [assumption|]. split; [apply grown_refl|]. intros ? [].
  - unfold bl_set. destruct (bl_set_loop_spec (N.to_nat (bl_count b)) 0 hp b Hw) as [b1 [E1 [W1 [G1 S1]]]].
    rewrite E1. destruct (IH b1 W1) as [b2 [E2 [W2 [G2 S2]]]].
    exists b2. split; [exact E2|]. split; [exact W2|]. split; [eapply grown_trans; eauto|].
    destruct G1 as (C1 & B1 & L1 & M1). destruct G2 as (C2 & B2 & L2 & M2).
    intros hp' [<-|Hin] k Hk.
    + apply M2.
      * rewrite B1. apply N.mod_lt. destruct Hw; lia.
      * apply S1; lia.
    + rewrite <- B1. apply S2; [assumption|]. rewrite C1. exact Hk.
Qed.

Lemma bl_create_wf : forall size count, 0 < size -> wf_bl (bl_create size count).
Proof.
  intros size count H. split; cbn [bl_create bl_map].
  - apply bm_create_wf.
  - cbn [bm_create bm_bits]. lia.
Qed.

(** No false negatives, and membership is never forgotten by later additions. *)
Lemma bl_no_false_negative : forall size count hps hps', 0 < size ->
  exists b b', bl_set_all hps (bl_create size count) = Some b /\ bl_set_all hps' b = Some b' /\
    forall hp, In hp (hps ++ hps') -> bl_check hp b' = Some true.
Proof.
  intros size count hps hps' Hs.
  destruct (bl_set_all_spec hps _ (bl_create_wf size count Hs)) as [b [E [W [G S]]]].
  destruct (bl_set_all_spec hps' b W) as [b' [E' [W' [G' S']]]].
  exists b, b'. split; [exact E|]. split; [exact E'|].
  destruct G as (C & B & L & M). destruct G' as (C' & B' & L' & M').
  intros hp Hin. unfold bl_check. apply bl_check_loop_true; [apply W'|].
  intros k _ Hk. rewrite C', C, N2Nat.id in Hk.
  apply in_app_or in Hin as [Hin|Hin].
  - apply M'.
    + rewrite B'. apply N.mod_lt. destruct W; lia.
    + rewrite B', B. apply S; [assumption|]. lia.
  - rewrite B'. apply S'; [assumption|]. rewrite C. lia.
Qed.

(** An empty filter answers no to everything with at least one hash function. *)
Lemma bl_empty_negative : forall size count hp, 0 < size -> 0 < count ->
  bl_check hp (bl_create size count) = Some false.
Proof.
  intros size count hp Hs Hc. unfold bl_check. cbn [bl_create bl_count].
  destruct (N.to_nat count) as [|n] eqn:E; [lia|]. cbn [bl_check_loop]. unfold bl_index. cbn [bl_create bl_map bm_create bm_bits].
  assert (Hz : (size + 7) / 8 * 8 =? 0 = false) by (apply N.eqb_neq; lia). rewrite Hz.
  fold (bm_create ((size + 7) / 8 * 8)). rewrite bm_create_zero; [reflexivity|]. apply N.mod_lt. lia.
Qed.

(** * Save and load *)
Definition full_bl (b : bloom) : Prop :=
  0 < bm_bits (bl_map b) /\ bm_bits (bl_map b) = 8 * blen (bm_bytes (bl_map b)).

Lemma bl_create_full : forall size count, 0 < size -> full_bl (bl_create size count).
Proof.
  intros size count H. split; cbn [bl_create bl_map bm_create bm_bits bm_bytes]; [lia|].
  unfold blen. rewrite repeat_length, N2Nat.id. lia.
Qed.
Lemma grown_full : forall b b', full_bl b -> grown b b' -> full_bl b'.
Proof. intros b b' [H1 H2] (C & B & L & _). split; unfold blen in *; rewrite B; [assumption|]. now rewrite L. Qed.

Lemma bl_save_load : forall b old, full_bl b -> blen (bm_bytes (bl_map b)) < 2 ^ 32 ->
  (length old <= 8 + length (bm_bytes (bl_map b)))%nat ->
  bl_load (bl_save b old) = Some {| bl_count := 3; bl_map := bl_map b |}.
Proof.
  intros b old [Hpos Hfull] Hsz Hold. unfold bl_save.
  assert (Hz : bm_bits (bl_map b) =? 0 = false) by (apply N.eqb_neq; lia). rewrite Hz.
  set (bytes := bm_bytes (bl_map b)) in *.
  assert (Hds : bm_bits (bl_map b) / 8 = blen bytes) by lia. rewrite Hds.
  rewrite N.mod_small by assumption.
  unfold blen at 2. rewrite Nat2N.id, firstn_all.
  set (h := u32 0 ++ u32 (blen bytes)).
  assert (Hh : length h = 8%nat) by (unfold h; rewrite app_length, !u32_len; reflexivity).
  assert (Hf : pwrite (pwrite old 0 h) 8 bytes = h ++ bytes).
  { assert (W : wrote (h ++ bytes) (fs_put bytes (fs_put h {| fs_file := old; fs_pos := 0 |}))).
    { apply wrote_put. apply (wrote_put [] _ h). apply wrote_nil. }
    destruct W as [_ W]. cbn [fs_put fs_file fs_pos] in W. rewrite Hh in W. cbn [Nat.add] in W.
    rewrite <- W. symmetry. apply firstn_all2. rewrite app_length, Hh.
    assert (Hne : bytes <> []) by (intros ->; cbn in Hfull; lia).
    rewrite pwrite_length by assumption.
    rewrite pwrite_length by (intros E; rewrite E in Hh; discriminate). rewrite Hh. lia. }
  rewrite Hf. unfold bl_load. rewrite app_length, Hh. change (8 + length bytes =? 0)%nat with false. cbv iota.
  rewrite (pread_app [] h bytes 8 Hh : pread (h ++ bytes) 0 8 = Some h).
  assert (Hg : get_be (firstn 4 (skipn 4 h)) = blen bytes).
  { unfold h. rewrite skipn_app_exact by apply u32_len.
    rewrite <- (app_nil_r (u32 (blen bytes))). rewrite firstn_app_exact by apply u32_len. now apply u32_get. }
  rewrite Hg. replace (8 + length bytes - 8)%nat with (length bytes) by lia.
  change (N.of_nat (length bytes)) with (blen bytes). rewrite N.eqb_refl.
  pose proof (pread_app h bytes [] (length bytes) eq_refl) as Hp. rewrite app_nil_r, Hh in Hp. rewrite Hp.
  f_equal. f_equal. replace (blen bytes * 8) with (bm_bits (bl_map b)) by lia. destruct (bl_map b); reflexivity.
Qed.

Lemma bl_check_fewer : forall b c hp, bl_check hp b = Some true -> c <= bl_count b ->
  bl_check hp {| bl_count := c; bl_map := bl_map b |} = Some true.
Proof.
  intros b c hp H Hc. unfold bl_check in *. cbn [bl_count].
  assert (E : forall m n ii, (n <= m)%nat -> bl_check_loop m ii hp b = Some true ->
     bl_check_loop n ii hp {| bl_count := c; bl_map := bl_map b |} = Some true).
  { induction m as [|m IH]; intros n ii Hn Hm.
    - assert (n = 0%nat) by lia. now subst.
    - destruct n as [|n]; [reflexivity|]. cbn [bl_check_loop] in *. unfold bl_index in *. cbn [bl_map].
      destruct (bm_bits (bl_map b) =? 0); [discriminate|].
      destruct (bm_get (bl_map b) _) as [[|]|]; try discriminate. apply IH; [lia|assumption]. }
  eapply E; [|exact H]. lia.
Qed.

Lemma bl_saved_no_false_negative : forall size count hps old, 0 < size -> size <= 2 ^ 35 - 8 -> 3 <= count ->
  (length old <= 8 + N.to_nat ((size + 7) / 8))%nat ->
  exists b b', bl_set_all hps (bl_create size count) = Some b /\ bl_load (bl_save b old) = Some b' /\
    (forall hp, In hp hps -> bl_check hp b' = Some true).
Proof.
  intros size count hps old Hs Hsz Hc Hold.
  destruct (bl_set_all_spec hps _ (bl_create_wf size count Hs)) as [b [E [W [G S]]]].
  destruct (bl_no_false_negative size count hps [] Hs) as [b0 [b1 [E0 [E1 Hn]]]].
  assert (b0 = b) by congruence. subst b0. cbn [bl_set_all] in E1. assert (b1 = b) by congruence. subst b1.
  exists b, {| bl_count := 3; bl_map := bl_map b |}. split; [exact E|].
  pose proof (grown_full _ _ (bl_create_full size count Hs) G) as Hf.
  destruct G as (C & B & L & M).
  assert (Hlen : length (bm_bytes (bl_map b)) = N.to_nat ((size + 7) / 8)).
  { rewrite L. cbn [bl_create bl_map bm_create bm_bytes]. rewrite repeat_length. f_equal. lia. }
  split.
  - apply bl_save_load; [assumption| |].
    + unfold blen. rewrite Hlen, N2Nat.id. change (2 ^ 32) with 4294967296. change (2 ^ 35 - 8) with 34359738360 in Hsz. lia.
    + rewrite Hlen. exact Hold.
  - intros hp Hin. apply bl_check_fewer; [|rewrite C; exact Hc].
    apply Hn. rewrite app_nil_r. exact Hin.
Qed.
