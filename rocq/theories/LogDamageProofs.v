(** Damaged log files: which changes of the bytes are detected. *)
From Verif Require Import Base Crc32Model Crc32Spec Crc32Proofs LogFormatModel LogWriterModel LogSpec LogFormatProofs.
From Coq Require Import ZifyBool ZifyNat ZifyN.
Local Open Scope N_scope.

Section P.
Variable comp : rec -> option (list N).
Variable decomp : option (list N -> list N).

(** Reading a file whose entries [es1] are intact and whose next bytes form a record with
    flags [fl] and remaining bytes [l], which fails with status [s]. *)
Lemma load_file_fail : forall es1 fl l s, Forall (wf_entry comp decomp) es1 ->
  fl < 2 ^ 64 -> identify_type fl = FT_RECORD -> load_record decomp fl l = RFail s ->
  load_file decomp (log_file_bytes comp es1 ++ u64 fl ++ l) = (es1, s).
Proof.
  intros es1 fl l s Hw Hfl Hid Hr. unfold load_file, log_file_bytes. rewrite <- app_assoc.
  replace (log_header ++ enc_entries comp es1 ++ u64 fl ++ l)
    with (170 :: tl (log_header ++ enc_entries comp es1 ++ u64 fl ++ l)) at 1 by reflexivity.
  rewrite skip_header_app. unfold load_body.
  rewrite load_loop_entries.
  2: exact Hw. 2: rewrite app_length; pose proof (entries_fuel comp es1); lia.
  rewrite !app_length, u64_len.
  destruct (length (enc_entries comp es1) + (8 + length l) - length es1)%nat as [|fuel] eqn:E.
  { pose proof (entries_fuel comp es1). lia. }
  assert (Hne : exists x y, u64 fl ++ l = x :: y) by (cbn; eauto).
  destruct Hne as (x & y & Hx). cbn [load_loop]. rewrite Hx, <- Hx.
  rewrite available_app8. cbn [negb]. rewrite firstn_app_exact, skipn_app_exact by apply u64_len.
  rewrite u64_get by exact Hfl. rewrite Hid, Hr.
  now rewrite app_nil_r, rev_involutive.
Qed.

Lemma enc_rec_parts : forall r, enc_rec comp r = f_flags comp r ++ f_lencrc comp r ++ f_lens comp r ++ f_bodycrc comp r ++ f_body comp r.
Proof. intros r. unfold enc_rec, enc_header, f_flags, f_lencrc, f_lens, f_bodycrc, f_body. now rewrite <- !app_assoc. Qed.

(** Any change of the length header or of its checksum that makes the two disagree. *)
Lemma load_record_len_mismatch : forall r c lens rest, wf_rec r -> length c = 4%nat ->
  length lens = length (f_lens comp r) -> (4 <= length rest)%nat ->
  get_be c <> crc32_8 lens 0 ->
  load_record decomp (stored_flags comp r) (c ++ lens ++ rest) = RFail L_CHECKSUM.
Proof.
  intros r c lens rest Hw Hc Hl Hr Hne. unfold load_record.
  pose proof (len_meta_len comp r Hw) as HL. unfold f_lens in Hl.
  assert (Hav : available (4 + len_meta_size (stored_flags comp r) + 4) (c ++ lens ++ rest) = true).
  { unfold available. rewrite <- HL. unfold blen in *. rewrite !app_length. lia. }
  rewrite Hav. cbn [negb].
  rewrite firstn_app_exact, skipn_app_exact by exact Hc.
  assert (HN : length lens = N.to_nat (len_meta_size (stored_flags comp r))).
  { rewrite Hl, <- HL. unfold blen. now rewrite Nat2N.id. }
  rewrite firstn_app_exact by exact HN.
  destruct (N.eqb_spec (get_be c) (crc32_8 lens 0)); [contradiction|]. reflexivity.
Qed.

Theorem damaged_lengths : forall es1 r lens' rest, Forall (wf_entry comp decomp) es1 -> wf_rec r ->
  is_bytes lens' -> burst32 (f_lens comp r) lens' ->
  load_file decomp (log_file_bytes comp es1 ++ f_flags comp r ++ f_lencrc comp r ++ lens' ++ f_bodycrc comp r ++ f_body comp r ++ rest)
  = (es1, L_CHECKSUM).
Proof.
  intros es1 r lens' rest Hes Hw Hb Hbu.
  destruct (stored_flags_id comp r Hw) as (Hid & Hlt & _).
  apply load_file_fail; try assumption. apply load_record_len_mismatch; try assumption.
  - apply u32_len.
  - now apply burst32_length.
  - rewrite app_length. unfold f_bodycrc. rewrite u32_len. lia.
  - unfold f_lencrc. rewrite u32_get by (apply crc32_8_lt; [apply len_meta_bytes|reflexivity]).
    intros E. symmetry in E. revert E. apply crc32_burst32; [apply len_meta_bytes|exact Hb|reflexivity|exact Hbu].
Qed.

Lemma get_be_inj4 : forall a b, is_bytes a -> is_bytes b -> length a = length b -> get_be a = get_be b -> a = b.
Proof. intros a b Ha Hb Hl E. rewrite <- (put_get_be a Ha), <- (put_get_be b Hb), Hl, E. reflexivity. Qed.

Theorem damaged_length_checksum : forall es1 r c' rest, Forall (wf_entry comp decomp) es1 -> wf_rec r ->
  is_bytes c' -> length c' = 4%nat -> c' <> f_lencrc comp r ->
  load_file decomp (log_file_bytes comp es1 ++ f_flags comp r ++ c' ++ f_lens comp r ++ f_bodycrc comp r ++ f_body comp r ++ rest)
  = (es1, L_CHECKSUM).
Proof.
  intros es1 r c' rest Hes Hw Hb Hl Hne.
  destruct (stored_flags_id comp r Hw) as (Hid & Hlt & _).
  apply load_file_fail; try assumption. apply load_record_len_mismatch; try assumption.
  - reflexivity.
  - rewrite app_length. unfold f_bodycrc. rewrite u32_len. lia.
  - intros E. apply Hne. apply get_be_inj4; [exact Hb|apply is_bytes_u32|rewrite Hl; symmetry; apply u32_len|].
    unfold f_lencrc. rewrite u32_get by (apply crc32_8_lt; [apply len_meta_bytes|reflexivity]). exact E.
Qed.

(** Body or body checksum: header intact, so the record is delimited correctly. *)
Lemma load_record_body_mismatch : forall r c body rest, wf_rec r -> comp_ok comp decomp r ->
  length c = 4%nat -> is_bytes body -> length body = length (f_body comp r) ->
  get_be c <> crc32_8 body 0 ->
  (body = f_body comp r \/ compressed comp r = None \/ decomp <> None) ->
  load_record decomp (stored_flags comp r) (f_lencrc comp r ++ f_lens comp r ++ c ++ body ++ rest) = RFail L_CHECKSUM \/
  load_record decomp (stored_flags comp r) (f_lencrc comp r ++ f_lens comp r ++ c ++ body ++ rest) = RFail L_DECOMP_FAILED.
Proof.
  intros r c body rest Hw Hc Hcl Hbb Hbl Hne Hcase.
  destruct (stored_flags_id comp r Hw) as (_ & _ & Ht & Hfc).
  destruct (len_meta_fields comp decomp r Hw Hc) as (F1 & F2 & F3 & F4 & F5).
  pose proof (len_meta_len comp r Hw) as HLM.
  unfold load_record.
  assert (Hav : available (4 + len_meta_size (stored_flags comp r) + 4) (f_lencrc comp r ++ f_lens comp r ++ c ++ body ++ rest) = true).
  { unfold available. rewrite <- HLM. unfold f_lens, f_lencrc, blen. rewrite !app_length, u32_len, Hcl. lia. }
  rewrite Hav. cbn [negb]. unfold f_lencrc, f_lens.
  rewrite (firstn_app_exact (u32 _)), (skipn_app_exact (u32 _)) by apply u32_len.
  assert (HLN : length (len_meta comp r) = N.to_nat (len_meta_size (stored_flags comp r))).
  { rewrite <- HLM. unfold blen. now rewrite Nat2N.id. }
  rewrite (firstn_app_exact (len_meta comp r)), (skipn_app_exact (len_meta comp r)) by exact HLN.
  rewrite (firstn_app_exact c), (skipn_app_exact c) by exact Hcl.
  rewrite u32_get by (apply crc32_8_lt; [apply len_meta_bytes|reflexivity]).
  rewrite N.eqb_refl. cbn [negb]. rewrite F1, F2, F3, F4.
  assert (TN : forall l : list N, N.to_nat (blen l) = length l) by (intros; unfold blen; apply Nat2N.id).
  rewrite !TN.
  unfold f_body, enc_data in Hbl. rewrite !app_length in Hbl.
  set (lk := length (r_key r)) in *. set (lm := length (r_meta r)) in *. set (lv := length (value_ref comp r)) in *.
  assert (A1 : available (blen (r_key r)) (body ++ rest) = true).
  { unfold available, blen. rewrite app_length. fold lk. lia. }
  assert (A2 : available (blen (r_meta r)) (skipn lk (body ++ rest)) = true).
  { unfold available, blen. rewrite skipn_length, app_length. fold lm. lia. }
  assert (A3 : available (blen (value_ref comp r)) (skipn lm (skipn lk (body ++ rest))) = true).
  { unfold available, blen. rewrite !skipn_length, app_length. fold lv. lia. }
  rewrite A1, A2, A3. cbn [negb].
  assert (B1 : firstn lk (body ++ rest) = firstn lk body).
  { rewrite firstn_app. replace (lk - length body)%nat with 0%nat by lia. now rewrite firstn_O, app_nil_r. }
  assert (B2 : firstn lm (skipn lk (body ++ rest)) = firstn lm (skipn lk body)).
  { rewrite skipn_app. replace (lk - length body)%nat with 0%nat by lia. rewrite skipn_O, firstn_app.
    replace (lm - length (skipn lk body))%nat with 0%nat by (rewrite skipn_length; lia). now rewrite firstn_O, app_nil_r. }
  assert (B3 : firstn lv (skipn lm (skipn lk (body ++ rest))) = skipn lm (skipn lk body)).
  { rewrite (skipn_app lk). replace (lk - length body)%nat with 0%nat by lia. rewrite skipn_O, (skipn_app lm).
    replace (lm - length (skipn lk body))%nat with 0%nat by (rewrite skipn_length; lia). rewrite skipn_O.
    apply firstn_app_exact. rewrite !skipn_length. lia. }
  rewrite B1, B2, B3.
  assert (HB : is_bytes (firstn lk body) /\ is_bytes (firstn lm (skipn lk body)) /\ is_bytes (skipn lm (skipn lk body))).
  { rewrite <- (firstn_skipn lk body) in Hbb. apply is_bytes_app in Hbb as [H1 H2].
    rewrite <- (firstn_skipn lm (skipn lk body)) in H2. apply is_bytes_app in H2 as [H2 H3]. auto. }
  destruct HB as (HB1 & HB2 & HB3).
  fold (crc_body (firstn lk body) (firstn lm (skipn lk body)) (skipn lm (skipn lk body))).
  assert (HCRC : crc_body (firstn lk body) (firstn lm (skipn lk body)) (skipn lm (skipn lk body)) = crc32_8 body 0).
  { rewrite crc_body_concat by assumption. now rewrite !firstn_skipn. }
  rewrite HCRC.
  assert (HNE : (get_be c =? crc32_8 body 0) = false) by now apply N.eqb_neq.
  rewrite HNE. cbn [negb].
  destruct (blen (value_ref comp r) =? 0); [now left|].
  destruct (flags_compressed (stored_flags comp r)) eqn:EF; [|now left].
  destruct decomp as [d|] eqn:ED.
  - destruct (blen (d _) =? _); [now left|now right].
  - exfalso. destruct Hcase as [_|[Hn|Hn]].
    + rewrite Hfc in EF. destruct (compressed comp r) as [x|] eqn:EX; [|discriminate].
      destruct (Hc x EX) as (_ & _ & d & Hd & _). discriminate.
    + rewrite Hn in Hfc. congruence.
    + congruence.
Qed.

Theorem damaged_body : forall es1 r body' rest, Forall (wf_entry comp decomp) es1 -> wf_rec r ->
  comp_ok comp decomp r -> is_bytes body' -> burst32 (f_body comp r) body' ->
  fst (load_file decomp (log_file_bytes comp es1 ++ f_flags comp r ++ f_lencrc comp r ++ f_lens comp r ++ f_bodycrc comp r ++ body' ++ rest)) = es1 /\
  (snd (load_file decomp (log_file_bytes comp es1 ++ f_flags comp r ++ f_lencrc comp r ++ f_lens comp r ++ f_bodycrc comp r ++ body' ++ rest)) = L_CHECKSUM \/
   snd (load_file decomp (log_file_bytes comp es1 ++ f_flags comp r ++ f_lencrc comp r ++ f_lens comp r ++ f_bodycrc comp r ++ body' ++ rest)) = L_DECOMP_FAILED).
Proof.
  intros es1 r body' rest Hes Hw Hc Hb Hbu.
  destruct (stored_flags_id comp r Hw) as (Hid & Hlt & _).
  destruct (value_ref_bytes comp decomp r Hw Hc) as [Hvb _].
  assert (Hfb : is_bytes (f_body comp r)).
  { unfold f_body, enc_data. rewrite !is_bytes_app. repeat split; [apply Hw|apply Hw|exact Hvb]. }
  assert (Hdec : compressed comp r = None \/ decomp <> None).
  { destruct (compressed comp r) as [x|] eqn:EX; [|now left]. right.
    destruct (Hc x EX) as (_ & _ & d & Hd & _). congruence. }
  destruct (load_record_body_mismatch r (f_bodycrc comp r) body' rest Hw Hc) as [E|E]; try assumption.
  - apply u32_len.
  - now apply burst32_length.
  - unfold f_bodycrc. rewrite crc_body_concat by (apply Hw || exact Hvb).
    rewrite u32_get by (apply crc32_8_lt; [exact Hfb|reflexivity]).
    intros E. symmetry in E. revert E. apply crc32_burst32; [exact Hfb|exact Hb|reflexivity|exact Hbu].
  - now right.
  - unfold f_flags. rewrite (load_file_fail es1 _ _ _ Hes Hlt Hid E). auto.
  - unfold f_flags. rewrite (load_file_fail es1 _ _ _ Hes Hlt Hid E). auto.
Qed.

Theorem damaged_body_checksum : forall es1 r c' rest, Forall (wf_entry comp decomp) es1 -> wf_rec r ->
  comp_ok comp decomp r -> is_bytes c' -> length c' = 4%nat -> c' <> f_bodycrc comp r ->
  fst (load_file decomp (log_file_bytes comp es1 ++ f_flags comp r ++ f_lencrc comp r ++ f_lens comp r ++ c' ++ f_body comp r ++ rest)) = es1 /\
  (snd (load_file decomp (log_file_bytes comp es1 ++ f_flags comp r ++ f_lencrc comp r ++ f_lens comp r ++ c' ++ f_body comp r ++ rest)) = L_CHECKSUM \/
   snd (load_file decomp (log_file_bytes comp es1 ++ f_flags comp r ++ f_lencrc comp r ++ f_lens comp r ++ c' ++ f_body comp r ++ rest)) = L_DECOMP_FAILED).
Proof.
  intros es1 r c' rest Hes Hw Hc Hb Hl Hne.
  destruct (stored_flags_id comp r Hw) as (Hid & Hlt & _).
  destruct (value_ref_bytes comp decomp r Hw Hc) as [Hvb _].
  assert (Hfb : is_bytes (f_body comp r)).
  { unfold f_body, enc_data. rewrite !is_bytes_app. repeat split; [apply Hw|apply Hw|exact Hvb]. }
  destruct (load_record_body_mismatch r c' (f_body comp r) rest Hw Hc) as [E|E]; try assumption.
  - reflexivity.
  - intros E. apply Hne. apply get_be_inj4; [exact Hb|apply is_bytes_u32|rewrite Hl; symmetry; apply u32_len|].
    unfold f_bodycrc. rewrite crc_body_concat by (apply Hw || exact Hvb).
    rewrite u32_get by (apply crc32_8_lt; [exact Hfb|reflexivity]). exact E.
  - now left.
  - unfold f_flags. rewrite (load_file_fail es1 _ _ _ Hes Hlt Hid E). auto.
  - unfold f_flags. rewrite (load_file_fail es1 _ _ _ Hes Hlt Hid E). auto.
Qed.

(** *** A tail of zero bytes *)

Lemma zeros_app : forall n m, repeat 0 (n + m) = repeat 0 n ++ repeat (A := N) 0 m.
Proof. intros; apply repeat_app. Qed.

Lemma load_record_zeros_short : forall k, (k < 28)%nat -> load_record decomp 0 (repeat 0 k) = RFail L_INCOMPLETE.
Proof.
  intros k Hk. unfold load_record.
  assert (Hav : available (4 + len_meta_size 0 + 4) (repeat 0 k) = false).
  { unfold available, blen. rewrite repeat_length. change (len_meta_size 0) with 20. lia. }
  now rewrite Hav.
Qed.

Lemma load_record_zeros_long : forall k, load_record decomp 0 (repeat 0 (28 + k)) = RFail L_CHECKSUM.
Proof.
  intros k. unfold load_record.
  assert (Hav : available (4 + len_meta_size 0 + 4) (repeat 0 (28 + k)) = true).
  { unfold available, blen. rewrite repeat_length. change (len_meta_size 0) with 20. lia. }
  rewrite Hav. cbn [negb]. rewrite zeros_app. change (repeat (A := N) 0 28) with (repeat (A := N) 0 4 ++ repeat 0 20 ++ repeat 0 4).
  rewrite <- !app_assoc. rewrite firstn_app_exact, skipn_app_exact by reflexivity.
  change (N.to_nat (len_meta_size 0)) with 20%nat.
  rewrite firstn_app_exact by reflexivity.
  assert (E : (get_be (repeat 0 4) =? crc32_8 (repeat 0 20) 0) = false) by (vm_compute; reflexivity).
  rewrite E. reflexivity.
Qed.

Theorem zero_tail : forall es k, Forall (wf_entry comp decomp) es ->
  load_file decomp (log_file_bytes comp es ++ repeat 0 k) =
  (es, if (k =? 0)%nat then L_OK else if (k <? 36)%nat then L_INCOMPLETE else L_CHECKSUM).
Proof.
  intros es k Hw. destruct (Nat.eqb_spec k 0) as [->|Hk0].
  { cbn [repeat]. rewrite app_nil_r. now apply load_file_enc. }
  destruct (Nat.lt_ge_cases k 8) as [H8|H8].
  - assert (Hlt : (k <? 36)%nat = true) by (apply Nat.ltb_lt; lia). rewrite Hlt.
    unfold load_file, log_file_bytes. rewrite <- app_assoc.
    replace (log_header ++ enc_entries comp es ++ repeat 0 k)
      with (170 :: tl (log_header ++ enc_entries comp es ++ repeat 0 k)) at 1 by reflexivity.
    rewrite skip_header_app. unfold load_body.
    rewrite load_loop_entries.
    2: exact Hw. 2: rewrite app_length; pose proof (entries_fuel comp es); lia.
    rewrite !app_length, repeat_length.
    destruct (length (enc_entries comp es) + k - length es)%nat as [|fuel] eqn:E.
    { pose proof (entries_fuel comp es). lia. }
    destruct k as [|k]; [lia|]. cbn [repeat load_loop].
    assert (Hav : available 8 (0 :: repeat 0 k) = false).
    { unfold available, blen. cbn [length]. rewrite repeat_length. lia. }
    rewrite Hav. cbn [negb]. now rewrite app_nil_r, rev_involutive.
  - replace k with (8 + (k - 8))%nat at 1 by lia. rewrite zeros_app.
    change (repeat 0 8) with (u64 0).
    destruct (Nat.ltb_spec k 36) as [Hs|Hl].
    + apply load_file_fail; [exact Hw|reflexivity|reflexivity|]. apply load_record_zeros_short. lia.
    + apply load_file_fail; [exact Hw|reflexivity|reflexivity|].
      replace (k - 8)%nat with (28 + (k - 36))%nat by lia. apply load_record_zeros_long.
Qed.

End P.

Lemma load_file_padding : forall comp decomp es pad, Forall (wf_entry comp decomp) es ->
  load_file decomp (log_file_bytes comp es ++ u64 PADDING_HEADER_FLAG ++ pad) = (es, L_OK).
Proof.
  intros comp decomp es pad Hw. unfold load_file, log_file_bytes. rewrite <- app_assoc.
  replace (log_header ++ enc_entries comp es ++ u64 PADDING_HEADER_FLAG ++ pad)
    with (170 :: tl (log_header ++ enc_entries comp es ++ u64 PADDING_HEADER_FLAG ++ pad)) at 1 by reflexivity.
  rewrite skip_header_app. now apply load_body_padding.
Qed.

Lemma load_file_terminates : forall decomp f, snd (load_file decomp f) <> L_FUEL.
Proof. intros decomp [|x f]; [discriminate|]. apply (load_body_terminates (fun _ => None)). Qed.
