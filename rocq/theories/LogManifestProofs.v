From Verif Require Import Base Crc32Model Crc32Proofs FileModel FileProofs LogFormatModel LogManifestModel.
Local Open Scope N_scope.

(** Field ranges of the C++ types: 64-bit numbers, 32-bit count. *)
Definition wf_ment (e : ment) : Prop :=
  e_num e < 2 ^ 64 /\ e_min e < 2 ^ 64 /\ e_flushed e < 2 ^ 64 /\ e_synced e < 2 ^ 64.
Definition wf_lman (m : lman) : Prop :=
  l_max m < 2 ^ 64 /\ l_flushed m < 2 ^ 64 /\ l_synced m < 2 ^ 64 /\
  N.of_nat (length (l_files m)) < 2 ^ 32 /\ Forall wf_ment (l_files m).

(** *** Encoding *)

Definition enc_body (mx fl sy count : N) (es : list ment) : list N :=
  u64 mx ++ u64 fl ++ u64 sy ++ u32 count ++ flat_map enc_ment es ++
  LOGMANI_FOOTER ++ u32 LOGMANI_VERSION.

Lemma enc_raw_eq : forall mx fl sy c es,
  enc_raw mx fl sy c es = enc_body mx fl sy c es ++ u32 (crc32_8 (enc_body mx fl sy c es) 0).
Proof. reflexivity. Qed.

Lemma enc_ment_length : forall e, length (enc_ment e) = 32%nat.
Proof. intros e. unfold enc_ment. rewrite !app_length, !u64_len. reflexivity. Qed.

Lemma enc_ments_length : forall es, length (flat_map enc_ment es) = (32 * length es)%nat.
Proof.
  induction es as [|e es IH]; [reflexivity|].
  cbn [flat_map length]. rewrite app_length, enc_ment_length, IH. lia.
Qed.

Lemma enc_body_length : forall mx fl sy c es,
  length (enc_body mx fl sy c es) = (40 + 32 * length es)%nat.
Proof.
  intros. unfold enc_body. rewrite !app_length, !u64_len, !u32_len, enc_ments_length.
  change (length LOGMANI_FOOTER) with 8%nat. lia.
Qed.

Lemma enc_raw_length : forall mx fl sy c es,
  length (enc_raw mx fl sy c es) = (44 + 32 * length es)%nat.
Proof. intros. rewrite enc_raw_eq, app_length, enc_body_length, u32_len. lia. Qed.

Lemma lm_encode_length : forall m, length (lm_encode m) = (44 + 32 * length (l_files m))%nat.
Proof. intros. apply enc_raw_length. Qed.

Lemma footer_bytes : is_bytes LOGMANI_FOOTER.
Proof. unfold is_bytes, LOGMANI_FOOTER, is_byte. repeat constructor. Qed.

Lemma enc_ments_bytes : forall es, is_bytes (flat_map enc_ment es).
Proof.
  induction es as [|e es IH]; [constructor|].
  cbn [flat_map]. unfold enc_ment, u64.
  repeat (apply is_bytes_app; split); (apply put_be_bytes || exact IH).
Qed.

Lemma enc_body_bytes : forall mx fl sy c es, is_bytes (enc_body mx fl sy c es).
Proof.
  intros. unfold enc_body, u64, u32.
  repeat (apply is_bytes_app; split);
    (apply put_be_bytes || apply enc_ments_bytes || apply footer_bytes).
Qed.

Lemma crc_lt : forall b, is_bytes b -> crc32_8 b 0 < 2 ^ 32.
Proof. intros b H. apply crc32_8_lt; [exact H|reflexivity]. Qed.

(** *** Reading back *)

Lemma get_ment_app : forall a e c, wf_ment e ->
  get_ment {| fs_file := a ++ enc_ment e ++ c; fs_pos := length a |} =
  (e, {| fs_file := a ++ enc_ment e ++ c; fs_pos := length (a ++ enc_ment e) |}).
Proof.
  intros a [n mi fl sy] c (H1 & H2 & H3 & H4). cbn [e_num e_min e_flushed e_synced] in *.
  unfold get_ment, enc_ment. cbn [e_num e_min e_flushed e_synced]. unfold u64.
  rewrite <- !app_assoc.
  rewrite (fs_getU_app a n _ 8) by exact H1.
  rewrite (app_assoc a (put_be 8 n)).
  rewrite (fs_getU_app (a ++ put_be 8 n) mi _ 8) by exact H2.
  rewrite (app_assoc _ (put_be 8 mi)).
  rewrite (fs_getU_app ((a ++ put_be 8 n) ++ put_be 8 mi) fl _ 8) by exact H3.
  rewrite (app_assoc _ (put_be 8 fl)).
  rewrite (fs_getU_app (((a ++ put_be 8 n) ++ put_be 8 mi) ++ put_be 8 fl) sy _ 8) by exact H4.
  f_equal. f_equal; rewrite <- !app_assoc; reflexivity.
Qed.

Lemma get_ments_app : forall es a c, Forall wf_ment es ->
  get_ments (length es) {| fs_file := a ++ flat_map enc_ment es ++ c; fs_pos := length a |} = es.
Proof.
  induction es as [|e es IH]; intros a c H; [reflexivity|].
  inversion H as [|? ? He Hes]; subst. cbn [length get_ments flat_map].
  rewrite <- app_assoc. rewrite get_ment_app by exact He.
  f_equal. rewrite (app_assoc a (enc_ment e)). now apply IH.
Qed.

(** More entries announced than written: reading continues into the rest of the file. *)
Lemma get_ments_app_more : forall es n a c, Forall wf_ment es ->
  get_ments (length es + n) {| fs_file := a ++ flat_map enc_ment es ++ c; fs_pos := length a |} =
  es ++ get_ments n {| fs_file := a ++ flat_map enc_ment es ++ c;
                       fs_pos := length (a ++ flat_map enc_ment es) |}.
Proof.
  induction es as [|e es IH]; intros n a c H.
  - cbn [length Nat.add flat_map app]. now rewrite app_nil_r.
  - inversion H as [|? ? He Hes]; subst. cbn [length Nat.add get_ments flat_map].
    rewrite <- app_assoc. rewrite get_ment_app by exact He.
    cbn [app]. f_equal. rewrite (app_assoc a (enc_ment e)). rewrite IH by exact Hes.
    rewrite <- !app_assoc. reflexivity.
Qed.

(** The parse of any image with consistent framing: the fields, then [count] entries read
    from the position after the header. *)
Lemma parse_raw : forall mx fl sy c es,
  mx < 2 ^ 64 -> fl < 2 ^ 64 -> sy < 2 ^ 64 -> c < 2 ^ 32 ->
  lm_parse (enc_raw mx fl sy c es) =
  inl (mkLman mx fl sy (get_ments (N.to_nat c)
        {| fs_file := enc_raw mx fl sy c es; fs_pos := 28 |})).
Proof.
  intros mx fl sy c es Hm Hf Hs Hc. unfold lm_parse.
  pose proof (enc_raw_length mx fl sy c es) as HL.
  set (f := enc_raw mx fl sy c es) in *.
  set (b0 := u64 mx ++ u64 fl ++ u64 sy ++ u32 c ++ flat_map enc_ment es).
  assert (Hb0 : length b0 = (28 + 32 * length es)%nat).
  { unfold b0. rewrite !app_length, !u64_len, u32_len, enc_ments_length. lia. }
  set (crc := crc32_8 (enc_body mx fl sy c es) 0).
  assert (Hcrc : crc < 2 ^ 32) by (apply crc_lt, enc_body_bytes).
  assert (Ef : f = b0 ++ LOGMANI_FOOTER ++ u32 LOGMANI_VERSION ++ u32 crc).
  { unfold f, b0. rewrite enc_raw_eq. unfold enc_body at 1. rewrite <- !app_assoc. reflexivity. }
  assert (Ef2 : f = enc_body mx fl sy c es ++ u32 crc) by reflexivity.
  rewrite HL.
  destruct (Nat.ltb_spec (44 + 32 * length es) 16); [lia|].
  assert (E1 : firstn 8 (skipn (44 + 32 * length es - 16) f) = LOGMANI_FOOTER).
  { rewrite Ef. rewrite skipn_app_exact by lia. now apply firstn_app_exact. }
  rewrite E1. destruct (list_eq_dec N.eq_dec LOGMANI_FOOTER LOGMANI_FOOTER) as [_|n]; [|now contradiction n].
  assert (E2 : firstn (44 + 32 * length es - 4) f = enc_body mx fl sy c es).
  { rewrite Ef2. apply firstn_app_exact. rewrite enc_body_length. lia. }
  assert (E3 : skipn (44 + 32 * length es - 4) f = u32 crc).
  { rewrite Ef2. apply skipn_app_exact. rewrite enc_body_length. lia. }
  rewrite E2, E3, u32_get by exact Hcrc. fold crc. rewrite N.eqb_refl. cbn [negb].
  assert (E4 : f = [] ++ put_be 8 mx ++ (put_be 8 fl ++ put_be 8 sy ++ put_be 4 c ++
                   flat_map enc_ment es ++ LOGMANI_FOOTER ++ u32 LOGMANI_VERSION ++ u32 crc)).
  { rewrite Ef. unfold b0, u64, u32. rewrite <- !app_assoc. reflexivity. }
  rewrite E4 at 1. change 0%nat with (length (@nil N)) at 1.
  rewrite (fs_getU_app [] mx _ 8) by exact Hm. rewrite <- E4.
  assert (E5 : f = put_be 8 mx ++ put_be 8 fl ++ (put_be 8 sy ++ put_be 4 c ++
                   flat_map enc_ment es ++ LOGMANI_FOOTER ++ u32 LOGMANI_VERSION ++ u32 crc)) by exact E4.
  rewrite app_nil_l.
  rewrite E5 at 1. rewrite (fs_getU_app (put_be 8 mx) fl _ 8) by exact Hf. rewrite <- E5.
  assert (E6 : f = (put_be 8 mx ++ put_be 8 fl) ++ put_be 8 sy ++ (put_be 4 c ++
                   flat_map enc_ment es ++ LOGMANI_FOOTER ++ u32 LOGMANI_VERSION ++ u32 crc))
    by (rewrite <- !app_assoc; exact E4).
  rewrite E6 at 1. rewrite (fs_getU_app (put_be 8 mx ++ put_be 8 fl) sy _ 8) by exact Hs. rewrite <- E6.
  assert (E7 : f = ((put_be 8 mx ++ put_be 8 fl) ++ put_be 8 sy) ++ put_be 4 c ++ (
                   flat_map enc_ment es ++ LOGMANI_FOOTER ++ u32 LOGMANI_VERSION ++ u32 crc))
    by (rewrite <- !app_assoc; exact E4).
  rewrite E7 at 1. rewrite (fs_getU_app ((put_be 8 mx ++ put_be 8 fl) ++ put_be 8 sy) c _ 4) by exact Hc.
  rewrite <- E7. reflexivity.
Qed.

Lemma parse_encode : forall m, wf_lman m -> lm_parse (lm_encode m) = inl m.
Proof.
  intros [mx fl sy es] (H1 & H2 & H3 & H4 & H5). cbn [l_max l_flushed l_synced l_files] in *.
  unfold lm_encode. cbn [l_max l_flushed l_synced l_files].
  rewrite parse_raw by assumption. f_equal. f_equal.
  rewrite Nat2N.id. rewrite enc_raw_eq.
  set (crc := u32 (crc32_8 _ 0)). clearbody crc. unfold enc_body.
  set (tail := LOGMANI_FOOTER ++ u32 LOGMANI_VERSION).
  replace ((u64 mx ++ u64 fl ++ u64 sy ++ u32 (N.of_nat (length es)) ++ flat_map enc_ment es ++ tail) ++ crc)
    with ((u64 mx ++ u64 fl ++ u64 sy ++ u32 (N.of_nat (length es))) ++ flat_map enc_ment es ++ (tail ++ crc))
    by (rewrite <- !app_assoc; reflexivity).
  replace 28%nat with (length (u64 mx ++ u64 fl ++ u64 sy ++ u32 (N.of_nat (length es))))
    by (rewrite !app_length, !u64_len, u32_len; reflexivity).
  now apply get_ments_app.
Qed.

(** *** The load loop *)

(** Marks that were set are kept; only a missing mark may be filled in. *)
Definition same_marks (a b : ment) : Prop :=
  e_num b = e_num a /\ e_flushed b = e_flushed a /\
  (e_min a <> NIL -> e_min b = e_min a) /\ (e_synced a <> NIL -> e_synced b = e_synced a).

Lemma valid_number_true : forall n, valid_number n = true <-> n <> NIL.
Proof. intros n. unfold valid_number. rewrite negb_true_iff. apply N.eqb_neq. Qed.
Lemma valid_number_false : forall n, valid_number n = false <-> n = NIL.
Proof. intros n. unfold valid_number. rewrite negb_false_iff. apply N.eqb_eq. Qed.

Lemma fill_marks_same : forall ls e, same_marks e (fill_marks ls e).
Proof.
  intros ls e. unfold same_marks, fill_marks. cbn [e_num e_min e_flushed e_synced].
  repeat split; auto.
  - intros H. apply valid_number_true in H. now rewrite H.
  - intros H. apply valid_number_true in H. now rewrite H.
Qed.

Lemma fill_marks_id : forall ls e, e_min e <> NIL -> e_synced e <> NIL -> fill_marks ls e = e.
Proof.
  intros ls [n mi fl sy] H1 H2. unfold fill_marks. cbn [e_num e_min e_flushed e_synced] in *.
  apply valid_number_true in H1. apply valid_number_true in H2. now rewrite H1, H2.
Qed.

Definition all_ok (fload : N -> fstat) (es : list ment) : Prop :=
  forall e, In e es -> fload (e_num e) = F_OK \/ fload (e_num e) = F_OTHER.

Lemma load_files_ok : forall cfg fload es ls fr d,
  c_section_only cfg && c_truncate_inconsecutive cfg = false ->
  all_ok fload es ->
  (d_flushed d <> NIL -> forall e, In e es -> d_flushed d <= e_num e) ->
  (d_synced d <> NIL /\ forall e, In e es -> e_num e <= d_synced d) ->
  exists fs, load_files cfg fload es ls fr d =
    mkLoad (d_max d) (d_flushed d) (d_synced d) (d_files d ++ fs) (d_new d) /\
    Forall2 same_marks es fs.
Proof.
  intros cfg fload es. induction es as [|e es IH]; intros ls fr d Hc Hok Hfl [Hv Hs].
  - exists []. cbn [load_files]. rewrite app_nil_r. destruct d; split; [reflexivity|constructor].
  - cbn [load_files]. unfold invalid_log. rewrite Hc. cbn [andb].
    set (ls' := if valid_number (e_synced e) then e_synced e else ls).
    assert (Hskip : valid_number (d_flushed d) && (e_num e <? d_flushed d) = false).
    { destruct (valid_number (d_flushed d)) eqn:V; [|reflexivity]. cbn [andb].
      apply valid_number_true in V. apply N.ltb_ge. apply Hfl; [exact V|now left]. }
    rewrite Hskip.
    assert (Hadd : add_file d (fill_marks ls' e) =
       mkLoad (d_max d) (d_flushed d) (d_synced d) (d_files d ++ [fill_marks ls' e]) (d_new d)).
    { unfold add_file. apply valid_number_true in Hv. rewrite Hv. cbn [negb orb].
      cbn [fill_marks e_num].
      destruct (N.ltb_spec (d_synced d) (e_num e)) as [H|H]; [|reflexivity].
      specialize (Hs e (or_introl eq_refl)). lia. }
    destruct (IH ls' true (add_file d (fill_marks ls' e))) as (fs & E & F).
    + exact Hc.
    + intros x Hx. apply Hok. now right.
    + rewrite Hadd. cbn [d_flushed]. intros H x Hx. apply Hfl; [exact H|now right].
    + rewrite Hadd. cbn [d_synced]. split; [exact Hv|]. intros x Hx. apply Hs. now right.
    + exists (fill_marks ls' e :: fs). split.
      * assert (Eq : load_files cfg fload es ls' true (add_file d (fill_marks ls' e)) =
                 mkLoad (d_max d) (d_flushed d) (d_synced d) (d_files d ++ fill_marks ls' e :: fs) (d_new d)).
        { rewrite E, Hadd. cbn [d_max d_flushed d_synced d_files d_new].
          rewrite <- app_assoc. reflexivity. }
        destruct (Hok e (or_introl eq_refl)) as [-> | ->]; exact Eq.
      * constructor; [apply fill_marks_same|exact F].
Qed.

Lemma same_marks_id : forall es fs, Forall2 same_marks es fs ->
  Forall (fun e => e_min e <> NIL /\ e_synced e <> NIL) es -> fs = es.
Proof.
  intros es fs H. induction H as [|a b es fs Hab _ IH]; intros HF; [reflexivity|].
  inversion HF as [|? ? [H1 H2] HF']; subst. f_equal; [|now apply IH].
  destruct a, b. destruct Hab as (A & B & C & D). cbn in *. subst.
  now rewrite C, D by assumption.
Qed.

(** *** Storing *)

Lemma first_diff_some : forall a b i, first_diff a b = Some i ->
  firstn i a = firstn i b /\ (i < length a)%nat /\ (i < length b)%nat /\
  nth_error a i <> nth_error b i.
Proof.
  induction a as [|x a IH]; intros b i H; [discriminate|].
  destruct b as [|y b]; [discriminate|]. cbn [first_diff] in H.
  destruct (N.eqb_spec x y) as [->|Hn].
  - destruct (first_diff a b) as [j|] eqn:E; [|discriminate].
    injection H as <-. destruct (IH _ _ E) as (A & B & C & D).
    cbn [firstn length nth_error]. repeat split; [now rewrite A|lia|lia|exact D].
  - injection H as <-. cbn. repeat split; [lia|lia|congruence].
Qed.

Lemma firstn_firstn_min : forall {A} (l : list A) i n, (i <= n)%nat -> firstn i (firstn n l) = firstn i l.
Proof. intros A l i n H. rewrite firstn_firstn. now rewrite Nat.min_l. Qed.

(** The image of a manifest determines the number of files from its first 28 bytes. *)
Lemma encode_prefix_len : forall v w,
  N.of_nat (length (l_files v)) < 2 ^ 32 -> N.of_nat (length (l_files w)) < 2 ^ 32 ->
  firstn 28 (lm_encode v) = firstn 28 (lm_encode w) ->
  length (lm_encode v) = length (lm_encode w).
Proof.
  intros v w Hv Hw H.
  assert (HH : forall m, skipn 24 (firstn 28 (lm_encode m)) = u32 (N.of_nat (length (l_files m)))).
  { intros m. unfold lm_encode, enc_raw.
    replace ((u64 (l_max m) ++ u64 (l_flushed m) ++ u64 (l_synced m) ++
       u32 (N.of_nat (length (l_files m))) ++ flat_map enc_ment (l_files m) ++ LOGMANI_FOOTER ++ u32 LOGMANI_VERSION))
     with (((u64 (l_max m) ++ u64 (l_flushed m) ++ u64 (l_synced m)) ++
       u32 (N.of_nat (length (l_files m)))) ++ (flat_map enc_ment (l_files m) ++ LOGMANI_FOOTER ++ u32 LOGMANI_VERSION))
     by (rewrite <- !app_assoc; reflexivity).
    rewrite <- app_assoc.
    rewrite firstn_app_exact by (rewrite !app_length, !u64_len, u32_len; reflexivity).
    apply skipn_app_exact. rewrite !app_length, !u64_len. reflexivity. }
  assert (E : u32 (N.of_nat (length (l_files v))) = u32 (N.of_nat (length (l_files w)))).
  { rewrite <- !HH. now rewrite H. }
  apply (f_equal get_be) in E. rewrite !u32_get in E by assumption.
  rewrite !lm_encode_length. lia.
Qed.

Definition count_ok (v : lman) : Prop := N.of_nat (length (l_files v)) < 2 ^ 32.

(** The memory copy and the file agree with version [v]. *)
Definition synced_with (st : disk * mcache) (v : lman) : Prop :=
  let (k, mc) := st in
  mc_len mc = length (lm_encode v) /\ firstn (mc_len mc) (mc_data mc) = lm_encode v /\
  df_cur (k_main k) = lm_encode v /\
  (mc_full mc = false -> df_cur (k_bak k) = lm_encode v).

Definition fresh (st : disk * mcache) : Prop := mc_len (snd st) = 0%nat /\ mc_full (snd st) = true.

Lemma diff_pos_ok : forall mc v w, count_ok v -> count_ok w ->
  mc_len mc = length (lm_encode v) -> firstn (mc_len mc) (mc_data mc) = lm_encode v ->
  let fd := diff_pos mc (lm_encode w) in
  (fd < length (lm_encode w))%nat /\ (fd <= length (lm_encode v))%nat /\
  firstn fd (lm_encode v) = firstn fd (lm_encode w).
Proof.
  intros mc v w Hv Hw Hl Hd. unfold diff_pos.
  pose proof (lm_encode_length v) as Lv. pose proof (lm_encode_length w) as Lw.
  destruct (Nat.eqb_spec (mc_len mc) 0) as [H0|_]; [lia|].
  destruct (first_diff (mc_data mc) (lm_encode w)) as [i|] eqn:E.
  2:{ cbn zeta. rewrite !firstn_O. repeat split; lia. }
  destruct (first_diff_some _ _ _ E) as (A & B & C & D). cbn zeta.
  assert (Hi : (i <= length (lm_encode v))%nat).
  { destruct (Nat.le_gt_cases i (length (lm_encode v))) as [H|H]; [exact H|exfalso].
    assert (P : firstn 28 (lm_encode v) = firstn 28 (lm_encode w)).
    { rewrite <- Hd. rewrite firstn_firstn_min by lia.
      rewrite <- (firstn_firstn_min (mc_data mc) 28 i) by lia. rewrite A.
      now rewrite firstn_firstn_min by lia. }
    pose proof (encode_prefix_len v w Hv Hw P). lia. }
  repeat split; [exact C|exact Hi|].
  rewrite <- Hd. rewrite firstn_firstn_min by lia. exact A.
Qed.

Lemma skipn_nonempty : forall {A} (l : list A) n, (n < length l)%nat -> skipn n l <> [].
Proof. intros A l n H E. apply (f_equal (@length A)) in E. rewrite skipn_length in E. cbn in E. lia. Qed.

(** Writing the tail of [new] from a common prefix. *)
Lemma pwrite_tail : forall old new fd, (fd < length new)%nat -> (fd <= length old)%nat ->
  firstn fd old = firstn fd new ->
  pwrite old fd (skipn fd new) = new ++ skipn (length new) old.
Proof.
  intros old new fd H1 H2 H3. unfold pwrite.
  destruct (skipn fd new) as [|b d] eqn:E.
  - exfalso. now apply (skipn_nonempty new fd H1).
  - rewrite <- E. rewrite H3. replace (fd - length old)%nat with 0%nat by lia.
    change (repeat 0 0) with (@nil N). rewrite app_nil_l, app_assoc, firstn_skipn.
    rewrite skipn_length. now replace (fd + (length new - fd))%nat with (length new) by lia.
Qed.

Lemma ftruncate_app : forall a b, ftruncate (a ++ b) (length a) = a.
Proof.
  intros a b. unfold ftruncate. rewrite firstn_app_exact by reflexivity.
  rewrite app_length. replace (length a - (length a + length b))%nat with 0%nat by lia.
  apply app_nil_r.
Qed.

Lemma cache_put_ok : forall g mc buf full,
  mc_len (cache_put g mc buf full) = length buf /\
  firstn (length buf) (mc_data (cache_put g mc buf full)) = buf.
Proof. intros. unfold cache_put. cbn [mc_len mc_data]. split; [reflexivity|]. now apply firstn_app_exact. Qed.

(** The content of the main file after the first part of a store. *)
Definition main_ops (mc : mcache) (buf : list N) : list dop :=
  let fd := diff_pos mc buf in
  (if (fd <? length buf)%nat then [DWrite false fd (skipn fd buf)] else []) ++
  (if ((mc_len mc =? 0) || (length buf <? mc_len mc))%nat then [DTrunc false (length buf)] else []).

Definition bak_ops (mc : mcache) (buf : list N) (oc : outcome) : list dop :=
  let bfd := if mc_full mc then 0%nat else diff_pos mc buf in
  match oc with
  | NoSync => []
  | FsyncFail => []
  | SyncOk =>
      [DSync false] ++
      (if (bfd <? length buf)%nat then [DWrite true bfd (skipn bfd buf)] else []) ++
      [DShrink true (length buf); DSync true]
  | BackupFail x => [DSync false; DJunk true x]
  end.

Lemma store_ops_split : forall mc buf oc, store_ops mc buf oc = main_ops mc buf ++ bak_ops mc buf oc.
Proof. intros. unfold store_ops, main_ops, bak_ops. rewrite <- app_assoc. reflexivity. Qed.

Lemma dexec_app : forall a b k, dexec (a ++ b) k = dexec b (dexec a k).
Proof. intros. unfold dexec. apply fold_left_app. Qed.

(** [ready st]: either fresh or in agreement with some stored version. *)
Definition ready (st : disk * mcache) : Prop :=
  fresh st \/ exists v, count_ok v /\ synced_with st v.

Lemma main_ops_result : forall k mc w, count_ok w -> ready (k, mc) ->
  let k' := dexec (main_ops mc (lm_encode w)) k in
  df_cur (k_main k') = lm_encode w /\ k_bak k' = k_bak k.
Proof.
  intros k mc w Hw Hr. unfold main_ops.
  pose proof (lm_encode_length w) as Lw.
  destruct Hr as [[H0 Hf]|(v & Hv & H1 & H2 & H3 & _)]; cbn [snd] in *.
  - assert (Hd : diff_pos mc (lm_encode w) = 0%nat) by (unfold diff_pos; now rewrite H0).
    rewrite Hd. rewrite H0. change (0 =? 0)%nat with true. cbn [orb].
    destruct (Nat.ltb_spec 0 (length (lm_encode w))); [|lia].
    cbn [app dexec fold_left dstep on_file dirty k_main k_bak df_cur].
    rewrite pwrite_tail; [|lia|lia|reflexivity]. rewrite ftruncate_app. split; reflexivity.
  - destruct (diff_pos_ok mc v w Hv Hw H1 H2) as (A & B & C).
    set (fd := diff_pos mc (lm_encode w)) in *.
    destruct (Nat.ltb_spec fd (length (lm_encode w))); [|lia].
    pose proof (lm_encode_length v) as Lv.
    destruct (Nat.eqb_spec (mc_len mc) 0); [lia|]. cbn [orb].
    destruct (Nat.ltb_spec (length (lm_encode w)) (mc_len mc)) as [Hlt|Hge].
    + cbn [app dexec fold_left dstep on_file dirty k_main k_bak df_cur].
      rewrite H3. rewrite pwrite_tail by (lia || assumption). rewrite ftruncate_app. split; reflexivity.
    + cbn [app dexec fold_left dstep on_file dirty k_main k_bak df_cur].
      rewrite H3. rewrite pwrite_tail by (lia || assumption).
      rewrite skipn_all2 by lia. rewrite app_nil_r. split; reflexivity.
Qed.

Lemma shrink_ok : forall a b, (if (length a <? length (a ++ b))%nat then ftruncate (a ++ b) (length a) else a ++ b) = a.
Proof.
  intros a b. destruct (Nat.ltb_spec (length a) (length (a ++ b))) as [H|H].
  - apply ftruncate_app.
  - rewrite app_length in H. destruct b; [apply app_nil_r|cbn in H; lia].
Qed.

Lemma bak_ops_result : forall k k1 mc w, count_ok w -> ready (k, mc) -> k_bak k1 = k_bak k ->
  let k' := dexec (bak_ops mc (lm_encode w) SyncOk) k1 in
  df_cur (k_main k') = df_cur (k_main k1) /\ df_clean (k_main k') = true /\
  df_cur (k_bak k') = lm_encode w /\ df_clean (k_bak k') = true.
Proof.
  intros k k1 mc w Hw Hr Hb. unfold bak_ops.
  pose proof (lm_encode_length w) as Lw.
  assert (P : let bfd := if mc_full mc then 0%nat else diff_pos mc (lm_encode w) in
    (bfd < length (lm_encode w))%nat /\ (bfd <= length (df_cur (k_bak k1)))%nat /\
    firstn bfd (df_cur (k_bak k1)) = firstn bfd (lm_encode w)).
  { cbn zeta. destruct (mc_full mc) eqn:F.
    - repeat split; lia.
    - destruct Hr as [[_ Hf]|(v & Hv & H1 & H2 & _ & H4)]; cbn [snd] in *; [congruence|].
      rewrite Hb, (H4 F). exact (diff_pos_ok mc v w Hv Hw H1 H2). }
  cbn zeta in P.
  set (bfd := if mc_full mc then 0%nat else diff_pos mc (lm_encode w)) in *. clearbody bfd.
  destruct P as (A & B & C).
  destruct (Nat.ltb_spec bfd (length (lm_encode w))); [|lia].
  cbn [app dexec fold_left dstep on_file dirty k_main k_bak df_cur df_clean].
  rewrite pwrite_tail by assumption. rewrite shrink_ok. repeat split.
Qed.

Lemma store_result : forall g k mc w oc, count_ok w -> ready (k, mc) ->
  let st' := store g (k, mc) (w, oc) in
  synced_with st' w /\
  (oc = SyncOk -> df_cur (k_bak (fst st')) = lm_encode w /\
                  df_clean (k_main (fst st')) = true /\ df_clean (k_bak (fst st')) = true).
Proof.
  intros g k mc w oc Hw Hr. cbn zeta. unfold store. cbn [fst snd].
  rewrite store_ops_split, dexec_app.
  destruct (main_ops_result k mc w Hw Hr) as [M1 M2].
  set (k1 := dexec (main_ops mc (lm_encode w)) k) in *.
  destruct (cache_put_ok g mc (lm_encode w) (negb (is_sync_ok oc))) as [C1 C2].
  unfold store_mem. unfold synced_with. rewrite C1, C2.
  destruct oc; cbn [is_sync_ok negb cache_put mc_full].
  - cbn [bak_ops dexec fold_left fst]. split; [|discriminate].
    repeat split; auto; discriminate.
  - destruct (bak_ops_result k k1 mc w Hw Hr M2) as (B1 & B2 & B3 & B4).
    cbn [fst]. split; [|now repeat split]. repeat split; auto. congruence.
  - cbn [bak_ops dexec fold_left fst]. split; [|discriminate].
    repeat split; auto; discriminate.
  - cbn [bak_ops dexec fold_left dstep on_file dirty k_main k_bak df_cur fst].
    split; [|discriminate]. repeat split; auto; discriminate.
Qed.

Lemma stores_ready : forall g h st, ready st -> Forall (fun vo => count_ok (fst vo)) h ->
  ready (stores g st h).
Proof.
  intros g h. induction h as [|[w oc] h IH]; intros [k mc] Hr HF; [exact Hr|].
  inversion HF as [|? ? Hw HF']; subst. cbn [stores fold_left]. apply IH; [|exact HF'].
  right. exists w. split; [exact Hw|]. now apply (store_result g k mc w oc).
Qed.

Lemma stores_app : forall g st a b, stores g st (a ++ b) = stores g (stores g st a) b.
Proof. intros. unfold stores. apply fold_left_app. Qed.

(** *** Crashes *)

(** The backup is a durable copy of [s]. *)
Definition bak_is (k : disk) (s : lman) : Prop := df_cur (k_bak k) = lm_encode s /\ df_clean (k_bak k) = true.

Lemma on_main_bak : forall os k, Forall (fun o => match o with
   | DWrite b _ _ => b = false | DTrunc b _ => b = false | DShrink b _ => b = false
   | DSync b => b = false | DJunk b _ => b = false end) os -> k_bak (dexec os k) = k_bak k.
Proof.
  induction os as [|o os IH]; intros k H; [reflexivity|].
  inversion H as [|? ? Ho Hos]; subst. cbn [dexec fold_left].
  change (fold_left (fun k o => dstep o k) os (dstep o k)) with (dexec os (dstep o k)).
  rewrite IH by exact Hos. destruct o; subst; reflexivity.
Qed.

Lemma main_ops_main : forall mc buf, Forall (fun o => match o with
   | DWrite b _ _ => b = false | DTrunc b _ => b = false | DShrink b _ => b = false
   | DSync b => b = false | DJunk b _ => b = false end) (main_ops mc buf).
Proof.
  intros. unfold main_ops.
  destruct (diff_pos mc buf <? length buf)%nat, ((mc_len mc =? 0) || (length buf <? mc_len mc))%nat; repeat constructor.
Qed.

Lemma Forall_firstn : forall {A} (P : A -> Prop) l n, Forall P l -> Forall P (firstn n l).
Proof.
  intros A P l. induction l as [|x l IH]; intros n H; [destruct n; constructor|].
  inversion H; subst. destruct n; [constructor|]. cbn [firstn]. constructor; auto.
Qed.

Definition no_backup_fail (oc : outcome) : Prop := forall x, oc <> BackupFail x.

Lemma crash_point : forall k mc w oc n s, count_ok w -> ready (k, mc) -> no_backup_fail oc ->
  bak_is k s ->
  let k' := dexec (firstn n (store_ops mc (lm_encode w) oc)) k in
  (oc = SyncOk /\ df_cur (k_main k') = lm_encode w /\ df_clean (k_main k') = true) \/ bak_is k' s.
Proof.
  intros k mc w oc n s Hw Hr Hnb Hb. rewrite store_ops_split, firstn_app, dexec_app.
  destruct (Nat.le_gt_cases n (length (main_ops mc (lm_encode w)))) as [Hn|Hn].
  - replace (n - length (main_ops mc (lm_encode w)))%nat with 0%nat by lia.
    rewrite firstn_O. cbn zeta. cbn [dexec fold_left]. right.
    unfold bak_is in *. change (fold_left (fun k o => dstep o k) ?x k) with (dexec x k).
    rewrite on_main_bak; [exact Hb|]. apply Forall_firstn, main_ops_main.
  - rewrite (firstn_all2 (main_ops mc (lm_encode w))) by lia.
    destruct (main_ops_result k mc w Hw Hr) as [M1 M2].
    set (k1 := dexec (main_ops mc (lm_encode w)) k) in *.
    set (j := (n - length (main_ops mc (lm_encode w)))%nat). assert (Hj : (0 < j)%nat) by (unfold j; lia).
    cbn zeta. clearbody j. unfold bak_ops.
    destruct oc as [| | |x].
    + rewrite firstn_nil. cbn [dexec fold_left]. right. unfold bak_is. now rewrite M2.
    + left. split; [reflexivity|]. destruct j as [|j]; [lia|]. cbn [app firstn dexec fold_left dstep on_file].
      set (k2 := {| k_main := _; k_bak := _ |}).
      assert (K2 : df_cur (k_main k2) = lm_encode w /\ df_clean (k_main k2) = true) by (split; [exact M1|reflexivity]).
      clearbody k2.
      assert (HH : forall os k3, Forall (fun o => match o with
           | DWrite b _ _ => b = true | DTrunc b _ => b = true | DShrink b _ => b = true
           | DSync b => b = true | DJunk b _ => b = true end) os -> k_main (dexec os k3) = k_main k3).
      { induction os as [|o os IH]; intros k3 H; [reflexivity|].
        inversion H as [|? ? Ho Hos]; subst. cbn [dexec fold_left].
        change (fold_left (fun k o => dstep o k) os (dstep o k3)) with (dexec os (dstep o k3)).
        rewrite IH by exact Hos. destruct o; subst; reflexivity. }
      change (fold_left (fun k o => dstep o k) ?x k2) with (dexec x k2).
      rewrite HH; [exact K2|]. apply Forall_firstn.
      match goal with |- context [if ?c then _ else _] => destruct c end; cbn [app]; repeat constructor.
    + rewrite firstn_nil. cbn [dexec fold_left]. right. unfold bak_is. now rewrite M2.
    + now contradiction (Hnb x).
Qed.

Lemma store_keeps_bak : forall g k mc w oc s, count_ok w -> ready (k, mc) ->
  no_backup_fail oc -> oc <> SyncOk -> bak_is k s -> bak_is (fst (store g (k, mc) (w, oc))) s.
Proof.
  intros g k mc w oc s Hw Hr Hnb Hns Hb. unfold store. cbn [fst snd].
  destruct (crash_point k mc w oc (length (store_ops mc (lm_encode w) oc)) s Hw Hr Hnb Hb) as [[H _]|H];
    [contradiction|]. now rewrite firstn_all in H.
Qed.

Lemma stores_keep_bak : forall g h st s, ready st -> bak_is (fst st) s ->
  Forall (fun vo => count_ok (fst vo) /\ no_backup_fail (snd vo) /\ snd vo <> SyncOk) h ->
  ready (stores g st h) /\ bak_is (fst (stores g st h)) s.
Proof.
  intros g h. induction h as [|[w oc] h IH]; intros [k mc] s Hr Hb HF; [now split|].
  inversion HF as [|? ? (Hw & Hnb & Hns) HF']; subst. cbn [fst snd] in *.
  cbn [stores fold_left]. apply IH; [|now apply store_keeps_bak|exact HF'].
  right. exists w. split; [exact Hw|]. now apply (store_result g k mc w oc).
Qed.

Lemma crash_theorem : forall g k0 buf0 h1 s h2 w oc n,
  let st0 := (k0, mc_fresh buf0) in
  Forall (fun vo => count_ok (fst vo)) h1 -> count_ok s ->
  Forall (fun vo => count_ok (fst vo) /\ no_backup_fail (snd vo) /\ snd vo <> SyncOk) h2 ->
  count_ok w -> no_backup_fail oc ->
  let st := stores g st0 (h1 ++ (s, SyncOk) :: h2) in
  let k' := dexec (firstn n (store_ops (snd st) (lm_encode w) oc)) (fst st) in
  (oc = SyncOk /\ df_cur (k_main k') = lm_encode w /\ df_clean (k_main k') = true) \/ bak_is k' s.
Proof.
  intros g k0 buf0 h1 s h2 w oc n st0 H1 Hs H2 Hw Hoc st.
  assert (Hr0 : ready st0) by (left; split; reflexivity).
  assert (E : st = stores g (store g (stores g st0 h1) (s, SyncOk)) h2).
  { unfold st. rewrite stores_app. reflexivity. }
  pose proof (stores_ready g h1 st0 Hr0 H1) as Hr1.
  destruct (stores g st0 h1) as [k1 mc1].
  destruct (store_result g k1 mc1 s SyncOk Hs Hr1) as [Q1 Q2].
  destruct (Q2 eq_refl) as (B1 & B2 & B3).
  destruct (stores_keep_bak g h2 (store g (k1, mc1) (s, SyncOk)) s) as [R1 R2].
  - right. now exists s.
  - now split.
  - exact H2.
  - rewrite <- E in *. destruct st as [k mc]. now apply crash_point.
Qed.
