(** C01, C02, C03, C05, C06, C07, C41, C43, C84: the log file. *)
From Verif Require Import Base Crc32Model Crc32Spec LogFormatModel LogWriterModel LogSpec
  LogFormatProofs LogWriterProofs LogDamageProofs LogDamage2Proofs.
From Coq Require Import Sorting.Sorted.
Local Open Scope N_scope.

(** ** C01. A file holding any sequence of records and markers reads back as exactly that
    sequence, whatever the compression callbacks do (as long as decompression inverts
    compression). *)
Theorem C01_log_round_trip : forall comp decomp es, Forall (wf_entry comp decomp) es ->
  load_file decomp (log_file_bytes comp es) = (es, L_OK).
Proof. exact load_file_enc. Qed.
Print Assumptions C01_log_round_trip.

(** Padding (written for direct I/O alignment) and anything after it is ignored. *)
Theorem C01_padding_ignored : forall comp decomp es pad, Forall (wf_entry comp decomp) es ->
  load_file decomp (log_file_bytes comp es ++ u64 PADDING_HEADER_FLAG ++ pad) = (es, L_OK).
Proof. exact load_file_padding. Qed.
Print Assumptions C01_padding_ignored.

(** ** C02. Cutting the file at any byte: the complete entries before the cut are
    recovered, no others, and the status never says the data is corrupt. *)
Theorem C02_truncated_log : forall comp decomp es n, Forall (wf_entry comp decomp) es ->
  (n <= length (log_file_bytes comp es))%nat ->
  exists k, (k <= length es)%nat /\
    fst (load_file decomp (firstn n (log_file_bytes comp es))) = firstn k es /\
    ((k = 0)%nat \/ (length (log_file_bytes comp (firstn k es)) <= n)%nat) /\
    (forall k', (k < k' <= length es)%nat -> (n < length (log_file_bytes comp (firstn k' es)))%nat) /\
    (snd (load_file decomp (firstn n (log_file_bytes comp es))) = L_OK \/
     snd (load_file decomp (firstn n (log_file_bytes comp es))) = L_INCOMPLETE \/
     (n = 0%nat /\ snd (load_file decomp (firstn n (log_file_bytes comp es))) = L_FILE_NOT_EXIST)).
Proof. exact load_file_trunc. Qed.
Print Assumptions C02_truncated_log.

(** Reading terminates on every byte string (no fuel exhaustion). *)
Theorem C02_load_terminates : forall decomp f, snd (load_file decomp f) <> L_FUEL.
Proof. exact load_file_terminates. Qed.
Print Assumptions C02_load_terminates.

(** ** C03 (loader part). Zero bytes after the last entry: the loader keeps the entries, but
    reports a checksum error from 36 zero bytes on; see C03_zero_tail_refuted in
    LogManifestProps.v for what the database does with that status. *)
Theorem C03_zero_tail_loader : forall comp decomp es k, Forall (wf_entry comp decomp) es ->
  load_file decomp (log_file_bytes comp es ++ repeat 0 k) =
  (es, if (k =? 0)%nat then L_OK else if (k <? 36)%nat then L_INCOMPLETE else L_CHECKSUM).
Proof. exact zero_tail. Qed.
Print Assumptions C03_zero_tail_loader.

(** ** C05. A burst of at most 32 damaged bits inside the length header, or inside the
    key/meta/value bytes, and any damage of either checksum field, is detected: the record
    is not returned and the status is an error.  (The 8 flag bytes: C43.  Damage across the
    border of two fields: C84.) *)
Theorem C05_damaged_lengths : forall comp decomp es1 r lens' rest,
  Forall (wf_entry comp decomp) es1 -> wf_rec r -> is_bytes lens' -> burst32 (f_lens comp r) lens' ->
  load_file decomp (log_file_bytes comp es1 ++
     f_flags comp r ++ f_lencrc comp r ++ lens' ++ f_bodycrc comp r ++ f_body comp r ++ rest) = (es1, L_CHECKSUM).
Proof. exact damaged_lengths. Qed.
Print Assumptions C05_damaged_lengths.

Theorem C05_damaged_length_checksum : forall comp decomp es1 r c' rest,
  Forall (wf_entry comp decomp) es1 -> wf_rec r -> is_bytes c' -> length c' = 4%nat -> c' <> f_lencrc comp r ->
  load_file decomp (log_file_bytes comp es1 ++
     f_flags comp r ++ c' ++ f_lens comp r ++ f_bodycrc comp r ++ f_body comp r ++ rest) = (es1, L_CHECKSUM).
Proof. exact damaged_length_checksum. Qed.
Print Assumptions C05_damaged_length_checksum.

Theorem C05_damaged_body : forall comp decomp es1 r body' rest,
  Forall (wf_entry comp decomp) es1 -> wf_rec r -> comp_ok comp decomp r ->
  is_bytes body' -> burst32 (f_body comp r) body' ->
  let res := load_file decomp (log_file_bytes comp es1 ++
     f_flags comp r ++ f_lencrc comp r ++ f_lens comp r ++ f_bodycrc comp r ++ body' ++ rest) in
  fst res = es1 /\ (snd res = L_CHECKSUM \/ snd res = L_DECOMP_FAILED).
Proof. exact damaged_body. Qed.
Print Assumptions C05_damaged_body.

Theorem C05_damaged_body_checksum : forall comp decomp es1 r c' rest,
  Forall (wf_entry comp decomp) es1 -> wf_rec r -> comp_ok comp decomp r ->
  is_bytes c' -> length c' = 4%nat -> c' <> f_bodycrc comp r ->
  let res := load_file decomp (log_file_bytes comp es1 ++
     f_flags comp r ++ f_lencrc comp r ++ f_lens comp r ++ c' ++ f_body comp r ++ rest) in
  fst res = es1 /\ (snd res = L_CHECKSUM \/ snd res = L_DECOMP_FAILED).
Proof. exact damaged_body_checksum. Qed.
Print Assumptions C05_damaged_body_checksum.

(** The five parts are the whole record. *)
Theorem C05_record_parts : forall comp r,
  enc_rec comp r = f_flags comp r ++ f_lencrc comp r ++ f_lens comp r ++ f_bodycrc comp r ++ f_body comp r.
Proof. exact enc_rec_parts. Qed.
Print Assumptions C05_record_parts.

Definition nocomp : rec -> option (list N) := fun _ => None.

(** Boolean version of [wf_rec], and of [rec_ok] without compression, for the examples. *)
Definition wf_recb (r : rec) : bool :=
  (r_seq r <? 2 ^ 64) && (r_type r <=? 2) &&
  forallb (fun b => b <? 256) (r_key r) && forallb (fun b => b <? 256) (r_meta r) &&
  forallb (fun b => b <? 256) (r_val r) &&
  (blen (r_key r) <? 2 ^ 32) && (blen (r_meta r) <? 2 ^ 32) && (blen (r_val r) <? 2 ^ 32).

Lemma forallb_is_bytes : forall l, forallb (fun b => b <? 256) l = true -> is_bytes l.
Proof.
  intros l H. rewrite forallb_forall in H. apply Forall_forall. intros x Hx. apply N.ltb_lt. now apply H.
Qed.

Lemma wf_recb_ok : forall r, wf_recb r = true -> wf_rec r.
Proof.
  intros r H. unfold wf_recb in H. repeat (apply andb_true_iff in H as [H ?]).
  repeat match goal with X : forallb _ _ = true |- _ => apply forallb_is_bytes in X end.
  repeat match goal with X : (_ <? _) = true |- _ => apply N.ltb_lt in X end.
  match goal with X : (_ <=? _) = true |- _ => apply N.leb_le in X end.
  unfold wf_rec, INS, DEL, CMD. repeat split; try assumption. lia.
Qed.

Lemma ex_rec_ok : forall page r, wf_recb r = true -> (r_seq r <? NIL) = true -> (16 <=? page) = true ->
  rec_ok nocomp None page r.
Proof.
  intros page r H1 H2 H3. apply N.ltb_lt in H2. apply N.leb_le in H3.
  assert (HN : compressed nocomp r = None) by (unfold compressed, nocomp; destruct (_ =? _); reflexivity).
  split; [now apply wf_recb_ok|]. split; [exact H2|]. split.
  - intros c Hc. congruence.
  - unfold comp_fits, value_ref. rewrite HN. lia.
Qed.

(** ** C43. The flags are covered by no checksum: flipping one bit of the stored type turns
    an insertion into a deletion and the file loads with status OK. *)
Theorem C43_flag_damage_refuted : exists r r' flags',
  wf_rec r /\ burst32 (f_flags nocomp r) flags' /\
  load_file None (log_file_bytes nocomp [] ++ flags' ++ f_lencrc nocomp r ++ f_lens nocomp r ++ f_bodycrc nocomp r ++ f_body nocomp r)
  = ([ERec r'], L_OK) /\ r_type r = INS /\ r_type r' = DEL.
Proof.
  exists (mkRec 7 INS [107] [] [118]), (mkRec 7 DEL [107] [] [118]), (u64 1).
  split; [apply wf_recb_ok; reflexivity|].
  split; [|split; [vm_compute; reflexivity|split; reflexivity]].
  exists 56%nat, [true], 7%nat. split; [vm_compute; reflexivity|]. split; [reflexivity|]. split; [cbn; lia|discriminate].
Qed.
Print Assumptions C43_flag_damage_refuted.

(** What does hold.  A damaged flag word that starts with none of the four known bytes is reported,
    whatever follows, and the entries before it are returned. *)
Theorem C43_unknown_flags_partial : forall comp decomp es1 fl l, Forall (wf_entry comp decomp) es1 -> fl < 2 ^ 64 ->
  ~ In (N.shiftr fl 56) [0; 1; 2; 254] -> load_file decomp (log_file_bytes comp es1 ++ u64 fl ++ l) = (es1, L_UNKNOWN_FLAG).
Proof. exact damaged_flags_unknown. Qed.
Print Assumptions C43_unknown_flags_partial.

(** A damaged flag word that still says "record" and keeps the compression bit changes the type of
    that record and nothing else: number, key, metadata, value and all other entries are as written. *)
Theorem C43_only_type_partial : forall comp decomp es1 r fl es2, Forall (wf_entry comp decomp) es1 -> wf_rec r -> comp_ok comp decomp r ->
  Forall (wf_entry comp decomp) es2 -> fl < 2 ^ 64 -> N.shiftr fl 56 = 0 -> N.testbit fl 4 = N.testbit (stored_flags comp r) 4 ->
  load_file decomp (log_file_bytes comp es1 ++ u64 fl ++ f_lencrc comp r ++ f_lens comp r ++ f_bodycrc comp r ++ f_body comp r ++ enc_entries comp es2) =
  (es1 ++ ERec (mkRec (r_seq r) (N.land fl 15) (r_key r) (r_meta r) (r_val r)) :: es2, L_OK).
Proof. exact damaged_flags_type. Qed.
Print Assumptions C43_only_type_partial.

Example C43_case : let r := mkRec 7 INS [107] [] [118] in let r2 := mkRec 8 DEL [1] [2] [] in
  Forall (wf_entry nocomp None) [ERec r2] /\ wf_rec r /\ N.shiftr 33 56 = 0 /\ N.testbit 33 4 = N.testbit (stored_flags nocomp r) 4 /\
  ~ In (N.shiftr (2 ^ 60) 56) [0; 1; 2; 254] /\
  load_file None (log_file_bytes nocomp [ERec r2] ++ u64 33 ++ f_lencrc nocomp r ++ f_lens nocomp r ++ f_bodycrc nocomp r ++ f_body nocomp r ++ enc_entries nocomp [ERec r2])
  = ([ERec r2; ERec (mkRec 7 DEL [107] [] [118]); ERec r2], L_OK).
Proof.
  cbv zeta. split.
  { constructor; [|constructor]. split; [apply wf_recb_ok; reflexivity|]. intros c Hc. discriminate Hc. }
  split; [apply wf_recb_ok; reflexivity|]. split; [reflexivity|]. split; [reflexivity|]. split; [|vm_compute; reflexivity].
  intros [H|[H|[H|[H|H]]]]; discriminate H || destruct H.
Qed.

(** ** C84. Damage across the border of two fields.  From the lengths into the body checksum it is
    detected ... *)
Theorem C84_lengths_onward_partial : forall comp decomp es1 r x rest, Forall (wf_entry comp decomp) es1 -> wf_rec r -> comp_ok comp decomp r ->
  is_bytes x -> burst32 (f_lens comp r ++ f_bodycrc comp r) x ->
  let res := load_file decomp (log_file_bytes comp es1 ++ f_flags comp r ++ f_lencrc comp r ++ x ++ f_body comp r ++ rest) in
  fst res = es1 /\ (snd res = L_CHECKSUM \/ snd res = L_DECOMP_FAILED).
Proof. exact damaged_lengths_onward. Qed.
Print Assumptions C84_lengths_onward_partial.

(** ... but not from the body checksum into the body, although all damage lies in 32 consecutive
    bits: the two last bytes of the checksum and the two first bytes of the body change, and the
    record is read without an error under another key and with another value. *)
Theorem C84_checksum_border_refuted : exists r r' x, wf_rec r /\ is_bytes x /\ burst32 (f_bodycrc nocomp r ++ f_body nocomp r) x /\
  load_file None (log_file_bytes nocomp [] ++ f_flags nocomp r ++ f_lencrc nocomp r ++ f_lens nocomp r ++ x) = ([ERec r'], L_OK) /\
  r_key r' <> r_key r /\ r_val r' <> r_val r.
Proof.
  set (r := mkRec 7 INS [107] [] [118; 49]).
  set (o := f_bodycrc nocomp r ++ f_body nocomp r).
  set (x := map (fun p => N.lxor (fst p) (snd p)) (combine o [0; 0; 81; 222; 49; 58; 0])).
  exists r, (mkRec 7 INS [90] [] [76; 49]), x.
  split; [apply wf_recb_ok; reflexivity|]. split; [apply forallb_is_bytes; vm_compute; reflexivity|].
  split; [|split; [vm_compute; reflexivity|split; discriminate]].
  exists 16%nat, (bits_of [81; 222; 49; 58]), 8%nat. split; [vm_compute; reflexivity|]. split; [reflexivity|]. split; [cbn; lia|discriminate].
Qed.
Print Assumptions C84_checksum_border_refuted.

Example C84_case : let r := mkRec 7 INS [107] [] [118; 49] in exists x, is_bytes x /\ burst32 (f_lens nocomp r ++ f_bodycrc nocomp r) x.
Proof.
  cbv zeta. set (r := mkRec 7 INS [107] [] [118; 49]). set (o := f_lens nocomp r ++ f_bodycrc nocomp r).
  exists (map (fun p => N.lxor (fst p) (snd p)) (combine o (repeat 0 18 ++ [1; 2; 3; 4] ++ [0; 0]))). split; [apply forallb_is_bytes; vm_compute; reflexivity|].
  exists 144%nat, (bits_of [1; 2; 3; 4]), 16%nat. split; [vm_compute; reflexivity|]. split; [reflexivity|]. split; [cbn; lia|discriminate].
Qed.

(** ** C06. However the page buffer splits the stream, the bytes that reach the file are the
    concatenation of the records and their checkpoint markers, and the buffer is never
    overrun (the run is not [None]). *)
Theorem C06_page_buffering : forall comp page chks rs file,
  40 <= page -> NoDup chks -> Forall wf_rec rs -> Forall (comp_fits comp page) rs ->
  exists w, write_recs comp page chks (mkW file []) rs = Some w /\
    w_file w ++ w_buf w = file ++ enc_entries comp (entries_for chks rs).
Proof. exact write_recs_fresh. Qed.
Print Assumptions C06_page_buffering.

(** ** C07. Calls made one after the other, checkpoints included: everything acknowledged by
    sync or checkpoint reads back, with the right checkpoint numbers. *)
Theorem C07_sequential_partial : forall comp decomp page ops, 40 <= page ->
  Forall (rec_ok comp decomp page) (sets_of ops) -> StronglySorted seq_lt (sets_of ops) ->
  exists f es, api_run comp page lf_create ops = Some f /\
    load_file decomp (lf_bytes f) = (es, L_OK) /\
    recs_of es = d_dur (drun ops) /\ chks_of es = d_chk (drun ops).
Proof. exact api_run_durable. Qed.
Print Assumptions C07_sequential_partial.

(** Interleaved steps, as long as no sync finds a checkpoint at the last synced record
    together with newer unsynced records. *)
Theorem C07_interleaved_partial : forall comp decomp page os, 40 <= page ->
  Forall (rec_ok comp decomp page) (appends_of os) -> StronglySorted seq_lt (appends_of os) ->
  guarded comp page lf_create os ->
  exists f es, lrun comp page lf_create os = Some f /\
    load_file decomp (lf_bytes f) = (es, L_OK) /\
    recs_of es = filter (fun r => valid_number (lf_synced f) && (r_seq r <=? lf_synced f)) (appends_of os).
Proof. exact guarded_durable. Qed.
Print Assumptions C07_interleaved_partial.

(** Without that guard the claim is false: a writer that appends between the marking step
    and the sync step of a checkpoint gets its synced record torn by the marker. *)
Theorem C07_checkpoint_race_refuted : exists page os f es,
  40 <= page /\ Forall (rec_ok nocomp None page) (appends_of os) /\ StronglySorted seq_lt (appends_of os) /\
  lrun nocomp page lf_create os = Some f /\
  lf_synced f = 2 /\ (exists r, In r (appends_of os) /\ r_seq r = 2) /\
  load_file None (lf_bytes f) = (es, L_CHECKSUM) /\ ~ exists r, In r (recs_of es) /\ r_seq r = 2.
Proof.
  set (r1 := mkRec 1 INS [97] [] [118]).
  set (r2 := mkRec 2 INS [98] [] (repeat 7 50)).
  exists 64, [LAppend r1; LSync; LMark; LAppend r2; LSync].
  eexists. eexists.
  split; [discriminate|].
  split.
  { cbn [appends_of flat_map app]. constructor; [|constructor; [|constructor]].
    - apply ex_rec_ok; vm_compute; reflexivity.
    - apply ex_rec_ok; vm_compute; reflexivity. }
  split; [repeat constructor|].
  split; [vm_compute; reflexivity|].
  split; [reflexivity|].
  split; [exists r2; split; [right; left; reflexivity|reflexivity]|].
  split; [vm_compute; reflexivity|].
  intros (r & [Hr|[]] & Hq). subst r. discriminate.
Qed.
Print Assumptions C07_checkpoint_race_refuted.

(** ** C41 (one log file). Calls [ops1] complete; later calls [ops2] run; a crash keeps some
    prefix of the file at least as long as what [ops1] left there.  Everything acknowledged
    in [ops1] is read back, in order, and nothing is read that was not set. *)
Theorem C41_crash_keeps_synced_partial : forall comp decomp page ops1 ops2 n, 40 <= page ->
  Forall (rec_ok comp decomp page) (sets_of (ops1 ++ ops2)) -> StronglySorted seq_lt (sets_of (ops1 ++ ops2)) ->
  exists f1 f2, api_run comp page lf_create ops1 = Some f1 /\
    api_run comp page lf_create (ops1 ++ ops2) = Some f2 /\
    ((length (lf_bytes f1) <= n <= length (lf_bytes f2))%nat ->
     let res := load_file decomp (firstn n (lf_bytes f2)) in
     (snd res = L_OK \/ snd res = L_INCOMPLETE) /\
     (exists more, recs_of (fst res) = d_dur (drun ops1) ++ more) /\
     (exists j, recs_of (fst res) = firstn j (sets_of (ops1 ++ ops2))) /\
     (exists more, chks_of (fst res) = d_chk (drun ops1) ++ more) /\
     (exists j, chks_of (fst res) = firstn j (d_chk (drun (ops1 ++ ops2))))).
Proof. exact api_run_crash. Qed.
Print Assumptions C41_crash_keeps_synced_partial.

(** *** Concrete cases that meet the hypotheses. *)

(** A compressor that drops the last byte of values ending in 0, and its inverse. *)
Definition toy_comp (r : rec) : option (list N) :=
  match rev (r_val r) with 0 :: (x :: t) => Some (rev (x :: t)) | _ => None end.
Definition toy_decomp : option (list N -> list N) := Some (fun c => c ++ [0]).

Definition ex_recs : list rec :=
  [mkRec 5 INS [1; 2] [9] [7; 8; 0]; mkRec 6 DEL [1; 2] [] []; mkRec 9 CMD [3] [] [255]].

Definition ex_entries : list entry :=
  [ERec (nth 0 ex_recs (mkRec 0 0 [] [] [])); EChk 5; ERec (nth 1 ex_recs (mkRec 0 0 [] [] []));
   EFlush NIL; ERec (nth 2 ex_recs (mkRec 0 0 [] [] []))].

Definition comp_okb (comp : rec -> option (list N)) (decomp : option (list N -> list N)) (r : rec) : bool :=
  match compressed comp r with
  | None => true
  | Some c => forallb (fun b => b <? 256) c && (blen c <? 2 ^ 32) &&
      match decomp with Some d => if list_eq_dec N.eq_dec (d c) (r_val r) then true else false | None => false end
  end.

Lemma comp_okb_ok : forall comp decomp r, comp_okb comp decomp r = true -> comp_ok comp decomp r.
Proof.
  intros comp decomp r H c Hc. unfold comp_okb in H. rewrite Hc in H.
  apply andb_true_iff in H as [H H3]. apply andb_true_iff in H as [H1 H2].
  split; [now apply forallb_is_bytes|]. split; [now apply N.ltb_lt|].
  destruct decomp as [d|]; [|discriminate]. exists d. split; [reflexivity|].
  destruct (list_eq_dec _ _ _); [assumption|discriminate].
Qed.

Definition wf_entryb (comp : rec -> option (list N)) (decomp : option (list N -> list N)) (e : entry) : bool :=
  match e with
  | ERec r => wf_recb r && comp_okb comp decomp r
  | EFlush s | EChk s => s <? 2 ^ 64
  end.

Lemma wf_entryb_ok : forall comp decomp es, forallb (wf_entryb comp decomp) es = true -> Forall (wf_entry comp decomp) es.
Proof.
  intros comp decomp es H. rewrite forallb_forall in H. apply Forall_forall. intros e He. specialize (H e He).
  destruct e as [r|s|s]; cbn [wf_entryb wf_entry] in *.
  - apply andb_true_iff in H as [H1 H2]. split; [now apply wf_recb_ok|now apply comp_okb_ok].
  - now apply N.ltb_lt.
  - now apply N.ltb_lt.
Qed.

Example ex_entries_wf : Forall (wf_entry toy_comp toy_decomp) ex_entries /\
  compressed toy_comp (nth 0 ex_recs (mkRec 0 0 [] [] [])) = Some [7; 8].
Proof. split; [apply wf_entryb_ok; vm_compute; reflexivity|reflexivity]. Qed.

Example ex_round_trip :
  load_file toy_decomp (log_file_bytes toy_comp ex_entries) = (ex_entries, L_OK) /\
  length (log_file_bytes toy_comp ex_entries) = 165%nat /\
  load_file toy_decomp (firstn 100 (log_file_bytes toy_comp ex_entries)) = (firstn 2 ex_entries, L_INCOMPLETE).
Proof. vm_compute. repeat split; reflexivity. Qed.

Definition ex_ops : list apiop :=
  [ASet (nth 0 ex_recs (mkRec 0 0 [] [] [])); ACheckpoint; ACheckpoint;
   ASet (nth 1 ex_recs (mkRec 0 0 [] [] [])); ASync; ASet (nth 2 ex_recs (mkRec 0 0 [] [] []))].

Example ex_ops_ok : Forall (rec_ok toy_comp toy_decomp 40) (sets_of ex_ops) /\
  StronglySorted seq_lt (sets_of ex_ops) /\
  d_dur (drun ex_ops) = firstn 2 ex_recs /\ d_chk (drun ex_ops) = [5].
Proof.
  split; [|split; [repeat constructor|split; reflexivity]].
  apply Forall_forall. intros r Hr.
  assert (HB : forallb (fun r => wf_recb r && (r_seq r <? NIL) && comp_okb toy_comp toy_decomp r &&
     (blen (value_ref toy_comp r) + 16 <=? blen (r_val r) + 40)) (sets_of ex_ops) = true) by (vm_compute; reflexivity).
  rewrite forallb_forall in HB. specialize (HB r Hr).
  apply andb_true_iff in HB as [HB H4]. apply andb_true_iff in HB as [HB H3]. apply andb_true_iff in HB as [H1 H2].
  split; [now apply wf_recb_ok|]. split; [now apply N.ltb_lt|]. split; [now apply comp_okb_ok|now apply N.leb_le].
Qed.

Example ex_ops_run :
  match api_run toy_comp 40 lf_create ex_ops with
  | Some f => recs_of (fst (load_file toy_decomp (lf_bytes f))) = firstn 2 ex_recs
  | None => False
  end.
Proof. vm_compute. reflexivity. Qed.

Example ex_burst_in_body : burst32 (f_body nocomp (mkRec 1 INS [1] [] [2])) [1; 3].
Proof. exists 8%nat, [true], 7%nat. split; [reflexivity|]. split; [reflexivity|]. split; [cbn; lia|discriminate]. Qed.

Example ex_guarded : guarded nocomp 64 lf_create
  [LAppend (mkRec 1 INS [1] [] [2]); LMark; LAppend (mkRec 2 INS [1] [] [3]); LSync].
Proof.
  cbn [guarded]. split; [discriminate|]. intros f1 E1. injection E1 as <-.
  split; [discriminate|]. intros f2 E2. injection E2 as <-.
  split; [discriminate|]. intros f3 E3. injection E3 as <-.
  split; [|trivial]. intros _ H. vm_compute in H. discriminate.
Qed.
