(** Properties C03 (refutation), C08, C09, C10, C44, C45: the log manifest. *)
From Verif Require Import Base Crc32Model FileModel LogFormatModel LogWriterModel LogSpec
  LogFormatProofs LogManifestModel LogManifestProofs LogManifest2Proofs.
Local Open Scope N_scope.

(** ** C08: round trip *)

(** Every counter, every list of files and every 64-bit mark is read back exactly. *)
Theorem C08_parse_round_trip : forall m, wf_lman m -> lm_parse (lm_encode m) = inl m.
Proof. exact parse_encode. Qed.

(** The whole of loading (default mode; every listed log file can be opened): the same
    counters and the same files; marks that were set are unchanged.  The hypotheses on the
    counters say that no listed file lies below the last flushed one or above the last synced
    one.  A mark that was never set (NIL) may be filled in from the preceding file. *)
Theorem C08_load_round_trip : forall cfg fload m,
  wf_lman m ->
  c_section_only cfg && c_truncate_inconsecutive cfg = false ->
  (forall e, In e (l_files m) -> fload (e_num e) = F_OK \/ fload (e_num e) = F_OTHER) ->
  (l_flushed m <> NIL -> forall e, In e (l_files m) -> l_flushed m <= e_num e) ->
  (l_synced m <> NIL /\ forall e, In e (l_files m) -> e_num e <= l_synced m) ->
  exists fs, lm_load cfg fload (lm_encode m) =
               inl (mkLoad (l_max m) (l_flushed m) (l_synced m) fs None) /\
             Forall2 same_marks (l_files m) fs /\
             (Forall (fun e => e_min e <> NIL /\ e_synced e <> NIL) (l_files m) -> fs = l_files m).
Proof.
  intros cfg fload m Hw Hc Hok Hf Hs. unfold lm_load. rewrite parse_encode by exact Hw.
  destruct (load_files_ok cfg fload (l_files m) NIL false
     (mkLoad (l_max m) (l_flushed m) (l_synced m) [] None) Hc Hok Hf Hs) as (fs & E & F).
  exists fs. rewrite E. split; [reflexivity|]. split; [exact F|]. now apply same_marks_id.
Qed.

Definition ex_m0 : lman := mkLman 7 3 7 [mkMent 3 1 50 90; mkMent 5 91 NIL 120; mkMent 7 121 NIL 2000000].
Definition ex_cfg : lcfg := {| c_section_only := false; c_truncate_inconsecutive := true |}.

Example ex_m0_wf : wf_lman ex_m0.
Proof. unfold wf_lman, ex_m0; cbn. repeat split; try reflexivity. repeat constructor. Qed.

Example ex_m0_load : lm_load ex_cfg (fun _ => F_OK) (lm_encode ex_m0) =
  inl (mkLoad 7 3 7 (l_files ex_m0) None) /\ length (lm_encode ex_m0) = 140%nat.
Proof. vm_compute. split; reflexivity. Qed.

(** The complete description of loading is [load_files]; a log file that cannot be read
    because of a checksum error ends the list there: everything after it is dropped. *)

(** ** C03: a zero-filled tail (refutation)

    One log file, number 0, holding one synced record; after a power loss the file is extended
    by 36 zero bytes.  Loading the manifest gives up on the file and creates a new, empty log
    file under the same number. *)
Theorem C03_zero_tail_refuted :
  exists (m : lman) (r : rec) (file : list N),
    wf_lman m /\
    (* the synced content of log file 0 is exactly the record [r] *)
    fst (load_file None file) = [ERec r] /\ snd (load_file None file) = L_OK /\
    (forall e, In e (l_files m) -> e_num e = 0 /\ e_min e = r_seq r /\ e_synced e = r_seq r) /\
    (* with a zero tail, loading replaces it by a newly created file *)
    exists d, lm_load ex_cfg (fload_of None (fun n => if n =? 0 then Some (file ++ repeat 0 36) else None))
                (lm_encode m) = inl d /\ d_new d = Some 0.
Proof.
  exists (mkLman 0 NIL 0 [mkMent 0 1 NIL 1]), (mkRec 1 INS [107] [] [118]),
    (log_file_bytes (fun _ => None) [ERec (mkRec 1 INS [107] [] [118])]).
  split.
  { unfold wf_lman; cbn. repeat split; try reflexivity. repeat constructor. }
  split; [vm_compute; reflexivity|]. split; [vm_compute; reflexivity|]. split.
  { intros e [<-|[]]. repeat split; reflexivity. }
  eexists. split; [vm_compute; reflexivity|reflexivity].
Qed.

(** ** C09: incremental update = full rewrite

    Whatever was on disk, whatever the cache buffer contained, and for every sequence of
    versions and every mixture of synchronous, asynchronous and partly failing stores: the
    file is byte for byte the encoding of the last version; after a successful synchronous
    store the backup is too, and both are on stable storage. *)
Theorem C09_incremental_is_full : forall garbage k0 buf0 h v oc,
  Forall (fun vo => N.of_nat (length (l_files (fst vo))) < 2 ^ 32) h ->
  N.of_nat (length (l_files v)) < 2 ^ 32 ->
  let k := fst (stores garbage (k0, mc_fresh buf0) (h ++ [(v, oc)])) in
  df_cur (k_main k) = lm_encode v /\
  (oc = SyncOk -> df_cur (k_bak k) = lm_encode v /\
                  df_clean (k_main k) = true /\ df_clean (k_bak k) = true).
Proof.
  intros g k0 buf0 h v oc Hh Hv.
  rewrite stores_app. cbn [stores fold_left].
  assert (Hr : ready (stores g (k0, mc_fresh buf0) h))
    by (apply stores_ready; [left; split; reflexivity|exact Hh]).
  change (fold_left (store g) h (k0, mc_fresh buf0)) with (stores g (k0, mc_fresh buf0) h).
  destruct (stores g (k0, mc_fresh buf0) h) as [k mc].
  destruct (store_result g k mc v oc Hv Hr) as [S1 S2].
  destruct (store g (k, mc) (v, oc)) as [k' mc']. destruct S1 as (_ & _ & S & _). now split.
Qed.

Definition ex_m1 : lman := mkLman 7 3 7 [mkMent 3 1 50 90; mkMent 5 91 NIL 120; mkMent 7 121 NIL 2000001].
Definition ex_m2 : lman := mkLman 7 5 7 [mkMent 5 91 110 120; mkMent 7 121 NIL 2000001].
Definition empty_file : dfile := mkDf [] [] true.
Definition no_files : disk := mkDisk empty_file empty_file.
Definition ex_garbage (n : nat) : list N := repeat 170 n.

(** The second store writes only the last 17 bytes. *)
Example ex_incremental :
  let st := stores ex_garbage (no_files, mc_fresh (repeat 0 64)) [(ex_m0, SyncOk)] in
  diff_pos (snd st) (lm_encode ex_m1) = 123%nat /\
  df_cur (k_main (fst (stores ex_garbage st [(ex_m1, NoSync); (ex_m2, NoSync)]))) = lm_encode ex_m2.
Proof. vm_compute. split; reflexivity. Qed.

(** ** C44: a failed update followed by a successful one (refutation)

    A store whose write fails after one byte leaves that byte in the file but not in the
    cached copy; the next store, which succeeds, does not rewrite it.  The manifest file is
    then unreadable although the last store reported success; and if the machine stops while
    that store is writing the backup, no readable manifest is left. *)
Theorem C44_failed_store_refuted :
  exists v0 v1 v2 n, wf_lman v0 /\ wf_lman v1 /\ wf_lman v2 /\
    let st1 := stores ex_garbage (no_files, mc_fresh (repeat 0 64)) [(v0, SyncOk)] in
    let st2 := store_failed st1 v1 n in
    let st3 := store ex_garbage st2 (v2, SyncOk) in
    lm_parse (df_cur (k_main (fst st3))) = inr M_CHECKSUM_ERROR /\
    (* a crash in the middle of writing the backup *)
    let k4 := dexec (firstn 3 (store_ops (snd st2) (lm_encode v2) SyncOk)) (fst st2) in
    df_clean (k_main k4) = true /\ df_clean (k_bak k4) = false /\
    exists c, lm_recover (df_cur (k_main k4))
                         (firstn c (df_cur (k_bak k4)) ++ skipn c (df_dur (k_bak k4))) = None.
Proof.
  exists ex_m0, (mkLman 8 3 7 [mkMent 3 1 50 90]), ex_m1, 1%nat.
  split; [exact ex_m0_wf|]. split.
  { unfold wf_lman; cbn. repeat split; try reflexivity. repeat constructor. }
  split.
  { unfold wf_lman, ex_m1; cbn. repeat split; try reflexivity. repeat constructor. }
  cbn zeta. split; [vm_compute; reflexivity|]. split; [vm_compute; reflexivity|].
  split; [vm_compute; reflexivity|]. exists 130%nat. vm_compute. reflexivity.
Qed.

(** What does hold.  After any history of stores, let any number of stores fail, each after
    any number of bytes, and let the version [v] then be stored without a failing write.  If
    [v] covers each failed attempt (nothing was written; or [v] differs from the last stored
    version no later than the failed version does, and is at least as long), the manifest file
    holds exactly [v]; after a successful sync so does the backup, both on stable storage. *)
Theorem C44_covered_partial : forall garbage k0 buf0 h failed v oc,
  Forall (fun vo => N.of_nat (length (l_files (fst vo))) < 2 ^ 32) h ->
  N.of_nat (length (l_files v)) < 2 ^ 32 ->
  let st := stores garbage (k0, mc_fresh buf0) h in
  (forall w n, In (w, n) failed -> n = 0%nat \/
     ((diff_pos (snd st) (lm_encode v) <= diff_pos (snd st) (lm_encode w))%nat /\
      (length (lm_encode w) <= length (lm_encode v))%nat)) ->
  let st' := fold_left (fun s wn => store_failed s (fst wn) (snd wn)) failed st in
  let k := fst (store garbage st' (v, oc)) in
  df_cur (k_main k) = lm_encode v /\
  (oc = SyncOk -> df_cur (k_bak k) = lm_encode v /\
                  df_clean (k_main k) = true /\ df_clean (k_bak k) = true).
Proof.
  intros g k0 buf0 h failed v oc Hh Hv. cbn zeta. intros Hc.
  assert (Hr : ready (stores g (k0, mc_fresh buf0) h))
    by (apply stores_ready; [left; split; reflexivity|exact Hh]).
  destruct (stores g (k0, mc_fresh buf0) h) as [k mc]. cbn [snd] in Hc.
  destruct (store_after_fails g k mc failed v oc Hv Hr) as (A & B & _).
  { apply Forall_forall. intros [w n] Hin. exact (Hc w n Hin). }
  split; [exact A|exact B].
Qed.

(** In particular: a store that failed, however often and wherever, and is then repeated with
    the same contents until it succeeds leaves the right file. *)
Theorem C44_retry_partial : forall garbage k0 buf0 h ns v oc,
  Forall (fun vo => N.of_nat (length (l_files (fst vo))) < 2 ^ 32) h ->
  N.of_nat (length (l_files v)) < 2 ^ 32 ->
  let st := stores garbage (k0, mc_fresh buf0) h in
  let st' := fold_left (fun s n => store_failed s v n) ns st in
  let k := fst (store garbage st' (v, oc)) in
  df_cur (k_main k) = lm_encode v /\
  (oc = SyncOk -> df_cur (k_bak k) = lm_encode v /\
                  df_clean (k_main k) = true /\ df_clean (k_bak k) = true).
Proof.
  intros g k0 buf0 h ns v oc Hh Hv. cbn zeta.
  pose proof (C44_covered_partial g k0 buf0 h (map (fun n => (v, n)) ns) v oc Hh Hv) as P.
  cbn zeta in P. rewrite fails_same in P. apply P.
  intros w n Hin. apply in_map_iff in Hin. destruct Hin as (n' & E & _).
  injection E as <- <-. right. lia.
Qed.

(** Two failures, after 3 and after 90 bytes, then the same version again: here the failed
    attempts did leave foreign bytes in the file. *)
Example ex_retry :
  let st := stores ex_garbage (no_files, mc_fresh (repeat 0 64)) [(ex_m0, SyncOk)] in
  let st' := store_failed (store_failed st ex_m2 3) ex_m2 90 in
  lm_parse (df_cur (k_main (fst st'))) = inr M_CHECKSUM_ERROR /\
  df_cur (k_main (fst (store ex_garbage st' (ex_m2, SyncOk)))) = lm_encode ex_m2.
Proof. vm_compute. split; reflexivity. Qed.

(** ** C10: a crash during an update

    [x] is a possible content of a file after a crash: exactly the file if everything written
    was fsynced, anything at all otherwise. *)
Definition after_crash (f : dfile) (x : list N) : Prop := df_clean f = true -> x = df_cur f.

(** In a process that has completed one synchronous store (of [s], at any time, after any
    earlier stores [h1]) and then any asynchronous or fsync-failing stores [h2], a crash after
    any number [n] of disk operations of the next store of [w]: the manifest file or its
    backup is a complete durable copy of [w] or of [s]; hence reopening finds a manifest. *)
Theorem C10_crash_during_update : forall garbage k0 buf0 h1 s h2 w oc n x y,
  Forall (fun vo => wf_lman (fst vo)) h1 -> wf_lman s ->
  Forall (fun vo => wf_lman (fst vo) /\ (snd vo = NoSync \/ snd vo = FsyncFail)) h2 ->
  wf_lman w -> (oc = NoSync \/ oc = FsyncFail \/ oc = SyncOk) ->
  let st := stores garbage (k0, mc_fresh buf0) (h1 ++ (s, SyncOk) :: h2) in
  let k := dexec (firstn n (store_ops (snd st) (lm_encode w) oc)) (fst st) in
  after_crash (k_main k) x -> after_crash (k_bak k) y ->
  (x = lm_encode w \/ y = lm_encode s) /\ lm_recover x y <> None.
Proof.
  intros g k0 buf0 h1 s h2 w oc n x y H1 Hs H2 Hw Hoc st k Hx Hy.
  assert (CK : forall m, wf_lman m -> count_ok m) by (intros m (_ & _ & _ & H & _); exact H).
  assert (HH : (oc = SyncOk /\ df_cur (k_main k) = lm_encode w /\ df_clean (k_main k) = true) \/ bak_is k s).
  { apply (crash_theorem g k0 buf0 h1 s h2 w oc n).
    - apply Forall_forall. intros vo Hin. rewrite Forall_forall in H1. now apply CK, H1.
    - now apply CK.
    - apply Forall_forall. intros vo Hin. rewrite Forall_forall in H2. destruct (H2 vo Hin) as [A B].
      split; [now apply CK|]. split; [intros z E; destruct B; congruence|destruct B; congruence].
    - now apply CK.
    - intros z E; destruct Hoc as [?|[?|?]]; congruence. }
  destruct HH as [(_ & A & B)|[A B]].
  - rewrite (Hx B), A. split; [now left|]. unfold lm_recover. rewrite parse_encode by exact Hw. discriminate.
  - rewrite (Hy B), A. split; [now right|]. unfold lm_recover. rewrite parse_encode by exact Hs.
    destruct (lm_parse x); discriminate.
Qed.

Example ex_crash_point :
  let st := stores ex_garbage (no_files, mc_fresh (repeat 0 64)) [(ex_m0, SyncOk); (ex_m1, NoSync)] in
  let k := dexec (firstn 1 (store_ops (snd st) (lm_encode ex_m2) SyncOk)) (fst st) in
  length (store_ops (snd st) (lm_encode ex_m2) SyncOk) = 6%nat /\
  df_clean (k_main k) = false /\ df_clean (k_bak k) = true /\ df_cur (k_bak k) = lm_encode ex_m0.
Proof. vm_compute. repeat split; reflexivity. Qed.

(** The full claim fails in two situations.  (1) The very first store of a new database: a
    crash right after the first write, before fsync, leaves an unreadable manifest and no
    backup; reopening fails. *)
Theorem C10_first_store_refuted :
  exists w, wf_lman w /\
    let k := dexec (firstn 1 (store_ops (mc_fresh (repeat 0 64)) (lm_encode w) SyncOk)) no_files in
    df_clean (k_main k) = false /\
    exists c, lm_recover (firstn c (df_cur (k_main k))) (df_cur (k_bak k)) = None.
Proof.
  exists ex_m0. split; [exact ex_m0_wf|]. cbn zeta. split; [reflexivity|].
  exists 100%nat. vm_compute. reflexivity.
Qed.

(** (2) A crash while the backup is being written (the manifest itself is fine, so reopening
    succeeds without touching the backup), followed by a crash during the first manifest
    update of the new process.  Torn writes are modelled as a written prefix followed by the
    old content. *)
Theorem C10_second_crash_refuted :
  exists v0 v1 v2, wf_lman v0 /\ wf_lman v1 /\ wf_lman v2 /\
    let st1 := stores ex_garbage (no_files, mc_fresh (repeat 0 64)) [(v0, SyncOk)] in
    let k1 := dexec (firstn 3 (store_ops (snd st1) (lm_encode v1) SyncOk)) (fst st1) in
    exists c1,
      let main := df_cur (k_main k1) in
      let bak := firstn c1 (df_cur (k_bak k1)) ++ skipn c1 (df_dur (k_bak k1)) in
      df_clean (k_main k1) = true /\ lm_recover main bak = Some v1 /\
      (* next process: same disk, fresh memory *)
      let k2 := dexec (firstn 1 (store_ops (mc_fresh (repeat 0 64)) (lm_encode v2) SyncOk))
                  (mkDisk (mkDf main main true) (mkDf bak bak true)) in
      exists c2, lm_recover (firstn c2 (df_cur (k_main k2)) ++ skipn c2 (df_dur (k_main k2)))
                            (df_cur (k_bak k2)) = None.
Proof.
  exists ex_m0, ex_m1, ex_m2. split; [exact ex_m0_wf|].
  split; [unfold wf_lman, ex_m1; cbn; repeat split; try reflexivity; repeat constructor|].
  split; [unfold wf_lman, ex_m2; cbn; repeat split; try reflexivity; repeat constructor|].
  cbn zeta. exists 130%nat. split; [vm_compute; reflexivity|]. split; [vm_compute; reflexivity|].
  exists 60%nat. vm_compute. reflexivity.
Qed.

(** ** C45: storing while a log file is being removed (refutation)

    The count is taken before the list is walked.  If a file is removed in between, the image
    passes every check, but loading takes the footer for a log file and sets the largest log
    file number to 0xaabbccddeeffabcc, which no log file has. *)
Theorem C45_concurrent_removal_refuted :
  exists m e, wf_lman m /\ wf_ment e /\
    (* written: count of [m] plus the removed file [e], entries of [m] *)
    let image := enc_raw (l_max m) (l_flushed m) (l_synced m)
                   (N.of_nat (length (e :: l_files m))) (l_files m) in
    exists d, lm_load ex_cfg (fun n => if n <=? l_max m then F_OK else F_NOT_EXIST) image = inl d /\
      d_max d = 12302652060662213580 /\ d_max d <> l_max m /\
      ~ In (d_max d) (map e_num (d_files d)).
Proof.
  exists ex_m2, (mkMent 3 1 90 90).
  split; [unfold wf_lman, ex_m2; cbn; repeat split; try reflexivity; repeat constructor|].
  split; [unfold wf_ment; cbn; repeat split; reflexivity|]. cbn zeta.
  eexists. split; [vm_compute; reflexivity|]. cbn [d_max d_files]. split; [reflexivity|].
  split; [discriminate|]. vm_compute. intros [H|[H|[]]]; discriminate.
Qed.

(** What does hold: as long as the walk meets at least as many files as were counted (no
    removal in between, or removals made up for by newly added files), the stored image reads
    back as the counters and the first [count] of the files the walk met.  So a file added
    while the manifest is being stored is at worst missing from it. *)
Theorem C45_no_removal_partial : forall mx fl sy count es,
  mx < 2 ^ 64 -> fl < 2 ^ 64 -> sy < 2 ^ 64 -> N.of_nat count < 2 ^ 32 ->
  Forall wf_ment es -> (count <= length es)%nat ->
  lm_parse (enc_raw mx fl sy (N.of_nat count) es) = inl (mkLman mx fl sy (firstn count es)).
Proof. exact parse_prefix. Qed.

(** Counted two files, removed file 3 and added file 9, then listed. *)
Example ex_no_removal :
  lm_parse (enc_raw 9 5 7 2 [mkMent 5 91 110 120; mkMent 7 121 NIL 150; mkMent 9 151 NIL 160]) =
  inl (mkLman 9 5 7 [mkMent 5 91 110 120; mkMent 7 121 NIL 150]).
Proof. vm_compute. reflexivity. Qed.

Print Assumptions C44_covered_partial.
Print Assumptions C44_retry_partial.
Print Assumptions C45_no_removal_partial.
Print Assumptions C08_parse_round_trip.
Print Assumptions C08_load_round_trip.
Print Assumptions C03_zero_tail_refuted.
Print Assumptions C09_incremental_is_full.
Print Assumptions C44_failed_store_refuted.
Print Assumptions C10_crash_during_update.
Print Assumptions C10_first_store_refuted.
Print Assumptions C10_second_crash_refuted.
Print Assumptions C45_concurrent_removal_refuted.
