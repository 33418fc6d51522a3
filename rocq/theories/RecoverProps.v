(** * C41, C70-C76: closing, crashing and reopening a database with tables *)
From Verif Require Import Base KeyModel LogFormatModel LogManifestModel BloomModel MemTableModel LogMgrModel DbModel DbProofs DbProofs2
  RecoverModel RecoverProofs6 RecoverProofs7 RecoverProofs9 RecoverProofs10 RecoverSpec.
Local Open Scope N_scope.

(** Compute the runs of the statement, then check the rest. *)
Ltac rest := repeat match goal with
    | |- _ /\ _ => split
    | |- all_ok _ => repeat constructor
    | |- reads _ _ _ => eexists
    | |- exists _, _ => eexists
    end; try (vm_compute; reflexivity); try (vm_compute; discriminate).
Ltac run1 := repeat match goal with |- exists _, _ => eexists end; split; [vm_compute; reflexivity|]; rest.
Ltac run2 := repeat match goal with |- exists _, _ => eexists end; split; [vm_compute; reflexivity|]; split; [vm_compute; reflexivity|]; rest.

(** ** C70.  A number is given to one record only, also across close and reopen *)

(** A record flushed to the tables before it was synced (what the automatic flusher does by
    default), then close and reopen: the next write gets the number of that record again.  Both
    writes are acknowledged. *)
Theorem C70_number_reused_refuted : exists xs p r1 r2,
  run [put 1 1; PSync true; put 2 2; flush_beyond; PReopen XClean; put 3 3] = Some (xs, p) /\
  all_ok xs /\ wrote xs 2 r1 /\ wrote xs 5 r2 /\ r_key r1 <> r_key r2 /\ r_seq r1 = r_seq r2.
Proof. run1. Qed.
Print Assumptions C70_number_reused_refuted.

(** The process dies in a sync, after the first of two log files has been written and before the
    second.  After reopening, the record of the first file is readable, and the next write gets the
    number of that record. *)
Theorem C70_reused_after_sync_crash_refuted : exists xs p r1 r2,
  run [put 1 1; PSync true; put 2 2; put_new 3 3; PReopen (XSync 1 0 false); put 4 4] = Some (xs, p) /\
  all_ok xs /\ wrote xs 2 r1 /\ wrote xs 5 r2 /\ r_key r1 <> r_key r2 /\ r_seq r1 = r_seq r2 /\ reads p 2 2 /\ reads p 4 4.
Proof. run1. Qed.
Print Assumptions C70_reused_after_sync_crash_refuted.

(** ** C71.  A write acknowledged after reopening is readable, and durable once synced *)

(** After the same close and reopen, a batch is acknowledged and its record cannot be read. *)
Theorem C71_batch_unreadable_refuted : exists xs p,
  run ([put 1 1; PSync true; put 2 2; flush_beyond; PReopen XClean] ++ batch 3 3) = Some (xs, p) /\
  all_ok xs /\ d_bat (p_db p) = None /\ missing p 3.
Proof. run1. Qed.
Print Assumptions C71_batch_unreadable_refuted.

(** The process died while a record was being written to a log file.  After reopening, a batch is
    acknowledged and readable, and sync returns OK; the database is closed and reopened, and the
    batch is gone. *)
Theorem C71_synced_batch_lost_refuted : exists xs1 xs2 p1 p2,
  let os := [put 1 1; PSync true; put 2 2; PReopen (XSync 0 0 true)] ++ batch 3 3 ++ [PSync true] in
  run os = Some (xs1, p1) /\ run (os ++ [PReopen XClean]) = Some (xs2, p2) /\
  all_ok xs1 /\ all_ok xs2 /\ reads p1 3 3 /\ missing p2 3.
Proof. run2. Qed.
Print Assumptions C71_synced_batch_lost_refuted.

(** A database is created, closed with nothing in it and opened again.  The first write is a batch:
    all its records get the number 2^64-1, which stands for "no number"; they can be read; sync
    returns OK and writes nothing; after a close and reopen they are gone. *)
Theorem C71_first_batch_lost_refuted : exists xs1 xs2 p1 p2,
  let os := [PReopen XClean; PDb (OBegin [ins 1 1; ins 2 2]); PDb OPut; PDb OPut; PDb OEnd; PSync true] in
  run os = Some (xs1, p1) /\ run (os ++ [PReopen XClean]) = Some (xs2, p2) /\
  all_ok xs1 /\ all_ok xs2 /\ reads p1 1 1 /\ reads p1 2 2 /\ missing p2 1 /\ missing p2 2.
Proof. run2. Qed.
Print Assumptions C71_first_batch_lost_refuted.

(** ** C72.  What is readable after recovery stays readable through flushes *)

(** The process died in the first sync, with the log file written and the manifest not.  After
    reopening the record is readable; a sync and a flush, both OK, lose it. *)
Theorem C72_first_sync_refuted : exists xs1 xs2 p1 p2,
  let os := [put 1 1; PReopen (XSync 1 0 false)] in
  run os = Some (xs1, p1) /\ run (os ++ [PSync true; flush_plain]) = Some (xs2, p2) /\
  all_ok xs1 /\ all_ok xs2 /\ reads p1 1 1 /\ missing p2 1.
Proof. run2. Qed.
Print Assumptions C72_first_sync_refuted.

(** The same with two log files and a later sync: the record that was written to the first file and
    not yet in the manifest is lost by the flush. *)
Theorem C72_second_sync_refuted : exists xs1 xs2 p1 p2,
  let os := [put 1 1; PSync true; put 2 2; put_new 3 3; PReopen (XSync 2 0 false)] in
  run os = Some (xs1, p1) /\ run (os ++ [flush_plain]) = Some (xs2, p2) /\
  all_ok xs1 /\ all_ok xs2 /\ reads p1 2 2 /\ reads p2 1 1 /\ missing p2 2.
Proof. run2. Qed.
Print Assumptions C72_second_sync_refuted.

(** ** C73.  A crash during a flush loses nothing that was synced, and no write that later ones survive *)

(** A reader holds the oldest log file while a flush removes the first three; the process dies before
    the log manifest is stored.  The record of the fourth file, synced, is gone after reopening. *)
Theorem C73_synced_lost_refuted : exists xs1 xs2 p1 p2,
  let os := [put 1 1; put_new 2 2; put_new 3 3; PSync true; put_new 4 4; PSync true] in
  run os = Some (xs1, p1) /\
  run (os ++ [PReopen (XFlush (mkFO false false 3) NIL (N.eqb 0) everybody)]) = Some (xs2, p2) /\
  all_ok xs1 /\ all_ok xs2 /\ reads p1 4 4 /\ missing p2 4.
Proof. run2. Qed.
Print Assumptions C73_synced_lost_refuted.

(** The process dies in a flush that goes beyond the last sync.  After reopening, a key shows the
    value it had before its last write, and another key a later write. *)
Theorem C73_not_a_prefix_refuted : exists xs p r1 r2,
  run [put 1 1; PSync true; put 1 2; put 2 2; PReopen (XFlush beyond NIL nobody nobody)] = Some (xs, p) /\
  all_ok xs /\ wrote xs 2 r1 /\ wrote xs 3 r2 /\ r_seq r1 < r_seq r2 /\
  reads p 1 1 /\ r_key r1 = [1] /\ r_val r1 = [2] /\ reads p 2 2 /\ r_key r2 = [2].
Proof. run1. Qed.
Print Assumptions C73_not_a_prefix_refuted.

(** ** C74.  Reads by number and snapshots work after crash recovery *)

(** The process dies after a new log file was registered and before its records were synced.  After
    reopening and two more writes, the second of them cannot be read by its number though it can by
    its key, and a snapshot is taken over an unusable list of log files. *)
Theorem C74_number_not_found_refuted : exists xs p r,
  run [put 1 1; PSync true; put_new 2 2; PReopen XKill; put 3 3; put 4 4] = Some (xs, p) /\
  all_ok xs /\ wrote xs 5 r /\ r_key r = [4] /\ reads p 4 4 /\
  lm_get_seq (r_seq r) (d_log (p_db p)) = Fail LOG_FILE_NOT_FOUND.
Proof. run1. Qed.
Print Assumptions C74_number_not_found_refuted.

Theorem C74_snapshot_refuted : exists xs p s,
  run [put 1 1; PSync true; put_new 2 2; PReopen XKill; put 3 3; put 4 4] = Some (xs, p) /\
  all_ok xs /\ open_snap 0 (p_db p) = Ok s /\ snap_get hash0 s [4] (p_db p) = Undef.
Proof. run1. Qed.
Print Assumptions C74_snapshot_refuted.

(** Positive part: in the runs of C76 (any closes and crashes, see [preach] below) every acknowledged
    record that is not in the tables is found by its number, also inside a batch, and nothing else is
    found; a snapshot opens, and it shows the content at its opening for as long as the database
    stays open, whatever is written, flushed or synced meanwhile. *)
Theorem C74_by_number_partial : forall hash pw c h hs p r, cfg_ok c -> c_lso c = false -> preach hash pw c h hs p ->
  In r h -> ~ In r (d_tab (p_db p)) -> lm_get_seq (r_seq r) (d_log (p_db p)) = Ok r.
Proof. exact preach_number. Qed.
Print Assumptions C74_by_number_partial.

Theorem C74_only_written_partial : forall hash pw c h hs p s r, cfg_ok c -> c_lso c = false -> preach hash pw c h hs p ->
  lm_get_seq s (d_log (p_db p)) = Ok r -> In r h /\ r_seq r = s.
Proof. exact preach_number_sound. Qed.
Print Assumptions C74_only_written_partial.

Theorem C74_snapshot_partial : forall hash pw c h hs p h' d' k, cfg_ok c -> c_lso c = false -> preach hash pw c h hs p ->
  later hash c h (p_db p) h' d' ->
  exists sn, open_snap 0 (p_db p) = Ok sn /\ snap_get hash sn k d' = spec_get h k.
Proof. exact preach_snapshot. Qed.
Print Assumptions C74_snapshot_partial.

(** ** C75.  sync with fsync covers everything written before it *)

(** Two records are synced without fsync, the second in a new log file; then sync with fsync returns
    OK.  A power failure can leave the first record out of its log file. *)
Theorem C75_earlier_not_fsynced_refuted : exists xs1 xs2 p1 p2 disk,
  let os := [put 1 1; PSync false; put_new 2 2; PSync false; PSync true] in
  run os = Some (xs1, p1) /\ run (os ++ [PReopen (XPower disk (p_man p1))]) = Some (xs2, p2) /\
  all_ok xs1 /\ all_ok xs2 /\ survives p1 disk (p_man p1) /\ reads p1 1 1 /\ missing p2 1.
Proof.
  destruct (run [put 1 1; PSync false; put_new 2 2; PSync false; PSync true]) as [[xs1 p1]|] eqn:E; [|vm_compute in E; discriminate].
  exists xs1. eexists. exists p1. eexists.
  exists [mkDL 0 [] false; mkDL 1 [mkRec 2 INS [2] [] [2]] false]. intros os.
  split; [exact E|]. vm_compute in E. injection E as <- <-. split; [vm_compute; reflexivity|].
  split; [repeat constructor|]. split; [repeat constructor|]. split; [|rest].
  split; [reflexivity|]. split; [|left; reflexivity].
  intros d x y [<-|[<-|[]]] Hx Hy; vm_compute in Hx, Hy; injection Hx as <-; injection Hy as <-; cbn [dl_recs].
  - exists [], [mkRec 1 INS [1] [] [1]]. split; reflexivity.
  - exists [], []. split; reflexivity.
Qed.
Print Assumptions C75_earlier_not_fsynced_refuted.

(** ** C41, C70, C76: guarded runs with any number of closes, crashes and reopenings *)

(** [preach pw c h hs p] (RecoverProofs7.v): a run from a new database to [p] by writes, batches,
    checkpoints, syncs, flushes of synced records, closes and crashes, in which the acknowledged
    writes that no crash took are [h], and [hs] those acknowledged before the last sync.
    [spec_get h k] (DbProofs.v): the last write of [k] in [h].

    C76: whenever the process dies or the power fails, opening succeeds, every read returns the last
    synced write, and the numbers go on after the last synced one.  Crashes here are between two
    calls ([C73_synced_lost_refuted] has one during a flush). *)
Theorem C76_crash_recovers_synced : forall hash pw c h hs p x, cfg_ok c -> c_lso c = false ->
  preach hash pw c h hs p -> crashes pw p x ->
  exists p', pstep hash c (PReopen x) p = Some (Ok [], p') /\
    (forall k, db_get hash c k (p_db p') = spec_get hs k) /\
    (forall full r, r_seq r = NIL -> exists p2, pstep hash c (PDb (OSet full r)) p' = Some (Ok [as_written r (top hs + 1)], p2)).
Proof. exact preach_crash. Qed.
Print Assumptions C76_crash_recovers_synced.

(** What is synced is a prefix of what was acknowledged: with the above, a crash takes a suffix of
    the acknowledged writes and nothing else, and no part of a batch survives without the rest. *)
Theorem C76_synced_is_prefix : forall hash pw c h hs p, cfg_ok c -> c_lso c = false -> preach hash pw c h hs p ->
  exists tl, h = hs ++ tl.
Proof. intros hash pw c h hs p A B C. apply (preach_numbers hash pw c h hs p A B C). Qed.
Print Assumptions C76_synced_is_prefix.

(** sync covers everything acknowledged. *)
Theorem C76_sync_succeeds : forall hash pw c h hs p fsync, cfg_ok c -> c_lso c = false -> preach hash pw c h hs p ->
  (pw = true -> fsync = true) ->
  exists p', pstep hash c (PSync fsync) p = Some (Ok [], p') /\ preach hash pw c h h p'.
Proof.
  intros hash pw c h hs p fsync A B C D. destruct (preach_sync hash pw c h hs p fsync A B C D) as (p' & E). exists p'. split; [exact E|].
  eapply pr_sync; eassumption.
Qed.
Print Assumptions C76_sync_succeeds.

(** Closing keeps everything, and reads return the latest write in every state. *)
Theorem C76_close_keeps : forall hash pw c h hs p, cfg_ok c -> c_lso c = false -> preach hash pw c h hs p ->
  exists p', pstep hash c (PReopen XClean) p = Some (Ok [], p') /\
    (forall k, db_get hash c k (p_db p') = spec_get h k) /\
    (forall full r, r_seq r = NIL -> exists p2, pstep hash c (PDb (OSet full r)) p' = Some (Ok [as_written r (top h + 1)], p2)).
Proof. exact preach_close. Qed.
Print Assumptions C76_close_keeps.

Theorem C76_reads : forall hash pw c h hs p k, cfg_ok c -> c_lso c = false -> preach hash pw c h hs p ->
  db_get hash c k (p_db p) = spec_get h k.
Proof. exact preach_reads. Qed.
Print Assumptions C76_reads.

(** C70: in every state the next automatic number is larger than every number in the database,
    whatever closes and crashes came before; all numbers differ. *)
Theorem C70_next_number_partial : forall hash pw c h hs p full r, cfg_ok c -> c_lso c = false -> preach hash pw c h hs p ->
  d_bat (p_db p) = None -> allowed c h (p_db p) (OSet full r) ->
  exists x p', pstep hash c (PDb (OSet full r)) p = Some (x, p') /\
    (r_seq r = NIL -> x = Ok [as_written r (top h + 1)]) /\
    (top h < r_seq r -> r_seq r <> NIL -> x = Ok [as_written r (r_seq r)]) /\
    (r_seq r <= top h -> x = Fail INVALID_SEQNUM).
Proof. exact preach_next. Qed.
Print Assumptions C70_next_number_partial.

Theorem C70_numbers_distinct_partial : forall hash pw c h hs p, cfg_ok c -> c_lso c = false -> preach hash pw c h hs p ->
  NoDup (map r_seq h).
Proof. exact preach_distinct. Qed.
Print Assumptions C70_numbers_distinct_partial.

(** A run that meets the hypotheses: two log files, a batch, a sync, a flush, a close, a write that a
    crash takes, writes, a sync, an unsynced write. *)
Ltac guards := unfold settled; repeat split; intros; repeat match goal with H : In _ _ |- _ => cbn in H | H : _ \/ _ |- _ => destruct H as [<-|H] | H : False |- _ => destruct H end;
  try (vm_compute; discriminate); try (vm_compute; reflexivity);
  try (match goal with H : _ |- _ => exfalso; vm_compute in H; first [discriminate H | apply H; reflexivity] end).
Ltac next o := match goal with R : preach hash0 true cfg0 ?h ?hs ?p |- _ =>
  let op := eval hnf in o in let v := eval vm_compute in (pstep hash0 cfg0 op p) in
  match v with Some (?x, ?q) =>
    let R2 := fresh "R" in let done := (vm_compute; reflexivity) in
    match op with
    | PDb ?a => assert (R2 : preach hash0 true cfg0 (h ++ acked x) hs q) by (apply (pr_db hash0 true cfg0 h hs p a x q R); [guards|done])
    | PSync ?b => assert (R2 : preach hash0 true cfg0 h h q) by (apply (pr_sync hash0 true cfg0 h hs p b x q R); [guards|done])
    | PFlush ?a ?b ?d => assert (R2 : preach hash0 true cfg0 h hs q) by (apply (pr_flush hash0 true cfg0 h hs p a b d x q R); [guards|guards|done])
    | PReopen XClean => assert (R2 : preach hash0 true cfg0 h h q) by (apply (pr_close hash0 true cfg0 h hs p x q R); [guards|guards|done])
    | PReopen ?k => assert (R2 : preach hash0 true cfg0 hs hs q) by (apply (pr_crash hash0 true cfg0 h hs p k x q R); [guards|guards|guards|done])
    end; cbn [acked app] in R2; clear R end end.

Example C76_case : exists h hs p,
  preach hash0 true cfg0 h hs p /\ map r_seq h = [1; 2; 3; 4; 5; 6] /\ map r_key h = [[1]; [2]; [1]; [4]; [5]; [6]] /\ length hs = 5%nat /\
  crashes true p XKill /\ crashes true p (XPower (p_disk p) (p_man p)) /\
  (length (l_files (p_man p)) > 1)%nat /\ length (d_tab (p_db p)) = 2%nat.
Proof.
  assert (R := pr_new hash0 true cfg0).
  next (put 1 1). next (put_new 2 2). next (PSync true). next flush_plain.
  next (PDb (OBegin [ins 1 3])). next (PDb OPut). next (PDb OEnd). 
  next (PReopen XClean). next (put 4 4). next (PSync true). next (put 7 7). next (PReopen XKill).
  next (put 5 5). next (PSync true). next (put 6 6).
  eexists; eexists; eexists. split; [eassumption|]. split; [reflexivity|]. split; [reflexivity|]. split; [reflexivity|]. split; [exact I|].
  split; [|split; [vm_compute; repeat constructor|reflexivity]].
  split; [reflexivity|]. split; [reflexivity|]. split; [|left; reflexivity]. intros d x y Hd Ex Ey. exists [], []. rewrite !app_nil_r.
  cbn in Hd. repeat match goal with H : _ \/ _ |- _ => destruct H as [<-|H] | H : False |- _ => destruct H end;
    vm_compute in Ex, Ey; injection Ex as <-; injection Ey as <-; split; reflexivity.
Qed.

(** ** C41, C73, C77: the process dies in the middle of a call *)

(** In a sync: whatever part of the log files has been written, and also if an incomplete record is
    left at the end, opening succeeds and shows the writes up to some point at or after the last
    completed sync.  (Not so the numbers given from then on: [C70_reused_after_sync_crash_refuted];
    and not so later flushes: [C72_first_sync_refuted].) *)
Theorem C41_crash_in_sync : forall hash pw c h hs p n j torn, cfg_ok c -> c_lso c = false -> preach hash pw c h hs p ->
  exists p' h1, pstep hash c (PReopen (XSync n j torn)) p = Some (Ok [], p') /\ (exists a, h1 = hs ++ a) /\ (exists b, h = h1 ++ b) /\
    (forall k, db_get hash c k (p_db p') = spec_get h1 k).
Proof. exact preach_in_sync. Qed.
Print Assumptions C41_crash_in_sync.

(** In a flush, after the records have been handed to the tables, while the log files are being removed
    oldest first: exactly the synced writes are there.  Without the condition on the order (a reader
    holds an older file): [C73_synced_lost_refuted]; beyond the last sync: [C73_not_a_prefix_refuted]. *)
Theorem C73_crash_in_flush_partial : forall hash pw c h hs p fo seq held gone rs p1, cfg_ok c -> c_lso c = false -> preach hash pw c h hs p ->
  allowed c h (p_db p) (OFlush fo seq) -> o_beyond fo = false -> oldest_first held gone ->
  pstep hash c (PFlush fo seq held) p = Some (Ok rs, p1) ->
  exists p', pstep hash c (PReopen (XFlush fo seq held gone)) p = Some (Ok [], p') /\
    (forall k, db_get hash c k (p_db p') = spec_get hs k).
Proof. exact preach_in_flush. Qed.
Print Assumptions C73_crash_in_flush_partial.

(** C77: a batch is all or nothing, also across a crash.  [preachb] (RecoverProofs9.v): the runs of
    [preach] with the writes grouped by the call that acknowledged them.  A crash between two calls, or
    in a flush as above, leaves whole groups. *)
Theorem C77_whole_batches_partial : forall hash pw c bs bss p x, cfg_ok c -> c_lso c = false -> preachb hash pw c bs bss p ->
  crashes pw p x ->
  exists p', pstep hash c (PReopen x) p = Some (Ok [], p') /\ (exists t, bs = bss ++ t) /\
    (forall k, db_get hash c k (p_db p') = spec_get (concat bss) k).
Proof. exact preachb_crash. Qed.
Print Assumptions C77_whole_batches_partial.

Theorem C77_whole_batches_in_flush_partial : forall hash pw c bs bss p fo seq held gone rs p1, cfg_ok c -> c_lso c = false ->
  preachb hash pw c bs bss p -> allowed c (concat bs) (p_db p) (OFlush fo seq) -> o_beyond fo = false -> oldest_first held gone ->
  pstep hash c (PFlush fo seq held) p = Some (Ok rs, p1) ->
  exists p', pstep hash c (PReopen (XFlush fo seq held gone)) p = Some (Ok [], p') /\ (exists t, bs = bss ++ t) /\
    (forall k, db_get hash c k (p_db p') = spec_get (concat bss) k).
Proof. exact preachb_in_flush. Qed.
Print Assumptions C77_whole_batches_in_flush_partial.

(** A crash in a sync leaves half a batch: it was acknowledged as one, and after reopening one of its
    two records is there and the other is not; a sync, a flush and a close do not change that. *)
Theorem C77_half_batch_refuted : exists xs1 xs2 p1 p2,
  let os := [put 1 1; PSync true; PDb (OBegin [ins 2 2; ins 3 3]); PDb OPut; PDb OPut; PDb OEnd; PReopen (XSync 0 1 false)] in
  run os = Some (xs1, p1) /\ run (os ++ [PSync true; flush_plain; PReopen XClean]) = Some (xs2, p2) /\
  all_ok xs1 /\ all_ok xs2 /\ reads p1 2 2 /\ missing p1 3 /\ reads p2 2 2 /\ missing p2 3.
Proof. run2. Qed.
Print Assumptions C77_half_batch_refuted.

(** A run that meets the hypotheses of the theorems above: two log files, a batch, a sync and a write
    after it; a flush of the first file, which then is removed. *)
Ltac nextb o := match goal with R : preachb hash0 true cfg0 ?bs ?bss ?p |- _ =>
  let op := eval hnf in o in let v := eval vm_compute in (pstep hash0 cfg0 op p) in
  match v with Some (?x, ?q) =>
    let R2 := fresh "R" in let done := (vm_compute; reflexivity) in
    match op with
    | PDb ?a => assert (R2 : preachb hash0 true cfg0 (bs ++ [acked x]) bss q) by (apply (pb_db hash0 true cfg0 bs bss p a x q R); [guards|done])
    | PSync ?b => assert (R2 : preachb hash0 true cfg0 bs bs q) by (apply (pb_sync hash0 true cfg0 bs bss p b x q R); [guards|done])
    end; cbn [acked app] in R2; clear R end end.

Example C77_case : exists bs bss p rs p1,
  preachb hash0 true cfg0 bs bss p /\ map (map r_seq) bs = [[1]; []; []; []; [2; 3]; [4]; [5]] /\ length bss = 6%nat /\
  allowed cfg0 (concat bs) (p_db p) (OFlush plain NIL) /\ oldest_first nobody (fun n => n <? 1) /\
  pstep hash0 cfg0 (PFlush plain NIL nobody) p = Some (Ok rs, p1) /\
  map dl_num (p_disk p) = [0; 1] /\ map dl_num (p_disk p1) = [1].
Proof.
  assert (R := pb_new hash0 true cfg0).
  nextb (put 1 1). nextb (PDb (OBegin [ins 2 2; ins 3 3])). nextb (PDb OPut). nextb (PDb OPut). nextb (PDb OEnd). nextb (put_new 4 4).
  nextb (PSync true). nextb (put 5 5).
  eexists; eexists; eexists; eexists; eexists. split; [eassumption|]. split; [reflexivity|]. split; [reflexivity|].
  split; [guards|]. split; [|split; [vm_compute; reflexivity|split; reflexivity]].
  intros m n Hmn Hn. unfold nobody in *. cbn [negb] in *. rewrite Bool.andb_true_r in *. apply N.ltb_lt in Hn. apply N.ltb_lt. lia.
Qed.
