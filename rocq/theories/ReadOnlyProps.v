(** * C115, C116: read-only handles *)
From Verif Require Import Base KeyModel LogFormatModel LogManifestModel BloomModel MemTableModel LogMgrModel LogMgrProofs DbModel DbProofs
  RecoverModel RecoverSpec RecoverProofs7 ReadOnlyModel ReadOnlySpec ReadOnlyProofs.
Local Open Scope N_scope.

(** ** C115: a read-only handle refuses every change, leaves the directory as it is, and answers as a
    writable one would. *)

(** For every directory whose newest listed log file is there, with or without a crash before: opening
    read-only, any calls but flushLogs, closing.  Every call returns; none succeeds, and all but
    checkpoint are refused with WRITE_VIOLATION or COMPACTION_IS_NOT_ALLOWED; the directory is exactly
    as before; and every read at that moment is answered as a handle opened for writing answers it.
    Missing: flushLogs, see the refutation. *)
Theorem C115_session_partial : forall hash c i q, c_lso c = false -> newest_present i -> NoDup (map e_num (l_files (i_man i))) ->
  r_open hash c i = Some q -> forall os, Forall not_flush os ->
  exists xs q', rrun hash c os q = Some (xs, q') /\ r_close q' = i /\
    Forall2 (fun o a => (forall r, a <> RAns (Ok r)) /\ ((forall out0, o <> RCheckpoint out0) -> refused a)) os xs /\
    forall k w, w_open hash c i = Some w -> db_get hash c k (p_db q') = db_get hash c k (p_db w).
Proof.
  intros hash c i q H1 H2 H3 H4 os H5. destruct (session hash c i q H1 H2 H3 H4 os H5) as (xs & q' & A & B & C & _ & D).
  exists xs, q'. split; [exact A|]. split; [exact B|]. split; [exact C|exact D].
Qed.
Print Assumptions C115_session_partial.

(** The two modes open the same directories. *)
Theorem C115_opens_alike : forall hash c i, (exists q, r_open hash c i = Some q) <-> (exists w, w_open hash c i = Some w).
Proof.
  intros hash c i. assert (Q := r_w_open hash c i). destruct (r_open hash c i), (w_open hash c i); try (destruct Q; fail); split; intros (y & E); try discriminate; eexists; reflexivity.
Qed.
Print Assumptions C115_opens_alike.

(** And for every database reached by a run of C76 (any writes, batches, syncs, flushes, closes and
    crashes): after closing it, killing the process or a power failure, opening read-only succeeds,
    every call but flushLogs is refused, the directory stays as the last process left it, and every
    key has the value of the last write stored: all of them after a close, the synced ones after a
    crash. *)
Theorem C115_after_close_or_crash_partial : forall hash pw c h hs p x, cfg_ok c -> c_lso c = false ->
  preach hash pw c h hs p -> x = XClean \/ crashes pw p x ->
  exists i q, left_by hash c x p = Some i /\ r_open hash c i = Some q /\ forall os, Forall not_flush os ->
    exists xs q', rrun hash c os q = Some (xs, q') /\ Forall refused xs /\ r_close q' = i /\
      forall k, db_get hash c k (p_db q') = spec_get (match x with XClean => h | _ => hs end) k.
Proof. intros hash pw c h hs p x. apply session_reachable. Qed.
Print Assumptions C115_after_close_or_crash_partial.

(** [left_by] is what the next opening for writing starts from. *)
Theorem C115_same_directory : forall hash c x p,
  p_reopen hash c x p = match left_by hash c x p with Some i => w_open hash c i | None => None end.
Proof. exact left_open. Qed.
Print Assumptions C115_same_directory.

(** A database of two log files, closed; a session with each of the refused calls. *)
Definition two_files : list pop := [put 1 10; PSync true; put_new 2 20].
Example C115_case : exists xs p i q ys q', run two_files = Some (xs, p) /\ all_ok xs /\ left_by hash0 cfg0 XClean p = Some i /\ newest_present i /\
  NoDup (map e_num (l_files (i_man i))) /\ r_open hash0 cfg0 i = Some q /\
  rrun hash0 cfg0 [RSet false (ins 1 11); RBatch [ins 3 30]; RSync true; RDiscard 1; RRollback 1; RCheckpoint 0; RCompact 0] q = Some (ys, q') /\
  length ys = 7%nat /\ reads q' 1 10 /\ reads q' 2 20 /\ lm_checkpoints (d_log (p_db q')) = Ok [2].
Proof.
  destruct (run two_files) as [[xs p]|] eqn:E; [|vm_compute in E; discriminate].
  destruct (left_by hash0 cfg0 XClean p) as [i|] eqn:Ei; [|vm_compute in E; injection E as _ <-; vm_compute in Ei; discriminate].
  destruct (r_open hash0 cfg0 i) as [q|] eqn:Eq; [|vm_compute in E; injection E as _ <-; vm_compute in Ei; injection Ei as <-; vm_compute in Eq; discriminate].
  vm_compute in E. injection E as <- <-. vm_compute in Ei. injection Ei as <-. vm_compute in Eq. injection Eq as <-.
  eexists. eexists. eexists. eexists. eexists. eexists. split; [reflexivity|]. split; [repeat constructor|]. split; [vm_compute; reflexivity|].
  split; [eexists [_]; eexists; split; [reflexivity|]; split; [vm_compute; discriminate|left; reflexivity]|].
  split; [vm_compute; repeat constructor; intros H; repeat (destruct H as [H|H]; [discriminate|]); destruct H|].
  split; [vm_compute; reflexivity|]. split; [vm_compute; reflexivity|]. split; [reflexivity|].
  split; [eexists; vm_compute; repeat split|]. split; [eexists; vm_compute; repeat split|reflexivity].
Qed.

(** Refuted: flushLogs on a read-only handle returns OK, moves records into the tables and stores a
    new log manifest. *)
Theorem C115_flush_refuted : exists os xs p i q x q', run os = Some (xs, p) /\ all_ok xs /\ left_by hash0 cfg0 XClean p = Some i /\
  r_open hash0 cfg0 i = Some q /\ rstep hash0 cfg0 (RFlush plain NIL nobody) q = Some (RAns (Ok x), q') /\
  i_tab (r_close q') <> i_tab i /\ i_man (r_close q') <> i_man i.
Proof.
  exists [put 1 10; PSync true].
  destruct (run [put 1 10; PSync true]) as [[xs p]|] eqn:E; [|vm_compute in E; discriminate].
  destruct (left_by hash0 cfg0 XClean p) as [i|] eqn:Ei; [|vm_compute in E; injection E as _ <-; vm_compute in Ei; discriminate].
  destruct (r_open hash0 cfg0 i) as [q|] eqn:Eq; [|vm_compute in E; injection E as _ <-; vm_compute in Ei; injection Ei as <-; vm_compute in Eq; discriminate].
  vm_compute in E. injection E as <- <-. vm_compute in Ei. injection Ei as <-. vm_compute in Eq. injection Eq as <-.
  eexists. eexists. eexists. eexists. eexists. eexists. split; [reflexivity|]. split; [repeat constructor|]. split; [vm_compute; reflexivity|]. split; [vm_compute; reflexivity|].
  split; [vm_compute; reflexivity|]. split; vm_compute; discriminate.
Qed.
Print Assumptions C115_flush_refuted.

(** The log files are deleted too, once they have been flushed completely. *)
Theorem C115_flush_deletes_refuted : exists os xs p i q x q', run os = Some (xs, p) /\ all_ok xs /\ left_by hash0 cfg0 XClean p = Some i /\
  r_open hash0 cfg0 i = Some q /\ rstep hash0 cfg0 (RFlush plain NIL nobody) q = Some (RAns (Ok x), q') /\
  map dl_num (i_disk i) = [0; 1] /\ map dl_num (i_disk (r_close q')) = [1].
Proof.
  exists two_files.
  destruct (run two_files) as [[xs p]|] eqn:E; [|vm_compute in E; discriminate].
  destruct (left_by hash0 cfg0 XClean p) as [i|] eqn:Ei; [|vm_compute in E; injection E as _ <-; vm_compute in Ei; discriminate].
  destruct (r_open hash0 cfg0 i) as [q|] eqn:Eq; [|vm_compute in E; injection E as _ <-; vm_compute in Ei; injection Ei as <-; vm_compute in Eq; discriminate].
  vm_compute in E. injection E as <- <-. vm_compute in Ei. injection Ei as <-. vm_compute in Eq. injection Eq as <-.
  eexists. eexists. eexists. eexists. eexists. eexists. split; [reflexivity|]. split; [repeat constructor|]. split; [vm_compute; reflexivity|]. split; [vm_compute; reflexivity|].
  split; [vm_compute; reflexivity|]. split; vm_compute; reflexivity.
Qed.
Print Assumptions C115_flush_deletes_refuted.

(** ** C116: a read-only handle of another process does not disturb the writer. *)

(** Whatever the writer has made of the directory since the reader opened it: a session of the reader
    without flushLogs changes neither log files nor manifest, and adds nothing to the tables.
    Missing: flushLogs, see the refutation. *)
Theorem C116_reader_writes_nothing_partial : forall hash c i q, c_lso c = false -> newest_present i -> NoDup (map e_num (l_files (i_man i))) ->
  r_open hash c i = Some q -> forall p os, Forall not_flush os ->
  exists xs q', rrun hash c os (mkP (p_db q) (p_disk p) (p_dur p) (p_man p) (p_old p)) = Some (xs, q') /\
    p_disk q' = p_disk p /\ p_dur q' = p_dur p /\ p_man q' = p_man p /\ p_old q' = p_old p /\ d_tab (p_db q') = d_tab (p_db q).
Proof.
  intros hash c i q Hlso Hp Hnd E p os Hos. destruct (r_open_present hash c i q Hlso Hp E) as (_ & B & ND). specialize (ND Hnd).
  destruct (rrun_view hash c os (mkP (p_db q) (p_disk p) (p_dur p) (p_man p) (p_old p))) as (xs & q' & E' & F' & _); [|exact Hos|].
  - split; [exact B|]. split; [reflexivity|]. split; [exact ND|]. split; [reflexivity|]. split; reflexivity.
  - exists xs, q'. split; [exact E'|]. unfold files in F'. cbn [p_db p_disk p_dur p_man p_old] in F'. injection F' as -> -> -> -> ->.
    split; [reflexivity|]. split; [reflexivity|]. split; [reflexivity|]. split; reflexivity.
Qed.
Print Assumptions C116_reader_writes_nothing_partial.

(** Refuted: the reader opens; the writer then goes on in a new log file, and syncs it to disk; the
    reader calls flushLogs, which returns OK and replaces the manifest by the reader's, which does not
    know the new file; the writer dies.  The next opening removes the new file as a stale one: the
    synced record is gone.  Without the reader it is found. *)
Theorem C116_synced_write_lost_refuted : exists xs1 p1 q xs2 p2 x i p3 p4,
  run [put 1 10; PSync true] = Some (xs1, p1) /\ all_ok xs1 /\
  r_open hash0 cfg0 (files p1) = Some q /\
  prun hash0 cfg0 [put_new 2 20; PSync true] p1 = Some (xs2, p2) /\ all_ok xs2 /\ reads p2 2 20 /\
  foreign_flush hash0 cfg0 plain NIL nobody q p2 = Some (Ok x, i) /\
  w_open hash0 cfg0 i = Some p3 /\ reads p3 1 10 /\ missing p3 2 /\
  w_open hash0 cfg0 (files p2) = Some p4 /\ reads p4 2 20.
Proof.
  destruct (run [put 1 10; PSync true]) as [[xs1 p1]|] eqn:E; [|vm_compute in E; discriminate]. vm_compute in E. injection E as E1 E2.
  destruct (r_open hash0 cfg0 (files p1)) as [q|] eqn:Eq; [|subst; vm_compute in Eq; discriminate].
  destruct (prun hash0 cfg0 [put_new 2 20; PSync true] p1) as [[xs2 p2]|] eqn:Er; [|subst; vm_compute in Er; discriminate].
  exists xs1, p1, q, xs2, p2. subst xs1 p1. vm_compute in Eq. injection Eq as <-. vm_compute in Er. injection Er as <- <-.
  eexists. eexists. eexists. eexists.
  split; [reflexivity|]. split; [repeat constructor|]. split; [vm_compute; reflexivity|]. split; [reflexivity|]. split; [repeat constructor|].
  split; [eexists; vm_compute; repeat split|]. split; [vm_compute; reflexivity|]. split; [vm_compute; reflexivity|].
  split; [eexists; vm_compute; repeat split|]. split; [vm_compute; reflexivity|]. split; [vm_compute; reflexivity|]. eexists; vm_compute; repeat split.
Qed.
Print Assumptions C116_synced_write_lost_refuted.
