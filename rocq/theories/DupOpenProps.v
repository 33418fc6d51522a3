(** C135.  Opening a path that another thread is opening or has just opened does not harm the
    database: both get the same handle, and what is synced through it is kept. *)
From Verif Require Import Base KeyModel LogFormatModel LogManifestModel BloomModel MemTableModel LogMgrModel DbModel DbProofs DbProofs2
  RecoverModel RecoverProofs6 RecoverProofs7 RecoverSpec DupOpenModel DupOpenSpec DupOpenProofs.
Local Open Scope N_scope.

(** The second thread loads the files before the first one has registered its handle.  The first
    one writes a record and syncs it with fsync, both acknowledged.  The second one finds the path
    taken and destroys what it loaded; the record can still be read.  The process is killed: the
    record is gone. *)
Theorem C135_synced_lost_refuted : exists xs1 xs2 s1 s2,
  let os := opened ++ [DLoad; DFirst (put 2 2); DFirst (PSync true); DDrop] in
  run_two os = Some (xs1, s1) /\ run_two (os ++ [DFirst (PReopen XKill)]) = Some (xs2, s2) /\
  all_ok xs1 /\ all_ok xs2 /\ reads (t_p s1) 2 2 /\ reads (t_p s2) 1 1 /\ missing (t_p s2) 2.
Proof.
  repeat match goal with |- exists _, _ => eexists end. cbv zeta. split; [vm_compute; reflexivity|]. split; [vm_compute; reflexivity|].
  repeat split; try (repeat constructor); try (eexists; repeat split; vm_compute; reflexivity); vm_compute; reflexivity.
Qed.
Print Assumptions C135_synced_lost_refuted.

(** The same with a record in a log file that the duplicate has never seen, after a flush of the
    file that it has seen. *)
Theorem C135_new_file_lost_refuted : exists xs1 xs2 s1 s2,
  let os := opened ++ [DLoad; DFirst (put_new 2 2); DFirst (PSync true); DFirst flush_plain; DFirst (put 3 3); DFirst (PSync true); DDrop] in
  run_two os = Some (xs1, s1) /\ run_two (os ++ [DFirst (PReopen XKill)]) = Some (xs2, s2) /\
  all_ok xs1 /\ all_ok xs2 /\ reads (t_p s1) 3 3 /\ missing (t_p s2) 3.
Proof.
  repeat match goal with |- exists _, _ => eexists end. cbv zeta. split; [vm_compute; reflexivity|]. split; [vm_compute; reflexivity|].
  repeat split; try (repeat constructor); try (eexists; repeat split; vm_compute; reflexivity); vm_compute; reflexivity.
Qed.
Print Assumptions C135_new_file_lost_refuted.

(** The same with a database that nothing has been written to. *)
Theorem C135_new_database_refuted : exists xs1 xs2 s1 s2,
  let os := [DFirst (PReopen XKill); DLoad; DFirst (put 2 2); DFirst (PSync true); DDrop] in
  run_two os = Some (xs1, s1) /\ run_two (os ++ [DFirst (PReopen XKill)]) = Some (xs2, s2) /\
  all_ok xs1 /\ all_ok xs2 /\ reads (t_p s1) 2 2 /\ missing (t_p s2) 2.
Proof.
  repeat match goal with |- exists _, _ => eexists end. cbv zeta. split; [vm_compute; reflexivity|]. split; [vm_compute; reflexivity|].
  repeat split; try (repeat constructor); try (eexists; repeat split; vm_compute; reflexivity); vm_compute; reflexivity.
Qed.
Print Assumptions C135_new_database_refuted.

(** While the process is up, the handle does not notice the second thread: in every run, the calls
    of the first thread answer as they would alone and leave the same memory, hence the same reads.
    Missing: that the files are as they would be alone (refuted above). *)
Theorem C135_undisturbed_partial : forall hash c os s xs s', stays_up os -> drun hash c os s = Some (xs, s') ->
  exists p', prun hash c (first_calls os) (t_p s) = Some (first_answers os xs, p') /\ p_db (t_p s') = p_db p'.
Proof. intros hash c os s xs s' U H. exact (undisturbed hash c os s xs s' (t_p s) U eq_refl H). Qed.
Print Assumptions C135_undisturbed_partial.

(** When the duplicate is destroyed with the memory that the handle has, as when the first thread
    has done nothing since the load, the duplicate's closing succeeds, and a kill after it loses nothing that
    was acknowledged.  Missing: calls between the load and the closing (refuted above). *)
Theorem C135_idle_partial : forall hash pw c h hs p, cfg_ok c -> c_lso c = false -> preach hash pw c h hs p ->
  exists p1 p', dup_drop hash c (p_db p) p = Some (Ok [], p1) /\ p_db p1 = p_db p /\
    pstep hash c (PReopen XKill) p1 = Some (Ok [], p') /\ forall k, db_get hash c k (p_db p') = spec_get h k.
Proof. exact idle. Qed.
Print Assumptions C135_idle_partial.

(** Whatever the duplicate has in memory, if destroying it leaves the log files as they are (it
    replaced the manifest only), the next sync of the handle succeeds and mends the manifest: a
    kill after it loses nothing.  Missing: a kill before that sync (refuted above). *)
Theorem C135_next_sync_partial : forall hash pw c h hs p b x p1 fsync, cfg_ok c -> c_lso c = false -> preach hash pw c h hs p ->
  dup_drop hash c b p = Some (x, p1) -> p_disk p1 = p_disk p -> (pw = true -> fsync = true) ->
  exists q p', pstep hash c (PSync fsync) p1 = Some (Ok [], q) /\
    pstep hash c (PReopen XKill) q = Some (Ok [], p') /\ forall k, db_get hash c k (p_db p') = spec_get h k.
Proof. exact next_sync. Qed.
Print Assumptions C135_next_sync_partial.

(** In the first refutation above the log files are left as they are, so that the last theorem
    speaks of it: one more sync before the kill, and the record is there. *)
Example C135_case :
  (exists xs1 xs2 s1 s2 b,
    run_two (opened ++ [DLoad; DFirst (put 2 2); DFirst (PSync true)]) = Some (xs1, s1) /\ t_dup s1 = Some b /\
    run_two (opened ++ [DLoad; DFirst (put 2 2); DFirst (PSync true); DDrop]) = Some (xs2, s2) /\
    p_disk (t_p s2) = p_disk (t_p s1)) /\
  (exists xs s, run_two (opened ++ [DLoad; DFirst (put 2 2); DFirst (PSync true); DDrop; DFirst (PSync true); DFirst (PReopen XKill)]) = Some (xs, s) /\
    all_ok xs /\ reads (t_p s) 1 1 /\ reads (t_p s) 2 2).
Proof.
  split.
  - repeat match goal with |- exists _, _ => eexists end. split; [vm_compute; reflexivity|]. split; [vm_compute; reflexivity|].
    split; vm_compute; reflexivity.
  - repeat match goal with |- exists _, _ => eexists end. split; [vm_compute; reflexivity|].
    repeat split; try (repeat constructor); eexists; repeat split; vm_compute; reflexivity.
Qed.

(** Loading right after opening gives the duplicate the memory of the handle. *)
Example C135_idle_case : exists xs s, run_two (opened ++ [DLoad]) = Some (xs, s) /\ all_ok xs /\ t_dup s = Some (p_db (t_p s)).
Proof. eexists. eexists. split; [vm_compute; reflexivity|]. split; [repeat constructor|vm_compute; reflexivity]. Qed.
