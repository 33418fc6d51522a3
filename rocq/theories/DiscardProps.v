(** C130: DB::discardDirty takes back the writes that are not synced, from a number on. *)
From Verif Require Import Base KeyModel LogFormatModel BloomModel MemTableModel LogMgrModel IterModel LeafIterModel
  DbModel DbIterModel DbProofs DbProofs2 DbProps DiscardModel DiscardSpec DiscardProofs.
Local Open Scope N_scope.

(** After any allowed operations, outside of a batch: a read by key answers from the writes below
    the number given, and nothing else changes for it.  Missing: operations after the discarding
    (the refutations show what they can meet). *)
Theorem C130_get_partial : forall hash c h d b d' k, cfg_ok c -> c_lso c = false -> reach hash c h d -> d_bat d = None ->
  above_flushed b d -> db_discard b d = (Ok tt, d') -> db_get hash c k d' = spec_get (kept b h) k.
Proof. exact discard_get_ok. Qed.

(** A read by sequence number answers as before below the number given and finds nothing above. *)
Theorem C130_seq_partial : forall hash c h d b d' s, cfg_ok c -> reach hash c h d -> d_bat d = None -> db_discard b d = (Ok tt, d') ->
  lm_get_seq s (d_log d') =
  match lm_get_seq s (d_log d) with
  | Ok r => if r_seq r <? b then Ok r else Fail SEQNUM_NOT_FOUND
  | other => other
  end.
Proof. exact discard_seq_ok. Qed.

(** Opening a key iterator afterwards is defined, and the same as in DbIterModel.v, if every key
    that loses a write keeps an older one in the same log file. *)
Theorem C130_iterator_partial : forall hash c h d b d' a z, cfg_ok c -> reach hash c h d -> db_discard b d = (Ok tt, d') -> older_stays b d ->
  log_open a z (d_log d') = match log_leaves a z (d_log d') with Some l => Ok l | None => Fail NOT_INITIALIZED_ST end.
Proof. exact discard_iter_ok. Qed.

(** So is every iterator of a database on which discardDirty has not been called. *)
Theorem C130_without_partial : forall hash c h d a z, cfg_ok c -> reach hash c h d ->
  log_open a z (d_log d) = match log_leaves a z (d_log d) with Some l => Ok l | None => Fail NOT_INITIALIZED_ST end.
Proof. exact iter_ok. Qed.

(** Three files, one key rewritten after the sync, one new key: only the older data remains. *)
Definition c130_ops : list op := [ex_put 1 10; ex_put 2 20; ex_put 3 30; ex_sync; ex_put 1 11; ex_put 4 40; ex_del 2].
Example C130_case : exists h d d', reach ex_hash ex_c h d /\ cfg_ok ex_c /\ c_lso ex_c = false /\ d_bat d = None /\ above_flushed 4 d /\
  lm_synced_seq (d_log d) = Ok 3 /\ length (g_files (d_log d)) = 3%nat /\ db_discard 4 d = (Ok tt, d') /\
  map (fun k => ex_val (db_get ex_hash ex_c [k] d)) [1; 2; 3; 4] = [Some [11]; None; Some [30]; Some [40]] /\
  map (fun k => ex_val (db_get ex_hash ex_c [k] d')) [1; 2; 3; 4] = [Some [10]; Some [20]; Some [30]; None] /\
  map (fun s => ex_val (lm_get_seq s (d_log d'))) [3; 4; 5; 6] = [Some [30]; None; None; None].
Proof.
  destruct (run ex_hash true ex_c c130_ops [] (db_new ex_c)) as [[h d]|] eqn:E; [|vm_compute in E; discriminate].
  exists h, d, (snd (db_discard 4 d)). split; [eapply run_reach; [apply reach_new|exact E]|]. split; [exact ex_c_ok|]. split; [reflexivity|].
  vm_compute in E. injection E as <- <-. split; [reflexivity|]. split; [intros s Es; vm_compute in Es; discriminate|].
  vm_compute. repeat split; reflexivity.
Qed.

(** Two writes of the same key in one file, the second one taken back. *)
Example C130_iterator_case : exists h d d' l, reach ex_hash ex_c h d /\ cfg_ok ex_c /\ older_stays 2 d /\ db_discard 2 d = (Ok tt, d') /\
  log_open [] [] (d_log d') = Ok l /\ map (fun x => ex_val (Ok (x_get x))) l = [Some [10]].
Proof.
  destruct (run ex_hash true ex_c [ex_put 1 10; ex_put 1 11] [] (db_new ex_c)) as [[h d]|] eqn:E; [|vm_compute in E; discriminate].
  exists h, d, (snd (db_discard 2 d)). eexists. split; [eapply run_reach; [apply reach_new|exact E]|]. split; [exact ex_c_ok|].
  vm_compute in E. injection E as <- <-. split; [|split; [vm_compute; reflexivity|split; vm_compute; reflexivity]].
  intros f r Hf Hr Hb Hc. exists (ex_rec 1 1 10). cbn [d_log g_files] in Hf. destruct Hf as [<-|[]]. cbn [f_mt m_seq] in *.
  split; [left; reflexivity|]. split; [|split; reflexivity].
  destruct Hr as [<-|[<-|[]]]; reflexivity.
Qed.

(** A key written for the first time since the sync leaves a node without a record: opening a key
    iterator, or moving it there, reads the first element of an empty list. *)
Theorem C130_iterator_refuted : exists hash c h d b d', cfg_ok c /\ reach hash c h d /\ d_bat d = None /\ above_flushed b d /\
  lm_synced_seq (d_log d) = Ok 1 /\ b = 2 /\ db_discard b d = (Ok tt, d') /\
  log_open [] [] (d_log d) <> Undef /\ log_open [] [] (d_log d') = Undef.
Proof.
  exists ex_hash, ex_c. destruct (run ex_hash true ex_c [ex_put 2 20; ex_sync; ex_put 1 10] [] (db_new ex_c)) as [[h d]|] eqn:E; [|vm_compute in E; discriminate].
  exists h, d, 2, (snd (db_discard 2 d)). split; [exact ex_c_ok|]. split; [eapply run_reach; [apply reach_new|exact E]|].
  vm_compute in E. injection E as <- <-. split; [reflexivity|]. split; [intros s Es; vm_compute in Es; discriminate|].
  split; [vm_compute; reflexivity|]. split; [reflexivity|]. split; [vm_compute; reflexivity|]. split; [vm_compute; discriminate|vm_compute; reflexivity].
Qed.
Theorem C130_iterator_next_refuted : exists hash c h d b d' x, cfg_ok c /\ reach hash c h d /\ d_bat d = None /\ above_flushed b d /\
  lm_synced_seq (d_log d) = Ok 1 /\ b = 2 /\ db_discard b d = (Ok tt, d') /\
  log_open [] [] (d_log d') = Ok [x] /\ x_next_u x = Undef.
Proof.
  exists ex_hash, ex_c. destruct (run ex_hash true ex_c [ex_put 1 10; ex_sync; ex_put 2 20] [] (db_new ex_c)) as [[h d]|] eqn:E; [|vm_compute in E; discriminate].
  exists h, d, 2, (snd (db_discard 2 d)). eexists. split; [exact ex_c_ok|]. split; [eapply run_reach; [apply reach_new|exact E]|].
  vm_compute in E. injection E as <- <-. split; [reflexivity|]. split; [intros s Es; vm_compute in Es; discriminate|].
  split; [vm_compute; reflexivity|]. split; [reflexivity|]. split; [vm_compute; reflexivity|]. split; vm_compute; reflexivity.
Qed.

(** The same node hides the keys that follow from a nearest-key search. *)
Theorem C130_nearest_refuted : exists hash c h d b d', cfg_ok c /\ reach hash c h d /\ d_bat d = None /\ above_flushed b d /\
  lm_synced_seq (d_log d) = Ok 1 /\ b = 2 /\ db_discard b d = (Ok tt, d') /\
  db_get hash c [2] d' = Ok (ex_rec 1 2 20) /\ lm_nearest c GE [1] (d_log d') = Fail KEY_NOT_FOUND.
Proof.
  exists ex_hash, ex_c. destruct (run ex_hash true ex_c [ex_put 2 20; ex_sync; ex_put 1 10] [] (db_new ex_c)) as [[h d]|] eqn:E; [|vm_compute in E; discriminate].
  exists h, d, 2, (snd (db_discard 2 d)). split; [exact ex_c_ok|]. split; [eapply run_reach; [apply reach_new|exact E]|].
  vm_compute in E. injection E as <- <-. split; [reflexivity|]. split; [intros s Es; vm_compute in Es; discriminate|].
  split; [vm_compute; reflexivity|]. split; [reflexivity|]. split; [vm_compute; reflexivity|]. split; vm_compute; reflexivity.
Qed.

(** A synced write is not spared: the number of the last synced write is computed and not used. *)
Theorem C130_synced_refuted : exists hash c h d b d' r, cfg_ok c /\ reach hash c h d /\ d_bat d = None /\ above_flushed b d /\
  In r h /\ lm_synced_seq (d_log d) = Ok (r_seq r) /\ db_get hash c (r_key r) d = Ok r /\
  db_discard b d = (Ok tt, d') /\ db_get hash c (r_key r) d' = Fail KEY_NOT_FOUND /\ lm_synced_seq (d_log d') = Ok (r_seq r).
Proof.
  exists ex_hash, ex_c. destruct (run ex_hash true ex_c [ex_put 1 10; ex_put 2 20; ex_sync] [] (db_new ex_c)) as [[h d]|] eqn:E; [|vm_compute in E; discriminate].
  exists h, d, 2, (snd (db_discard 2 d)), (ex_rec 2 2 20). split; [exact ex_c_ok|]. split; [eapply run_reach; [apply reach_new|exact E]|].
  vm_compute in E. injection E as <- <-. split; [reflexivity|]. split; [intros s Es; vm_compute in Es; discriminate|].
  split; [right; left; reflexivity|]. split; [vm_compute; reflexivity|]. split; [vm_compute; reflexivity|]. split; [vm_compute; reflexivity|].
  split; vm_compute; reflexivity.
Qed.

(** A snapshot opened before does not keep the writes that are taken back. *)
Theorem C130_snapshot_refuted : exists hash c h d b d' sn k, cfg_ok c /\ reach hash c h d /\ d_bat d = None /\ above_flushed b d /\
  lm_synced_seq (d_log d) = Ok 1 /\ b = 2 /\ open_snap 0 d = Ok sn /\ snap_get hash sn k d = Ok (ex_rec 2 1 11) /\
  db_discard b d = (Ok tt, d') /\ snap_get hash sn k d' = Ok (ex_rec 1 1 10).
Proof.
  exists ex_hash, ex_c. destruct (run ex_hash true ex_c [ex_put 1 10; ex_sync; ex_put 1 11] [] (db_new ex_c)) as [[h d]|] eqn:E; [|vm_compute in E; discriminate].
  exists h, d, 2, (snd (db_discard 2 d)). eexists. exists [1]. split; [exact ex_c_ok|]. split; [eapply run_reach; [apply reach_new|exact E]|].
  vm_compute in E. injection E as <- <-. split; [reflexivity|]. split; [intros s Es; vm_compute in Es; discriminate|].
  split; [vm_compute; reflexivity|]. split; [reflexivity|]. split; [vm_compute; reflexivity|]. split; [vm_compute; reflexivity|].
  split; vm_compute; reflexivity.
Qed.

Print Assumptions C130_get_partial.
Print Assumptions C130_seq_partial.
Print Assumptions C130_iterator_partial.
Print Assumptions C130_without_partial.
Print Assumptions C130_iterator_refuted.
Print Assumptions C130_iterator_next_refuted.
Print Assumptions C130_nearest_refuted.
Print Assumptions C130_synced_refuted.
Print Assumptions C130_snapshot_refuted.
