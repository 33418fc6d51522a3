(** C132: getMinSeqNum is the smallest number in the log section, and getStats counts the records of
    the log section.  Refuted when the caller chooses numbers and while a batch is written; proved
    when the database chooses the numbers, and as bounds otherwise. *)
From Verif Require Import Base KeyModel LogFormatModel BloomModel MemTableModel LogMgrModel
  DbModel DbProofs DbProofs2 DbProps SeqInfoModel SeqInfoSpec SeqInfoProofs.
Local Open Scope N_scope.

(** The numbers are the database's own: exactly the smallest number that is not flushed, and
    LOG_NOT_EXIST exactly if everything is flushed.  Missing: numbers chosen by the caller. *)
Theorem C132_min_partial : forall hash c h d, cfg_ok c -> reach hash c h d -> d_bat d = None -> consecutive h ->
  lm_min_seq (d_log d) = Ok (match in_log d h with [] => None | r :: _ => Some (r_seq r) end).
Proof. exact min_exact. Qed.

(** Any numbers: above everything flushed and not above the smallest that is left; exact as long as
    nothing was flushed; LOG_NOT_EXIST exactly if everything is flushed. *)
Theorem C132_bound_partial : forall hash c h d, cfg_ok c -> reach hash c h d -> d_bat d = None ->
  match in_log d h with
  | [] => lm_min_seq (d_log d) = Ok None
  | r :: _ => exists m, lm_min_seq (d_log d) = Ok (Some m) /\ flushed_upto d < m <= r_seq r /\
                        (flushed_upto d = 0 -> m = r_seq r)
  end.
Proof. exact min_bound. Qed.

(** getLastFlushedSeqNum divides the writes: the tables hold exactly those up to it. *)
Theorem C132_tables_partial : forall hash c h d, cfg_ok c -> reach hash c h d -> d_bat d = None ->
  d_tab d = filter (fun r => r_seq r <=? flushed_upto d) h.
Proof. exact tables_ok. Qed.

(** The count of the log in getStats: exact for the database's own numbers, else never too small. *)
Theorem C132_count_partial : forall hash c h d, cfg_ok c -> reach hash c h d -> d_bat d = None -> consecutive h ->
  log_count (d_log d) = Ok (N.of_nat (length (in_log d h))).
Proof. exact count_exact. Qed.
Theorem C132_count_bound_partial : forall hash c h d, cfg_ok c -> reach hash c h d -> d_bat d = None ->
  exists n, log_count (d_log d) = Ok n /\ N.of_nat (length (in_log d h)) <= n.
Proof. exact count_bound. Qed.

(** Write 1, flushed; then a write numbered 10 by the caller: the smallest number in the log is said
    to be 2, which does not exist, and nine records are counted. *)
Theorem C132_gap_refuted : exists hash c h d r m, cfg_ok c /\ reach hash c h d /\ d_bat d = None /\
  in_log d h = [r] /\ lm_min_seq (d_log d) = Ok (Some m) /\ m <> r_seq r /\ is_ok (lm_get_seq m (d_log d)) = false /\
  is_ok (lm_get_seq (r_seq r) (d_log d)) = true /\ log_count (d_log d) = Ok 9.
Proof.
  exists ex_hash, ex_c. destruct (run ex_hash true ex_c [ex_put 1 10; ex_sync; ex_fl; ex_at 10 2 20] [] (db_new ex_c)) as [[h d]|] eqn:E; [|vm_compute in E; discriminate].
  exists h, d, (ex_rec 10 2 20), 2. split; [exact ex_c_ok|]. split; [eapply run_reach; [apply reach_new|exact E]|].
  vm_compute in E. injection E as <- <-. split; [reflexivity|]. split; [vm_compute; reflexivity|]. split; [vm_compute; reflexivity|].
  split; [discriminate|]. split; [vm_compute; reflexivity|]. split; vm_compute; reflexivity.
Qed.

(** While a batch is being written, the smallest number is one of the batch, which nobody can see:
    it is above the largest number reported at the same moment. *)
Theorem C132_batch_refuted : exists hash c h d m n, cfg_ok c /\ reach hash c h d /\
  in_log d h = [] /\ lm_min_seq (d_log d) = Ok (Some m) /\ lm_max_seq (d_log d) = Some n /\ n < m /\
  is_ok (lm_get_seq m (d_log d)) = false /\ log_count (d_log d) = Ok 1.
Proof.
  exists ex_hash, ex_c.
  destruct (run ex_hash true ex_c [ex_put 1 10; ex_sync; ex_fl; OBegin [mkRec NIL INS [2] [] [20]]; OPut] [] (db_new ex_c)) as [[h d]|] eqn:E; [|vm_compute in E; discriminate].
  exists h, d, 2, 1. split; [exact ex_c_ok|]. split; [eapply run_reach; [apply reach_new|exact E]|].
  vm_compute in E. injection E as <- <-. split; [vm_compute; reflexivity|]. split; [vm_compute; reflexivity|].
  split; [vm_compute; reflexivity|]. split; [reflexivity|]. split; vm_compute; reflexivity.
Qed.

(** Seven writes over several files, the first three flushed. *)
Example C132_case : exists h d, reach ex_hash ex_c h d /\ cfg_ok ex_c /\ d_bat d = None /\ consecutive h /\
  length h = 7%nat /\ flushed_upto d = 3 /\ (1 < length (g_files (d_log d)))%nat /\
  lm_min_seq (d_log d) = Ok (Some 4) /\ log_count (d_log d) = Ok 4.
Proof.
  destruct (run ex_hash true ex_c [ex_put 1 10; ex_put 2 20; ex_put 3 30; ex_sync; ex_fl; ex_put 1 11; ex_del 2; ex_put 4 40; ex_put 5 50] [] (db_new ex_c)) as [[h d]|] eqn:E; [|vm_compute in E; discriminate].
  exists h, d. split; [eapply run_reach; [apply reach_new|exact E]|]. split; [exact ex_c_ok|].
  vm_compute in E. injection E as <- <-. split; [reflexivity|]. split.
  - intros i r Hi. do 7 (destruct i as [|i]; [injection Hi as <-; vm_compute; reflexivity|]). destruct i; discriminate.
  - split; [reflexivity|]. split; [vm_compute; reflexivity|]. split; [vm_compute; repeat constructor|]. split; vm_compute; reflexivity.
Qed.
Example C132_all_flushed_case : exists h d, reach ex_hash ex_c h d /\ d_bat d = None /\ length h = 3%nat /\ in_log d h = [] /\
  lm_min_seq (d_log d) = Ok None /\ log_count (d_log d) = Ok 0.
Proof.
  destruct (run ex_hash true ex_c [ex_put 1 10; ex_put 2 20; ex_put 3 30; ex_sync; ex_fl] [] (db_new ex_c)) as [[h d]|] eqn:E; [|vm_compute in E; discriminate].
  exists h, d. split; [eapply run_reach; [apply reach_new|exact E]|].
  vm_compute in E. injection E as <- <-. repeat split; vm_compute; reflexivity.
Qed.

Print Assumptions C132_min_partial.
Print Assumptions C132_bound_partial.
Print Assumptions C132_tables_partial.
Print Assumptions C132_count_partial.
Print Assumptions C132_count_bound_partial.
Print Assumptions C132_gap_refuted.
Print Assumptions C132_batch_refuted.
