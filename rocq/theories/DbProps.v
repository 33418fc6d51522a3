(** Properties of the database handle: reads, snapshots, sequence numbers, batches, flushes. *)
From Verif Require Import Base KeyModel LogFormatModel BloomModel MemTableModel LogMgrModel DbModel LogMgrProofs LogMgrProofs2 LogMgrProofs3 DbProofs DbProofs2.
From Coq Require Import Lia.
Local Open Scope N_scope.

(** ** Running a list of operations, for the examples and refutations *)

Section Run.
Variable hash : key -> N * N.

(** [allowed] as a test. *)
Definition allowed_b (c : cfg) (h : list rec) (d : db) (o : op) : bool :=
  match o with
  | OSet full r =>
      (r_seq r <=? NIL) && ((r_seq r =? NIL) || (r_seq r + 1 <? NIL)) && (negb (r_seq r =? NIL) || (top h + 2 <? NIL)) &&
      (negb full || negb (match h with [] => true | _ => false end)) &&
      ((top h <? r_seq r) || valid_to_write c full (newest_file (d_log d)))
  | OBegin b =>
      negb (match h with [] => true | _ => false end) &&
      forallb (fun r => (r_seq r <=? NIL) && ((r_seq r =? NIL) || (r_seq r + N.of_nat (length b) + 1 <? NIL))) b &&
      (top h + N.of_nat (length b) + 1 <? NIL)
  | OFlush fo seq =>
      negb (o_purge fo) && (match d_bat d with None => true | Some _ => negb (seq =? NIL) end) &&
      ((seq =? NIL) ||
       (existsb (fun r => r_seq r =? seq) h &&
        match lm_synced_seq (d_log d) with
        | Ok s => if o_beyond fo then s <=? seq else seq <=? s
        | _ => o_beyond fo
        end))
  | _ => true
  end.

Lemma allowed_b_ok : forall c h d o, allowed_b c h d o = true -> allowed c h d o.
Proof.
  intros c h d [full r|b| | |bad|fo seq|o0] H; cbn [allowed_b allowed] in *; try exact I.
  - repeat rewrite Bool.andb_true_iff in H. repeat rewrite Bool.orb_true_iff in H. repeat rewrite Bool.negb_true_iff in H.
    destruct H as ((((H1 & H2) & H3) & H4) & H5).
    split; [lia|]. split; [intros; destruct H2; lia|]. split; [intros; destruct H3; lia|]. split.
    + intros -> ->. destruct H4; discriminate.
    + intros Hle. destruct H5 as [H5|H5]; [lia|exact H5].
  - repeat rewrite Bool.andb_true_iff in H. destruct H as ((H1 & H2) & H3).
    split; [intros ->; discriminate|]. rewrite forallb_forall in H2.
    split; [intros r Hr; specialize (H2 r Hr); lia|]. split; [|lia].
    intros r Hr Hn. specialize (H2 r Hr). apply Bool.andb_true_iff in H2. destruct H2 as [_ H2]. apply Bool.orb_true_iff in H2. destruct H2; lia.
  - repeat rewrite Bool.andb_true_iff in H. destruct H as ((H1 & H2) & H3).
    split; [apply Bool.negb_true_iff; exact H1|]. split.
    { intros Hn. destruct (d_bat d); [|congruence]. lia. }
    intros Hn. apply Bool.orb_true_iff in H3. destruct H3 as [H3|H3]; [lia|]. apply Bool.andb_true_iff in H3. destruct H3 as [H3 H4].
    apply existsb_exists in H3. destruct H3 as (r & Hr & Er). split; [exists r; split; [exact Hr|lia]|].
    destruct (lm_synced_seq (d_log d)) as [s|e|]; destruct (o_beyond fo); try discriminate.
    + intros s' Es. injection Es as <-. lia.
    + exists s. split; [reflexivity|lia].
Qed.

(** A run, with the acknowledged writes; [guard] keeps to the allowed operations. *)
Fixpoint run (guard : bool) (c : cfg) (os : list op) (h : list rec) (d : db) : option (list rec * db) :=
  match os with
  | [] => Some (h, d)
  | o :: t =>
      if negb guard || allowed_b c h d o
      then match step hash c o d with Some (x, d') => run guard c t (h ++ acked x) d' | None => None end
      else None
  end.

Lemma run_reach : forall c os h d h' d', reach hash c h d -> run true c os h d = Some (h', d') -> reach hash c h' d'.
Proof.
  induction os as [|o t IH]; intros h d h' d' R E; cbn [run] in E.
  - injection E as <- <-. exact R.
  - destruct (negb true || allowed_b c h d o)%bool eqn:A; [|discriminate].
    destruct (step hash c o d) as [[x d1]|] eqn:E1; [|discriminate].
    apply IH with (2 := E). apply reach_step with (o := o) (d := d); [exact R|apply allowed_b_ok; exact A|exact E1].
Qed.
Lemma run_later : forall c os h d h0 d0 h' d', later hash c h0 d0 h d -> run true c os h d = Some (h', d') -> later hash c h0 d0 h' d'.
Proof.
  induction os as [|o t IH]; intros h d h0 d0 h' d' R E; cbn [run] in E.
  - injection E as <- <-. exact R.
  - destruct (negb true || allowed_b c h d o)%bool eqn:A; [|discriminate].
    destruct (step hash c o d) as [[x d1]|] eqn:E1; [|discriminate].
    apply IH with (2 := E). apply later_step with (o := o) (d1 := d); [exact R|apply allowed_b_ok; exact A|exact E1].
Qed.
End Run.

(** Two entries per log file, so that short runs cross files. *)
Definition ex_c : cfg := mkC false false 2 false.
Definition ex_hash (k : key) : N * N := (fold_left N.add k 7, 13).
Definition ex_put (k v : N) : op := OSet false (mkRec NIL INS [k] [] [v]).
Definition ex_del (k : N) : op := OSet false (mkRec NIL DEL [k] [] []).
Definition ex_at (n k v : N) : op := OSet false (mkRec n INS [k] [] [v]).
Definition ex_sync : op := OSync (fun _ => false).
Definition ex_fl : op := OFlush (mkFO false false 0) NIL.
Definition ex_flb : op := OFlush (mkFO true false 0) NIL.
Definition ex_rec (n k v : N) : rec := mkRec n INS [k] [] [v].
Definition ex_val (x : res rec) : option (list N) := match x with Ok r => Some (r_val r) | _ => None end.

Example ex_c_ok : cfg_ok ex_c.
Proof. constructor; reflexivity. Qed.

(** Eleven operations over three log files: overwrites, a deletion, a sync, a flush that removes
    files, a batch half written. *)
Definition ex_ops : list op :=
  [ex_put 1 10; ex_put 2 20; ex_put 1 11; ex_sync; ex_fl; ex_put 3 30; ex_del 2; OChk 0; ex_put 4 40;
   OBegin [mkRec NIL INS [1] [] [12]; mkRec NIL INS [9] [] [90]]; OPut].
Example ex_run :
  match run ex_hash true ex_c ex_ops [] (db_new ex_c) with
  | Some (h, d) => length (g_files (d_log d)) = 2%nat /\ d_tab d <> [] /\ d_gone d <> [] /\ d_bat d <> None /\
      map (fun k => ex_val (db_get ex_hash ex_c [k] d)) [1; 2; 3; 4; 9] = [Some [11]; None; Some [30]; Some [40]; None] /\
      map r_seq h = [1; 2; 3; 4; 5; 6]
  | None => False
  end.
Proof. vm_compute. repeat split; discriminate. Qed.

(** ** C11: a read returns the last acknowledged write *)

(** After any sequence of allowed operations, also in the middle of a batch (records of the
    unfinished batch are not acknowledged and not seen) and whatever has been synced, flushed to
    the tables and removed from the log. *)
Theorem C11_latest_write : forall hash c h d k, cfg_ok c -> c_lso c = false -> reach hash c h d ->
  db_get hash c k d = spec_get h k.
Proof. exact get_latest. Qed.

Example C11_case : exists h d, reach ex_hash ex_c h d /\ cfg_ok ex_c /\ c_lso ex_c = false /\
  d_tab d <> [] /\ ex_val (db_get ex_hash ex_c [1] d) = Some [11] /\ ex_val (db_get ex_hash ex_c [2] d) = None.
Proof.
  destruct (run ex_hash true ex_c ex_ops [] (db_new ex_c)) as [[h d]|] eqn:E; [|vm_compute in E; discriminate].
  exists h, d. split; [eapply run_reach; [apply reach_new|exact E]|]. split; [exact ex_c_ok|]. split; [reflexivity|].
  vm_compute in E. injection E as <- <-. vm_compute. repeat split; discriminate.
Qed.

(** ** C12: a snapshot keeps returning the data of the moment it was opened *)

Theorem C12_snapshot_latest : forall hash c h d h' d' k, cfg_ok c -> reach hash c h d -> later hash c h d h' d' ->
  exists sn, open_snap 0 d = Ok sn /\ snap_get hash sn k d' = spec_get h k.
Proof. exact snap_latest. Qed.

Theorem C12_snapshot_checkpoint : forall hash c h d h' d' chk k sn, cfg_ok c -> reach hash c h d -> later hash c h d h' d' ->
  chk <> 0 -> open_snap chk d = Ok sn -> chk <= top h ->
  snap_get hash sn k d' = spec_get (filter (fun r => r_seq r <=? chk) h) k.
Proof. exact snap_checkpoint. Qed.

(** A checkpoint at 3 of 4 records, then overwrites, a sync and a flush that removes the files:
    the snapshot at the checkpoint and the one of the newest data still read the old values. *)
Example C12_case :
  match run ex_hash true ex_c [ex_put 1 10; ex_put 2 20; ex_put 1 11; OChk 0; ex_put 1 12] [] (db_new ex_c) with
  | Some (h, d) =>
      match run ex_hash true ex_c [ex_put 1 13; ex_del 2; ex_sync; ex_fl; ex_put 5 50] h d, open_snap 3 d, open_snap 0 d with
      | Some (h', d'), Ok s3, Ok s0 =>
          d_gone d' <> [] /\ ex_val (snap_get ex_hash s3 [1] d') = Some [11] /\ ex_val (snap_get ex_hash s0 [1] d') = Some [12] /\
          ex_val (snap_get ex_hash s0 [2] d') = Some [20] /\ ex_val (db_get ex_hash ex_c [1] d') = Some [13]
      | _, _, _ => False
      end
  | None => False
  end.
Proof. vm_compute. repeat split; discriminate. Qed.

(** A checkpoint taken while a batch is being written names a record of the batch that is not
    acknowledged; a snapshot at that checkpoint, opened after the batch, shows half of it: key 1
    has its new value and key 9 does not exist, a state no sequence of acknowledged operations
    had. *)
Theorem C12_checkpoint_in_batch_refuted : exists h d chk sn,
  run ex_hash true ex_c [ex_put 1 10; OBegin [mkRec NIL INS [1] [] [12]; mkRec NIL INS [9] [] [90]]; OPut; OChk 0; OPut; OEnd] [] (db_new ex_c) = Some (h, d) /\
  reach ex_hash ex_c h d /\ open_snap chk d = Ok sn /\
  ex_val (snap_get ex_hash sn [1] d) = Some [12] /\ ex_val (snap_get ex_hash sn [9] d) = None /\
  map (fun r => (r_key r, r_val r)) h = [([1], [10]); ([1], [12]); ([9], [90])].
Proof.
  destruct (run ex_hash true ex_c [ex_put 1 10; OBegin [mkRec NIL INS [1] [] [12]; mkRec NIL INS [9] [] [90]]; OPut; OChk 0; OPut; OEnd] [] (db_new ex_c))
    as [[h d]|] eqn:E; [|vm_compute in E; discriminate].
  exists h, d, 2. destruct (open_snap 2 d) as [sn| |] eqn:E2; [exists sn| |];
    [|vm_compute in E; injection E as <- <-; vm_compute in E2; discriminate..].
  split; [reflexivity|]. split; [eapply run_reach; [apply reach_new|exact E]|]. split; [reflexivity|].
  vm_compute in E. injection E as <- <-. vm_compute in E2. injection E2 as <-. vm_compute. auto.
Qed.

(** ** C13: numbers assigned by the database are consecutive from 1 *)

Theorem C13_consecutive : forall hash c h d, cfg_ok c -> reach_auto hash c h d ->
  map r_seq (h ++ written d) = map N.of_nat (seq 1 (length (h ++ written d))) /\
  match d_bat d with Some (todo, _) => forall r, In r todo -> r_seq r = NIL | None => True end.
Proof. exact auto_numbers. Qed.

(** Mixed with explicit numbers: an automatic number is the largest one plus 1, and a larger
    explicit number is kept. *)
Theorem C13_next_number : forall hash c h d full r, cfg_ok c -> reach hash c h d -> d_bat d = None -> allowed c h d (OSet full r) ->
  exists x d', step hash c (OSet full r) d = Some (x, d') /\
    (r_seq r = NIL -> x = Ok [as_written r (top h + 1)]) /\
    (top h < r_seq r -> r_seq r <> NIL -> x = Ok [as_written r (r_seq r)]) /\
    (r_seq r <= top h -> x = Fail INVALID_SEQNUM /\ d' = d).
Proof. exact set_outcome. Qed.

Example C13_case :
  match run ex_hash true ex_c [ex_put 1 10; ex_at 50 2 20; ex_put 1 11; ex_at 7 1 9; ex_put 3 30] [] (db_new ex_c) with
  | Some (h, _) => map r_seq h = [1; 50; 51; 52]
  | None => False
  end.
Proof. vm_compute. reflexivity. Qed.

(** ** C14: an explicit number that is not larger than every accepted one is rejected

    Part of [C13_next_number] when the newest log file has room.  Not when it is full: the fresh
    log file has no number to compare with, the stale number is accepted, and the key reads back
    as the write with the *smaller* number. *)
Theorem C14_stale_number_rejected_partial : forall hash c h d full r, cfg_ok c -> reach hash c h d -> d_bat d = None ->
  r_seq r <= top h -> r_seq r + 1 < NIL -> (full = true -> h <> []) -> valid_to_write c full (newest_file (d_log d)) = true ->
  step hash c (OSet full r) d = Some (Fail INVALID_SEQNUM, d).
Proof.
  intros hash c h d full r Cok R Hb Hle Hn Hf Hv.
  destruct (set_outcome hash c h d full r Cok R Hb) as (x & d' & E & _ & _ & H).
  - cbn [allowed]. split; [lia|]. split; [intros _; exact Hn|]. split; [intros e; rewrite e in Hn; unfold NIL in Hn; lia|]. split; [exact Hf|]. intros _; exact Hv.
  - destruct (H Hle) as [-> ->]. exact E.
Qed.

Theorem C14_stale_number_accepted_refuted : exists h d x d',
  reach ex_hash ex_c h d /\ d_bat d = None /\ In (ex_rec 20 1 99) h /\
  step ex_hash ex_c (ex_at 5 1 0) d = Some (x, d') /\ x = Ok [ex_rec 5 1 0] /\ ex_val (db_get ex_hash ex_c [1] d') = Some [0].
Proof.
  destruct (run ex_hash true ex_c [ex_at 10 2 22; ex_at 20 1 99] [] (db_new ex_c)) as [[h d]|] eqn:E; [|vm_compute in E; discriminate].
  exists h, d. destruct (step ex_hash ex_c (ex_at 5 1 0) d) as [[x d']|] eqn:E1; [exists x, d'|vm_compute in E; injection E as <- <-; vm_compute in E1; discriminate].
  split; [eapply run_reach; [apply reach_new|exact E]|].
  vm_compute in E. injection E as <- <-. vm_compute in E1. injection E1 as <- <-. vm_compute. auto 10.
Qed.

(** ... and at the next flush acknowledged records with larger numbers disappear: key 3 was
    acknowledged, synced, and never deleted. *)
Theorem C14_stale_number_loses_refuted :
  match run ex_hash false ex_c [ex_at 10 2 22; ex_at 20 3 99; ex_at 5 1 0; ex_sync; ex_fl] [] (db_new ex_c) with
  | Some (h, d) => map r_seq h = [10; 20; 5] /\ ex_val (spec_get h [3]) = Some [99] /\ db_get ex_hash ex_c [3] d = Fail KEY_NOT_FOUND
  | None => False
  end.
Proof. vm_compute. auto. Qed.

(** ** C15: flushed <= synced <= newest *)

Theorem C15_marks_ordered : forall hash c h d, cfg_ok c -> reach hash c h d ->
  (forall s, lm_synced_seq (d_log d) = Ok s -> (exists r, In r h /\ r_seq r = s) /\ lm_max_seq (d_log d) = Some (top h) /\ s <= top h) /\
  (forall s, lm_flushed_seq (d_log d) = Ok s -> (exists r, In r h /\ r_seq r = s) /\
     forall s', lm_synced_seq (d_log d) = Ok s' -> s <= s').
Proof. exact marks_order. Qed.

Example C15_case : match run ex_hash true ex_c ex_ops [] (db_new ex_c) with
  | Some (h, d) => lm_flushed_seq (d_log d) = Ok 3 /\ lm_synced_seq (d_log d) = Ok 3 /\ lm_max_seq (d_log d) = Some 6
  | None => False
  end.
Proof. vm_compute. auto. Qed.

(** A flush beyond the last sync reports data as flushed that is reported as never synced. *)
Theorem C15_never_synced_refuted : exists h d, reach ex_hash ex_c h d /\
  lm_flushed_seq (d_log d) = Ok 1 /\ exists e, lm_synced_seq (d_log d) = Fail e.
Proof.
  destruct (run ex_hash true ex_c [ex_put 1 10; ex_flb] [] (db_new ex_c)) as [[h d]|] eqn:E; [|vm_compute in E; discriminate].
  exists h, d. split; [eapply run_reach; [apply reach_new|exact E]|].
  vm_compute in E. injection E as <- <-. split; [reflexivity|]. eexists. vm_compute. reflexivity.
Qed.
(** A flush beyond the last sync, up to a number below it, takes the synced mark back: 3
    records are synced, the database then reports 1. *)
Theorem C15_synced_lowered_refuted :
  match run ex_hash false ex_c [ex_put 1 10; ex_put 2 20; ex_sync] [] (db_new ex_c) with
  | Some (h, d) => lm_synced_seq (d_log d) = Ok 2 /\
      match step ex_hash ex_c (OFlush (mkFO true false 0) 1) d with
      | Some (Ok _, d') => lm_synced_seq (d_log d') = Ok 1
      | _ => False
      end
  | None => False
  end.
Proof. vm_compute. auto. Qed.

(** ** C30: an unfinished batch is invisible *)

(** No read, at any moment between two steps of a batch, sees any of its records: what is read
    is the last acknowledged write, and the batch is acknowledged as a whole by its last step. *)
Theorem C30_batch_invisible : forall hash c h d k todo done, cfg_ok c -> c_lso c = false -> reach hash c h d ->
  d_bat d = Some (todo, done) -> db_get hash c k d = spec_get h k.
Proof. intros hash c h d k todo done Cok Hl R _. exact (get_latest hash c h d k Cok Hl R). Qed.
Theorem C30_batch_acknowledged : forall hash c h d done d' k, cfg_ok c -> c_lso c = false -> reach hash c h d ->
  d_bat d = Some ([], done) -> step hash c OEnd d = Some (Ok done, d') ->
  db_get hash c k d = spec_get h k /\ db_get hash c k d' = spec_get (h ++ done) k.
Proof.
  intros hash c h d done d' k Cok Hl R Hb E. split; [exact (get_latest hash c h d k Cok Hl R)|].
  apply get_latest; [exact Cok|exact Hl|]. exact (reach_step hash c h d OEnd (Ok done) d' R I E).
Qed.
(** The steps are the batch call: begun, one step per record, ended, they give the result and
    the state of LogMgr::setMulti. *)
Theorem C30_steps_are_the_call : forall hash c b d l g', b <> [] -> d_bat d = None -> lm_set_multi hash c b (d_log d) = (Ok l, g') ->
  exists d1 d2, step hash c (OBegin b) d = Some (Ok [], d1) /\ puts hash c (length b) d1 = Some d2 /\
    step hash c OEnd d2 = Some (Ok l, mkDb g' (d_tab d) (d_gone d) None).
Proof. exact batch_is_set_multi. Qed.

Example C30_case :
  match run ex_hash true ex_c ex_ops [] (db_new ex_c) with
  | Some (h, d) => d_bat d <> None /\ ex_val (db_get ex_hash ex_c [1] d) = Some [11] /\
      match run ex_hash true ex_c [OPut; OEnd] h d with
      | Some (_, d') => ex_val (db_get ex_hash ex_c [1] d') = Some [12] /\ ex_val (db_get ex_hash ex_c [9] d') = Some [90]
      | None => False
      end
  | None => False
  end.
Proof. vm_compute. repeat split; discriminate. Qed.

(** The very first batch of a database has no barrier: half of it is visible. *)
Theorem C30_first_batch_refuted :
  match run ex_hash false ex_c [OBegin [mkRec NIL INS [1] [] [12]; mkRec NIL INS [9] [] [90]]; OPut] [] (db_new ex_c) with
  | Some (h, d) => h = [] /\ ex_val (db_get ex_hash ex_c [1] d) = Some [12] /\ db_get ex_hash ex_c [9] d = Fail KEY_NOT_FOUND
  | None => False
  end.
Proof. vm_compute. auto. Qed.
(** In log-section-only mode reads ignore the barrier. *)
Definition ex_lso : cfg := mkC false true 2 false.
Theorem C30_log_only_refuted :
  match run ex_hash true ex_lso [ex_put 1 10; OBegin [mkRec NIL INS [1] [] [12]; mkRec NIL INS [9] [] [90]]; OPut] [] (db_new ex_lso) with
  | Some (h, d) => ex_val (spec_get h [1]) = Some [10] /\ ex_val (db_get ex_hash ex_lso [1] d) = Some [12] /\
      db_get ex_hash ex_lso [9] d = Fail KEY_NOT_FOUND
  | None => False
  end.
Proof. vm_compute. auto. Qed.
(** A flush of everything during a batch moves the records written so far to the tables, where
    nothing hides them. *)
Theorem C30_flush_during_batch_refuted :
  match run ex_hash false ex_c [ex_put 1 10; OBegin [mkRec NIL INS [1] [] [12]; mkRec NIL INS [9] [] [90]]; OPut; ex_flb] [] (db_new ex_c) with
  | Some (h, d) => d_bat d <> None /\ ex_val (spec_get h [1]) = Some [10] /\ ex_val (db_get ex_hash ex_c [1] d) = Some [12] /\
      db_get ex_hash ex_c [9] d = Fail KEY_NOT_FOUND
  | None => False
  end.
Proof. vm_compute. repeat split; discriminate. Qed.

(** ** C31: an invalid batch changes nothing *)

Theorem C31_invalid_batch : forall hash c h d b, cfg_ok c -> reach hash c h d -> d_bat d = None -> b <> [] -> allowed c h d (OBegin b) ->
  exists x d', step hash c (OBegin b) d = Some (x, d') /\
    (acceptable h b -> x = Ok [] /\ d_bat d' = Some (b, [])) /\
    (~ acceptable h b -> x = Fail INVALID_SEQNUM /\ d' = d).
Proof. exact batch_outcome. Qed.
(** No later step of an accepted batch fails. *)
Theorem C31_accepted_batch_completes : forall hash c h d x d', cfg_ok c -> reach hash c h d -> step hash c OPut d = Some (x, d') -> x = Ok [].
Proof.
  intros hash c h d x d' Cok R E. assert (D := reach_inv _ _ _ _ Cok R).
  destruct (step_put hash c h d x d' Cok D E) as (_ & H & _). exact H.
Qed.

Example C31_case :
  match run ex_hash true ex_c [ex_put 1 10; ex_put 2 20; ex_put 1 11] [] (db_new ex_c) with
  | Some (h, d) =>
      step ex_hash ex_c (OBegin [ex_rec 5 1 1; ex_rec 9 2 2; ex_rec 9 3 3]) d = Some (Fail INVALID_SEQNUM, d) /\
      step ex_hash ex_c (OBegin [ex_rec 3 1 1]) d = Some (Fail INVALID_SEQNUM, d) /\
      match step ex_hash ex_c (OBegin [ex_rec 5 1 1; ex_rec 9 2 2]) d with Some (Ok [], _) => True | _ => False end
  | None => False
  end.
Proof. vm_compute. auto. Qed.

(** ** C34: a flush moves the right records, and reads do not change *)

Theorem C34_flush_moves : forall hash c h d fo seq x d', cfg_ok c -> reach hash c h d -> allowed c h d (OFlush fo seq) ->
  step hash c (OFlush fo seq) d = Some (x, d') ->
  (x = Ok [] /\ exists F s, F <= s /\ d_tab d = filter (fun r => r_seq r <=? F) h /\ d_tab d' = filter (fun r => r_seq r <=? s) h /\
     lm_flushed_seq (d_log d') = Ok s /\ (lm_flushed_seq (d_log d) = Ok F \/ F = 0 /\ lm_flushed_seq (d_log d) = Fail INVALID_SEQNUM) /\
     (seq <> NIL -> s = seq) /\
     (seq = NIL -> o_limit fo = 0 -> if o_beyond fo then s = top h else forall y, lm_synced_seq (d_log d) = Ok y -> s = y))
  \/ ((exists e, x = Fail e) /\ d' = d).
Proof. exact flush_outcome. Qed.

Theorem C34_flush_reads : forall hash c h d fo seq x d' k, cfg_ok c -> c_lso c = false -> reach hash c h d -> allowed c h d (OFlush fo seq) ->
  step hash c (OFlush fo seq) d = Some (x, d') -> db_get hash c k d' = db_get hash c k d.
Proof.
  intros hash c h d fo seq x d' k Cok Hl R A E. rewrite (get_latest hash c h d k Cok Hl R).
  assert (R' := reach_step hash c h d _ x d' R A E). rewrite (get_latest hash c _ d' k Cok Hl R').
  destruct (flush_outcome hash c h d fo seq x d' Cok R A E) as [[-> _]|[[e ->] _]]; cbn [acked]; rewrite app_nil_r; reflexivity.
Qed.

Theorem C34_tables_hold : forall hash c h d, cfg_ok c -> reach hash c h d ->
  (d_tab d = [] /\ lm_flushed_seq (d_log d) = Fail INVALID_SEQNUM) \/
  (exists F, lm_flushed_seq (d_log d) = Ok F /\ d_tab d = filter (fun r => r_seq r <=? F) h).
Proof. exact tables_hold. Qed.

Example C34_case :
  match run ex_hash true ex_c [ex_put 1 10; ex_put 2 20; ex_put 1 11; ex_put 3 30; ex_put 4 40; ex_sync] [] (db_new ex_c) with
  | Some (h, d) =>
      match step ex_hash ex_c (OFlush (mkFO false false 0) 3) d with
      | Some (x, d') => x = Ok [] /\ map r_seq (d_tab d') = [1; 2; 3] /\ map f_num (g_files (d_log d')) = [1; 2]
      | None => False
      end
  | None => False
  end.
Proof. vm_compute. auto. Qed.

(** A flush up to a record that is not yet synced removes the log files before it, although the
    records of a not yet synced file are not moved: keys 3 and 4 are acknowledged and lost. *)
Theorem C34_unsynced_lost_refuted :
  match run ex_hash true ex_c [ex_put 1 10; ex_put 2 20; ex_sync; ex_put 3 30; ex_put 4 40; ex_put 5 50] [] (db_new ex_c) with
  | Some (h, d) =>
      ex_val (db_get ex_hash ex_c [3] d) = Some [30] /\
      match step ex_hash ex_c (OFlush (mkFO false false 0) 5) d with
      | Some (x, d') => x = Ok [] /\ db_get ex_hash ex_c [3] d' = Fail KEY_NOT_FOUND /\ db_get ex_hash ex_c [4] d' = Fail KEY_NOT_FOUND
      | None => False
      end
  | None => False
  end.
Proof. vm_compute. auto. Qed.

(** A flush up to a number that lies before the first record removes log files whose records
    have not been moved. *)
Theorem C34_gap_lost_refuted :
  match run ex_hash true ex_c [ex_at 100 1 10; ex_at 101 2 20; ex_at 102 3 30; ex_at 103 4 40; ex_at 104 5 50; ex_sync] [] (db_new ex_c) with
  | Some (h, d) =>
      ex_val (db_get ex_hash ex_c [1] d) = Some [10] /\
      match step ex_hash ex_c (OFlush (mkFO false false 0) 50) d with
      | Some (x, d') => (x, db_get ex_hash ex_c [1] d', db_get ex_hash ex_c [3] d', ex_val (db_get ex_hash ex_c [5] d'))
                        = (Ok [], Fail KEY_NOT_FOUND, Fail KEY_NOT_FOUND, Some [50])
      | None => False
      end
  | None => False
  end.
Proof. vm_compute. auto. Qed.

Print Assumptions C11_latest_write.
Print Assumptions C12_snapshot_latest.
Print Assumptions C12_snapshot_checkpoint.
Print Assumptions C12_checkpoint_in_batch_refuted.
Print Assumptions C13_consecutive.
Print Assumptions C13_next_number.
Print Assumptions C14_stale_number_rejected_partial.
Print Assumptions C14_stale_number_accepted_refuted.
Print Assumptions C14_stale_number_loses_refuted.
Print Assumptions C15_marks_ordered.
Print Assumptions C15_never_synced_refuted.
Print Assumptions C15_synced_lowered_refuted.
Print Assumptions C30_batch_invisible.
Print Assumptions C30_batch_acknowledged.
Print Assumptions C30_steps_are_the_call.
Print Assumptions C30_first_batch_refuted.
Print Assumptions C30_log_only_refuted.
Print Assumptions C30_flush_during_batch_refuted.
Print Assumptions C31_invalid_batch.
Print Assumptions C31_accepted_batch_completes.
Print Assumptions C34_flush_moves.
Print Assumptions C34_flush_reads.
Print Assumptions C34_tables_hold.
Print Assumptions C34_unsynced_lost_refuted.
Print Assumptions C34_gap_lost_refuted.
