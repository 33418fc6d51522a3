(** Checkpoints: their list, and snapshots opened on them. *)
From Verif Require Import Base KeyModel LogFormatModel BloomModel MemTableModel LogMgrModel DbModel DbProofs DbProps
  CheckpointModel CheckpointSpec CheckpointProofs CheckpointProofs2 Checkpoint3Proofs Checkpoint4Proofs.
From Coq Require Import Sorted.
Local Open Scope N_scope.

(** * C33: the list is ascending, holds only checkpoints that are in the log or in every partition
    of level 0, and among those the newest ones up to the limit; each was delivered by a call of
    checkpoint(). *)
Theorem C33_list : forall hash part lim c np h ks x, cfg_ok c -> creach hash part lim c np h ks x -> (0 < np)%nat ->
  exists l, db_checkpoints lim x = Ok l /\ newest_n lim (fun k => pending x k \/ in_tables x k) l /\
            (forall k, In k l -> In k (map fst ks)).
Proof.
  intros hash part lim c np h ks x Cok R Hnp. destruct (list_newest hash part lim c np h ks x Cok R Hnp) as (l & E & H).
  exists l. split; [exact E|]. split; [exact H|]. intros k Hk.
  destruct (list_made hash part lim c np h ks x l Cok R Hnp E k Hk) as (F & HF & _). apply in_map_iff. exists (k, F). auto.
Qed.
Print Assumptions C33_list.

(** * C57: a checkpoint delivered while its last record is not flushed stays in the list until the
    limit is reached with newer ones, as long as no compaction of level 0 runs and ForestDB keeps
    its markers. *)
Theorem C57_listed_partial : forall hash part lim c np h ks x, cfg_ok c -> qreach hash part lim c np h ks x -> (0 < np)%nat ->
  exists l, db_checkpoints lim x = Ok l /\ newest_n lim (fun k => exists F, In (k, F) ks /\ F < k) l.
Proof. exact list_complete. Qed.
Print Assumptions C57_listed_partial.

(** ** Runs *)
Definition ex_part (k : key) (n : N) : N := fold_left N.add k 0 mod n.
Definition ex_big : cfg := mkC false false 100 false.
Example ex_big_ok : cfg_ok ex_big.
Proof. constructor; reflexivity. Qed.
Definition plain (o : op) : cop := CDb o (fun _ => 0).
Fixpoint crun (lim : nat) (c : cfg) (os : list cop) (h : list rec) (ks : list (N * N)) (x : cdb) : option (list rec * list (N * N) * cdb) :=
  match os with
  | [] => Some (h, ks, x)
  | o :: t =>
      if match o with CDb o' _ => allowed_b c h (cd_db x) o' | _ => true end
      then match c_step ex_hash ex_part lim c o x with
           | Some (y, x') => crun lim c t (h ++ acked y) (ks ++ map (fun k => (k, flushed_of x)) (c_chk o x)) x'
           | None => None
           end
      else None
  end.
Lemma crun_reach : forall lim c np os h ks x h' ks' x', creach ex_hash ex_part lim c np h ks x ->
  crun lim c os h ks x = Some (h', ks', x') -> creach ex_hash ex_part lim c np h' ks' x'.
Proof.
  intros lim c np os; induction os as [|o t IH]; intros h ks x h' ks' x' R E; cbn [crun] in E; [injection E as <- <- <-; exact R|].
  destruct (match o with CDb o' _ => allowed_b c h (cd_db x) o' | _ => true end) eqn:A; [|discriminate].
  destruct (c_step ex_hash ex_part lim c o x) as [[y x1]|] eqn:E1; [|discriminate].
  apply (IH _ _ _ _ _ _ (creach_step ex_hash ex_part lim c np h ks x o y x1 R ltac:(destruct o; [apply allowed_b_ok; exact A|exact I|exact I]) E1) E).
Qed.

(** Two partitions, at most three checkpoints kept; log files of two entries, one compaction
    under way. *)
Definition ex_chk_ops : list cop :=
  [plain (ex_put 1 10); plain (ex_put 2 20); plain (OChk 0); plain (ex_put 1 11); plain (OChk 0); plain ex_sync; plain ex_fl;
   CRoll 1; plain (ex_put 3 30); plain (OChk 0); plain (ex_put 4 40); plain ex_sync; plain ex_fl; plain (ex_put 2 21); plain (OChk 0)].
Example C33_case : exists h ks x, creach ex_hash ex_part 3 ex_c 2 h ks x /\ cfg_ok ex_c /\ map fst ks = [2; 3; 4; 6] /\
  db_checkpoints 3 x = Ok [3; 4; 6] /\ lm_checkpoints (d_log (cd_db x)) = Ok [6] /\
  map (map (fun t => map fst (t_chk t))) (cd_parts x) = [[[2; 3; 4]]; [[4]; [2; 3]]].
Proof.
  destruct (crun 3 ex_c ex_chk_ops [] [] (cdb_new ex_c 2)) as [[[h ks] x]|] eqn:E; [|vm_compute in E; discriminate].
  exists h, ks, x. split; [apply (crun_reach _ _ _ _ _ _ _ _ _ _ (creach_new _ _ 3 ex_c 2) E)|]. split; [apply ex_c_ok|].
  vm_compute in E. injection E as <- <- <-. vm_compute. repeat split.
Qed.

(** Without the compaction; the limit is reached. *)
Fixpoint qrun (lim : nat) (c : cfg) (os : list op) (h : list rec) (ks : list (N * N)) (x : cdb) : option (list rec * list (N * N) * cdb) :=
  match os with
  | [] => Some (h, ks, x)
  | o :: t =>
      if allowed_b c h (cd_db x) o && match o, h with OChk _, [] => false | _, _ => true end
      then match c_step ex_hash ex_part lim c (plain o) x with
           | Some (y, x') => qrun lim c t (h ++ acked y) (ks ++ map (fun k => (k, flushed_of x)) (c_chk (plain o) x)) x'
           | None => None
           end
      else None
  end.
Lemma qrun_reach : forall lim c np os h ks x h' ks' x',
  qreach ex_hash ex_part lim c np h ks x -> qrun lim c os h ks x = Some (h', ks', x') -> qreach ex_hash ex_part lim c np h' ks' x'.
Proof.
  intros lim c np os; induction os as [|o t IH]; intros h ks x h' ks' x' R E; cbn [qrun] in E; [injection E as <- <- <-; exact R|].
  destruct (allowed_b c h (cd_db x) o && _) eqn:A; [|discriminate]. apply Bool.andb_true_iff in A. destruct A as [A1 A2].
  destruct (c_step ex_hash ex_part lim c (plain o) x) as [[y x1]|] eqn:E1; [|discriminate].
  apply IH with (2 := E). apply (qreach_step ex_hash ex_part lim c np h ks x (plain o) y x1 R (allowed_b_ok _ _ _ _ A1)); [|exact E1].
  destruct o; cbn [quiet plain]; try reflexivity. intros ->. discriminate.
Qed.
Definition ex_quiet_ops : list op :=
  [ex_put 1 10; ex_put 2 20; OChk 0; ex_put 1 11; OChk 0; ex_sync; ex_fl; ex_put 3 30; OChk 0; ex_put 4 40; ex_sync; ex_fl; OChk 0; ex_put 2 21; OChk 0].
Example C57_case : exists h ks x, qreach ex_hash ex_part 3 ex_c 2 h ks x /\ cfg_ok ex_c /\ ks = [(2, 0); (3, 0); (4, 3); (5, 5); (6, 5)] /\
  db_checkpoints 3 x = Ok [3; 4; 6].
Proof.
  destruct (qrun 3 ex_c ex_quiet_ops [] [] (cdb_new ex_c 2)) as [[[h ks] x]|] eqn:E; [|vm_compute in E; discriminate].
  exists h, ks, x. split; [apply (qrun_reach _ _ _ _ _ _ _ _ _ _ (qreach_new _ _ 3 ex_c 2) E)|]. split; [apply ex_c_ok|].
  vm_compute in E. injection E as <- <- <-. vm_compute. split; reflexivity.
Qed.

(** The full statement: a delivered checkpoint is listed unless as many newer ones as the limit
    are.  It fails for a checkpoint taken when everything is flushed, ... *)
Theorem C57_flushed_refuted : exists h ks x, creach ex_hash ex_part 3 ex_big 1 h ks x /\ cfg_ok ex_big /\
  map fst ks = [1] /\ db_checkpoints 3 x = Ok [].
Proof.
  destruct (crun 3 ex_big [plain (ex_put 1 10); plain ex_sync; plain ex_fl; plain (OChk 0)] [] [] (cdb_new ex_big 1)) as [[[h ks] x]|] eqn:E; [|vm_compute in E; discriminate].
  exists h, ks, x. split; [apply (crun_reach _ _ _ _ _ _ _ _ _ _ (creach_new _ _ 3 ex_big 1) E)|]. split; [apply ex_big_ok|].
  vm_compute in E. injection E as <- <- <-. vm_compute. split; reflexivity.
Qed.
Print Assumptions C57_flushed_refuted.
(** ... and after a compaction of level 0. *)
Theorem C57_compaction_refuted : exists h ks x h' ks' x', creach ex_hash ex_part 3 ex_big 1 h ks x /\ cfg_ok ex_big /\
  db_checkpoints 3 x = Ok [1] /\ crun 3 ex_big [CRoll 0; CDrop 0 true] h ks x = Some (h', ks', x') /\
  creach ex_hash ex_part 3 ex_big 1 h' ks' x' /\ map fst ks' = [1] /\ db_checkpoints 3 x' = Ok [].
Proof.
  destruct (crun 3 ex_big [plain (ex_put 1 10); plain (OChk 0); plain ex_sync; plain ex_fl] [] [] (cdb_new ex_big 1)) as [[[h ks] x]|] eqn:E; [|vm_compute in E; discriminate].
  assert (R := crun_reach _ _ _ _ _ _ _ _ _ _ (creach_new _ _ 3 ex_big 1) E).
  exists h, ks, x. destruct (crun 3 ex_big [CRoll 0; CDrop 0 true] h ks x) as [[[h' ks'] x']|] eqn:E2;
    [|vm_compute in E; injection E as <- <- <-; vm_compute in E2; discriminate].
  assert (R2 := crun_reach _ _ _ _ _ _ _ _ _ _ R E2).
  exists h', ks', x'. split; [exact R|]. split; [apply ex_big_ok|].
  vm_compute in E. injection E as <- <- <-. split; [vm_compute; reflexivity|]. split; [reflexivity|]. split; [exact R2|].
  vm_compute in E2. injection E2 as <- <- <-. vm_compute. split; reflexivity.
Qed.
Print Assumptions C57_compaction_refuted.

(** * C58: a snapshot opened at a listed checkpoint answers with the writes up to it.

    It fails: when the log file of the checkpoint is gone, the snapshot has no list of log files
    and the first read uses a null pointer. *)
Definition ex_read (lim : nat) (chk k : N) (x : cdb) : option sres :=
  match c_open lim chk x with Ok sn => Some (csnap_get ex_hash ex_part sn [k] x) | _ => None end.
Definition up_to (n : N) (h : list rec) : list rec := filter (fun r => r_seq r <=? n) h.
Theorem C58_log_gone_refuted : exists h ks x, creach ex_hash ex_part 3 ex_c 1 h ks x /\ cfg_ok ex_c /\
  db_checkpoints 3 x = Ok [2] /\ ex_val (spec_get (up_to 2 h) [1]) = Some [10] /\ ex_read 3 2 1 x = Some SCrash.
Proof.
  destruct (crun 3 ex_c [plain (ex_put 1 10); plain (ex_put 2 20); plain (OChk 0); plain (ex_put 1 11); plain (ex_put 1 12); plain ex_sync; plain ex_fl]
    [] [] (cdb_new ex_c 1)) as [[[h ks] x]|] eqn:E; [|vm_compute in E; discriminate].
  exists h, ks, x. split; [apply (crun_reach _ _ _ _ _ _ _ _ _ _ (creach_new _ _ 3 ex_c 1) E)|]. split; [apply ex_c_ok|].
  vm_compute in E. injection E as <- <- <-. vm_compute. repeat split.
Qed.
Print Assumptions C58_log_gone_refuted.

(** While a partition of level 0 is compacted, the table that takes its writes does not have the
    checkpoint and shows its newest data: a key written after the checkpoint is found. *)
Theorem C58_newer_data_refuted : exists h ks x, creach ex_hash ex_part 3 ex_big 1 h ks x /\ cfg_ok ex_big /\
  db_checkpoints 3 x = Ok [1] /\ spec_get (up_to 1 h) [2] = Fail KEY_NOT_FOUND /\ ex_read 3 1 2 x = Some (SVal (ex_rec 2 2 20)).
Proof.
  destruct (crun 3 ex_big [plain (ex_put 1 10); plain (OChk 0); plain ex_sync; plain ex_fl; CRoll 0; plain (ex_put 2 20); plain ex_sync; plain ex_fl]
    [] [] (cdb_new ex_big 1)) as [[[h ks] x]|] eqn:E; [|vm_compute in E; discriminate].
  exists h, ks, x. split; [apply (crun_reach _ _ _ _ _ _ _ _ _ _ (creach_new _ _ 3 ex_big 1) E)|]. split; [apply ex_big_ok|].
  vm_compute in E. injection E as <- <- <-. vm_compute. repeat split.
Qed.
Print Assumptions C58_newer_data_refuted.

(** A partition that had no record at the time of the checkpoint answers with an error, not with
    "not found". *)
Theorem C58_empty_partition_refuted : exists h ks x, creach ex_hash ex_part 3 ex_big 2 h ks x /\ cfg_ok ex_big /\
  db_checkpoints 3 x = Ok [1] /\ spec_get (up_to 1 h) [2] = Fail KEY_NOT_FOUND /\ ex_read 3 1 2 x = Some SErr.
Proof.
  destruct (crun 3 ex_big [plain (ex_put 1 10); plain (OChk 0); plain (ex_put 2 20); plain ex_sync; plain ex_fl]
    [] [] (cdb_new ex_big 2)) as [[[h ks] x]|] eqn:E; [|vm_compute in E; discriminate].
  exists h, ks, x. split; [apply (crun_reach _ _ _ _ _ _ _ _ _ _ (creach_new _ _ 3 ex_big 2) E)|]. split; [apply ex_big_ok|].
  vm_compute in E. injection E as <- <- <-. vm_compute. repeat split.
Qed.
Print Assumptions C58_empty_partition_refuted.

(** After a snapshot is opened - also one of the newest data, [chk] = 0 - a compaction brings
    tables it has no handle for: the reads that were correct before become errors. *)
Theorem C58_later_compaction_refuted : exists h ks x h' ks' x' sn, creach ex_hash ex_part 3 ex_c 1 h ks x /\ cfg_ok ex_c /\
  c_open 3 0 x = Ok sn /\ csnap_get ex_hash ex_part sn [1] x = SVal (ex_rec 1 1 10) /\
  crun 3 ex_c [CRoll 0] h ks x = Some (h', ks', x') /\ creach ex_hash ex_part 3 ex_c 1 h' ks' x' /\
  csnap_get ex_hash ex_part sn [1] x' = SErr.
Proof.
  destruct (crun 3 ex_c [plain (ex_put 1 10); plain (ex_put 2 20); plain (ex_put 3 30); plain ex_sync; plain ex_fl] [] [] (cdb_new ex_c 1)) as [[[h ks] x]|] eqn:E; [|vm_compute in E; discriminate].
  assert (R := crun_reach _ _ _ _ _ _ _ _ _ _ (creach_new _ _ 3 ex_c 1) E).
  exists h, ks, x. destruct (crun 3 ex_c [CRoll 0] h ks x) as [[[h' ks'] x']|] eqn:E2;
    [|vm_compute in E; injection E as <- <- <-; vm_compute in E2; discriminate].
  assert (R2 := crun_reach _ _ _ _ _ _ _ _ _ _ R E2).
  destruct (c_open 3 0 x) as [sn|e|] eqn:E3; [|vm_compute in E; injection E as <- <- <-; vm_compute in E3; discriminate|vm_compute in E; injection E as <- <- <-; vm_compute in E3; discriminate].
  exists h', ks', x', sn. split; [exact R|]. split; [apply ex_c_ok|]. split; [reflexivity|].
  vm_compute in E. injection E as <- <- <-. vm_compute in E3. injection E3 as <-. split; [vm_compute; reflexivity|].
  split; [reflexivity|]. split; [exact R2|]. vm_compute in E2. injection E2 as <- <- <-. vm_compute. reflexivity.
Qed.
Print Assumptions C58_later_compaction_refuted.

(** What does hold.  [x] is any reachable state, compactions of level 0 before and under way
    included.  A snapshot with the number [n] - that of a listed checkpoint [chk], or for [chk] = 0
    the newest one - answers every read of the key [k] with the newest write up to [n], also after
    any further operations [h'] of the handle, if
    - the record [n] is not flushed yet, or its log file still exists; and
    - for the partition [q] of the key: the record [n] is not flushed yet; or one table, which has
      the checkpoint and was not empty at it; or tables without any checkpoint, all of whose
      records are up to [n]. *)
Theorem C58_snapshot_partial : forall hash part lim c np h ks x chk sn h' x' k q, cfg_ok c ->
  (forall k, part k (N.of_nat np) < N.of_nat np) -> creach hash part lim c np h ks x -> h <> [] ->
  let n := if chk =? 0 then top h else chk in
  n <= top h -> c_open lim chk x = Ok sn ->
  (flushed_of x < n \/ exists f r, In f (g_files (d_log (cd_db x))) /\ In r (m_seq (f_mt f)) /\ r_seq r = n) ->
  nth_error (cd_parts x) (N.to_nat (part k (N.of_nat np))) = Some q ->
  (flushed_of x < n \/ (exists t s, q = [t] /\ In (n, s) (t_chk t) /\ s <> 0) \/
   (flushed_of x <= n /\ forall t, In t q -> t_chk t = [])) ->
  clater hash part lim c h x h' x' ->
  csnap_get hash part sn k x' = match spec_get (up_to n h) k with Ok r => SVal r | _ => SNone end.
Proof. exact snapshot_reads. Qed.
Print Assumptions C58_snapshot_partial.

(** Two partitions.  The checkpoint 3 is flushed, keys 1 and 2 are written again and flushed; the
    snapshot is opened then, and key 2 is written once more. *)
Definition ex_snap_ops : list cop :=
  [plain (ex_put 1 10); plain (ex_put 2 20); plain (ex_put 1 11); plain (OChk 0); plain (ex_put 1 12); plain (ex_put 2 21); plain ex_sync; plain ex_fl].
Example C58_case : exists h ks x sn h' x', creach ex_hash ex_part 3 ex_big 2 h ks x /\ h <> [] /\ (3 <= top h) /\ c_open 3 3 x = Ok sn /\ flushed_of x = 5 /\
  (exists f r, In f (g_files (d_log (cd_db x))) /\ In r (m_seq (f_mt f)) /\ r_seq r = 3) /\
  (forall q, In q (cd_parts x) -> exists t s, q = [t] /\ In (3, s) (t_chk t) /\ s <> 0) /\
  clater ex_hash ex_part 3 ex_big h x h' x' /\ length h' = 6%nat /\
  ex_val (spec_get (up_to 3 h) [1]) = Some [11] /\ csnap_get ex_hash ex_part sn [1] x' = SVal (ex_rec 3 1 11) /\ csnap_get ex_hash ex_part sn [2] x' = SVal (ex_rec 2 2 20).
Proof.
  destruct (crun 3 ex_big ex_snap_ops [] [] (cdb_new ex_big 2)) as [[[h ks] x]|] eqn:E; [|vm_compute in E; discriminate].
  assert (R := crun_reach _ _ _ _ _ _ _ _ _ _ (creach_new _ _ 3 ex_big 2) E).
  destruct (c_open 3 3 x) as [sn|e|] eqn:E3; [|vm_compute in E; injection E as <- <- <-; vm_compute in E3; discriminate|vm_compute in E; injection E as <- <- <-; vm_compute in E3; discriminate].
  destruct (c_step ex_hash ex_part 3 ex_big (plain (ex_put 2 22)) x) as [[y x']|] eqn:E2; [|vm_compute in E; injection E as <- <- <-; vm_compute in E2; discriminate].
  exists h, ks, x, sn, (h ++ acked y), x'. split; [exact R|].
  assert (L : clater ex_hash ex_part 3 ex_big h x (h ++ acked y) x').
  { eapply clater_step; [apply clater_now| |exact E2]. apply allowed_b_ok. vm_compute in E. injection E as <- <- <-. vm_compute. reflexivity. }
  vm_compute in E. injection E as <- <- <-. vm_compute in E3. injection E3 as <-. vm_compute in E2. injection E2 as <- <-.
  split; [discriminate|]. split; [vm_compute; discriminate|]. split; [vm_compute; reflexivity|]. split; [vm_compute; reflexivity|]. split.
  { eexists. eexists. split; [left; reflexivity|]. split; [right; right; left; reflexivity|]. reflexivity. }
  split. { intros q [<-|[<-|[]]]; eexists; eexists; (split; [reflexivity|]); (split; [left; reflexivity|discriminate]). }
  split; [exact L|]. split; [reflexivity|]. split; [vm_compute; reflexivity|]. split; vm_compute; reflexivity.
Qed.
