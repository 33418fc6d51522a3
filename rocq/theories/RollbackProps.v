(** * C42, C65-C69: rollback and reopening of a log-section-only database *)
From Verif Require Import Base KeyModel LogFormatModel LogSpec LogDamageProofs MemTableModel MemTableProofs
  RollbackModel RollbackSpec RollbackProofs RollbackProofs2 RollbackProofs3 RollbackProofs4 RollbackRefModel RollbackRefProofs.
From Coq Require Import Sorted ZifyBool.
Local Open Scope N_scope.

(** ** C42.  Rollback removes exactly the later writes *)

(** In every reachable state a read finds exactly what the log of writes and rollbacks says.
    Conditions ([op_fine], [cfg_fine]): logFileTtl_sec is not 0, allowOverwriteSeqNum is off, no
    reader holds the file that is cut, the database is not empty at a rollback. *)
Theorem C42_reads_partial : forall hash c L s, cfg_fine c -> rreach hash c L s ->
  (forall k, answers (r_get hash c k s) (latest k L)) /\ (forall n, answers (r_get_seq hash c n s) (numbered n L)).
Proof.
  intros hash c L s Hc H. assert (I := reach_inv hash c Hc L s H).
  split; intros x; [exact (get_ok hash c Hc L s x I)|exact (get_seq_ok hash c Hc L s x I)].
Qed.
Print Assumptions C42_reads_partial.

(** Rollback to the number of a record succeeds; afterwards each record up to it is readable by its
    number and each later one is not. *)
Theorem C42_rollback_partial : forall hash c L s open n, cfg_fine c -> rreach hash c L s -> numbered n L <> None ->
  exists s', r_step hash c (ORoll open false n) s = (RDone, s') /\
    rreach hash c (filter (fun r => r_seq r <=? n) L) s' /\
    (forall r, In r L -> r_seq r <= n -> r_get_seq hash c (r_seq r) s' = Ok r) /\
    (forall m, n < m -> exists e, r_get_seq hash c m s' = Fail e) /\
    (forall k r, r_get hash c k s' = Ok r -> In r L /\ r_seq r <= n).
Proof.
  intros hash c L s open n Hc H HN. assert (I := reach_inv hash c Hc L s H).
  destruct (rollback_succeeds hash c Hc L s open n I HN) as (s' & E & Hm). exists s'. split; [exact E|].
  assert (NE : L <> []) by (intros ->; apply HN; reflexivity).
  assert (R : rreach hash c (filter (fun r => r_seq r <=? n) L) s').
  { exact (rr_step hash c L s (ORoll open false n) RDone s' H (conj NE eq_refl) E Hm). }
  split; [exact R|]. assert (I' := reach_inv hash c Hc _ s' R). destruct (inv_sorted _ _ _ I) as [HS _].
  split; [|split].
  - intros r Hr Hle. assert (A := get_seq_ok hash c Hc _ s' (r_seq r) I').
    assert (F : numbered (r_seq r) (filter (fun r => r_seq r <=? n) L) = Some r).
    { unfold numbered. rewrite find_filter. clear -HS Hr Hle. induction L as [|a L IH]; [destruct Hr|]. cbn [find].
      destruct ((r_seq a <=? n) && (r_seq a =? r_seq r)) eqn:E.
      - destruct Hr as [->|Hr]; [reflexivity|]. assert (X := sorted_app_lt [a] L a r HS (or_introl eq_refl) Hr). lia.
      - destruct Hr as [->|Hr]; [lia|]. apply IH; [apply (sorted_app_r [a] L HS)|exact Hr]. }
    rewrite F in A. exact A.
  - intros m Hlt. assert (A := get_seq_ok hash c Hc _ s' m I').
    rewrite numbered_none in A; [exact A|]. intros r Hr. apply filter_In in Hr. lia.
  - intros k r Er. assert (A := get_ok hash c Hc _ s' k I'). destruct (latest k _) as [x|] eqn:EL.
    + cbn [answers] in A. assert (x = r) by congruence. subst x. apply find_some in EL. destruct EL as [EL _]. apply in_rev in EL.
      apply filter_In in EL. split; [apply EL|lia].
    + destruct A as (e & A). congruence.
Qed.
Print Assumptions C42_rollback_partial.

(** The next write after any history gets the next number, also after a rollback. *)
Theorem C42_next_number_partial : forall hash c L s full r, cfg_fine c -> rreach hash c L s -> op_fine L (OPut full r) ->
  r_seq r = NIL -> exists x s', r_step hash c (OPut full r) s = (RRec x, s') /\ r_seq x = top_of L + 1 /\ r_key x = r_key r.
Proof.
  intros hash c L s full r Hc H HO Er. assert (I := reach_inv hash c Hc L s H).
  destruct (put_ok hash c Hc L s full r I HO) as (s' & E & _). cbn [r_step]. rewrite E. cbn [out_of].
  eexists _, s'. split; [reflexivity|]. rewrite r_seq_stored. unfold number_for. rewrite Er, N.eqb_refl. split; [reflexivity|].
  unfold stored. destruct (is_del r); reflexivity.
Qed.
Print Assumptions C42_next_number_partial.

(** No operation goes wrong. *)
Theorem C42_defined_partial : forall hash c L s o, cfg_fine c -> rreach hash c L s -> op_fine L o ->
  rs_max (snd (r_step hash c o s)) < NIL -> fst (r_step hash c o s) <> RUb.
Proof.
  intros hash c L s o Hc H HO Hm. destruct (r_step hash c o s) as [out s'] eqn:E. cbn [fst snd] in *.
  apply (step_inv hash c Hc L s o out s' (reach_inv hash c Hc L s H) HO E Hm).
Qed.
Print Assumptions C42_defined_partial.

(** The bytes: cutting a log file where the search says and loading it gives the entries up to the
    last record that stays; in a file with ascending numbers exactly the records up to the target
    stay. *)
Theorem C42_bytes : forall comp decomp (t : N) es d, Forall (wf_entry comp decomp) es -> cut t es = Some d ->
  load_file decomp (firstn (N.to_nat (fr_off (find_offset t (log_file_bytes comp es)))) (log_file_bytes comp es)) = (d, L_OK) /\
  (sorted_seq (recs_of es) -> recs_of d = filter (fun r => r_seq r <=? t) (recs_of es)).
Proof.
  intros comp decomp t es d Hw H. split; [exact (truncated_file_loads comp decomp t es d Hw H)|].
  intros Hs. assert (X := cut_recs t es Hs). rewrite H in X. apply X.
Qed.
Print Assumptions C42_bytes.

(** *** Concrete runs *)

Fixpoint runs (hash : key -> N * N) (c : rcfg) (ops : list rop) (s : rst) : list rout * rst :=
  match ops with
  | [] => ([], s)
  | o :: t => let (x, s1) := r_step hash c o s in let (l, s2) := runs hash c t s1 in (x :: l, s2)
  end.

Fixpoint consecb (L : list rec) : bool :=
  match L with
  | a :: (b :: _) as t => (r_seq b =? r_seq a + 1) && consecb t
  | _ => true
  end.
Definition fineb (L : list rec) (o : rop) : bool :=
  match o with
  | OPut full r =>
      ((r_seq r =? NIL) && (top_of L + 3 <? NIL) || (top_of L <? r_seq r) && (r_seq r + 2 <? NIL)) &&
      match L with [] => negb full | _ => true end
  | ORoll _ held _ => match L with [] => false | _ => negb held end
  | OReopen _ => consecb L
  | _ => true
  end.
Lemma consecb_ok : forall L, consecb L = true -> consecutive L.
Proof.
  induction L as [|a L IH]; intros H; [exact I|]. destruct L as [|b L]; [exact I|]. cbn [consecb] in H.
  apply andb_true_iff in H. destruct H as [H1 H2]. split; [apply N.eqb_eq, H1|apply IH, H2].
Qed.
Lemma fineb_ok : forall L o, fineb L o = true -> op_fine L o.
Proof.
  intros L o H. destruct o as [full r|open|open held n|n|n|open]; cbn [fineb op_fine] in *; try exact I.
  - apply andb_true_iff in H. destruct H as [H1 H2]. split; [lia|]. intros ->. destruct full; [discriminate|reflexivity].
  - destruct L; [discriminate|]. destruct held; [discriminate|]. split; [discriminate|reflexivity].
  - apply consecb_ok, H.
Qed.
Fixpoint fine_run (hash : key -> N * N) (c : rcfg) (ops : list rop) (L : list rec) (s : rst) : option (list rec * rst) :=
  match ops with
  | [] => Some (L, s)
  | o :: t =>
      if fineb L o then
        let (x, s1) := r_step hash c o s in
        if rs_max s1 <? NIL then fine_run hash c t (log_after o x L) s1 else None
      else None
  end.
Lemma fine_run_reach : forall hash c ops L s L' s', rreach hash c L s -> fine_run hash c ops L s = Some (L', s') -> rreach hash c L' s'.
Proof.
  intros hash c. induction ops as [|o ops IH]; intros L s L' s' H E; cbn [fine_run] in E.
  - assert (X : L = L' /\ s = s') by (split; congruence). destruct X as [<- <-]. exact H.
  - destruct (fineb L o) eqn:F; [|discriminate]. destruct (r_step hash c o s) as [x s1] eqn:E1.
    destruct (rs_max s1 <? NIL) eqn:E2; [|discriminate]. apply (IH _ _ _ _ (rr_step hash c L s o x s1 H (fineb_ok _ _ F) E1 ltac:(lia)) E).
Qed.

Definition xh (k : key) : N * N := (fold_left N.add k 7, 13).
Definition xc : rcfg := mkRC false true 3.
Definition xput (k v : N) : rop := OPut false (mkRec NIL INS [k] [] [v]).
Definition xdel (k : N) : rop := OPut false (mkRec NIL DEL [k] [] []).
Definition xat (n k v : N) : rop := OPut false (mkRec n INS [k] [] [v]).
Definition xsync : rop := OSyn (fun _ => true).
Definition xroll (n : N) : rop := ORoll (fun _ => true) false n.
Definition xopen : rop := OReopen (fun _ => true).
Definition xval (r : res rec) : option (list N) := match r with Ok x => Some (r_val x) | _ => None end.

(** Eight writes over three files, rolled back to the fourth, two more writes, closed and opened. *)
Definition x_ops : list rop :=
  [xput 1 10; xput 2 20; xput 1 11; xput 3 30; xsync; OEvict 1; xput 2 21; xdel 1; xput 4 40; xput 3 31; xroll 4; xput 5 50; xopen; xput 3 33; OLoad 0].
Example C42_case : exists L s, rreach xh xc L s /\ cfg_fine xc /\ map r_seq L = [1; 2; 3; 4; 5; 6] /\
  map rf_num (rs_files s) = [0; 1; 2; 3] /\
  map (fun k => xval (r_get xh xc [k] s)) [1; 2; 3; 4; 5] = [Some [11]; Some [20]; Some [33]; None; Some [50]] /\
  numbered 4 L <> None.
Proof.
  destruct (fine_run xh xc x_ops [] (r_new xc)) as [[L s]|] eqn:E; [|vm_compute in E; discriminate].
  exists L, s. split; [exact (fine_run_reach _ _ _ _ _ _ _ (rr_new _ _) E)|]. vm_compute in E. injection E as <- <-.
  vm_compute. split; [split; [reflexivity|split; reflexivity]|]. repeat (split; [reflexivity|]). discriminate.
Qed.

(** *** What goes wrong without the conditions *)

(** With the default logFileTtl_sec = 0 the memtable of the file that was cut is thrown away and
    never loaded again: the read after a successful rollback dereferences a null pointer. *)
Theorem C42_default_ttl_refuted : exists ops outs s,
  runs xh (mkRC false false 3) ops (r_new (mkRC false false 3)) = (outs, s) /\
  nth 2 ops (OLoad 0) = xroll 1 /\ nth 2 outs RUb = RDone /\
  r_get xh (mkRC false false 3) [1] s = Undef.
Proof.
  exists [xput 1 10; xput 2 20; xroll 1]. eexists _, _. split; [vm_compute; reflexivity|]. vm_compute. repeat split.
Qed.
Print Assumptions C42_default_ttl_refuted.

(** With allowOverwriteSeqNum, writing number 2 again makes sync append the records from 2 on once
    more; rollback to 3 cuts after the last record up to 3 and leaves 4 and 5 readable by key. *)
Theorem C42_overwrite_refuted : exists ops outs s,
  runs xh (mkRC true true 9) ops (r_new (mkRC true true 9)) = (outs, s) /\
  last ops (OLoad 0) = xroll 3 /\ last outs RUb = RDone /\
  exists r, r_get xh (mkRC true true 9) [5] s = Ok r /\ r_seq r = 5.
Proof.
  exists [xat 1 1 10; xat 2 2 20; xat 3 3 30; xat 4 4 40; xat 5 5 50; xsync; xat 2 2 21; xsync; xroll 3].
  eexists _, _. split; [vm_compute; reflexivity|]. split; [reflexivity|]. split; [reflexivity|]. eexists. split; vm_compute; reflexivity.
Qed.
Print Assumptions C42_overwrite_refuted.

(** While an iterator holds the file, rolled-back records stay readable by key. *)
Theorem C42_open_iterator_refuted : exists L s s' n k r,
  rreach xh xc L s /\ numbered n L <> None /\ r_step xh xc (ORoll (fun _ => true) true n) s = (RDone, s') /\
  r_get xh xc k s' = Ok r /\ n < r_seq r.
Proof.
  destruct (fine_run xh xc [xput 1 10; xput 2 20] [] (r_new xc)) as [[L s]|] eqn:E; [|vm_compute in E; discriminate].
  exists L, s. eexists _, 1, [2], (mkRec 2 INS [2] [] [20]).
  split; [exact (fine_run_reach _ _ _ _ _ _ _ (rr_new _ _) E)|]. vm_compute in E. injection E as <- <-.
  split; [vm_compute; discriminate|]. split; [vm_compute; reflexivity|]. split; vm_compute; reflexivity.
Qed.
Print Assumptions C42_open_iterator_refuted.

(** ** C65.  A failed rollback leaves the database as it was *)

Theorem C65_nonempty_partial : forall hash c L s open n e s', cfg_fine c -> rreach hash c L s -> L <> [] ->
  r_step hash c (ORoll open false n) s = (RErr e, s') ->
  numbered n L = None /\
  (forall k, answers (r_get hash c k s') (latest k L)) /\ (forall m, answers (r_get_seq hash c m s') (numbered m L)).
Proof.
  intros hash c L s open n e s' Hc H NE E. assert (I := reach_inv hash c Hc L s H).
  destruct (rollback_ok hash c Hc L s open n I NE) as (x & s2 & E2 & H2). cbn [r_step] in E. rewrite E2 in E.
  destruct x as [u|e'|]; cbn [out_of] in E; [discriminate| |contradiction].
  assert (s2 = s') by congruence. subst s2. destruct H2 as (I2 & _ & HN). split; [exact HN|].
  split; intros x; [exact (get_ok hash c Hc L s' x I2)|exact (get_seq_ok hash c Hc L s' x I2)].
Qed.
Print Assumptions C65_nonempty_partial.

(** On an empty database, rollback reports that there is no such number, but the next write is
    numbered after it, and a sync that reports success does not store it: after closing and
    reopening it is gone. *)
Theorem C65_empty_refuted : exists ops outs s,
  ops = [ORoll (fun _ => true) false 100; xput 1 10; xsync; xopen] /\
  runs xh xc ops (r_new xc) = (outs, s) /\
  (exists e r, outs = [RErr e; RRec r; RDone; RDone] /\ r_seq r = 101) /\
  map (fun f => recs_of (rf_disk f)) (rs_files s) = [[]] /\
  xval (r_get xh xc [1] s) = None.
Proof.
  eexists _, _, _. split; [reflexivity|]. split; [vm_compute; reflexivity|]. split; [eexists _, _; split; reflexivity|].
  split; vm_compute; reflexivity.
Qed.
Print Assumptions C65_empty_refuted.

(** ** C66.  Rolled-back records do not come back after a power failure *)

(** A clean close and reopen does not bring them back. *)
Theorem C66_clean_partial : forall hash c L s open1 open2 n s1 s2, cfg_fine c -> rreach hash c L s -> L <> [] -> consecutive L ->
  r_step hash c (ORoll open1 false n) s = (RDone, s1) -> r_step hash c (OReopen open2) s1 = (RDone, s2) ->
  rs_max s1 < NIL -> rs_max s2 < NIL ->
  (forall k, answers (r_get hash c k s2) (latest k (filter (fun r => r_seq r <=? n) L))) /\
  (forall m, answers (r_get_seq hash c m s2) (numbered m (filter (fun r => r_seq r <=? n) L))).
Proof.
  intros hash c L s open1 open2 n s1 s2 Hc H NE HC E1 E2 M1 M2.
  assert (HC2 : consecutive (filter (fun r => r_seq r <=? n) L)).
  { clear -HC. induction L as [|a L IH]; [exact I|]. destruct L as [|b L].
    - cbn [filter]. destruct (r_seq a <=? n); exact I.
    - destruct HC as [H1 H2]. specialize (IH H2). cbn [filter] in *. destruct (r_seq a <=? n) eqn:Ea.
      + destruct (r_seq b <=? n) eqn:Eb; [split; [exact H1|exact IH]|].
        assert (Z : filter (fun r => r_seq r <=? n) L = []).
        { clear -H2 Eb. revert b H2 Eb. induction L as [|d L IH]; intros b H2 Eb; [reflexivity|]. destruct H2 as [H1 H2]. cbn [filter].
          destruct (r_seq d <=? n) eqn:Ed; [lia|]. apply (IH d H2 Ed). }
        rewrite Z. exact I.
      + exact IH. }
  assert (R1 := rr_step hash c L s _ _ s1 H (conj NE eq_refl : op_fine L (ORoll open1 false n)) E1 M1).
  assert (R2 := rr_step hash c _ s1 _ _ s2 R1 (HC2 : op_fine _ (OReopen open2)) E2 M2).
  exact (C42_reads_partial hash c _ s2 Hc R2).
Qed.
Print Assumptions C66_clean_partial.

(** The shortened file is not fsynced before rollback returns: with its former content the records
    are back. *)
Theorem C66_power_failure_refuted : exists L s s1 s2 n f,
  rreach xh xc L s /\ numbered n L <> None /\ r_step xh xc (xroll n) s = (RDone, s1) /\
  rfile_at 0 (rs_files s) = Some f /\ recs_of (rf_disk f) = L /\ s2 = r_power_cut 0 (rf_disk f) s1 /\
  (exists r, r_get xh xc [2] s2 = Ok r /\ n < r_seq r).
Proof.
  destruct (fine_run xh xc [xput 1 10; xput 2 20; xsync] [] (r_new xc)) as [[L s]|] eqn:E; [|vm_compute in E; discriminate].
  exists L, s. eexists _, _, 1, _.
  split; [exact (fine_run_reach _ _ _ _ _ _ _ (rr_new _ _) E)|]. vm_compute in E. injection E as <- <-.
  split; [vm_compute; discriminate|]. split; [vm_compute; reflexivity|]. split; [vm_compute; reflexivity|].
  split; [vm_compute; reflexivity|]. split; [reflexivity|]. eexists. split; [vm_compute; reflexivity|vm_compute; reflexivity].
Qed.
Print Assumptions C66_power_failure_refuted.

(** ** C67.  The files of the database stay on disk *)

(** Whatever is written, flushed, rolled back, opened and closed: if readers hold no file that a
    rollback removes and the background remover pauses during rollbacks, every log file of the
    database is on disk under its name. *)
Theorem C67_files_stay_partial : forall s o, freach_ s -> In o (fs_live s) -> lookup (o_num o) (fs_dir s) = Some (o_ino o).
Proof. intros s o H. exact (v_dir s (freach_inv s H) o). Qed.
Print Assumptions C67_files_stay_partial.

(** A run with readers, flushes and a rollback. *)
Example C67_case : exists s, freach_ s /\ map o_num (fs_live s) = [1; 2; 3] /\ map o_ino (fs_live s) = [1; 2; 4] /\ fs_pend s = [] /\ length (fs_dir s) = 3%nat.
Proof.
  exists (f_run [FAdd; FAdd; FHold 0; FAdd; FDrop; FCut 2; FForce; FAdd; FRelease 0; FPop; FUnlink]).
  split; [|vm_compute; repeat split].
  unfold f_run. cbn [fold_left].
  repeat (apply fr_step; [|try exact I; try (vm_compute; reflexivity)]); [apply fr_init|].
  intros x Hx Hlt. vm_compute in Hx. destruct Hx as [<-|[<-|[<-|[]]]]; try (vm_compute in Hlt; discriminate); reflexivity.
Qed.

(** An iterator is open on a file that a rollback removes; a new file gets the number and the name;
    closing the iterator deletes the new file. *)
Theorem C67_iterator_refuted : exists ops o, ops = [FAdd; FHold 1; FCut 0; FForce; FAdd; FRelease 1; FPop; FUnlink] /\
  In o (fs_live (f_run ops)) /\ lookup (o_num o) (fs_dir (f_run ops)) = None.
Proof.
  exists [FAdd; FHold 1; FCut 0; FForce; FAdd; FRelease 1; FPop; FUnlink], (mkLO 1 2 0). split; [reflexivity|].
  split; [right; left; reflexivity|reflexivity].
Qed.
Print Assumptions C67_iterator_refuted.

(** No reader at all: the background remover has taken the name of a rolled-back file off the list
    but unlinks it only after a new file of that name was made. *)
Theorem C67_remover_refuted : exists ops o, ops = [FAdd; FCut 0; FPop; FForce; FAdd; FUnlink] /\
  In o (fs_live (f_run ops)) /\ lookup (o_num o) (fs_dir (f_run ops)) = None.
Proof.
  exists [FAdd; FCut 0; FPop; FForce; FAdd; FUnlink], (mkLO 1 2 0). split; [reflexivity|].
  split; [right; left; reflexivity|reflexivity].
Qed.
Print Assumptions C67_remover_refuted.

(** ** C68.  A clean close and reopen keeps every record *)

Theorem C68_reopen_partial : forall hash c L s open, cfg_fine c -> rreach hash c L s -> consecutive L ->
  exists s', r_step hash c (OReopen open) s = (RDone, s') /\
    (forall k, answers (r_get hash c k s') (latest k L)) /\ (forall n, answers (r_get_seq hash c n s') (numbered n L)).
Proof.
  intros hash c L s open Hc H HC. destruct (reopen_ok hash c Hc L s open (reach_inv hash c Hc L s H) HC) as (s' & E & I & _).
  exists s'. cbn [r_step]. rewrite E. split; [reflexivity|].
  split; intros x; [exact (get_ok hash c Hc L s' x I)|exact (get_seq_ok hash c Hc L s' x I)].
Qed.
Print Assumptions C68_reopen_partial.

(** With a gap in the numbers between two files (the caller chose the numbers), the later file is
    dropped at the next open, although it was synced and the database closed cleanly. *)
Theorem C68_gap_refuted : exists L s s', rreach xh xc L s /\ numbered 9 L <> None /\ sorted_seq L /\
  (exists s0, r_step xh xc xsync s = (RDone, s0) /\ r_step xh xc xopen s0 = (RDone, s')) /\
  (forall n, r_get_seq xh xc 9 s' <> Ok n) /\ xval (r_get xh xc [4] s') = None.
Proof.
  destruct (fine_run xh xc [xat 1 1 10; xat 2 2 20; xat 3 3 30; xat 9 4 40] [] (r_new xc)) as [[L s]|] eqn:E; [|vm_compute in E; discriminate].
  exists L, s. eexists.
  assert (R := fine_run_reach _ _ _ _ _ _ _ (rr_new _ _) E).
  split; [exact R|]. assert (HS : sorted_seq L) by (eapply inv_sorted; apply (reach_inv xh xc ltac:(vm_compute; auto) _ _ R)).
  vm_compute in E. injection E as <- <-.
  split; [vm_compute; discriminate|]. split; [exact HS|].
  split; [eexists; split; vm_compute; reflexivity|]. split; [intros n; vm_compute; discriminate|vm_compute; reflexivity].
Qed.
Print Assumptions C68_gap_refuted.

(** ** C69.  A checkpoint at the target of a rollback *)

(** The checkpoint marker follows its record, and rollback to the record cuts it off: the file had
    the checkpoint, the shortened file has not. *)
Definition plain (_ : rec) : option (list N) := None.
Theorem C69_checkpoint_refuted : exists es d t, let f := log_file_bytes plain es in
  load_file None f = (es, L_OK) /\ In t (chks_of es) /\ (exists r, In r (recs_of es) /\ r_seq r = t) /\
  load_file None (firstn (N.to_nat (fr_off (find_offset t f))) f) = (d, L_OK) /\ chks_of d = [].
Proof.
  exists [ERec (mkRec 1 INS [1] [] [10]); EChk 1; ERec (mkRec 2 INS [2] [] [20])], [ERec (mkRec 1 INS [1] [] [10])], 1.
  cbv zeta. split; [vm_compute; reflexivity|]. split; [left; reflexivity|].
  split; [eexists; split; [left; reflexivity|reflexivity]|]. split; [vm_compute; reflexivity|reflexivity].
Qed.
Print Assumptions C69_checkpoint_refuted.

(** Markers before the last record that stays are kept. *)
Theorem C69_earlier_partial : forall comp decomp (t : N) es1 r es2,
  Forall (wf_entry comp decomp) (es1 ++ ERec r :: es2) -> r_seq r <= t ->
  exists d, load_file decomp (firstn (N.to_nat (fr_off (find_offset t (log_file_bytes comp (es1 ++ ERec r :: es2)))))
                                     (log_file_bytes comp (es1 ++ ERec r :: es2))) = (d, L_OK) /\
    (forall k, In k (chks_of es1) -> In k (chks_of d)).
Proof.
  intros comp decomp t es1 r es2 Hw Hle.
  assert (C : exists x, cut t (es1 ++ ERec r :: es2) = Some (es1 ++ x)).
  { clear -Hle. induction es1 as [|e es1 IH]; cbn [app cut].
    - destruct (cut t es2) as [x|]; [eauto|]. destruct (r_seq r <=? t) eqn:E; [eauto|lia].
    - destruct IH as (x & ->). eauto. }
  destruct C as (x & C). exists (es1 ++ x). split; [exact (truncated_file_loads comp decomp t _ _ Hw C)|].
  intros k Hk. unfold chks_of in *. rewrite flat_map_app. apply in_or_app. left; exact Hk.
Qed.
Print Assumptions C69_earlier_partial.
