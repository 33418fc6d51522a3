(** * C119, C120, C121: syncs while other threads write *)
From Verif Require Import Base KeyModel LogFormatModel LogManifestModel BloomModel MemTableModel LogMgrModel DbModel DbProofs
  RecoverModel RecoverSpec RecoverProofs7 SyncRaceModel SyncRaceSpec SyncRaceProofs5.
Local Open Scope N_scope.

(** A sync that nobody disturbs and that finds [n] log files. *)
Fixpoint files_synced (n : nat) : list yop := match n with O => [] | S n => YFlush :: YMark :: files_synced n end.
Definition full_sync (n : nat) : list yop := [YBegin true; YBar] ++ files_synced n ++ [YEnd].
Definition yput (k v : N) : yop := YWrite (OSet false (ins k v)).
Definition yput_new (k v : N) : yop := YWrite (OSet true (ins k v)).

(** The calls [os] on a new database all succeed, and no sync is running at the end. *)
Definition done (c : cfg) (os : list yop) (xs : list (res (list rec))) (y : ydb) : Prop :=
  yrun hash0 c os (y_new c) = Some (xs, y) /\ all_ok xs /\ y_sync y = None.

Ltac rest := repeat match goal with
    | |- _ /\ _ => split
    | |- all_ok _ => repeat constructor
    | |- reads _ _ _ => eexists
    | |- exists _, _ => eexists
    end; try (vm_compute; reflexivity); try (vm_compute; discriminate).

(** ** C119.  Writes acknowledged before a sync begins survive a crash after it returns *)

(** [yreach hash pw c h0 h h1 y] (SyncRaceSpec.v): a run of writes, steps of syncs and flushes; [h]
    are the writes acknowledged, [h0] those acknowledged when the last finished sync began.  After a
    crash of the process, or a power failure, with no sync running, the database answers as after
    some initial part of the writes that includes [h0]; and it goes on numbering from there. *)
Theorem C119_sync_with_writers_partial : forall hash pw c h0 h y x, cfg_ok c -> c_lso c = false ->
  yreach hash pw c h0 h None y -> crashes pw (y_p y) x ->
  exists hs, starts h0 hs /\ starts hs h /\
  exists p', pstep hash c (PReopen x) (y_p y) = Some (Ok [], p') /\ answers hash c hs p'.
Proof. intros hash. exact (yreach_crash hash). Qed.
Print Assumptions C119_sync_with_writers_partial.

(** The process dies at any moment, also during a sync, and also in the middle of the writing of a
    log file ([y_left], SyncRaceSpec.v): opening succeeds, and reads answer in this way. *)
Theorem C119_dies_in_sync_partial : forall hash pw c h0 h h1 y disk, cfg_ok c -> c_lso c = false ->
  yreach hash pw c h0 h h1 y -> y_left y disk ->
  exists hs p', starts h0 hs /\ starts hs h /\
    p_open hash c (d_tab (p_db (y_p y))) disk (p_dur (y_p y)) (p_man (y_p y)) (p_old (y_p y)) = Some p' /\
    (forall k, db_get hash c k (p_db p') = spec_get hs k).
Proof. intros hash. exact (yreach_dies hash). Qed.
Print Assumptions C119_dies_in_sync_partial.

(** Reads see every acknowledged write, also while a sync is running. *)
Theorem C119_reads_during_sync : forall hash pw c h0 h h1 y k, cfg_ok c -> c_lso c = false ->
  yreach hash pw c h0 h h1 y -> db_get hash c k (p_db (y_p y)) = spec_get h k.
Proof. intros hash. exact (yreach_reads hash). Qed.
Print Assumptions C119_reads_during_sync.

(** The first write of a new database comes while a sync, having found nothing to write, has not yet
    set its marks.  The write is acknowledged; a later sync begins, is disturbed by nobody and returns
    OK; so does closing.  The write is lost. *)
Theorem C119_first_write_refuted : exists xs y r xs' y' p p',
  done cfg0 [YBegin true; YBar; YFlush; yput 1 1; YMark; YEnd] xs y /\ wrote xs 3 r /\ r_key r = [1] /\
  yrun hash0 cfg0 (full_sync 1) y = Some (xs', y') /\ all_ok xs' /\ y_sync y' = None /\
  db_get hash0 cfg0 [1] (p_db (y_p y')) = Ok r /\
  p_reopen hash0 cfg0 XKill (y_p y') = Some p /\ missing p 1 /\
  p_reopen hash0 cfg0 XClean (y_p y') = Some p' /\ missing p' 1.
Proof.
  destruct (yrun hash0 cfg0 [YBegin true; YBar; YFlush; yput 1 1; YMark; YEnd] (y_new cfg0)) as [[xs y]|] eqn:E; [|vm_compute in E; discriminate].
  vm_compute in E. injection E as <- <-.
  eexists; eexists; eexists; eexists; eexists; eexists; eexists. split; [split; [vm_compute; reflexivity|split; [repeat constructor|reflexivity]]|].
  split; [vm_compute; reflexivity|]. split; [reflexivity|]. split; [vm_compute; reflexivity|]. rest.
Qed.
Print Assumptions C119_first_write_refuted.

(** The same with a log file that has just been created because the previous one was full: the sync
    flushes it before its first record is put into it. *)
Theorem C119_new_file_refuted : exists xs y r xs' y' p,
  done cfg0 [yput 1 1; YRoll; YBegin true; YBar; YFlush; YMark; YFlush; yput 2 2; YMark; YEnd] xs y /\ wrote xs 7 r /\ r_key r = [2] /\
  yrun hash0 cfg0 (full_sync 2) y = Some (xs', y') /\ all_ok xs' /\ y_sync y' = None /\
  db_get hash0 cfg0 [2] (p_db (y_p y')) = Ok r /\
  p_reopen hash0 cfg0 XKill (y_p y') = Some p /\ reads p 1 1 /\ missing p 2.
Proof.
  eexists; eexists; eexists; eexists; eexists; eexists. split; [split; [vm_compute; reflexivity|split; [repeat constructor|reflexivity]]|].
  split; [vm_compute; reflexivity|]. split; [reflexivity|]. split; [vm_compute; reflexivity|]. rest.
Qed.
Print Assumptions C119_new_file_refuted.

(** ** C120.  A batch is kept or lost as a whole *)

(** A sync reads the barrier, a batch of two records begins after that, and the sync writes its log
    file after the first of them.  Then the process dies.  After reopening, the database has the first
    record of the batch and not the second. *)
Theorem C120_half_batch_refuted : exists xs y p,
  done cfg0 [yput 1 1; YBegin true; YBar; YWrite (OBegin [ins 2 2; ins 3 3]); YWrite OPut; YFlush; YMark; YEnd] xs y /\
  p_reopen hash0 cfg0 XKill (y_p y) = Some p /\ reads p 1 1 /\ reads p 2 2 /\ missing p 3.
Proof.
  eexists; eexists; eexists. split; [split; [vm_compute; reflexivity|split; [repeat constructor|reflexivity]]|].
  split; [vm_compute; reflexivity|]. rest.
Qed.
Print Assumptions C120_half_batch_refuted.

(** The same batch when it has begun before the sync reads the barrier: nothing of it is kept. *)
Example C120_case : exists xs y p,
  done cfg0 [yput 1 1; YBegin true; YWrite (OBegin [ins 2 2; ins 3 3]); YBar; YWrite OPut; YFlush; YMark; YEnd] xs y /\
  p_reopen hash0 cfg0 XKill (y_p y) = Some p /\ reads p 1 1 /\ missing p 2 /\ missing p 3.
Proof.
  eexists; eexists; eexists. split; [split; [vm_compute; reflexivity|split; [repeat constructor|reflexivity]]|].
  split; [vm_compute; reflexivity|]. rest.
Qed.

(** ** C121.  Overwriting by sequence number: a synced overwrite survives *)

Definition cfg_ow : cfg := mkC true false 10 false.
Definition overwrite (s k v : N) : yop := YWrite (OSet false (mkRec s INS [k] [] [v])).
Definition value_after (c : cfg) (y : ydb) (k v : N) : Prop :=
  exists p r, p_reopen hash0 c XKill (y_p y) = Some p /\ db_get hash0 c [k] (p_db p) = Ok r /\ r_key r = [k] /\ r_val r = [v].

(** Record 1 is in the first of three log files.  While a sync is writing the third, record 1 is
    overwritten.  The overwrite is acknowledged and read back.  A later sync, disturbed by nobody,
    returns OK.  After a crash the old value is back. *)
Definition ow_race : list yop :=
  [yput 1 1; yput_new 2 2; yput_new 3 3; YBegin true; YBar; YFlush; YMark; YFlush; YMark; overwrite 1 1 9; YFlush; YMark; YEnd].
Theorem C121_overwrite_lost_refuted : exists xs y r xs' y',
  done cfg_ow ow_race xs y /\ wrote xs 9 r /\ r_key r = [1] /\ r_val r = [9] /\
  yrun hash0 cfg_ow (full_sync 1) y = Some (xs', y') /\ all_ok xs' /\ y_sync y' = None /\
  db_get hash0 cfg_ow [1] (p_db (y_p y')) = Ok r /\ value_after cfg_ow y' 1 1.
Proof.
  eexists; eexists; eexists; eexists; eexists. split; [split; [vm_compute; reflexivity|split; [repeat constructor|reflexivity]]|].
  split; [vm_compute; reflexivity|]. split; [reflexivity|]. split; [reflexivity|]. split; [vm_compute; reflexivity|]. 
  split; [repeat constructor|]. split; [reflexivity|]. split; [vm_compute; reflexivity|]. 
  eexists; eexists. split; [vm_compute; reflexivity|]. split; [vm_compute; reflexivity|]. split; reflexivity.
Qed.
Print Assumptions C121_overwrite_lost_refuted.

(** The same calls with the overwrite after the sync instead of during it: it survives. *)
Example C121_case : exists xs y xs' y',
  done cfg_ow ([yput 1 1; yput_new 2 2; yput_new 3 3] ++ full_sync 3 ++ [overwrite 1 1 9]) xs y /\
  yrun hash0 cfg_ow (full_sync 3) y = Some (xs', y') /\ all_ok xs' /\ value_after cfg_ow y' 1 9.
Proof.
  eexists; eexists; eexists; eexists. split; [split; [vm_compute; reflexivity|split; [repeat constructor|reflexivity]]|].
  split; [vm_compute; reflexivity|]. split; [repeat constructor|].
  eexists; eexists. split; [vm_compute; reflexivity|]. split; [vm_compute; reflexivity|]. split; reflexivity.
Qed.

(** ** A run that meets the hypotheses of C119 *)

Ltac guards := unfold allowed; repeat split; intros; repeat match goal with H : In _ _ |- _ => cbn in H | H : _ \/ _ |- _ => destruct H as [<-|H] | H : False |- _ => destruct H end;
  try (vm_compute; discriminate); try (vm_compute; reflexivity);
  try (match goal with H : _ |- _ => exfalso; vm_compute in H; first [discriminate H | apply H; reflexivity] end).
Ltac next o := match goal with R : yreach hash0 true cfg0 ?h0 ?h ?h1 ?y |- _ =>
  let op := eval hnf in o in let v := eval vm_compute in (ystep hash0 cfg0 op y) in
  match v with Some (?x, ?z) =>
    let R2 := fresh "R" in let ok := (vm_compute; reflexivity) in
    match op with
    | YWrite ?a => assert (R2 : yreach hash0 true cfg0 h0 (h ++ acked x) h1 z) by (apply (yr_write hash0 true cfg0 h0 h h1 y a x z R); [guards|guards|ok])
    | YBegin ?b => assert (R2 : yreach hash0 true cfg0 h0 h (Some h) z) by (apply (yr_begin hash0 true cfg0 h0 h h1 y b x z R); [discriminate|reflexivity|ok])
    | YEnd => match h1 with Some ?a => assert (R2 : yreach hash0 true cfg0 a h None z) by (apply (yr_end hash0 true cfg0 h0 h a y x z R); ok) end
    | YTables ?a ?b ?d => assert (R2 : yreach hash0 true cfg0 h0 h h1 z) by (apply (yr_tables hash0 true cfg0 h0 h h1 y a b d x z R); [guards|reflexivity|ok])
    | _ => assert (R2 : yreach hash0 true cfg0 h0 h h1 z) by (apply (yr_sync hash0 true cfg0 h0 h h1 y op x z R); [cbn; tauto|ok])
    end; cbn [acked app] in R2; clear R end end.

(** Two log files; a batch is open when the sync begins; writes go to the file being synced and to a
    third file made during the sync; then a flush to the tables, and a second sync, which is running
    at the end. *)
Example C119_case : exists h0 h h1 y disk r,
  yreach hash0 true cfg0 h0 h (Some h1) y /\ map r_seq h0 = [1; 2] /\ map r_seq h1 = [1; 2; 3; 4; 5] /\
  map r_seq h = [1; 2; 3; 4; 5; 6] /\ length (d_tab (p_db (y_p y))) = 2%nat /\
  y_left y disk /\ disk <> p_disk (y_p y) /\ y_sync y = Some r /\ sr_to r = 2.
Proof.
  assert (R := yr_new hash0 true cfg0).
  next (yput 1 1). next (yput_new 2 2). next (YWrite (OBegin [ins 1 3; ins 4 4])). next (YWrite OPut).
  next (YBegin true). next YBar. next YFlush. next (YWrite OPut). next YMark. next YFlush. next (YWrite OEnd). next (yput_new 5 5). next YMark. next YEnd.
  next (YTables plain NIL nobody).
  next (YBegin true). next YBar. next YFlush. next YMark. next (yput 6 6).
  do 6 eexists. split; [eassumption|]. split; [reflexivity|]. split; [reflexivity|]. split; [reflexivity|]. split; [reflexivity|].
  split; [eapply (yl_cut _ _ _ _ 1 true); [reflexivity|reflexivity|reflexivity|vm_compute; discriminate|vm_compute; reflexivity]|].
  split; [vm_compute; discriminate|]. split; reflexivity.
Qed.
