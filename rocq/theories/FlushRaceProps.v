(** * C124: a flush of the log to the tables while a sync is running *)
From Verif Require Import Base KeyModel LogFormatModel LogManifestModel BloomModel MemTableModel LogMgrModel DbModel DbProofs
  RecoverModel RecoverSpec SyncRaceModel SyncRaceSpec SyncRaceProps FlushRaceModel FlushRaceSpec FlushRaceProofs.
Local Open Scope N_scope.

(** Writes, syncs and flushes in runs in which a flush below the last sync may happen at any moment of
    a sync, and one beyond the last sync between syncs: no call is undefined, and reads see every
    acknowledged write at every moment.  Missing: flushes beyond the last sync during a sync
    ([C124_null_refuted]), batches that begin during a sync, and what a crash leaves. *)
Theorem C124_overlap_partial : forall hash c h xs y, cfg_ok c -> c_lso c = false -> zreach hash c h xs y ->
  (forall x, In x xs -> x <> Undef) /\ forall k, db_get hash c k (p_db (y_p y)) = spec_get h k.
Proof. exact zreach_ok. Qed.
Print Assumptions C124_overlap_partial.

(** A flush beyond the last sync during a sync is itself carried out, with all writes still there. *)
Theorem C124_beyond_partial : forall hash c h xs y fo seq held x y', cfg_ok c -> c_lso c = false -> zreach hash c h xs y ->
  allowed c h (p_db (y_p y)) (OFlush fo seq) -> zstep hash c (YTables fo seq held) y = Some (x, y') ->
  x <> Undef /\ y_sync y' = y_sync y /\ forall k, db_get hash c k (p_db (y_p y')) = spec_get h k.
Proof. exact zreach_flush. Qed.
Print Assumptions C124_beyond_partial.

(** A sync starts; the log grows by two files; a flush beyond the last sync moves everything to the
    tables, removes the first two files and makes the third the last synced and the last flushed one;
    then the sync ends and makes the first file the last synced one again.  All calls succeed.  The
    next flushLogs() asks for that file, which does not exist any more, and dereferences null. *)
Theorem C124_null_refuted : exists os xs y,
  zrun hash0 cfg0 os (y_new cfg0) = Some (xs, y) /\ all_ok xs /\ y_sync y = None /\
  exists y', zstep hash0 cfg0 (YTables plain NIL nobody) y = Some (Undef, y').
Proof.
  exists [yput 1 10; YBegin true; YBar; yput_new 2 20; yput_new 3 30; YTables beyond NIL nobody; YFlush; YEnd].
  eexists. eexists. split; [vm_compute; reflexivity|]. split; [vm_compute; repeat constructor|]. split; [reflexivity|].
  eexists. vm_compute. reflexivity.
Qed.
Print Assumptions C124_null_refuted.

(** Without the overlap the same calls leave a database that can be flushed. *)
Example C124_case : exists xs y,
  zrun hash0 cfg0 [yput 1 10; YBegin true; YBar; YFlush; YMark; YEnd; yput_new 2 20; yput_new 3 30; YTables beyond NIL nobody;
    YTables plain NIL nobody] (y_new cfg0) = Some (xs, y) /\ all_ok xs.
Proof. eexists. eexists. split; [vm_compute; reflexivity|]. vm_compute. repeat constructor. Qed.

(** A second sync, three log files; a flush runs after the first of them has been written and before
    it is marked, and moves both records of the first sync; then a state in which a flush beyond the last
    sync may start. *)
Ltac znext o := match goal with R : zreach hash0 cfg0 ?h ?xs ?y |- _ =>
  let op := eval hnf in o in let v := eval vm_compute in (zstep hash0 cfg0 op y) in
  match v with Some (?x, ?z) =>
    let R2 := fresh "R" in let ok := (vm_compute; reflexivity) in
    match op with
    | YWrite ?a => assert (R2 : zreach hash0 cfg0 (h ++ acked x) (x :: xs) z) by (apply (zr_write hash0 cfg0 h xs y a x z R); [guards|guards|ok])
    | YBegin ?b => assert (R2 : zreach hash0 cfg0 h (x :: xs) z) by (apply (zr_begin hash0 cfg0 h xs y b x z R); [discriminate|ok])
    | YTables ?a ?b ?d => assert (R2 : zreach hash0 cfg0 h (x :: xs) z) by (apply (zr_tables hash0 cfg0 h xs y a b d x z R);
        [split; [reflexivity|]; split; (let Q := fresh in intro Q; exfalso; apply Q; reflexivity)|discriminate|ok])
    | _ => assert (R2 : zreach hash0 cfg0 h (x :: xs) z) by (apply (zr_sync hash0 cfg0 h xs y op x z R); [cbn; tauto|ok])
    end; cbn [acked app] in R2; clear R end end.
Example C124_case2 : exists h xs y, zreach hash0 cfg0 h xs y /\ map r_seq h = [1; 2; 3; 4] /\ y_sync y <> None /\
  map r_seq (d_tab (p_db (y_p y))) = [1; 2] /\ allowed cfg0 h (p_db (y_p y)) (OFlush beyond NIL).
Proof.
  assert (R := zr_new hash0 cfg0).
  znext (yput 1 1). znext (yput_new 2 2). znext (YBegin true). znext YBar. znext YFlush. znext YMark. znext YFlush. znext YMark. znext YEnd.
  znext (yput 3 3). znext (yput_new 4 4). znext (YBegin true). znext YBar. znext YFlush. znext (YTables plain NIL nobody). znext YMark.
  do 3 eexists. split; [eassumption|]. split; [reflexivity|]. split; [discriminate|]. split; [vm_compute; reflexivity|].
  split; [reflexivity|]. split; [intro H; exfalso; apply H; reflexivity|intro H; exfalso; apply H; reflexivity].
Qed.
