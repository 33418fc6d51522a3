(** What a sync with concurrent writers is measured against (SyncRaceModel.v). *)
From Verif Require Import Base KeyModel LogFormatModel LogManifestModel BloomModel MemTableModel LogMgrModel DbModel DbProofs
  RecoverModel SyncRaceModel.
Local Open Scope N_scope.

(** [a] is an initial part of [b]. *)
Definition starts (a b : list rec) : Prop := exists t, b = a ++ t.

(** The log files when the process dies now: as they are, or, in the middle of the writing of a file
    (log_file.cc:510-521), with the first [j] of the records being written, [torn]: and part of the
    next. *)
Definition append_part (n : N) (rs : list rec) (torn : bool) (d : dlog) : dlog :=
  if (dl_num d =? n) && negb (dl_torn d) then mkDL (dl_num d) (dl_recs d ++ rs) torn else d.
Inductive y_left (y : ydb) : list dlog -> Prop :=
| yl_now : y_left y (p_disk (y_p y))
| yl_cut : forall r b f j torn, y_sync y = Some r -> sr_bar r = Some b -> sr_after r = None -> sr_next r <= sr_to r ->
    file_at (sr_next r) (g_files (d_log (p_db (y_p y)))) = Some f ->
    y_left y (map (append_part (sr_next r) (firstn j (to_write f (marked (y_after b f) f))) torn) (p_disk (y_p y))).

Definition is_begin (o : op) : bool := match o with OBegin _ => true | _ => false end.

(** Runs from a new database in which writes and the steps of syncs interleave.
    [yreach hash pw c h0 h h1 y]: [h] are the acknowledged writes, [h0] those that were acknowledged when
    the last finished sync began, [h1] those acknowledged when the sync in progress, if any, began.
    [pw]: power failures are considered, and every sync asks for fsync.  The guards beyond those on
    writes of [allowed] (DbProofs.v):
    - a sync begins when something has been written ([C119_first_write_refuted]);
    - a new log file and its first record are one step ([C119_new_file_refuted]);
    - no batch begins while a sync is running ([C120_half_batch_refuted]);
    - flushes to the tables stay below the last sync and do not run during a sync. *)
Inductive yreach (hash : key -> N * N) (pw : bool) (c : cfg) : list rec -> list rec -> option (list rec) -> ydb -> Prop :=
| yr_new : yreach hash pw c [] [] None (y_new c)
| yr_write : forall h0 h h1 y o x y', yreach hash pw c h0 h h1 y -> allowed c h (p_db (y_p y)) o ->
    (is_begin o = true -> y_sync y = None) ->
    ystep hash c (YWrite o) y = Some (x, y') -> yreach hash pw c h0 (h ++ acked x) h1 y'
| yr_begin : forall h0 h h1 y fsync x y', yreach hash pw c h0 h h1 y -> h <> [] -> (pw = true -> fsync = true) ->
    ystep hash c (YBegin fsync) y = Some (x, y') -> yreach hash pw c h0 h (Some h) y'
| yr_sync : forall h0 h h1 y o x y', yreach hash pw c h0 h h1 y -> In o [YBar; YFlush; YMark] ->
    ystep hash c o y = Some (x, y') -> yreach hash pw c h0 h h1 y'
| yr_end : forall h0 h h1 y x y', yreach hash pw c h0 h (Some h1) y ->
    ystep hash c YEnd y = Some (x, y') -> yreach hash pw c h1 h None y'
| yr_tables : forall h0 h h1 y fo seq held x y', yreach hash pw c h0 h h1 y -> allowed c h (p_db (y_p y)) (OFlush fo seq) ->
    o_beyond fo = false -> ystep hash c (YTables fo seq held) y = Some (x, y') -> yreach hash pw c h0 h h1 y'.
