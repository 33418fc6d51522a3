(** Runs in which syncs and flushes overlap (FlushRaceModel.v). *)
From Verif Require Import Base KeyModel LogFormatModel LogManifestModel BloomModel MemTableModel LogMgrModel DbModel DbProofs
  RecoverModel SyncRaceModel SyncRaceSpec FlushRaceModel.
Local Open Scope N_scope.

(** [zreach hash c h xs y]: from a new database, with [h] the acknowledged writes and [xs] the results
    of all calls, newest first.  The guards on writes and syncs are those of [yreach] (SyncRaceSpec.v).
    A flush below the last sync runs at any moment, also during a sync; one beyond the last sync does
    not run during a sync ([C124_null_refuted]). *)
Inductive zreach (hash : key -> N * N) (c : cfg) : list rec -> list (res (list rec)) -> ydb -> Prop :=
| zr_new : zreach hash c [] [] (y_new c)
| zr_write : forall h xs y o x y', zreach hash c h xs y -> allowed c h (p_db (y_p y)) o ->
    (is_begin o = true -> y_sync y = None) ->
    zstep hash c (YWrite o) y = Some (x, y') -> zreach hash c (h ++ acked x) (x :: xs) y'
| zr_begin : forall h xs y fsync x y', zreach hash c h xs y -> h <> [] ->
    zstep hash c (YBegin fsync) y = Some (x, y') -> zreach hash c h (x :: xs) y'
| zr_sync : forall h xs y o x y', zreach hash c h xs y -> In o [YBar; YFlush; YMark; YEnd] ->
    zstep hash c o y = Some (x, y') -> zreach hash c h (x :: xs) y'
| zr_tables : forall h xs y fo seq held x y', zreach hash c h xs y -> allowed c h (p_db (y_p y)) (OFlush fo seq) ->
    (o_beyond fo = true -> y_sync y = None) ->
    zstep hash c (YTables fo seq held) y = Some (x, y') -> zreach hash c h (x :: xs) y'.
