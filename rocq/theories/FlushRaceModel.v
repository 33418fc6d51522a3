(** DB::sync and DB::flushLogs at the same time: a sync holds syncMutex and syncSema, a flush holds
    flushSema (src/log_mgr.cc:1198-1217 and 1371-1375), so nothing keeps them apart.

    On top of SyncRaceModel.v: a flush, as one step, also while a sync is running. *)
From Verif Require Import Base KeyModel LogFormatModel LogManifestModel BloomModel MemTableModel LogMgrModel DbModel RecoverModel SyncRaceModel.
Local Open Scope N_scope.

Section Hash.
Variable hash : key -> N * N.

(** src/log_mgr.cc:1361-1590 beside 1217-1310. *)
Definition zstep (c : cfg) (o : yop) (y : ydb) : option (res (list rec) * ydb) :=
  match o with
  | YTables fo seq held =>
      match p_flush hash c fo seq held (y_p y) with Some (x, p') => Some (x, mkY p' (y_sync y)) | None => None end
  | _ => ystep hash c o y
  end.

Fixpoint zrun (c : cfg) (os : list yop) (y : ydb) : option (list (res (list rec)) * ydb) :=
  match os with
  | [] => Some ([], y)
  | o :: t => match zstep c o y with
              | Some (x, y1) => match zrun c t y1 with Some (l, y2) => Some (x :: l, y2) | None => None end
              | None => None
              end
  end.
End Hash.
