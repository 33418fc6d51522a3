(** What read-only handles are measured against (ReadOnlyModel.v). *)
From Verif Require Import Base KeyModel LogFormatModel LogManifestModel BloomModel MemTableModel LogMgrModel DbModel RecoverModel ReadOnlyModel.
Local Open Scope N_scope.

(** The newest log file that the manifest lists is in the directory, and it is not older than the
    file the last flush ended in. *)
Definition newest_present (i : image) : Prop :=
  exists es e, l_files (i_man i) = es ++ [e] /\ dlog_at (e_num e) (i_disk i) <> None /\
    (l_flushed (i_man i) = NIL \/ l_flushed (i_man i) <= e_num e).

(** Not a call of flushLogs. *)
Definition not_flush (o : rcall) : Prop := match o with RFlush _ _ _ => False | _ => True end.
