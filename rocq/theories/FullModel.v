(** The whole database: the log section (LogMgrModel.v, DbModel.v) over the real table section
    (LsmModel.v).  A flush hands its records to TableMgr::setBatch (src/log_mgr.cc:1515-1523), and
    the operations of the table section (compaction of every kind, split, merge, reload of the
    manifest) happen at any time in between. *)
From Verif Require Import Base KeyModel LogFormatModel BloomModel MemTableModel LogMgrModel DbModel LsmModel.
Local Open Scope N_scope.

Record fdb := mkFD { fd_db : db; fd_lsm : lsm }.

Inductive fop :=
| FOp (o : op)       (* of DbModel.v *)
| FTab (o : lop).    (* of the table section, other than the flush *)

Section Hash.
Variable hash : key -> N * N.
Variable part : key -> N.

Definition f_new (c : cfg) (tc : tcfg) : fdb := mkFD (db_new c) (lsm_new tc).

(** src/log_mgr.cc:1361-1593 (flush), src/table_set_batch.cc:173-197.  No write to a table file
    fails here (LsmProps.v has those cases, property C47). *)
Definition no_error (_ : rec) : bool := false.
Definition f_step (c : cfg) (tc : tcfg) (o : fop) (f : fdb) : option (res (list rec) * fdb) :=
  match o with
  | FOp o' =>
      match step hash c o' (fd_db f) with
      | None => None
      | Some (x, d) =>
          let moved := skipn (length (d_tab (fd_db f))) (d_tab d) in
          Some (x, mkFD d (match o' with OFlush _ _ => set_batch hash part tc no_error moved (fd_lsm f) | _ => fd_lsm f end))
      end
  | FTab (LFlush _ _) => None
  | FTab o' => match lstep hash part tc o' (fd_lsm f) with Some s => Some (Ok [], mkFD (fd_db f) s) | None => None end
  end.

(** src/jungle.cc:635-672, DB::get: the log section, then the tables. *)
Definition f_get (c : cfg) (tc : tcfg) (k : key) (f : fdb) : res rec :=
  match lm_get hash c k (d_log (fd_db f)) with
  | Ok r => found r
  | Undef => Undef
  | Fail _ => match tm_get hash part tc k (fd_lsm f) with
              | Got r => found r
              | GotNothing => Undef
              | GotErr e => Fail e
              end
  end.
End Hash.
