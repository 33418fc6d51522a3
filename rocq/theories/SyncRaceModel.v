(** DB::sync as the steps it consists of, with writers running in between (src/log_mgr.cc:1198-1310,
    syncInternal).  A sync holds syncMutex, which keeps other syncs away; writers hold writeMutex
    (614-616, 697); nothing keeps a writer and a sync apart.

    Built on RecoverModel.v (the database, its log files on disk and its log manifest).
    Simplifications: a write, or one record of a batch, is one step, except that the creation of a
    new log file can be a step of its own ([YRoll]); writing one log file is one step, as is its
    fsync together with the setting of its marks; all calls of the file system succeed; flushes do
    not run during a sync; the integrity check of a log file opened again (log_file.cc:446-508) is
    that of RecoverModel.v. *)
From Verif Require Import Base KeyModel LogFormatModel LogManifestModel BloomModel MemTableModel LogMgrModel DbModel RecoverModel.
Local Open Scope N_scope.

(** A sync in progress, the local variables of syncInternal (log_mgr.cc:1217-1287): whether to call
    fsync; ln_to; ii, the next file; last_synced_log; seq_barrier, [None] before it has been read;
    after_sync, once the file ii has been written. *)
Record srun := mkSR { sr_fsync : bool; sr_to : N; sr_next : N; sr_last : N; sr_bar : option N; sr_after : option N }.

Record ydb := mkY { y_p : pdb; y_sync : option srun }.

(** The steps: a write (DbModel.v); the first half of a write that needs a new log file (log_mgr.cc:
    649-651, addNewLogFile); the steps of a sync; a flush of the log to the tables. *)
Inductive yop :=
| YWrite (o : op)
| YRoll
| YBegin (fsync : bool)
| YBar
| YFlush
| YMark
| YEnd
| YTables (fo : fopt) (seq : N) (held : N -> bool).

Definition with_log (p : pdb) (g : lmgr) : pdb :=
  mkP (mkDb g (d_tab (p_db p)) (d_gone (p_db p)) (d_bat (p_db p))) (p_disk p) (p_dur p) (p_man p) (p_old p).
Definition with_disk (p : pdb) (disk dur : list dlog) : pdb := mkP (p_db p) disk dur (p_man p) (p_old p).

(** log_mgr.cc:1228-1237: ln_to and ln_from. *)
Definition y_begin (fsync : bool) (p : pdb) : option srun :=
  match max_num (d_log (p_db p)) with
  | None => None
  | Some to => Some (mkSR fsync to (sync_from (d_log (p_db p))) (sync_from (d_log (p_db p))) None None)
  end.

(** log_file.cc:404-412, 510-521 and memtable.cc:1236-1460: what flushMemTable appends to the file and
    returns as after_sync; nothing and NIL if the file is immutable and synced, or empty. *)
Definition y_after (bar : N) (f : lgf) : N :=
  if f_imm f && is_synced (f_mt f) then NIL else flush_out (if bar =? 0 then NIL else bar) (f_mt f).
Definition marked (a : N) (f : lgf) : lgf := with_mt f (set_marks (m_flushed (f_mt f)) a (f_mt f)).
Definition append_dlog (n : N) (rs : list rec) (d : dlog) : dlog :=
  if (dl_num d =? n) && negb (dl_torn d) then mkDL (dl_num d) (dl_recs d ++ rs) false else d.

(** log_mgr.cc:1262-1271: the file [sr_next]. *)
Definition y_flush (r : srun) (bar : N) (p : pdb) : srun * pdb :=
  match file_at (sr_next r) (g_files (d_log (p_db p))) with
  | None => (mkSR (sr_fsync r) (sr_to r) (sr_next r + 1) (sr_last r) (sr_bar r) None, p)
  | Some f =>
      let a := y_after bar f in
      (mkSR (sr_fsync r) (sr_to r) (sr_next r) (sr_last r) (sr_bar r) (Some a),
       with_disk p (map (append_dlog (sr_next r) (to_write f (marked a f))) (p_disk p)) (p_dur p))
  end.

(** log_mgr.cc:1272-1299: fsync of the file, setSyncedSeqNum (log_file.cc:627-647), last_synced_log,
    setImmutable; on to the next file. *)
Definition y_mark (r : srun) (a : N) (p : pdb) : srun * pdb :=
  let n := sr_next r in
  let g := d_log (p_db p) in
  let set f := let f' := with_mt f (lf_set_synced a (f_mt f)) in if n <? sr_to r then set_imm f' else f' in
  let dur := if sr_fsync r then fsync_range n n (p_disk p) (p_dur p) else p_dur p in
  (mkSR (sr_fsync r) (sr_to r) (n + 1) (if valid_number a then n else sr_last r) (sr_bar r) None,
   with_disk (with_log p (with_files g (upd_file n set (g_files g)))) (p_disk p) dur).

(** log_mgr.cc:1301-1309: setLastSyncedLog and the manifest. *)
Definition y_end (r : srun) (p : pdb) : pdb :=
  let g := d_log (p_db p) in
  let g' := mkG (g_files g) (g_max g) (g_lf g) (sr_last r) (g_bar g) in
  p_store (sr_fsync r) (man_of g') (with_log p g').

(** log_mgr.cc:489-550, addNewLogFile, for a current file that cannot take another record. *)
Definition y_roll (c : cfg) (p : pdb) : option pdb :=
  let g := d_log (p_db p) in
  match d_bat (p_db p), file_at (g_max g) (g_files g) with
  | None, Some f =>
      let g' := add_new_file c f g in
      let nf := mkDL (g_max g') [] false in
      Some (p_store false (man_of g') (with_disk (with_log p g') (p_disk p ++ [nf]) (p_dur p ++ [nf])))
  | _, _ => None
  end.

Section Hash.
Variable hash : key -> N * N.

(** One step; [None]: not possible now. *)
Definition ystep (c : cfg) (o : yop) (y : ydb) : option (res (list rec) * ydb) :=
  let p := y_p y in
  match o, y_sync y with
  | YWrite (OSync _), _ | YWrite (OFlush _ _), _ => None
  | YWrite o, s => match p_write hash c o p with Some (x, p') => Some (x, mkY p' s) | None => None end
  | YRoll, s => match y_roll c p with Some p' => Some (Ok [], mkY p' s) | None => None end
  | YBegin fsync, None => match y_begin fsync p with Some r => Some (Ok [], mkY p (Some r)) | None => None end
  | YBar, Some r =>
      match sr_bar r with
      | None => Some (Ok [], mkY p (Some (mkSR (sr_fsync r) (sr_to r) (sr_next r) (sr_last r) (Some (g_bar (d_log (p_db p)))) None)))
      | Some _ => None
      end
  | YFlush, Some r =>
      match sr_bar r, sr_after r with
      | Some b, None => if sr_to r <? sr_next r then None
                        else let (r', p') := y_flush r b p in Some (Ok [], mkY p' (Some r'))
      | _, _ => None
      end
  | YMark, Some r =>
      match sr_after r with
      | Some a => let (r', p') := y_mark r a p in Some (Ok [], mkY p' (Some r'))
      | None => None
      end
  | YEnd, Some r =>
      match sr_bar r, sr_after r with
      | Some _, None => if sr_to r <? sr_next r then Some (Ok [], mkY (y_end r p) None) else None
      | _, _ => None
      end
  | YTables fo seq held, None => match p_flush hash c fo seq held p with Some (x, p') => Some (x, mkY p' None) | None => None end
  | _, _ => None
  end.

Fixpoint yrun (c : cfg) (os : list yop) (y : ydb) : option (list (res (list rec)) * ydb) :=
  match os with
  | [] => Some ([], y)
  | o :: t => match ystep c o y with
              | Some (x, y1) => match yrun c t y1 with Some (l, y2) => Some (x :: l, y2) | None => None end
              | None => None
              end
  end.

End Hash.

Definition y_new (c : cfg) : ydb := mkY (p_new c) None.
