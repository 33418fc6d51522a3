(** A handle opened with DBConfig::readOnly (include/libjungle/db_config.h:425-428: "If true,
    read-only mode. No modify, recovery, and compaction."): opening (src/jungle.cc:50-183,
    src/log_mgr.cc:62-202), the calls on it, closing it; and a second process with a writable
    handle on the same directory, which the API does not exclude.

    Built on RecoverModel.v: log files as lists of complete records, manifests decoded, the tables
    as their contract.  The system log, which is written in any mode (jungle.cc:108-128), is left
    out, and so is the restoration of a manifest from its backup (log_mgr.cc:113-117, also in any
    mode). *)
From Verif Require Import Base KeyModel LogFormatModel LogManifestModel BloomModel MemTableModel LogMgrModel DbModel RecoverModel.
Local Open Scope N_scope.

(** The same configuration with readOnly set. *)
Definition ro (c : cfg) : cfg := mkC (c_ow c) (c_lso c) (c_maxent c) true.

(** What is in the directory: the tables, the log files, the part of them on stable storage, the
    log manifest, the older images of it that may be on stable storage. *)
Record image := mkI { i_tab : list rec; i_disk : list dlog; i_dur : list dlog; i_man : lman; i_old : list lman }.
Definition files (p : pdb) : image := mkI (d_tab (p_db p)) (p_disk p) (p_dur p) (p_man p) (p_old p).

Section Hash.
Variable hash : key -> N * N.

(** What a process that ends in the manner [x] leaves ([p_reopen] of RecoverModel.v without the
    opening that follows). *)
Definition left_by (c : cfg) (x : xkind) (p : pdb) : option image :=
  match x with
  | XClean => match p_sync hash c true p with
              | Some (Ok _, p') => Some (files p')
              | _ => None
              end
  | XKill => Some (files p)
  | XSync n j torn =>
      match step hash c (OSync no_fault) (p_db p) with
      | Some (_, d') => Some (mkI (d_tab (p_db p))
                          (map (write_some n j torn (g_files (d_log (p_db p))) (g_files (d_log d'))) (p_disk p))
                          (p_dur p) (p_man p) (p_old p))
      | None => None
      end
  | XFlush fo seq held gone =>
      match step hash c (OFlush fo seq) (p_db p) with
      | Some (Ok _, d') =>
          let keep d := negb (dropped (d_log (p_db p)) (d_log d') (dl_num d) && negb (held (dl_num d)) && gone (dl_num d)) in
          Some (mkI (d_tab d') (filter keep (p_disk p)) (filter keep (p_dur p)) (p_man p) (p_old p))
      | _ => None
      end
  | XPower disk m => Some (mkI (d_tab (p_db p)) disk disk m [])
  end.

(** Opening for writing: [p_open] of RecoverModel.v. *)
Definition w_open (c : cfg) (i : image) : option pdb :=
  p_open hash c (i_tab i) (i_disk i) (i_dur i) (i_man i) (i_old i).

(** src/log_mgr.cc:62-202 with readOnly: the same loading, and the same creation of a log file when
    none can be read (log_manifest.cc:440-447, log_mgr.cc:166-192), which does not ask for the mode;
    removeStaleFiles returns at once (log_mgr.cc:333-335). *)
Definition r_open (c : cfg) (i : image) : option pdb :=
  let ld := load_files {| c_section_only := c_lso c; c_truncate_inconsecutive := true |} (disk_status (i_disk i))
              (l_files (i_man i)) NIL false (mkLoad (l_max (i_man i)) (l_flushed (i_man i)) (l_synced (i_man i)) [] None) in
  match load_all hash c (i_disk i) (d_new ld) (d_files ld) with
  | None => None
  | Some fs =>
      let disk1 := map (fun d => if match d_new ld with Some n => n =? dl_num d | None => false end
                                 then mkDL (dl_num d) [] false else d)
                       (match d_new ld with
                        | Some n => match dlog_at n (i_disk i) with Some _ => i_disk i | None => i_disk i ++ [mkDL n [] false] end
                        | None => i_disk i
                        end) in
      let g := mkG fs (d_max ld) (d_flushed ld) (d_synced ld) 0 in
      match fs with
      | [] => Some (mkP (mkDb (mkG [mkF 0 1 false (mt_init (c_maxent c * 64) 0)] (g_max g) (g_lf g) (g_ls g) 0) (i_tab i) [] None)
                        (mkDL 0 [] false :: filter (fun d => negb (dl_num d =? 0)) disk1) (i_dur i) (i_man i) (i_old i))
      | _ => Some (mkP (mkDb g (i_tab i) [] None) disk1 (i_dur i) (i_man i) (i_old i))
      end
  end.

(** ** Calls on the handle *)

Inductive rcall :=
| RSet (full : bool) (r : rec)          (* set, setSN, setRecord, setRecordByKey, del, delSN, delRecord *)
| RBatch (b : list rec)                 (* setRecordByKeyMulti *)
| RSync (fsync : bool)                  (* sync, syncNoDelay *)
| RDiscard (s : N)                      (* discardDirty *)
| RRollback (s : N)                     (* rollback *)
| RCheckpoint (out0 : N)                (* checkpoint *)
| RCompact (partition : N)              (* compactL0 *)
| RFlush (fo : fopt) (seq : N) (held : N -> bool). (* flushLogs, flushLogsAsync *)

(** The answer: that of the log section, or COMPACTION_IS_NOT_ALLOWED. *)
Inductive ranswer := RAns (x : res (list rec)) | RNotAllowed.

(** Refused by the mode: WRITE_VIOLATION or COMPACTION_IS_NOT_ALLOWED. *)
Definition refused (a : ranswer) : Prop := a = RAns (Fail WRITE_VIOLATION) \/ a = RNotAllowed.

(** One call.
    Sets and batches: src/log_mgr.cc:610 and 699 (in [step] of DbModel.v).
    sync: 1206.  discardDirty: 1315.  rollback: 234.
    checkpoint: 1755-1776, the checkpoint is added to the list in memory, then the sync that follows
    refuses.
    compactL0: src/table_compaction.cc:762, compactions have not been allowed (table_mgr.cc:311).
    The compactions of deeper levels stop at their first record (table_compaction.cc:378) and are
    left out.
    flushLogs: src/jungle.cc:472-484 and log_mgr.cc:1361-1593, table_set_batch.cc:171-190,
    table_file.cc:939-1020: none of them asks for the mode. *)
Definition rstep (c : cfg) (o : rcall) (p : pdb) : option (ranswer * pdb) :=
  match o with
  | RSet full r => match p_write hash (ro c) (OSet full r) p with Some (x, p') => Some (RAns x, p') | None => None end
  | RBatch b => match p_write hash (ro c) (OBegin b) p with Some (x, p') => Some (RAns x, p') | None => None end
  | RSync _ | RDiscard _ | RRollback _ => Some (RAns (Fail WRITE_VIOLATION), p)
  | RCheckpoint out0 =>
      match step hash (ro c) (OChk out0) (p_db p) with
      | Some (x, d') => Some (RAns (match x with Ok _ => Fail WRITE_VIOLATION | other => other end),
                              mkP d' (p_disk p) (p_dur p) (p_man p) (p_old p))
      | None => None
      end
  | RCompact _ => Some (RNotAllowed, p)
  | RFlush fo seq held => match p_flush hash (ro c) fo seq held p with Some (x, p') => Some (RAns x, p') | None => None end
  end.

Fixpoint rrun (c : cfg) (os : list rcall) (p : pdb) : option (list ranswer * pdb) :=
  match os with
  | [] => Some ([], p)
  | o :: t => match rstep c o p with
              | Some (x, p1) => match rrun c t p1 with Some (l, p2) => Some (x :: l, p2) | None => None end
              | None => None
              end
  end.

(** Closing: neither a last sync (src/log_mgr.cc:2108) nor a store of the manifests
    (jungle.cc:1030): the directory stays as the calls left it. *)
Definition r_close (p : pdb) : image := files p.

(** ** Two processes on one directory *)

(** flushLogs of the reader [q] while the directory is as [p], the writer of another process, left
    it: the log files are those of the directory, the records, the decision which files to remove
    and the manifest that is stored are those of [q].  The directory afterwards. *)
Definition foreign_flush (c : cfg) (fo : fopt) (seq : N) (held : N -> bool) (q p : pdb) : option (res (list rec) * image) :=
  match p_flush hash (ro c) fo seq held (mkP (p_db q) (p_disk p) (p_dur p) (p_man p) (p_old p)) with
  | Some (x, q') => Some (x, files q')
  | None => None
  end.

End Hash.
