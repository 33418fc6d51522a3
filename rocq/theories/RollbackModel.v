(** Rollback of a log-section-only database: [DB::rollback] (src/jungle.cc:340-349),
    [LogMgr::rollback] (src/log_mgr.cc:226-331), [LogFile::truncate], the search for the place to
    cut ([MemTable::findOffsetOfSeq]), purging and reloading of memtables, and clean closing and
    reopening of the log section.

    First part: the search on the bytes of a log file.  Second part: the log files, with the
    content of each file on disk given as its decoded entries (LogFormatModel.v says how entries
    become bytes; [RollbackProofs.v] shows that cutting the bytes at the offset found is the same
    as [cut] on entries).

    Left out in the second part: checkpoints, atomic batches, flushes to tables and removal of old
    log files, iterators and snapshots (RollbackRefModel.v treats the references they hold), I/O
    errors, the integrity check of a file that was closed, waiting for the semaphores. *)
From Verif Require Import Base Crc32Model KeyModel LogFormatModel BloomModel MemTableModel.
Local Open Scope N_scope.

(** ** Where to cut *)

(** What findOffsetOfSeq reports: offset_out, *padding_start_pos_out, status. *)
Record fres := mkFR { fr_off : N; fr_pad : N; fr_st : lstatus }.

(** src/memtable.cc:1129-1170: the header of a record without its data.  [l] starts after the
    flags.  Result: sequence number, number of bytes of the record after the flags.
    The sum of the three sizes given to available() is computed in uint32_t, the position is
    not. *)
Inductive hres := HFail (s : lstatus) | HRec (seq len : N).
Definition find_record (flags : N) (l : list N) : hres :=
  let lm := len_meta_size flags in
  if negb (available (4 + lm + 4) l) then HFail L_INCOMPLETE else
  let crc_len := get_be (firstn 4 l) in
  let buf := firstn (N.to_nat lm) (skipn 4 l) in
  if negb (crc_len =? crc32_8 buf 0) then HFail L_CHECKSUM else
  let seq := get_be (firstn 8 buf) in
  let k := get_be (firstn 4 (skipn 8 buf)) in
  let m := get_be (firstn 4 (skipn 12 buf)) in
  let v := get_be (firstn 4 (skipn 16 buf)) in
  let rest := skipn (N.to_nat (4 + lm + 4)) l in
  if negb (available ((k + m + v) mod 2 ^ 32) rest) then HFail L_INCOMPLETE
  else HRec seq (4 + lm + 4 + (k + m + v)).

(** src/memtable.cc:1096-1233, findOffsetOfSeq, from the loop on: [l] is the rest of the file from
    position [pos], [off] is last_offset, [valid] is last_valid_size.  On an error offset_out
    keeps the caller's 0.  Fuel as in [load_loop]. *)
Fixpoint find_loop (fuel : nat) (target : N) (l : list N) (pos off valid : N) : fres :=
  match l with
  | [] => mkFR off NIL L_OK
  | _ :: _ =>
    match fuel with
    | O => mkFR 0 NIL L_FUEL
    | S fuel' =>
      if negb (available 8 l) then mkFR 0 NIL L_INCOMPLETE else
      let flags := get_be (firstn 8 l) in
      let l1 := skipn 8 l in
      match identify_type flags with
      | FT_RECORD =>
          match find_record flags l1 with
          | HFail s => mkFR 0 NIL s
          | HRec seq len =>
              let pos' := pos + 8 + len in
              find_loop fuel' target (skipn (N.to_nat len) l1) pos' (if seq <=? target then pos' else off) pos'
          end
      | FT_FLUSH_MARKER | FT_CHECKPOINT =>
          if negb (available 8 l1) then mkFR 0 NIL L_INCOMPLETE
          else find_loop fuel' target (skipn 8 l1) (pos + 16) off (pos + 16)
      | FT_PADDING => mkFR off valid L_OK
      | FT_UNKNOWN => mkFR 0 NIL L_UNKNOWN_FLAG
      end
    end
  end.

(** src/log_file.cc:261-296 (truncate) and 466-484 (flushMemTable): the file is read, its header
    skipped, and the rest searched. *)
Definition find_offset (target : N) (f : list N) : fres :=
  if negb (available 12 f) then mkFR 0 NIL L_INCOMPLETE
  else find_loop (length f) target (skipn 12 f) 12 0 12.

(** The same cut on decoded entries: everything after the last record with a number not above the
    target goes; [None] when no record qualifies (offset 0). *)
Fixpoint cut (target : N) (es : list entry) : option (list entry) :=
  match es with
  | [] => None
  | e :: t =>
      match cut target t with
      | Some t' => Some (e :: t')
      | None => match e with
                | ERec r => if r_seq r <=? target then Some [e] else None
                | _ => None
                end
      end
  end.

(** ** The log files *)

(** src/log_file.h, LogFile with its LogFileInfo: number, startSeq, entries on disk, mTable
    ([None]: purged), memTableOnFileMeta (min, max, flushed, synced), immutable. *)
Record rfile := mkRF {
  rf_num : N; rf_start : N; rf_disk : list entry; rf_mem : option mt;
  rf_min : N; rf_max : N; rf_flushed : N; rf_synced : N; rf_imm : bool
}.

(** The log section: the files in ascending order of number, maxLogFileNum, lastSyncedLog. *)
Record rst := mkR { rs_files : list rfile; rs_max : N; rs_ls : N }.

(** Configuration: allowOverwriteSeqNum; isLogStoreMode (src/log_mgr.cc:377-383: logFileTtl_sec is
    not 0; logSectionOnly is always on here); maxEntriesInLogFile. *)
Record rcfg := mkRC { rc_ow : bool; rc_ttl : bool; rc_maxent : N }.

Definition rf_with_mem (f : rfile) (m : mt) : rfile :=
  mkRF (rf_num f) (rf_start f) (rf_disk f) (Some m) (rf_min f) (rf_max f) (rf_flushed f) (rf_synced f) (rf_imm f).
Definition rfile_at (n : N) (fs : list rfile) : option rfile := find (fun f => rf_num f =? n) fs.
Definition rf_upd (n : N) (h : rfile -> rfile) (fs : list rfile) : list rfile :=
  map (fun f => if rf_num f =? n then h f else f) fs.

(** src/log_file.cc:712-748, getMinSeqNum, getFlushedSeqNum, getSyncedSeqNum, getMaxSeqNum. *)
Definition rf_get (g : mt -> N) (h : rfile -> N) (f : rfile) : N :=
  match rf_mem f with Some m => g m | None => h f end.

(** src/log_mgr.cc:129-150 and log_file.cc:129-178: a new log file (the header is not an entry). *)
Definition new_rfile (c : rcfg) (num start : N) : rfile :=
  mkRF num start [] (Some (mt_init (rc_maxent c * 64) start)) NIL NIL NIL NIL false.
(** src/log_mgr.cc:62-151, init of a new database, and 174-196: number 0, start number 0,
    registered with startSeq 1. *)
Definition first_rfile (c : rcfg) : rfile :=
  mkRF 0 1 [] (Some (mt_init (rc_maxent c * 64) 0)) NIL NIL NIL NIL false.
Definition r_new (c : rcfg) : rst := mkR [first_rfile c] 0 NIL.

Section Hash.
Variable hash : key -> N * N.

(** src/log_manifest.h:92-122, grab with load_memtable_if_needed = isLogReclaimerActive()
    (log_manifest.cc:201-203), and log_file.cc:211-259, loadMemTable: the memtable that the caller
    finds.  Without log-store mode a purged memtable stays a null pointer, which the callers
    dereference. *)
Definition view (c : rcfg) (f : rfile) : res mt :=
  match rf_mem f with
  | Some m => Ok m
  | None => if rc_ttl c then mt_load hash (rc_maxent c * 64) (rf_min f) (rf_flushed f) (rf_synced f) (rf_disk f)
            else Undef
  end.

(** skiplist_find_smaller_or_equal on logFilesBySeq, and skiplist_next (see LogMgrModel.v,
    [by_start], [has_next]). *)
Fixpoint r_by_start (s : N) (fs : list rfile) : option rfile :=
  match fs with
  | [] => None
  | f :: t =>
      match r_by_start s t with
      | Some x => if (rf_start f <=? s) && (rf_start x <? rf_start f) then Some f else Some x
      | None => if rf_start f <=? s then Some f else None
      end
  end.
Definition r_has_next (x : rfile) (fs : list rfile) : bool := existsb (fun f => rf_start x <? rf_start f) fs.

(** src/log_manifest.cc:742-800, getLogFileInfoBySeq: the checks look at the numbers kept for a
    purged file; the memtable is loaded afterwards. *)
Definition r_by_seq (s : N) (non_exact : bool) (fs : list rfile) : option rfile :=
  match r_by_start s fs with
  | None => None
  | Some f =>
      let mn := rf_get m_min rf_min f in
      if valid_number mn && (s <? mn) then None
      else if (rf_get m_max rf_max f <? s) && (negb (r_has_next f fs) || negb non_exact) then None
      else Some f
  end.

(** src/log_mgr.cc:833-857, getSN.  Loading a memtable as a side effect of a read is a step of its
    own ([OLoad]), so that reading leaves the state as it is. *)
Definition r_get_seq (c : rcfg) (s : N) (st : rst) : res rec :=
  match r_by_seq s false (rs_files st) with
  | None => Fail LOG_FILE_NOT_FOUND
  | Some f =>
      match view c f with
      | Ok m => if m_max m <? s then Fail KEY_NOT_FOUND else mt_get_seq s m
      | Fail e => Fail e
      | Undef => Undef
      end
  end.

(** src/log_mgr.cc:859-938, get without a snapshot, in log-section-only mode (888-900): every file
    from the largest number down. *)
Fixpoint r_first_ok (c : rcfg) (k : key) (fs : list rfile) : res rec :=
  match fs with
  | [] => Fail KEY_NOT_FOUND
  | f :: t =>
      match view c f with
      | Ok m => match mt_get hash NIL k false true m with
                | Ok r => Ok r
                | Fail _ => r_first_ok c k t
                | Undef => Undef
                end
      | Fail _ => r_first_ok c k t
      | Undef => Undef
      end
  end.
Definition r_get (c : rcfg) (k : key) (st : rst) : res rec := r_first_ok c k (rev (rs_files st)).

(** src/log_mgr.cc:599-682, setSN, and 489-550, addNewLogFile; [full] stands for the two size
    conditions of isValidToWrite (log_file.cc:774-787). *)
Definition r_set (c : rcfg) (full : bool) (r : rec) (st : rst) : res rec * rst :=
  if r_seq r =? 0 then (Fail INVALID_SEQNUM, st)
  else
    let hit := if valid_number (r_seq r) && rc_ow c then r_by_seq (r_seq r) true (rs_files st) else None in
    let over := match hit with Some _ => true | None => false end in
    let n := match hit with Some f => rf_num f | None => rs_max st end in
    match rfile_at n (rs_files st) with
    | None => (Undef, st)
    | Some f =>
        match view c f, rf_imm f with
        | Undef, false => (Undef, st)
        | Fail e, false => (Fail e, st)
        | v, _ =>
            let entries := match v with Ok m => N.of_nat (length (m_seq m)) | _ => 0 end in
            let roll := (rf_imm f || full || (rc_maxent c <=? entries)) && (negb (rc_ow c) || negb over) in
            (* grab loaded the memtable of the file that is looked at *)
            let fs0 := match v with Ok m => rf_upd n (fun f => rf_with_mem f m) (rs_files st) | _ => rs_files st end in
            let mx := match v with Ok m => m_max m | _ => rf_max f end in
            let fs1 := if roll then fs0 ++ [new_rfile c (rs_max st + 1) ((mx + 1) mod 2 ^ 64)] else fs0 in
            let n1 := if roll then rs_max st + 1 else n in
            let max1 := if roll then rs_max st + 1 else rs_max st in
            match rfile_at n1 fs1 with
            | Some f1 =>
                match rf_mem f1 with
                | Some m1 =>
                    let (o, m2) := lf_set hash (rc_ow c) r m1 in
                    let fs2 := rf_upd n1 (fun f => rf_with_mem f m2) fs1 in
                    (* 660-678: a write into an immutable file moves lastSyncedLog back *)
                    let ls := match o with
                              | Ok _ => if rf_imm f1 && valid_number (rs_ls st) && (n <? rs_ls st) then n else rs_ls st
                              | _ => rs_ls st
                              end in
                    (o, mkR fs2 max1 ls)
                | None => (Undef, st)
                end
            | None => (Undef, st)
            end
        end
    end.

(** src/log_file.cc:56-68, isSynced (no checkpoint was added later). *)
Definition r_is_synced (m : mt) : bool :=
  negb (valid_number (m_max m) && (negb (valid_number (m_synced m)) || (m_synced m <? m_max m))).

(** src/log_file.cc:404-530, flushMemTable, and memtable.cc:1236-1471, flush and
    appendFlushMarker, without a barrier: entries appended and flushed_seq_out.  [open]: is the
    file handle open. *)
Definition r_flush_entries (open imm : bool) (m : mt) : list entry * N :=
  if imm && negb open && r_is_synced m then ([], NIL)
  else if m_min m =? NIL then ([EFlush (m_synced m)], NIL)
  else
    let from := if m_synced m =? NIL then m_min m else (m_synced m + 1) mod 2 ^ 64 in
    (map ERec (take_upto (m_max m) (drop_while (fun x => r_seq x <? from) (m_seq m))) ++ [EFlush (m_synced m)],
     m_max m).

(** src/log_mgr.cc:1203-1310, syncInternal: one file, then all files from lastSyncedLog on. *)
Definition r_sync_file (c : rcfg) (open : N -> bool) (mx : N) (f : rfile) : res (rfile * N) :=
  match view c f with
  | Ok m =>
      let (es, after) := r_flush_entries (open (rf_num f)) (rf_imm f) m in
      Ok (mkRF (rf_num f) (rf_start f) (rf_disk f ++ es) (Some (lf_set_synced after m))
               (rf_min f) (rf_max f) (rf_flushed f) (rf_synced f) (rf_imm f || (rf_num f <? mx)), after)
  | Fail e => Fail e
  | Undef => Undef
  end.
Fixpoint r_sync_files (c : rcfg) (open : N -> bool) (from mx last : N) (fs : list rfile) : res (list rfile * N) :=
  match fs with
  | [] => Ok ([], last)
  | f :: t =>
      if (from <=? rf_num f) && (rf_num f <=? mx) then
        match r_sync_file c open mx f with
        | Ok (f', after) =>
            match r_sync_files c open from mx (if valid_number after then rf_num f else last) t with
            | Ok (t', l) => Ok (f' :: t', l)
            | other => other
            end
        | Fail e => Fail e
        | Undef => Undef
        end
      else match r_sync_files c open from mx last t with
           | Ok (t', l) => Ok (f :: t', l)
           | other => other
           end
  end.
Definition r_sync (c : rcfg) (open : N -> bool) (st : rst) : res unit * rst :=
  let from := if rs_ls st =? NIL then match rs_files st with f :: _ => rf_num f | [] => 0 end else rs_ls st in
  match r_sync_files c open from (rs_max st) from (rs_files st) with
  | Ok (fs, l) => (Ok tt, mkR fs (rs_max st) l)
  | Fail e => (Fail e, st)
  | Undef => (Undef, st)
  end.

(** src/log_file.cc:532-568, purgeMemTable. *)
Definition r_purge (f : rfile) : rfile :=
  match rf_mem f with
  | Some m => if rf_imm f then mkRF (rf_num f) (rf_start f) (rf_disk f) None (m_min m) (m_max m) (m_flushed m) (m_synced m) true
              else f
  | None => f
  end.

(** src/log_file.cc:286-307, truncate: the numbers are set before the offset is looked at. *)
Definition set_top (s : N) (m : mt) : mt :=
  mkMt (m_start m) (m_min m) (m_flushed m) s s s (m_seq m) (m_key m) (m_chks m) (m_bf m).
Definition r_truncate (s : N) (f : rfile) : res unit * rfile :=
  let f1 d := mkRF (rf_num f) (rf_start f) d (match rf_mem f with Some m => Some (set_top s m) | None => None end)
                   (rf_min f) s (rf_flushed f) s (rf_imm f) in
  match cut s (rf_disk f) with
  | None => (Fail SEQNUM_NOT_FOUND, f1 (rf_disk f))
  | Some d => (Ok tt, f1 d)
  end.
Definition rf_set_imm (f : rfile) : rfile :=
  mkRF (rf_num f) (rf_start f) (rf_disk f) (rf_mem f) (rf_min f) (rf_max f) (rf_flushed f) (rf_synced f) true.

(** src/log_mgr.cc:226-331, rollback: sync, find the file, truncate it, make it immutable, remove
    the files after it, and (setEvicted, then the guard's release, log_manifest.h:190-204) purge
    its memtable.  [held]: an iterator or another reader holds a reference to the file, so that
    the guard's release is not the last one and the memtable stays.  The truncated file is not
    fsynced ([r_power_cut] below). *)
Definition r_rollback (c : rcfg) (open : N -> bool) (held : bool) (s : N) (st : rst) : res unit * rst :=
  match r_sync c open st with
  | (Ok _, st1) =>
      match r_by_seq s false (rs_files st1) with
      | None => (Fail LOG_FILE_NOT_FOUND, st1)
      | Some f0 =>
          match view c f0 with
          | Ok m =>
              let f := rf_with_mem f0 m in
              match r_truncate s f with
              | (Ok _, f1) =>
                  let n := rf_num f in
                  (Ok tt, mkR (rf_upd n (fun _ => if held then rf_set_imm f1 else r_purge (rf_set_imm f1)) (filter (fun x => rf_num x <=? n) (rs_files st1)))
                              n n)
              | (Fail e, f1) => (Fail e, mkR (rf_upd (rf_num f) (fun _ => f1) (rs_files st1)) (rs_max st1) (rs_ls st1))
              | (Undef, _) => (Undef, st1)
              end
          | Fail e => (Fail e, st1)
          | Undef => (Undef, st1)
          end
      end
  | (Fail e, st1) => (Fail e, st1)
  | (Undef, st1) => (Undef, st1)
  end.

(** src/log_manifest.cc:35-150, reclaimExpiredLogFiles, for one file: which of the eligible files
    expired is up to the clock. *)
Definition r_evict (n : N) (st : rst) : rst :=
  match rs_files st with
  | [] => st
  | f0 :: t =>
      if valid_number (rs_ls st) && (n <? rs_ls st)
      then mkR (f0 :: rf_upd n r_purge t) (rs_max st) (rs_ls st)
      else st
  end.

(** A memtable loaded by some reader. *)
Definition r_load (c : rcfg) (n : N) (st : rst) : rst :=
  mkR (rf_upd n (fun f => match view c f with Ok m => rf_with_mem f m | _ => f end) (rs_files st)) (rs_max st) (rs_ls st).

(** src/log_manifest.cc:296-449, load of the manifest in log-section-only mode with
    truncateInconsecutiveLogs (the default): the entries (number, min, flushed, synced) in order;
    [last] is last_synced_seq.  Result: the files kept, maxLogFileNum, lastSyncedLog.  A file that
    is dropped takes all later ones with it (and is deleted, log_mgr.cc:333-375).  lastFlushedLog
    is never set here. *)
Fixpoint r_open (last mx ls : N) (fs : list rfile) : list rfile * N * N :=
  match fs with
  | [] => ([], mx, ls)
  | f :: t =>
      let mn := rf_get m_min rf_min f in
      let fl := rf_get m_flushed rf_flushed f in
      let sy := rf_get m_synced rf_synced f in
      let bad := (valid_number mn && ((valid_number sy && (sy <? mn))
                                      || (valid_number last && negb (mn =? (last + 1) mod 2 ^ 64))))
                 || (match t with [] => true | _ => false end && negb (valid_number mn)) in
      if bad then
        if rf_num f =? 0 then ([], mx, ls) else ([], rf_num f - 1, rf_num f - 1)
      else
        let last' := if valid_number sy then sy else last in
        let mn' := if negb (valid_number mn) && valid_number last' then (last' + 1) mod 2 ^ 64 else mn in
        let sy' := if negb (valid_number sy) && valid_number last' then last' else sy in
        let f' := mkRF (rf_num f) mn' (rf_disk f) None mn' sy' fl sy' true in
        let ls' := if negb (valid_number ls) || (ls <? rf_num f) then rf_num f else ls in
        let '(t', mx', ls'') := r_open last' mx ls' t in
        (f' :: t', mx', ls'')
  end.
(** src/log_mgr.cc:2076-2131, close (a last sync and the manifest), then init (62-196).  In
    log-store mode the memtables are loaded lazily (log_file.cc:180-209). *)
Definition r_reopen (c : rcfg) (open : N -> bool) (st : rst) : res unit * rst :=
  match r_sync c open st with
  | (Ok _, st1) =>
      let '(fs, mx, ls) := r_open NIL (rs_max st1) (rs_ls st1) (rs_files st1) in
      match fs with
      | [] => (Ok tt, mkR [first_rfile c] mx ls)
      | _ => (Ok tt, mkR fs mx ls)
      end
  | other => other
  end.

(** A power failure right after a successful rollback: the manifest was fsynced
    (log_mgr.cc:322), the shortened file [n] was not (log_file.cc:303, fileops_posix.cc:187-199) and
    may have its former content [old]; then the database is opened again. *)
Definition r_power_cut (n : N) (old : list entry) (st : rst) : rst :=
  let fs := rf_upd n (fun f => mkRF (rf_num f) (rf_start f) old (rf_mem f) (rf_min f) (rf_max f) (rf_flushed f) (rf_synced f) (rf_imm f))
                   (rs_files st) in
  let '(fs', mx, ls) := r_open NIL (rs_max st) (rs_ls st) fs in mkR fs' mx ls.

(** One operation.  The result of a set is the record as stored. *)
Inductive rop :=
| OPut (full : bool) (r : rec)
| OSyn (open : N -> bool)
| ORoll (open : N -> bool) (held : bool) (s : N)
| OEvict (n : N)
| OLoad (n : N)
| OReopen (open : N -> bool).

Inductive rout := RRec (r : rec) | RDone | RErr (e : st) | RUb.
Definition out_of {A} (f : A -> rout) (r : res A) : rout :=
  match r with Ok a => f a | Fail e => RErr e | Undef => RUb end.

Definition r_step (c : rcfg) (o : rop) (s : rst) : rout * rst :=
  match o with
  | OPut full r => let (x, s') := r_set c full r s in (out_of RRec x, s')
  | OSyn open => let (x, s') := r_sync c open s in (out_of (fun _ => RDone) x, s')
  | ORoll open held n => let (x, s') := r_rollback c open held n s in (out_of (fun _ => RDone) x, s')
  | OEvict n => (RDone, r_evict n s)
  | OLoad n => (RDone, r_load c n s)
  | OReopen open => let (x, s') := r_reopen c open s in (out_of (fun _ => RDone) x, s')
  end.

End Hash.
