(** Log-store mode (DBConfig::logSectionOnly): the reclaimer frees the memtables of log files that
    have been written to disk and have not been used for a while, and they are loaded again when a
    call needs them (src/log_reclaimer.cc; src/log_manifest.cc:35-150; src/log_manifest.h:78-190;
    src/log_file.cc:180-259, 532-570).

    Built on RecoverModel.v (the database with its files on disk).  Simplifications: one call at a
    time, so that eviction (setEvicted, then the purge when the last user is done) is one step
    (RefCountModel.v has the race); the time since the last use and the limit on the number of
    memtables only decide which of the eligible files are freed, and any choice is allowed here;
    checkpoints are left out; no close and reopen. *)
From Verif Require Import Base KeyModel LogFormatModel LogManifestModel BloomModel MemTableModel LogMgrModel DbModel RecoverModel.
Local Open Scope N_scope.

(** The database; [l_out n]: LogFile::memtablePurged of file [n]. *)
Record lsdb := mkLS { l_p : pdb; l_out : N -> bool }.

Definition p_files (p : pdb) : list lgf := g_files (d_log (p_db p)).
Definition with_p_files (p : pdb) (fs : list lgf) : pdb :=
  mkP (mkDb (with_files (d_log (p_db p)) fs) (d_tab (p_db p)) (d_gone (p_db p)) (d_bat (p_db p)))
      (p_disk p) (p_dur p) (p_man p) (p_old p).

(** src/log_file.cc:532-570, purgeMemTable: the smallest and largest number and the two marks are
    kept (memTableOnFileMeta), everything else is freed.  log_file.cc:708-750: the getters
    return the kept values while the memtable is away. *)
Definition purged (f : lgf) : lgf :=
  let m := f_mt f in
  mkF (f_num f) (f_start f) (f_imm f)
      (mkMt 0 (m_min m) (m_flushed m) (m_synced m) (m_max m) 0 [] [] [] (bl_create 0 0)).

(** src/log_manifest.cc:61-80 and 115-135: may the memtable of file [n] be freed.  Not the first
    file; a number below the last synced one; immutable; not freed already. *)
Definition evictable (n : N) (s : lsdb) : bool :=
  match last_synced (d_log (p_db (l_p s))), p_files (l_p s) with
  | Some ls, _ :: rest => (n <? ls) && negb (l_out s n) && existsb (fun f => (f_num f =? n) && f_imm f) rest
  | _, _ => false
  end.
Definition l_evict (n : N) (s : lsdb) : option lsdb :=
  if evictable n s
  then Some (mkLS (with_p_files (l_p s) (upd_file n purged (p_files (l_p s)))) (fun m => (m =? n) || l_out s m))
  else None.

(** A new database in this mode. *)
Definition l_new (c : cfg) : lsdb := mkLS (p_new c) (fun _ => false).

Section Hash.
Variable hash : key -> N * N.

(** src/log_file.cc:212-259, loadMemTable: the memtable of a file made from its records on disk. *)
Definition reloaded (c : cfg) (recs : list rec) (f : lgf) : option lgf :=
  match mt_load hash (c_maxent c * 64) (m_min (f_mt f)) (m_flushed (f_mt f)) (m_synced (f_mt f)) (map ERec recs) with
  | Ok m => Some (with_mt f m)
  | _ => None
  end.

(** src/log_manifest.h:76-108, grab(true), on file [n].  The status of loadMemTable is ignored; if
    the file is missing or empty (212-228) the memtable stays null and the caller dereferences it:
    [None]. *)
Definition l_load (c : cfg) (n : N) (s : lsdb) : option lsdb :=
  if l_out s n then
    match file_at n (p_files (l_p s)), dlog_at n (p_disk (l_p s)) with
    | Some f, Some d =>
        match dl_recs d with
        | [] => None
        | _ => match reloaded c (dl_recs d) f with
               | Some f' => Some (mkLS (with_p_files (l_p s) (upd_file n (fun _ => f') (p_files (l_p s))))
                                       (fun m => negb (m =? n) && l_out s m))
               | None => None
               end
        end
    | _, _ => None
    end
  else Some s.
Fixpoint l_loads (c : cfg) (ns : list N) (s : lsdb) : option lsdb :=
  match ns with
  | [] => Some s
  | n :: t => match l_load c n s with Some s1 => l_loads c t s1 | None => None end
  end.

(** src/log_mgr.cc:599-682, setSN, and 692-831, setMulti: the newest log file is looked up with
    loading (log_manifest.cc:677-692), then written (RecoverModel.v). *)
Definition l_write (c : cfg) (o : op) (s : lsdb) : option (res (list rec) * lsdb) :=
  match o with
  | OSet _ _ | OBegin _ | OPut | OEnd =>
      match l_load c (g_max (d_log (p_db (l_p s)))) s with
      | None => Some (Undef, s)
      | Some s1 => match p_write hash c o (l_p s1) with
                   | Some (x, p) => Some (x, mkLS p (l_out s1))
                   | None => None
                   end
      end
  | _ => None
  end.

(** src/log_mgr.cc:1198-1310, sync: each file from the last synced one on is looked up with
    loading. *)
Definition l_sync (c : cfg) (fsync : bool) (s : lsdb) : option (res (list rec) * lsdb) :=
  let g := d_log (p_db (l_p s)) in
  match l_loads c (map f_num (filter (fun f => between (sync_from g) (g_max g) (f_num f)) (g_files g))) s with
  | None => Some (Undef, s)
  | Some s1 => match p_sync hash c fsync (l_p s1) with
               | Some (x, p) => Some (x, mkLS p (l_out s1))
               | None => None
               end
  end.

(** src/log_mgr.cc:888-900: the files one by one from the newest, each looked up with loading. *)
Fixpoint l_walk (c : cfg) (k : key) (ns : list N) (s : lsdb) : res rec * lsdb :=
  match ns with
  | [] => (Fail KEY_NOT_FOUND, s)
  | n :: t =>
      match l_load c n s with
      | None => (Undef, s)
      | Some s1 =>
          match file_at n (p_files (l_p s1)) with
          | None => l_walk c k t s1
          | Some f => match mt_get hash NIL k false true (f_mt f) with
                      | Ok r => (Ok r, s1)
                      | Fail _ => l_walk c k t s1
                      | Undef => (Undef, s1)
                      end
          end
      end
  end.
(** src/jungle.cc:635-672, DB::get; in this mode there is nothing in the tables. *)
Definition l_get (c : cfg) (k : key) (s : lsdb) : res rec * lsdb :=
  let g := d_log (p_db (l_p s)) in
  match last_flushed g, max_num g with
  | Some mn, Some mx =>
      match l_walk c k (rev (map f_num (filter (fun f => (mn <=? f_num f) && (f_num f <=? mx)) (g_files g)))) s with
      | (Ok r, s1) => (found r, s1)
      | (Undef, s1) => (Undef, s1)
      | (Fail _, s1) => (match tab_get (d_tab (p_db (l_p s1))) k with Ok r => found r | other => other end, s1)
      end
  | _, _ => (match tab_get (d_tab (p_db (l_p s))) k with Ok r => found r | other => other end, s)
  end.

(** src/log_mgr.cc:833-857, getSN: the file is chosen by the numbers kept in memory
    (log_manifest.cc:742-800), then loaded. *)
Definition l_get_seq (c : cfg) (n : N) (s : lsdb) : res rec * lsdb :=
  match file_by_seq n false (p_files (l_p s)) with
  | None => (Fail LOG_FILE_NOT_FOUND, s)
  | Some f => match l_load c (f_num f) s with
              | None => (Undef, s)
              | Some s1 => (lm_get_seq n (d_log (p_db (l_p s1))), s1)
              end
  end.

(** src/log_mgr.cc:385-450, openSnapshot at the newest number [chk]: the log files are looked up
    without loading in this mode (log_manifest.cc:694-709, getLogFileInfoSnapshot). *)
Definition l_snapshot (chk : N) (s : lsdb) : res (list N) :=
  match lm_snapshot chk false (d_log (p_db (l_p s))) with
  | Ok l => Ok (map f_num l)
  | Fail e => Fail e
  | Undef => Undef
  end.
(** src/log_mgr.cc:872-884, get on a snapshot holding the files [ns], newest last: the files are
    used as they are; a memtable that has been freed is a null pointer (log_file.cc:363-374). *)
Fixpoint l_snap_walk (chk : N) (k : key) (ns : list N) (s : lsdb) : res rec :=
  match ns with
  | [] => Fail KEY_NOT_FOUND
  | n :: t =>
      if l_out s n then Undef
      else match file_at n (p_files (l_p s)) with
           | None => Undef
           | Some f => match mt_get hash chk k true true (f_mt f) with
                       | Ok r => found r
                       | Fail _ => l_snap_walk chk k t s
                       | Undef => Undef
                       end
           end
  end.
Definition l_snap_get (chk : N) (k : key) (ns : list N) (s : lsdb) : res rec := l_snap_walk chk k (rev ns) s.

(** ** Runs *)
Inductive lop :=
| LWrite (o : op)
| LSync (fsync : bool)
| LGet (k : key)
| LSeq (n : N)
| LEvict (n : N).
Inductive lans :=
| AWrite (x : res (list rec))
| ARead (x : res rec)
| ANone.

Definition l_step (c : cfg) (o : lop) (s : lsdb) : option (lans * lsdb) :=
  match o with
  | LWrite o => match l_write c o s with Some (x, s') => Some (AWrite x, s') | None => None end
  | LSync b => match l_sync c b s with Some (x, s') => Some (AWrite x, s') | None => None end
  | LGet k => let (x, s') := l_get c k s in Some (ARead x, s')
  | LSeq n => let (x, s') := l_get_seq c n s in Some (ARead x, s')
  | LEvict n => match l_evict n s with Some s' => Some (ANone, s') | None => None end
  end.
Fixpoint l_run (c : cfg) (os : list lop) (s : lsdb) : option (list lans * lsdb) :=
  match os with
  | [] => Some ([], s)
  | o :: t => match l_step c o s with
              | Some (x, s1) => match l_run c t s1 with Some (l, s2) => Some (x :: l, s2) | None => None end
              | None => None
              end
  end.

End Hash.
