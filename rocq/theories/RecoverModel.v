(** Closing, crashing and reopening a database with tables (the default mode): what is on disk,
    what a crash leaves of it, and what DB::open makes of that (src/log_mgr.cc:62-202, init;
    src/log_manifest.cc:240-479, load; src/log_file.cc:180-259; src/memtable.cc:964-1094).

    Built on DbModel.v (the running database) and LogManifestModel.v (the loop over the manifest
    entries).  Simplifications: a log file on disk is the list of its complete records and a flag
    (LogFormat/LogWriterProofs: the bytes of a file decode to these; flush and checkpoint markers
    are left out, loading the former has no effect and the latter only matter for the list of
    checkpoints); a manifest on disk is the decoded content (C08, C09); the table section is
    durable as soon as a flush has handed the records to it (TableFile::setBatch commits before
    it returns), and is its contract as in DbModel.v. *)
From Verif Require Import Base KeyModel LogFormatModel LogManifestModel BloomModel MemTableModel LogMgrModel DbModel.
Local Open Scope N_scope.

(** A log file on disk: its number, the complete records in it, and whether the bytes of an
    incomplete record follow them (a crash in the middle of a write). *)
Record dlog := mkDL { dl_num : N; dl_recs : list rec; dl_torn : bool }.

(** The running database; the log files as the file system shows them; the part of them that has
    been fsynced; the log manifest as last stored; the older images that may still be the one on
    stable storage (stored since the last fsynced store, that one included). *)
Record pdb := mkP { p_db : db; p_disk : list dlog; p_dur : list dlog; p_man : lman; p_old : list lman }.

Definition dlog_at (n : N) (l : list dlog) : option dlog := find (fun d => dl_num d =? n) l.

(** src/log_manifest.cc:509-586, storeInternal: what is stored. *)
Definition man_of (g : lmgr) : lman :=
  mkLman (g_max g) (g_lf g) (g_ls g)
    (map (fun f => mkMent (f_num f) (m_min (f_mt f)) (m_flushed (f_mt f)) (m_synced (f_mt f))) (g_files g)).

(** src/log_manifest.cc:490-507, store(call_fsync). *)
Definition p_store (fsync : bool) (m : lman) (p : pdb) : pdb :=
  mkP (p_db p) (p_disk p) (p_dur p) m (if fsync then [] else p_old p ++ [p_man p]).

(** A new database (src/log_mgr.cc:118-165): log file 0, manifest stored with fsync. *)
Definition p_new (c : cfg) : pdb :=
  mkP (db_new c) [mkDL 0 [] false] [mkDL 0 [] false] (man_of (lm_new c)) [].

(** ** Writing log files *)

(** src/memtable.cc:1236-1460, flush: the records written when the synced mark of a file moves
    from that of [f] to that of [f']. *)
Definition to_write (f f' : lgf) : list rec :=
  let from := if m_synced (f_mt f) =? NIL then m_min (f_mt f) else m_synced (f_mt f) + 1 in
  if m_synced (f_mt f') =? NIL then []
  else filter (fun r => (from <=? r_seq r) && (r_seq r <=? m_synced (f_mt f'))) (m_seq (f_mt f)).

(** src/log_file.cc:404-530, flushMemTable: append to the file; a file with an incomplete record at
    the end (found when it is opened again for writing, 446-500) is taken to be corrupted and left
    alone, and OK is returned (502-508). *)
Definition write_file (old new : list lgf) (d : dlog) : dlog :=
  match file_at (dl_num d) old, file_at (dl_num d) new with
  | Some f, Some f' => if dl_torn d then d else mkDL (dl_num d) (dl_recs d ++ to_write f f') false
  | _, _ => d
  end.

(** src/log_mgr.cc:1227-1237: the first file that sync looks at. *)
Definition sync_from (g : lmgr) : N :=
  match (match last_synced g with Some x => Some x | None => min_num g end) with Some n => n | None => 0 end.

(** fsync of the files from [n] to [e]. *)
Definition fsync_range (n e : N) (disk dur : list dlog) : list dlog :=
  map (fun d => match dlog_at (dl_num d) disk with
                | Some x => if between n e (dl_num d) then x else d
                | None => d
                end) dur.

(** The process dies while the log files are being written, in the order of their numbers (src/log_mgr.cc:
    1262-1300): the files before [n] are complete, [j] of the records to be added to [n] have been
    written, and with [torn] a part of a further one; the files after [n] are as before. *)
Definition write_some (n : N) (j : nat) (torn : bool) (old new : list lgf) (d : dlog) : dlog :=
  if dl_num d <? n then write_file old new d
  else if dl_num d =? n then
    (if dl_torn d then d
     else mkDL (dl_num d) (dl_recs d ++ firstn j (skipn (length (dl_recs d)) (dl_recs (write_file old new d)))) torn)
  else d.

(** ** Opening *)

Section Hash.
Variable hash : key -> N * N.

(** src/log_manifest.cc:383-455 and src/log_file.cc:180-259: one file of the manifest.  [fresh]: the
    number of a file created because none could be read (440-447, created with number 0 to start
    from); it is registered with the [min_seq] of the manifest entry. *)
Definition load_one (c : cfg) (disk : list dlog) (fresh : option N) (e : ment) : option lgf :=
  if match fresh with Some n => n =? e_num e | None => false end
  then Some (mkF (e_num e) (e_min e) false (mt_init (c_maxent c * 64) 0))
  else match dlog_at (e_num e) disk with
       | None => None
       | Some d => match mt_load hash (c_maxent c * 64) (e_min e) (e_flushed e) (e_synced e) (map ERec (dl_recs d)) with
                   | Ok m => Some (mkF (e_num e) (e_min e) true m)
                   | _ => None
                   end
       end.

Fixpoint load_all (c : cfg) (disk : list dlog) (fresh : option N) (es : list ment) : option (list lgf) :=
  match es with
  | [] => Some []
  | e :: t => match load_one c disk fresh e, load_all c disk fresh t with
              | Some f, Some l => Some (f :: l)
              | _, _ => None
              end
  end.

(** The status of LogFile::load: a file that is not there, one that ends in an incomplete record
    (INCOMPLETE_LOG, tolerated), a good one. *)
Definition disk_status (disk : list dlog) (n : N) : fstat :=
  match dlog_at n disk with
  | None => F_NOT_EXIST
  | Some d => if dl_torn d then F_OTHER else F_OK
  end.

(** src/log_mgr.cc:62-202, init with an existing manifest [m], followed by removeStaleFiles
    (333-375), for the tables [tab].  [dur] is the part of [disk] on stable storage, [old] the
    manifest images that may be on stable storage instead of [m].  Lines 166-192: if no file is
    registered, file 0 is created. *)
Definition p_open (c : cfg) (tab : list rec) (disk dur : list dlog) (m : lman) (old : list lman) : option pdb :=
  let ld := load_files {| c_section_only := c_lso c; c_truncate_inconsecutive := true |} (disk_status disk)
              (l_files m) NIL false (mkLoad (l_max m) (l_flushed m) (l_synced m) [] None) in
  match load_all c disk (d_new ld) (d_files ld) with
  | None => None
  | Some fs =>
      let listed n := match file_at n fs with Some _ => true | None => false end in
      let disk1 := map (fun d => if match d_new ld with Some n => n =? dl_num d | None => false end
                                 then mkDL (dl_num d) [] false else d)
                       (match d_new ld with
                        | Some n => match dlog_at n disk with Some _ => disk | None => disk ++ [mkDL n [] false] end
                        | None => disk
                        end) in
      let disk2 := filter (fun d => listed (dl_num d)) disk1 in
      let dur2 := filter (fun d => listed (dl_num d)) dur in
      let g := mkG fs (d_max ld) (d_flushed ld) (d_synced ld) 0 in
      let stale := negb (forallb (fun d => listed (dl_num d)) disk1) in
      let p := mkP (mkDb g tab [] None) disk2 dur2 m old in
      let p1 := if stale then p_store true (man_of g) p else p in
      match fs with
      | [] => Some (mkP (mkDb (mkG [mkF 0 1 false (mt_init (c_maxent c * 64) 0)] (g_max g) (g_lf g) (g_ls g) 0) tab [] None)
                        [mkDL 0 [] false] [mkDL 0 [] false] (p_man p1) (p_old p1))
      | _ => Some p1
      end
  end.

(** ** Operations *)

(** How the process ends and the database is opened again.
    [XClean]: close (src/log_mgr.cc:2076-2131: the last syncInternal with fsync), then open.
    [XKill]: the process dies between two operations.
    [XSync n j torn]: it dies in sync, while log file [n] is being written ([write_some]).
    [XFlush fo seq held gone]: it dies in flush, after the records have been handed to the tables,
    and before the log manifest is stored (log_mgr.cc:1515-1560); of the log files the flush
    removes, those in [gone] have been deleted already, which cannot be one that a reader or
    snapshot holds ([held]).
    [XPower disk m]: the machine loses power between two operations, leaving the log files [disk]
    and the manifest [m]. *)
Inductive xkind :=
| XClean
| XKill
| XSync (n : N) (j : nat) (torn : bool)
| XFlush (fo : fopt) (seq : N) (held gone : N -> bool)
| XPower (disk : list dlog) (m : lman).

Inductive pop :=
| PDb (o : op)
| PSync (fsync : bool)
| PFlush (fo : fopt) (seq : N) (held : N -> bool)
| PReopen (x : xkind).

(** Writing, batches and checkpoints: DbModel.v.  A new log file is created on disk and the manifest
    stored without fsync before the record is written (src/log_mgr.cc:489-550).  Sync and flush
    have their own constructors. *)
Definition p_write (c : cfg) (o : op) (p : pdb) : option (res (list rec) * pdb) :=
  match step hash c o (p_db p) with
  | None => None
  | Some (x, d') =>
      let g := d_log (p_db p) in
      let p1 := mkP d' (p_disk p) (p_dur p) (p_man p) (p_old p) in
      if g_max (d_log d') =? g_max g then Some (x, p1)
      else match file_at (g_max g) (g_files g) with
           | None => None
           | Some f =>
               let nf := mkDL (g_max (d_log d')) [] false in
               Some (x, p_store false (man_of (add_new_file c f g))
                          (mkP d' (p_disk p ++ [nf]) (p_dur p ++ [nf]) (p_man p) (p_old p)))
           end
  end.

Definition no_fault (_ : N) : bool := false.

(** DB::sync (src/jungle.cc:451-457; src/log_mgr.cc:1198-1310). *)
Definition p_sync (c : cfg) (fsync : bool) (p : pdb) : option (res (list rec) * pdb) :=
  match step hash c (OSync no_fault) (p_db p) with
  | None => None
  | Some (x, d') =>
      let g := d_log (p_db p) in
      let disk := map (write_file (g_files g) (g_files (d_log d'))) (p_disk p) in
      let dur := if fsync then fsync_range (sync_from g) (g_max g) disk (p_dur p) else p_dur p in
      Some (x, match x with
               | Ok _ => p_store fsync (man_of (d_log d')) (mkP d' disk dur (p_man p) (p_old p))
               | _ => mkP d' disk dur (p_man p) (p_old p)
               end)
  end.

(** The files of [old] that are no longer in [new]. *)
Definition dropped (old new : lmgr) (n : N) : bool :=
  match file_at n (g_files old), file_at n (g_files new) with Some _, None => true | _, _ => false end.

(** DB::flushLogs (src/log_mgr.cc:1361-1593); [held]: files whose deletion waits for a reader. *)
Definition p_flush (c : cfg) (fo : fopt) (seq : N) (held : N -> bool) (p : pdb) : option (res (list rec) * pdb) :=
  match step hash c (OFlush fo seq) (p_db p) with
  | None => None
  | Some (x, d') =>
      let keep d := negb (dropped (d_log (p_db p)) (d_log d') (dl_num d) && negb (held (dl_num d))) in
      Some (x, match x with
               | Ok _ => p_store true (man_of (d_log d'))
                           (mkP d' (filter keep (p_disk p)) (filter keep (p_dur p)) (p_man p) (p_old p))
               | _ => mkP d' (p_disk p) (p_dur p) (p_man p) (p_old p)
               end)
  end.

Definition p_reopen (c : cfg) (x : xkind) (p : pdb) : option pdb :=
  match x with
  | XClean => match p_sync c true p with
              | Some (Ok _, p') => p_open c (d_tab (p_db p')) (p_disk p') (p_dur p') (p_man p') (p_old p')
              | _ => None
              end
  | XKill => p_open c (d_tab (p_db p)) (p_disk p) (p_dur p) (p_man p) (p_old p)
  | XSync n j torn =>
      match step hash c (OSync no_fault) (p_db p) with
      | Some (_, d') => p_open c (d_tab (p_db p))
                          (map (write_some n j torn (g_files (d_log (p_db p))) (g_files (d_log d'))) (p_disk p))
                          (p_dur p) (p_man p) (p_old p)
      | None => None
      end
  | XFlush fo seq held gone =>
      match step hash c (OFlush fo seq) (p_db p) with
      | Some (Ok _, d') =>
          let keep d := negb (dropped (d_log (p_db p)) (d_log d') (dl_num d) && negb (held (dl_num d)) && gone (dl_num d)) in
          p_open c (d_tab d') (filter keep (p_disk p)) (filter keep (p_dur p)) (p_man p) (p_old p)
      | _ => None
      end
  | XPower disk m => p_open c (d_tab (p_db p)) disk disk m []
  end.

Definition pstep (c : cfg) (o : pop) (p : pdb) : option (res (list rec) * pdb) :=
  match o with
  | PDb (OSync _) | PDb (OFlush _ _) => None
  | PDb o => p_write c o p
  | PSync fsync => p_sync c fsync p
  | PFlush fo seq held => p_flush c fo seq held p
  | PReopen x => match p_reopen c x p with Some p' => Some (Ok [], p') | None => None end
  end.

(** A run and its responses. *)
Fixpoint prun (c : cfg) (os : list pop) (p : pdb) : option (list (res (list rec)) * pdb) :=
  match os with
  | [] => Some ([], p)
  | o :: t => match pstep c o p with
              | Some (x, p1) => match prun c t p1 with Some (l, p2) => Some (x :: l, p2) | None => None end
              | None => None
              end
  end.

End Hash.

(** What a power failure can leave: of every log file at least the fsynced records and at most
    those written, and one of the manifest images stored since the last fsynced one (C10). *)
Definition survives (p : pdb) (disk : list dlog) (m : lman) : Prop :=
  map dl_num disk = map dl_num (p_disk p) /\
  (forall d x y, In d disk -> dlog_at (dl_num d) (p_disk p) = Some x -> dlog_at (dl_num d) (p_dur p) = Some y ->
     exists a b, dl_recs d = dl_recs y ++ a /\ dl_recs x = dl_recs d ++ b) /\
  (m = p_man p \/ In m (p_old p)).
