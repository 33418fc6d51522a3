(** DB::get as the steps it consists of, with writers, batches and a flush to the tables running in
    between (src/jungle.cc:635-672, src/log_mgr.cc:859-938 and 1361-1582).  A flush holds flushSema,
    which keeps other flushes away; writers and batches hold writeMutex; a get holds nothing.

    Simplifications: a log file is its records in the order they were written with the mark up to
    which they are flushed, and a lookup in it is the contract of the memtable, which is proved for
    the memtable's code in MemTableProofs.v ([mt_get_spec]; see [gf_get_mt] in GetRaceProofs.v);
    records come with increasing numbers (no overwriting); the tables are the records moved to them;
    everything succeeds; a write, one record of a batch, and each step of a flush or of a get is
    atomic; syncs, which change neither records nor flushed marks, do not appear; one get is followed
    (gets change nothing, so others running beside it make no difference).  Not covered: log-store
    mode, snapshots, purgeOnly flushes. *)
From Verif Require Import Base KeyModel LogFormatModel MemTableModel LogMgrModel DbModel MemTableProofs.
Local Open Scope N_scope.

(** A log file, src/log_manifest.h:36-233 and src/log_file.h: number, records, flushedSeqNum of its
    memtable, and LogFileInfo::removed.  A file stays allocated after its removal as long as a get
    holds it (C29). *)
Record gfile := mkGF { gf_num : N; gf_recs : list rec; gf_mark : N; gf_gone : bool }.

(** src/log_file.cc:743-749, getMaxSeqNum: the largest number, NIL for an empty memtable. *)
Definition gf_max (f : gfile) : N := match rev (gf_recs f) with r :: _ => r_seq r | [] => NIL end.

(** src/log_file.cc:363-374 and src/memtable.cc:586-680, get by key with allow_flushed_log = false and
    allow_tombstone = true: the newest record of the key up to [chk]; nothing if it is flushed. *)
Definition gf_get (chk : N) (k : key) (f : gfile) : res rec :=
  answer (gf_mark f) false true (newest (gf_recs f) chk k).

(** Where a flush is, src/log_mgr.cc:1361-1582: from file [from] to file [to], numbers up to [s]. *)
Inductive fphase :=
| FIdle
| FTab (from to s : N)          (* 1382-1449 done: the range and the number are fixed *)
| FMark (from to s n : N)       (* 1508-1509 done: next the mark of file [n], 1525-1532 *)
| FRem (to s n : N).            (* 1557 done: next the removal of file [n], 1568-1581 *)

(** Where a get of key [rd_key] is. *)
Inductive gphase :=
| GHigh (mn : N)                         (* 887 done *)
| GWalk (mn mx : N)                      (* 888 done *)
| GScan (ns : list N)                    (* 904-907, files still to be asked, newest first *)
| GMax (n chk : N) (ns : list N)         (* 911-916 done for file [n] *)
| GBar (n chk : N) (ns : list N)         (* 920-923 done *)
| GTab                                   (* no log file answered *)
| GDone (x : res rec).
Record rd := mkRd { rd_key : key; rd_ph : gphase }.

Record gst := mkG {
  s_files : list gfile;        (* all files there ever were, in the order of their numbers *)
  s_lf : option N;             (* LogManifest::lastFlushedLog *)
  s_bar : N;                   (* LogMgr::visibleSeqBarrier *)
  s_tab : list rec;            (* the records of the tables, in the order they came *)
  s_fl : fphase;
  s_get : option rd
}.

(** A new database: one empty log file (src/log_mgr.cc:128-195, init). *)
Definition g_new : gst := mkG [mkGF 0 [] NIL false] None 0 [] FIdle None.

Inductive gop :=
| EWrite (r : rec)          (* one record into the newest file: a write, or one of a batch *)
| ERoll                     (* the writer finds the newest file full and adds another one *)
| EBegin | EEnd             (* begin and end of a batch *)
| EFlush (to s : N)         (* a flush chooses its last file and its number *)
| ETables | EMark | ELast | ERemove
| EGet (k : key) | EMax | EWalk | EFile | EBar | ELook | EAsk.

(** src/log_mgr.cc:660 and 799-831: the newest file gets the record. *)
Fixpoint add_last (r : rec) (fs : list gfile) : list gfile :=
  match fs with
  | [] => []
  | [f] => [mkGF (gf_num f) (gf_recs f ++ [r]) (gf_mark f) (gf_gone f)]
  | f :: t => f :: add_last r t
  end.
Definition newest_num (fs : list gfile) : N := match rev fs with f :: _ => gf_num f | [] => 0 end.
Definition gf_at (n : N) (fs : list gfile) : option gfile := find (fun f => gf_num f =? n) fs.
Definition live (f : gfile) : bool := negb (gf_gone f).
(** src/log_manifest.cc:893-904, getLastFlushedLog, with 882-891, getMinLogFileNum. *)
Definition low (s : gst) : N :=
  match s_lf s with
  | Some l => l
  | None => match filter live (s_files s) with f :: _ => gf_num f | [] => 0 end
  end.
Definition between_nums (a b : N) (f : gfile) : bool := (a <=? gf_num f) && (gf_num f <=? b).
(** src/log_mgr.cc:1468-1477 with getLogsToFlush: the unflushed records up to [s]. *)
Definition to_flush (s : N) (f : gfile) : list rec :=
  filter (fun r => unflushed (gf_mark f) r && (r_seq r <=? s)) (gf_recs f).
Definition gather_from (from to s : N) (fs : list gfile) : list rec :=
  flat_map (to_flush s) (filter (fun f => live f && between_nums from to f) fs).
(** src/log_file.cc:649-669, setFlushedSeqNum.  The cap by the synced number (which the flush has
    just raised, or which is at least [s] where the file has records up to [s]) hides no record
    and is left out; a file with no record keeps no mark. *)
Definition mark_one (n s : N) (f : gfile) : gfile :=
  if gf_num f =? n
  then mkGF (gf_num f) (gf_recs f) (match gf_recs f with [] => gf_mark f | _ => s end) (gf_gone f) else f.
(** src/log_manifest.cc:826-846, removeLogFile. *)
Definition remove_one (n : N) (f : gfile) : gfile :=
  if gf_num f =? n then mkGF (gf_num f) (gf_recs f) (gf_mark f) true else f.
(** The largest number in the log, src/log_mgr.cc:707-708 (getMaxSeqNum; 0 for an empty log). *)
Definition top_seq (fs : list gfile) : N :=
  match rev (flat_map gf_recs fs) with r :: _ => r_seq r | [] => 0 end.

Definition with_files s fs := mkG fs (s_lf s) (s_bar s) (s_tab s) (s_fl s) (s_get s).
Definition with_bar s b := mkG (s_files s) (s_lf s) b (s_tab s) (s_fl s) (s_get s).
Definition with_fl s p := mkG (s_files s) (s_lf s) (s_bar s) (s_tab s) p (s_get s).
Definition with_get s k p := mkG (s_files s) (s_lf s) (s_bar s) (s_tab s) (s_fl s) (Some (mkRd k p)).

(** The steps of a get. *)
Definition get_step (e : gop) (s : gst) : option gst :=
  match s_get s with
  | None => None
  | Some (mkRd k ph) =>
    match e, ph with
    (* 888 *)
    | EMax, GHigh mn => Some (with_get s k (GWalk mn (newest_num (s_files s))))
    (* 906, getLogFileInfoRange, log_manifest.cc:711-740.  One step: a file that is removed during
       the walk is left out or skipped afterwards, which is the same *)
    | EWalk, GWalk mn mx =>
        Some (with_get s k (GScan (rev (map gf_num (filter (fun f => live f && between_nums mn mx f) (s_files s))))))
    (* 909-916 *)
    | EFile, GScan [] => Some (with_get s k GTab)
    | EFile, GScan (n :: ns) =>
        match gf_at n (s_files s) with
        | None => None
        | Some f => Some (with_get s k (if gf_gone f then GScan ns else GMax n (gf_max f) ns))
        end
    (* 920-923 *)
    | EBar, GMax n chk ns => Some (with_get s k (GBar n (if s_bar s =? 0 then chk else N.min chk (s_bar s)) ns))
    (* 925-930; jungle.cc:644-650 *)
    | ELook, GBar n chk ns =>
        match gf_at n (s_files s) with
        | None => None
        | Some f => Some (with_get s k (match gf_get chk k f with Ok r => GDone (found r) | _ => GScan ns end))
        end
    (* jungle.cc:655-671 *)
    | EAsk, GTab => Some (with_get s k (GDone (match tab_get (s_tab s) k with Ok r => found r | other => other end)))
    | _, _ => None
    end
  end.

(** The steps of a flush after its beginning. *)
Definition flush_step (e : gop) (s : gst) : option gst :=
  match e, s_fl s with
  (* 1468-1509 *)
  | ETables, FTab from to q =>
      Some (mkG (s_files s) (s_lf s) (s_bar s) (s_tab s ++ gather_from from to q (s_files s)) (FMark from to q from) (s_get s))
  (* 1525-1532 *)
  | EMark, FMark from to q n =>
      if n <=? to then Some (mkG (map (mark_one n q) (s_files s)) (s_lf s) (s_bar s) (s_tab s) (FMark from to q (n + 1)) (s_get s))
      else None
  (* 1557 *)
  | ELast, FMark from to q n =>
      if n <=? to then None else Some (mkG (s_files s) (Some to) (s_bar s) (s_tab s) (FRem to q from) (s_get s))
  (* 1568-1581 *)
  | ERemove, FRem to q n =>
      if n <? to then Some (mkG (map (remove_one n) (s_files s)) (s_lf s) (s_bar s) (s_tab s) (FRem to q (n + 1)) (s_get s))
      else Some (with_fl s FIdle)
  | _, _ => None
  end.

Definition gstep (e : gop) (s : gst) : option gst :=
  match e with
  | EWrite r => Some (with_files s (add_last r (s_files s)))
  (* src/log_mgr.cc:489-550, addNewLogFile *)
  | ERoll => Some (with_files s (s_files s ++ [mkGF (newest_num (s_files s) + 1) [] NIL false]))
  (* src/log_mgr.cc:706-712 and 718 *)
  | EBegin => Some (with_bar s (top_seq (s_files s)))
  | EEnd => Some (with_bar s 0)
  (* src/log_mgr.cc:1371-1449: no other flush is running *)
  | EFlush to q => match s_fl s with FIdle => Some (with_fl s (FTab (low s) to q)) | _ => None end
  | ETables | EMark | ELast | ERemove => flush_step e s
  (* src/log_mgr.cc:887 *)
  | EGet k => Some (with_get s k (GHigh (low s)))
  | EMax | EWalk | EFile | EBar | ELook | EAsk => get_step e s
  end.

Fixpoint grun (es : list gop) (s : gst) : option gst :=
  match es with
  | [] => Some s
  | e :: t => match gstep e s with Some s' => grun t s' | None => None end
  end.
