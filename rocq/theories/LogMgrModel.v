(** The log section of a database: [LogMgr] (src/log_mgr.cc) over the log files registered in
    [LogManifest] (src/log_manifest.cc).  Every operation below is one call of the C++ function,
    executed without another call in between, except that an atomic batch is split into its
    steps (see [batch_begin], [batch_put], [batch_end]) so that readers and background work can
    run while it is being written.

    Left out: throttling, timers, logging, op history, memtable eviction of the log-store mode
    (every memtable is loaded), the reference counts (RefCountModel.v) and the byte level
    (LogWriterModel.v, LogManifestModel.v). *)
From Verif Require Import Base KeyModel LogFormatModel BloomModel MemTableModel.
Local Open Scope N_scope.

(** src/log_manifest.h, LogFileInfo, with the LogFile it points to: number, startSeq,
    [immutable], memtable. *)
Record lgf := mkF { f_num : N; f_start : N; f_imm : bool; f_mt : mt }.

(** src/log_manifest.h and log_mgr.h: logFiles in ascending order of number, maxLogFileNum,
    lastFlushedLog, lastSyncedLog, visibleSeqBarrier. *)
Record lmgr := mkG { g_files : list lgf; g_max : N; g_lf : N; g_ls : N; g_bar : N }.

(** Configuration: allowOverwriteSeqNum, logSectionOnly, maxEntriesInLogFile (the bloom filter
    has 64 bits per entry, memtable.cc:253-256), readOnly. *)
Record cfg := mkC { c_ow : bool; c_lso : bool; c_maxent : N; c_ro : bool }.

(** skiplist_find on logFiles. *)
Definition file_at (n : N) (fs : list lgf) : option lgf := find (fun f => f_num f =? n) fs.
Definition with_mt (f : lgf) (m : mt) : lgf := mkF (f_num f) (f_start f) (f_imm f) m.
Definition set_imm (f : lgf) : lgf := mkF (f_num f) (f_start f) true (f_mt f).
Definition upd_file (n : N) (h : lgf -> lgf) (fs : list lgf) : list lgf :=
  map (fun f => if f_num f =? n then h f else f) fs.
Definition with_files (g : lmgr) (fs : list lgf) : lmgr := mkG fs (g_max g) (g_lf g) (g_ls g) (g_bar g).
Definition with_bar (g : lmgr) (b : N) : lmgr := mkG (g_files g) (g_max g) (g_lf g) (g_ls g) b.

(** src/log_mgr.cc:62-151, init of a new database (startSeqnum 1): log file 0 is created with
    start number 0 and registered with startSeq 1. *)
Definition lm_new (c : cfg) : lmgr :=
  mkG [mkF 0 1 false (mt_init (c_maxent c * 64) 0)] 0 NIL NIL 0.

(** src/log_manifest.cc:879-889, getMinLogFileNum. *)
Definition min_num (g : lmgr) : option N := match g_files g with f :: _ => Some (f_num f) | [] => None end.
(** src/log_manifest.cc:891-902, getLastFlushedLog. *)
Definition last_flushed (g : lmgr) : option N := if g_lf g =? NIL then min_num g else Some (g_lf g).
(** src/log_manifest.cc:904-911, getLastSyncedLog. *)
Definition last_synced (g : lmgr) : option N := if g_ls g =? NIL then None else Some (g_ls g).
(** src/log_manifest.cc:865-872, getMaxLogFileNum. *)
Definition max_num (g : lmgr) : option N := if g_max g =? NIL then None else Some (g_max g).

(** skiplist_find_smaller_or_equal on logFilesBySeq (ordered by startSeq): the file with the
    largest startSeq that is not above [s].  Of several with the same startSeq, the one inserted
    first: skiplist_insert puts a new node before the equal ones (skiplist.cc:451-461), and the
    search passes every node below [s] (skiplist.cc:631-656).  (If [s] is equal to their startSeq,
    the C++ search may stop at any of them, skiplist.cc:639-643, depending on the random heights.) *)
Fixpoint by_start (s : N) (fs : list lgf) : option lgf :=
  match fs with
  | [] => None
  | f :: t =>
      match by_start s t with
      | Some x => if (f_start f <=? s) && (f_start x <=? f_start f) then Some f else Some x
      | None => if f_start f <=? s then Some f else None
      end
  end.
(** skiplist_next on logFilesBySeq from [x]: does a file with a larger startSeq exist. *)
Definition has_next (x : lgf) (fs : list lgf) : bool := existsb (fun f => f_start x <? f_start f) fs.

(** src/log_manifest.cc:742-800, getLogFileInfoBySeq. *)
Definition file_by_seq (s : N) (non_exact : bool) (fs : list lgf) : option lgf :=
  match by_start s fs with
  | None => None
  | Some f =>
      if valid_number (m_min (f_mt f)) && (s <? m_min (f_mt f)) then None
      else if (m_max (f_mt f) <? s) && (negb (has_next f fs) || negb non_exact) then None
      else Some f
  end.

(** src/log_manifest.cc:711-740, getLogFileInfoRange. *)
Fixpoint until_num (e : N) (fs : list lgf) : list lgf :=
  match fs with [] => [] | f :: t => if e <=? f_num f then [f] else f :: until_num e t end.
Definition file_range (s e : N) (fs : list lgf) : list lgf :=
  until_num e (drop_while (fun f => f_num f <? s) fs).

Section Hash.
Variable hash : key -> N * N.

(** src/log_file.cc:774-787, isValidToWrite; [full] stands for the two size conditions. *)
Definition valid_to_write (c : cfg) (full : bool) (f : lgf) : bool :=
  negb (f_imm f || full || (c_maxent c <=? N.of_nat (length (m_seq (f_mt f))))).

(** src/log_mgr.cc:489-550, addNewLogFile, for the current file [f] = the one with the largest
    number; log_file.cc:129-178, create; log_manifest.cc:810-824. *)
Definition add_new_file (c : cfg) (f : lgf) (g : lmgr) : lmgr :=
  let n := (g_max g + 1) mod 2 ^ 64 in
  let start := (m_max (f_mt f) + 1) mod 2 ^ 64 in
  mkG (g_files g ++ [mkF n start false (mt_init (c_maxent c * 64) start)]) n (g_lf g) (g_ls g) (g_bar g).

(** LogFile::setSN (log_file.cc:331-356) on file [n]. *)
Definition file_set (c : cfg) (n : N) (r : rec) (g : lmgr) : res rec * lmgr :=
  match file_at n (g_files g) with
  | None => (Undef, g)
  | Some f => let (o, m') := lf_set hash (c_ow c) r (f_mt f) in
              (o, with_files g (upd_file n (fun f => with_mt f m') (g_files g)))
  end.

(** src/log_mgr.cc:599-682, setSN.  Lines 621-644 retry while the file is missing; with no
    concurrent removal that is an endless loop ([Undef]).  The result carries the record as
    stored. *)
Definition lm_set (c : cfg) (full : bool) (r : rec) (g : lmgr) : res rec * lmgr :=
  if c_ro c then (Fail WRITE_VIOLATION, g)
  else if r_seq r =? 0 then (Fail INVALID_SEQNUM, g)
  else match max_num g with
  | None => (Fail NOT_INITIALIZED_ST, g)
  | Some mx =>
      let hit := if valid_number (r_seq r) && c_ow c then file_by_seq (r_seq r) true (g_files g) else None in
      let over := match hit with Some _ => true | None => false end in
      let n := match hit with Some f => f_num f | None => mx end in
      match file_at n (g_files g) with
      | None => (Undef, g)
      | Some f =>
          let roll := negb (valid_to_write c full f) && (negb (c_ow c) || negb over) in
          let g1 := if roll then add_new_file c f g else g in
          let n1 := if roll then g_max g1 else n in
          let (o, g2) := file_set c n1 r g1 in
          match o with
          | Ok r' =>
              let g3 :=
                match file_at n1 (g_files g2) with
                | Some f2 =>
                    if f_imm f2 then
                      let ls := match last_synced g2 with Some x => if n <? x then n else g_ls g2 | None => g_ls g2 end in
                      let g3 := mkG (g_files g2) (g_max g2) (g_lf g2) ls (g_bar g2) in
                      let lf := match last_flushed g3 with Some x => if n <? x then n else g_lf g3 | None => g_lf g3 end in
                      mkG (g_files g3) (g_max g3) lf (g_ls g3) (g_bar g3)
                    else g2
                | None => g2
                end in
              (Ok r', g3)
          | other => (other, g2)
          end
      end
  end.

(** src/log_mgr.cc:1836-1871, getMaxSeqNum: the barrier if there is one, otherwise the largest
    number of the newest log file that has one, looking down from maxLogFileNum while the
    files exist. *)
Fixpoint max_seq_down (fuel : nat) (n : N) (fs : list lgf) : option N :=
  match fuel with
  | O => None
  | S fuel' =>
      match file_at n fs with
      | None => None
      | Some f => if m_max (f_mt f) =? NIL then (if n =? 0 then None else max_seq_down fuel' (n - 1) fs)
                  else Some (m_max (f_mt f))
      end
  end.
Definition lm_max_seq (g : lmgr) : option N :=
  if negb (g_bar g =? 0) then Some (g_bar g)
  else match max_num g with
       | None => None
       | Some mx => max_seq_down (S (length (g_files g))) mx (g_files g)
       end.

(** src/log_mgr.cc:762-797, checkBatchValidity. *)
Fixpoint increasing_from (prev : N) (b : list rec) : bool :=
  match b with
  | [] => true
  | r :: t => valid_number (r_seq r) && (prev <? r_seq r) && increasing_from (r_seq r) t
  end.
Definition batch_valid (c : cfg) (b : list rec) (g : lmgr) : bool :=
  match b with
  | [] => true
  | r :: _ =>
      if valid_number (r_seq r) && c_ow c && match file_by_seq (r_seq r) false (g_files g) with Some _ => true | None => false end
      then false
      else if valid_number (r_seq r)
      then increasing_from (match lm_max_seq g with Some m => m | None => 0 end) b
      else forallb (fun x => negb (valid_number (r_seq x))) b
  end.

(** src/log_mgr.cc:703-709: the barrier is the largest number so far, 0 for an empty log. *)
Definition batch_begin (g : lmgr) : lmgr := with_bar g (match lm_max_seq g with Some m => m | None => 0 end).
Definition batch_end (g : lmgr) : lmgr := with_bar g 0.
(** src/log_mgr.cc:799-831, setMultiInternal: one record into the newest file (chosen once, before
    the loop; the newest file cannot change because every writer holds writeMutex). *)
Definition batch_put (c : cfg) (r : rec) (g : lmgr) : res rec * lmgr :=
  match max_num g with
  | None => (Fail NOT_INITIALIZED_ST, g)
  | Some mx => file_set c mx r g
  end.
Fixpoint batch_puts (c : cfg) (b : list rec) (g : lmgr) : res (list rec) * lmgr :=
  match b with
  | [] => (Ok [], g)
  | r :: t =>
      match batch_put c r g with
      | (Ok r', g1) =>
          match batch_puts c t g1 with
          | (Ok l, g2) => (Ok (r' :: l), g2)
          | other => other
          end
      | (Fail e, g1) => (Fail e, g1)
      | (Undef, g1) => (Undef, g1)
      end
  end.

(** src/log_mgr.cc:692-724, setMulti. *)
Definition lm_set_multi (c : cfg) (b : list rec) (g : lmgr) : res (list rec) * lmgr :=
  if c_ro c then (Fail WRITE_VIOLATION, g)
  else match b with
  | [] => (Fail EMPTY_BATCH, g)
  | _ =>
      let g0 := batch_begin g in
      if batch_valid c b g0 then let (o, g1) := batch_puts c b g0 in (o, batch_end g1)
      else (Fail INVALID_SEQNUM, batch_end g0)
  end.

(** src/log_mgr.cc:833-857, getSN. *)
Definition lm_get_seq (s : N) (g : lmgr) : res rec :=
  match file_by_seq s false (g_files g) with
  | None => Fail LOG_FILE_NOT_FOUND
  | Some f =>
      if (m_max (f_mt f) <? s) || (negb (g_bar g =? 0) && (g_bar g <? s)) then Fail KEY_NOT_FOUND
      else mt_get_seq s (f_mt f)
  end.

(** Scan files (newest first) until one answers; a failed lookup goes on with the next file. *)
Fixpoint first_ok (ask : lgf -> res rec) (fs : list lgf) : res rec :=
  match fs with
  | [] => Fail KEY_NOT_FOUND
  | f :: t => match ask f with Ok r => Ok r | Fail _ => first_ok ask t | Undef => Undef end
  end.

(** src/log_mgr.cc:910-919: the number up to which one file is read. *)
Definition read_limit (bar : N) (m : mt) : N := if negb (bar =? 0) then N.min (m_max m) bar else m_max m.

(** src/log_mgr.cc:859-938, get without a snapshot. *)
Definition lm_get (c : cfg) (k : key) (g : lmgr) : res rec :=
  match last_flushed g, max_num g with
  | Some mn, Some mx =>
      if c_lso c then
        (* 888-900: by number, no barrier *)
        first_ok (fun f => mt_get hash NIL k false true (f_mt f))
                 (rev (filter (fun f => (mn <=? f_num f) && (f_num f <=? mx)) (g_files g)))
      else
        first_ok (fun f => mt_get hash (read_limit (g_bar g) (f_mt f)) k false true (f_mt f))
                 (rev (file_range mn mx (g_files g)))
  | _, _ => Fail NOT_INITIALIZED_ST
  end.

(** src/log_mgr.cc:872-884, get with a snapshot: [fs] are the files the snapshot holds. *)
Definition lm_get_snap (chk : N) (fs : list lgf) (k : key) : res rec :=
  first_ok (fun f => mt_get hash chk k true true (f_mt f)) (rev fs).

(** src/log_mgr.cc:385-450, openSnapshot at [chk] (a checkpoint or the newest number); [empty]
    is the special case of lines 398-402. The files of all numbers from the first to the one
    holding [chk]; a missing number makes it retry for ever ([Undef]). *)
Fixpoint files_between (fuel : nat) (n e : N) (fs : list lgf) : option (list lgf) :=
  match fuel with
  | O => Some []
  | S fuel' => if e <? n then Some []
               else match file_at n fs with
                    | None => None
                    | Some f => match files_between fuel' (n + 1) e fs with Some l => Some (f :: l) | None => None end
                    end
  end.
Definition lm_snapshot (chk : N) (empty : bool) (g : lmgr) : res (list lgf) :=
  if empty then Ok []
  else match min_num g with
       | None => Fail NOT_INITIALIZED_ST
       | Some mn =>
           match file_by_seq chk false (g_files g) with
           | None => Fail LOG_FILE_NOT_FOUND
           | Some fmax =>
               match files_between (S (N.to_nat (f_num fmax - mn))) mn (f_num fmax) (g_files g) with
               | Some l => Ok l
               | None => Undef
               end
           end
       end.

(** src/log_mgr.cc:940-1077, getNearest: update_cur_nearest and the exits. *)
Definition is_greater (o : sopt) : bool := match o with G | GE => true | _ => false end.
Definition is_smaller (o : sopt) : bool := match o with S_ | SE => true | _ => false end.
Definition exact_ok (o : sopt) : bool := match o with G | S_ => false | _ => true end.
Definition upd_nearest (o : sopt) (cur : option rec) (r : rec) : option rec :=
  match cur with
  | None => Some r
  | Some c => match r_key c with
              | [] => Some r   (* an empty key counts as "nothing found yet" (961) *)
              | _ => if is_greater o then (if kltb (r_key r) (r_key c) then Some r else cur)
                     else if is_smaller o then (if kltb (r_key c) (r_key r) then Some r else cur)
                     else cur
              end
  end.
(** [need_exact]: the latest-data branch (1044) also tests isExactMatchAllowed. *)
Fixpoint nearest_loop (need_exact : bool) (o : sopt) (k : key) (ask : lgf -> res rec) (cur : option rec)
  (fs : list lgf) : res (option rec * bool) :=
  match fs with
  | [] => Ok (cur, false)
  | f :: t =>
      match ask f with
      | Undef => Undef
      | Fail _ => nearest_loop need_exact o k ask cur t
      | Ok r =>
          let cur' := upd_nearest o cur r in
          if (negb need_exact || exact_ok o) && match cur' with Some c => keqb k (r_key c) | None => false end
          then Ok (Some r, true)
          else nearest_loop need_exact o k ask cur' t
      end
  end.
Definition nearest_end (o : sopt) (k : key) (x : res (option rec * bool)) : res rec :=
  match x with
  | Undef => Undef
  | Fail e => Fail e
  | Ok (Some r, true) => Ok r
  | Ok (None, _) => Fail KEY_NOT_FOUND
  | Ok (Some c, false) =>
      match r_key c with
      | [] => Fail KEY_NOT_FOUND
      | _ => if is_greater o && kltb (r_key c) k then Fail KEY_NOT_FOUND
             else if is_smaller o && kltb k (r_key c) then Fail KEY_NOT_FOUND
             else Ok c
      end
  end.
Definition lm_nearest (c : cfg) (o : sopt) (k : key) (g : lmgr) : res rec :=
  match last_flushed g, max_num g with
  | Some mn, Some mx =>
      if c_lso c then
        nearest_end o k (nearest_loop false o k (fun f => mt_search o NIL k false true (f_mt f)) None
          (rev (filter (fun f => (mn <=? f_num f) && (f_num f <=? mx)) (g_files g))))
      else
        nearest_end o k (nearest_loop true o k
          (fun f => mt_search o (read_limit (g_bar g) (f_mt f)) k false true (f_mt f)) None
          (rev (file_range mn mx (g_files g))))
  | _, _ => Fail NOT_INITIALIZED_ST
  end.
Definition lm_nearest_snap (chk : N) (fs : list lgf) (o : sopt) (k : key) : res rec :=
  nearest_end o k (nearest_loop false o k (fun f => mt_search o chk k true true (f_mt f)) None (rev fs)).

(** src/memtable.cc:1236-1252 and 1451, flush: the number reported as written; NIL when the file
    has no record. *)
Definition flush_out (upto : N) (m : mt) : N :=
  if m_min m =? NIL then NIL
  else if valid_number upto && (upto <? m_max m) then upto else m_max m.
(** src/log_file.cc:56-68, isSynced (without a pending cold checkpoint). *)
Definition is_synced (m : mt) : bool :=
  negb (valid_number (m_max m) && (negb (valid_number (m_synced m)) || (m_synced m <? m_max m))).

(** src/log_mgr.cc:1254-1287, the loop of syncInternal over the files [n .. to].  [bad n] says
    that writing or fsyncing file [n] fails (EP returns; the marks already set stay).  The file
    handle of an immutable file is closed (log_file.cc:70-72). *)
Fixpoint sync_loop (fuel : nat) (n to bar : N) (bad : N -> bool) (last : N) (fs : list lgf)
  : res N * list lgf :=
  match fuel with
  | O => (Ok last, fs)
  | S fuel' =>
      if to <? n then (Ok last, fs)
      else match file_at n fs with
           | None => sync_loop fuel' (n + 1) to bar bad last fs
           | Some f =>
               if bad n then (Fail OPERATION_STOPPED, fs)
               else
                 let after := if f_imm f && is_synced (f_mt f) then NIL
                              else flush_out (if bar =? 0 then NIL else bar) (f_mt f) in
                 let f' := with_mt f (lf_set_synced after (f_mt f)) in
                 let f'' := if n <? to then set_imm f' else f' in
                 sync_loop fuel' (n + 1) to bar bad (if valid_number after then n else last)
                           (upd_file n (fun _ => f'') fs)
           end
  end.
(** src/log_mgr.cc:1217-1310, syncInternal. *)
Definition lm_sync (bad : N -> bool) (g : lmgr) : res unit * lmgr :=
  match max_num g with
  | None => (Ok tt, g)
  | Some to =>
      match (match last_synced g with Some x => Some x | None => min_num g end) with
      | None => (Fail NOT_INITIALIZED_ST, g)
      | Some from =>
          match sync_loop (S (N.to_nat (to - from))) from to (g_bar g) bad from (g_files g) with
          | (Ok last, fs) => (Ok tt, mkG fs (g_max g) (g_lf g) last (g_bar g))
          | (Fail e, fs) => (Fail e, with_files g fs)
          | (Undef, fs) => (Undef, with_files g fs)
          end
      end
  end.

(** include/libjungle/params.h:24-70, FlushOptions. *)
Record fopt := mkFO { o_beyond : bool; o_purge : bool; o_limit : N }.

(** src/log_mgr.cc:1416-1442: find the last file with something to flush. *)
Fixpoint rewind_to (fuel : nat) (beyond : bool) (from to : N) (fs : list lgf) : res (N * N) :=
  match fuel with
  | O => Undef
  | S fuel' =>
      match file_at to fs with
      | None => Undef
      | Some f =>
          let s := if beyond then m_max (f_mt f) else m_synced (f_mt f) in
          if s =? NIL then (if from <? to then rewind_to fuel' beyond from (to - 1) fs else Fail LOG_NOT_SYNCED)
          else Ok (s, to)
      end
  end.
(** src/log_mgr.cc:1470-1479: gather from the files [n .. to]; an error of one file is only
    logged. *)
Fixpoint gather (fuel : nat) (n to upto : N) (beyond : bool) (fs : list lgf) (acc : list rec * list N)
  : option (list rec * list N) :=
  match fuel with
  | O => Some acc
  | S fuel' =>
      if to <? n then Some acc
      else match file_at n fs with
           | None => None
           | Some f =>
               let rs := match mt_to_flush upto beyond (fst acc) (f_mt f) with Ok l => l | _ => fst acc end in
               gather fuel' (n + 1) to upto beyond fs (rs, snd acc ++ mt_checkpoints upto (f_mt f))
           end
  end.
(** src/log_mgr.cc:1525-1531: set the marks of the files [n .. to]. *)
Definition mark_file (beyond : bool) (s : N) (f : lgf) : lgf :=
  with_mt f (lf_set_flushed s (if beyond then lf_set_synced s (f_mt f) else f_mt f)).
Definition between (a b n : N) : bool := (a <=? n) && (n <=? b).

(** src/log_mgr.cc:1361-1593, flush: the records and checkpoints given to the table section
    (setBatch and storeManifest are taken to succeed) and the new state. *)
Definition lm_flush (o : fopt) (seq : N) (g : lmgr) : res (list rec * list N) * lmgr :=
  if seq =? 0 then (Fail INVALID_SEQNUM, g)
  else
    let to0 := if o_beyond o then g_max g else g_ls g in
    if to0 =? NIL then (Fail LOG_NOT_SYNCED, g)
    else match last_flushed g with
    | None => (Fail NOT_INITIALIZED_ST, g)
    | Some from =>
        let to1 := if negb (o_limit o =? 0) && (o_limit o <? to0 - from + 1) then from + o_limit o - 1 else to0 in
        let sl := if negb (g_bar g =? 0) && (g_bar g <? seq) then g_bar g else seq in
        match (if sl =? NIL then rewind_to (S (N.to_nat to1)) (o_beyond o) from to1 (g_files g)
               else Ok (seq, match file_by_seq seq false (g_files g) with Some f => f_num f | None => to1 end)) with
        | Fail e => (Fail e, g)
        | Undef => (Undef, g)
        | Ok (s, to) =>
            match file_at from (g_files g) with
            | None => (Undef, g)
            | Some ff =>
                if valid_number (m_flushed (f_mt ff)) && (seq <=? m_flushed (f_mt ff)) then (Fail ALREADY_FLUSHED, g)
                else
                  match (if o_purge o then Some ([], [])
                         else gather (S (N.to_nat (to - from))) from to s (o_beyond o) (g_files g) ([], [])) with
                  | None => (Undef, g)
                  | Some (rs, cs) =>
                      let fs1 := if o_purge o
                                 then upd_file to (fun f => with_mt f (lf_set_flushed s (f_mt f))) (g_files g)
                                 else map (fun f => if between from to (f_num f) then mark_file (o_beyond o) s f else f) (g_files g) in
                      let ls' := if o_beyond o && (g_ls g <? to) then to else g_ls g in
                      let fs2 := filter (fun f => negb (between from to (f_num f) && (f_num f <? to))) fs1 in
                      (Ok (rs, cs), mkG fs2 (g_max g) to ls' (g_bar g))
                  end
            end
        end
    end.

(** src/log_mgr.cc:1755-1776, checkpoint without the sync that follows (the caller composes
    them). *)
Definition lm_checkpoint (out0 : N) (g : lmgr) : res N * lmgr :=
  match max_num g with
  | None => (Fail NOT_INITIALIZED_ST, g)
  | Some mx =>
      match file_at mx (g_files g) with
      | None => (Undef, g)
      | Some f => let (s, m') := mt_checkpoint out0 (f_mt f) in
                  (Ok s, with_files g (upd_file mx (fun f => with_mt f m') (g_files g)))
      end
  end.

(** src/log_mgr.cc:1778-1798, getAvailCheckpoints. *)
Definition lm_checkpoints (g : lmgr) : res (list N) :=
  match last_flushed g, max_num g with
  | Some mn, Some mx =>
      Ok (flat_map (fun f => mt_checkpoints NIL (f_mt f)) (filter (fun f => between mn mx (f_num f)) (g_files g)))
  | _, _ => Fail NOT_INITIALIZED_ST
  end.

(** src/log_mgr.cc:1935-1955 and 1957-1995, getLastFlushedSeqNum and getLastSyncedSeqNum (a
    missing file is retried, then INVALID_SEQNUM). *)
Definition lm_flushed_seq (g : lmgr) : res N :=
  match last_flushed g with
  | None => Fail NOT_INITIALIZED_ST
  | Some n => match file_at n (g_files g) with
              | Some f => if valid_number (m_flushed (f_mt f)) then Ok (m_flushed (f_mt f)) else Fail INVALID_SEQNUM
              | None => Fail INVALID_SEQNUM
              end
  end.
Definition lm_synced_seq (g : lmgr) : res N :=
  match last_synced g with
  | None => Fail NOT_INITIALIZED_ST
  | Some n => match file_at n (g_files g) with
              | Some f => if valid_number (m_synced (f_mt f)) then Ok (m_synced (f_mt f)) else Fail INVALID_SEQNUM
              | None => Fail INVALID_SEQNUM
              end
  end.

(** src/log_mgr.cc:1312-1359, discardDirty. *)
Definition lm_discard (b : N) (g : lmgr) : res unit * lmgr :=
  match max_num g with
  | None => (Ok tt, g)
  | Some mx =>
      match file_by_seq b false (g_files g) with
      | None => (Fail LOG_FILE_NOT_FOUND, g)
      | Some f0 => (Ok tt, with_files g
          (map (fun f => if between (f_num f0) mx (f_num f) then with_mt f (mt_discard b (f_mt f)) else f) (g_files g)))
      end
  end.

End Hash.
