(** The in-memory table of one log file: [MemTable] (src/memtable.cc) and the thin [LogFile]
    wrappers around it (src/log_file.cc).

    Simplifications, valid for the whole file: no custom comparison function (keys are ordered by
    SizedBuf::cmp, here [kcmp]); one writer at a time (LogMgr::writeMutex, src/log_mgr.cc:617), so
    a compare-and-swap never meets another writer and the weak form is taken not to fail
    spuriously; memory allocation succeeds; reference counts of skiplist nodes and byte counters
    are left out; [increasingOrder] is left out (it only selects an I/O hint). *)
From Verif Require Import Base KeyModel LogFormatModel BloomModel.
Local Open Scope N_scope.

(** include/libjungle/status.h: the codes used below. *)
Inductive st :=
| INVALID_SEQNUM | KEY_NOT_FOUND | ALREADY_PURGED | SEQNUM_NOT_FOUND | LOG_NOT_SYNCED
| LOG_FILE_NOT_FOUND | NOT_INITIALIZED_ST | ALREADY_FLUSHED | EMPTY_BATCH | OUT_OF_RANGE
| OPERATION_STOPPED | WRITE_VIOLATION | INVALID_SNAPSHOT | INVALID_CHECKPOINT | INVALID_PARAMETERS.

(** Outcome of an operation: success with a result, an error code, or undefined behaviour. *)
Inductive res (A : Type) := Ok (a : A) | Fail (s : st) | Undef.
Arguments Ok {A} a.
Arguments Fail {A} s.
Arguments Undef {A}.

Definition is_ok {A} (r : res A) : bool := match r with Ok _ => true | _ => false end.

(** src/memtable.h, MemTable.  [m_seq]: idxBySeq in ascending order; [m_key]: idxByKey in
    ascending order, each RecNode with its recList in push order; [m_stale] is not needed
    (staleLogs only keeps memory alive). *)
Record mt := mkMt {
  m_start : N; m_min : N; m_flushed : N; m_synced : N; m_max : N; m_alloc : N;
  m_seq : list rec;
  m_key : list (key * list rec);
  m_chks : list N;
  m_bf : bloom
}.

(** src/memtable.cc:233-257 and 338-343, constructor and init.  [nbits] is
    maxEntriesInLogFile * 64. *)
Definition mt_init (nbits start : N) : mt :=
  mkMt start NIL NIL NIL NIL NIL [] [] [] (bl_create nbits 3).

(** include/libjungle/record.h: isIns, isDel, isCmd. *)
Definition is_ins (r : rec) : bool := r_type r =? INS.
Definition is_del (r : rec) : bool := r_type r =? DEL.
Definition is_cmd (r : rec) : bool := r_type r =? CMD.

Definition with_seq (r : rec) (s : N) : rec := mkRec s (r_type r) (r_key r) (r_meta r) (r_val r).
Definition clear_val (r : rec) : rec := mkRec (r_seq r) (r_type r) (r_key r) (r_meta r) [].

(** src/memtable.cc:345-394, assignSeqNum: (sequence number, new seqNumAlloc, new minSeqNum). *)
Definition assign_seq (ow : bool) (s : N) (m : mt) : res (N * N * N) :=
  if s =? NIL then
    let val := if m_start m =? 0 then 1 else m_start m in
    if m_alloc m =? NIL then Ok (val, val, val)
    else let s' := (m_alloc m + 1) mod 2 ^ 64 in Ok (s', s', m_min m)
  else if negb (m_alloc m =? NIL) && (s <=? m_alloc m) && negb ow then Fail INVALID_SEQNUM
  else if negb (m_min m =? NIL) && (s <? m_min m) then Fail INVALID_SEQNUM
  else Ok (s, s, if m_alloc m =? NIL then s else m_min m).

(** skiplist_find / skiplist_insert on idxBySeq (src/skiplist.cc; order: memtable.cc:154-162). *)
Fixpoint seq_replace (r : rec) (l : list rec) : list rec :=
  match l with
  | [] => []
  | x :: t => if r_seq x =? r_seq r then r :: t else x :: seq_replace r t
  end.
Fixpoint seq_insert (r : rec) (l : list rec) : list rec :=
  match l with
  | [] => [r]
  | x :: t => if r_seq x <? r_seq r then x :: seq_insert r t else r :: l
  end.
Definition seq_find (s : N) (l : list rec) : option rec := find (fun x => r_seq x =? s) l.

(** src/memtable.cc:444-466, addToBySeqIndex. *)
Definition add_seq (r : rec) (max : N) (l : list rec) : list rec :=
  if negb (r_seq r =? NIL) && (r_seq r <=? max) then
    match seq_find (r_seq r) l with
    | Some _ => seq_replace r l
    | None => seq_insert r l
    end
  else seq_insert r l.

(** src/memtable.cc:412-442, addToByKeyIndex on the skiplist: insert_nodup, otherwise push to the
    existing RecNode.  The flag says whether a node was created. *)
Fixpoint key_push (r : rec) (l : list (key * list rec)) : list (key * list rec) * bool :=
  match l with
  | [] => ([(r_key r, [r])], true)
  | (k, rs) :: t =>
      match kcmp (r_key r) k with
      | Lt => ((r_key r, [r]) :: l, true)
      | Eq => ((k, rs ++ [r]) :: t, false)
      | Gt => let (t', b) := key_push r t in ((k, rs) :: t', b)
      end
  end.

(** src/memtable.cc:396-403, updateMaxSeqNum. *)
Definition upd_max (s max : N) : N := if (max <? s) || (max =? NIL) then s else max.

(** src/internal_helper.h:499-534, get_hash_pair: the 128-bit hash (MurmurHash3, of the part of
    the key selected by the user's callback) is an arbitrary function of the key. *)
Section Hash.
Variable hash : key -> N * N.

(** src/memtable.cc:412-442 with the bloom filter update of line 428. *)
Definition add_key (r : rec) (m_key : list (key * list rec)) (bf : bloom)
  : res (list (key * list rec) * bloom) :=
  let (l, created) := key_push r m_key in
  if created then match bl_set (hash (r_key r)) bf with Some bf' => Ok (l, bf') | None => Undef end
  else Ok (l, bf).

(** src/memtable.cc:468-513, putNewRecord.  Returns the stored record as well. *)
Definition mt_put (ow : bool) (r0 : rec) (m : mt) : res (rec * mt) :=
  let r1 := if is_del r0 then clear_val r0 else r0 in
  match assign_seq ow (r_seq r1) m with
  | Ok (s, alloc', min') =>
      let r := with_seq r1 s in
      let seq' := add_seq r (m_max m) (m_seq m) in
      let fin key' bf' :=
        Ok (r, mkMt (m_start m) min' (m_flushed m) (m_synced m) (upd_max s (m_max m)) alloc'
                    seq' key' (m_chks m) bf') in
      if is_cmd r then fin (m_key m) (m_bf m)
      else match add_key r (m_key m) (m_bf m) with
           | Ok (key', bf') => fin key' bf'
           | Fail e => Fail e
           | Undef => Undef
           end
  | Fail e => Fail e
  | Undef => Undef
  end.

(** src/log_file.cc:331-356, LogFile::setSN.  The marks are rewound even if putNewRecord fails;
    the caller drops the result then, so the new state is returned with the outcome. *)
Definition rewind (s mark : N) : N := if negb (mark =? NIL) && (s <=? mark) then s - 1 else mark.
Definition set_marks (flushed synced : N) (m : mt) : mt :=
  mkMt (m_start m) (m_min m) flushed synced (m_max m) (m_alloc m) (m_seq m) (m_key m) (m_chks m) (m_bf m).
Definition lf_set (ow : bool) (r : rec) (m : mt) : res rec * mt :=
  let over := negb (r_seq r =? NIL) && ow && (r_seq r <=? m_max m) in
  let fix_ m' := if over then set_marks (rewind (r_seq r) (m_flushed m')) (rewind (r_seq r) (m_synced m')) m'
                 else m' in
  match mt_put ow r m with
  | Ok (r', m') => (Ok r', fix_ m')
  | Fail e => (Fail e, fix_ m)
  | Undef => (Undef, m)
  end.

(** src/memtable.cc:69-86, RecNode::getLatestRecord. *)
Definition latest_rec (from upto : N) (rs : list rec) : option rec :=
  match find (fun x => negb (valid_number upto) || (r_seq x <=? upto)) (rev rs) with
  | Some x => if negb (valid_number from) || (from <=? r_seq x) then Some x else None
  | None => None
  end.

(** src/memtable.cc:564-584, findRecordBySeq. *)
Definition mt_get_seq (s : N) (m : mt) : res rec :=
  if negb (m_flushed m =? NIL) && (s <=? m_flushed m) then Fail ALREADY_PURGED
  else match seq_find s (m_seq m) with
       | Some r => Ok r
       | None => Fail SEQNUM_NOT_FOUND
       end.

(** include/libjungle/params.h, SearchOptions. *)
Inductive sopt := GE | G | SE | S_ | EQ.

Fixpoint drop_while {A} (p : A -> bool) (l : list A) : list A :=
  match l with [] => [] | x :: t => if p x then drop_while p t else l end.

(** src/memtable.cc:618-654, getRecordByKeyInternal: the node that the search stops at. *)
Definition seek_node (opt : sopt) (k : key) (l : list (key * list rec)) : option (key * list rec) :=
  match opt with
  | EQ => find (fun n => keqb (fst n) k) l
  | GE => hd_error (drop_while (fun n => kltb (fst n) k) l)
  | G => hd_error (drop_while (fun n => keqb k (fst n)) (drop_while (fun n => kltb (fst n) k) l))
  | SE => hd_error (drop_while (fun n => kltb k (fst n)) (rev l))
  | S_ => hd_error (drop_while (fun n => keqb k (fst n)) (drop_while (fun n => kltb k (fst n)) (rev l)))
  end.

(** src/memtable.cc:618-685, getRecordByKeyInternal. *)
Definition mt_search (opt : sopt) (chk : N) (k : key) (allow_flushed allow_tombstone : bool) (m : mt)
  : res rec :=
  match seek_node opt k (m_key m) with
  | None => Fail KEY_NOT_FOUND
  | Some n =>
      match latest_rec NIL chk (snd n) with
      | None => Fail KEY_NOT_FOUND
      | Some r =>
          if valid_number (m_flushed m) && (r_seq r <=? m_flushed m) && negb allow_flushed
          then Fail KEY_NOT_FOUND
          else if negb allow_tombstone && is_del r then Fail KEY_NOT_FOUND
          else Ok r
      end
  end.

(** src/memtable.cc:586-602, getRecordByKey; src/log_file.cc:363-374, LogFile::get. *)
Definition mt_get (chk : N) (k : key) (allow_flushed allow_tombstone : bool) (m : mt) : res rec :=
  match bl_check (hash k) (m_bf m) with
  | None => Undef
  | Some false => Fail KEY_NOT_FOUND
  | Some true => mt_search EQ chk k allow_flushed allow_tombstone m
  end.

(** src/memtable.cc:515-562 and 88-103, discardDirty and discardRecords. *)
Definition discard_recs (b : N) (rs : list rec) : list rec := filter (fun x => negb (b <=? r_seq x)) rs.
Definition mt_discard (b : N) (m : mt) : mt :=
  let gone := filter (fun x => b <=? r_seq x) (m_seq m) in
  let touched (k : key) := existsb (fun x => keqb (r_key x) k) gone in
  mkMt (m_start m) (m_min m) (m_flushed m) (m_synced m) (m_max m) (m_alloc m)
       (filter (fun x => negb (b <=? r_seq x)) (m_seq m))
       (map (fun n => if touched (fst n) then (fst n, discard_recs b (snd n)) else n) (m_key m))
       (m_chks m) (m_bf m).

(** src/memtable.cc:1485-1501, checkpoint: the sequence number is an out parameter that keeps
    its previous value [out0] when the table is empty. *)
Definition mt_checkpoint (out0 : N) (m : mt) : N * mt :=
  if negb (valid_number (m_max m)) then (out0, m)
  else if match rev (m_chks m) with c :: _ => c =? m_max m | [] => false end then (m_max m, m)
  else (m_max m, mkMt (m_start m) (m_min m) (m_flushed m) (m_synced m) (m_max m) (m_alloc m)
                      (m_seq m) (m_key m) (m_chks m ++ [m_max m]) (m_bf m)).

(** src/memtable.cc:1521-1537: drop the tail of the list with sequence numbers >= [ii]
    (the list is reversed here). *)
Fixpoint pop_dups (ii : N) (rl : list rec) : list rec :=
  match rl with [] => [] | x :: t => if ii <=? r_seq x then pop_dups ii t else rl end.

(** src/memtable.cc:1543-1554: walk the sequence index until a number above [upto]. *)
Fixpoint take_upto (upto : N) (l : list rec) : list rec :=
  match l with [] => [] | x :: t => if upto <? r_seq x then [] else x :: take_upto upto t end.

(** src/memtable.cc:1503-1559, getLogsToFlush; [acc] is list_out.  On error the list is left
    unchanged. *)
Definition mt_to_flush (upto : N) (ignore_sync : bool) (acc : list rec) (m : mt) : res (list rec) :=
  if negb ignore_sync && (m_synced m =? NIL) then Fail LOG_NOT_SYNCED
  else if negb (m_flushed m =? NIL) && (upto <=? m_flushed m) then Fail ALREADY_PURGED
  else
    let ii := if m_flushed m =? NIL then m_min m else (m_flushed m + 1) mod 2 ^ 64 in
    Ok (rev (pop_dups ii (rev acc))
        ++ take_upto upto (drop_while (fun x => r_seq x <? ii) (m_seq m))).

(** src/memtable.cc:1561-1575, getCheckpoints. *)
Definition mt_checkpoints (upto : N) (m : mt) : list N :=
  filter (fun c => negb (valid_number (m_flushed m) && (c <=? m_flushed m))
                   && ((c <=? upto) || negb (valid_number upto))) (m_chks m).

(** src/log_file.cc:627-647, setSyncedSeqNum (memtable loaded). *)
Definition lf_set_synced (s : N) (m : mt) : mt :=
  if negb (valid_number (m_max m)) then m
  else set_marks (m_flushed m) (if m_max m <? s then m_max m else s) m.

(** src/log_file.cc:649-669, setFlushedSeqNum (memtable loaded). *)
Definition lf_set_flushed (s : N) (m : mt) : mt :=
  if negb (valid_number (m_synced m)) then m
  else set_marks (if m_synced m <? s then m_synced m else s) (m_synced m) m.

(** src/memtable.cc:1581-1599, forceSeqnum. *)
Definition mt_force (to : N) (m : mt) : mt :=
  if valid_number (m_min m) && (to <? m_min m) then m
  else if negb (valid_number (m_flushed m)) || negb (valid_number (m_synced m))
          || (m_flushed m <? to) || (m_synced m <? to)
  then mkMt (m_start m) (if valid_number (m_min m) then m_min m else to) to to to to
            (m_seq m) (m_key m) (m_chks m) (m_bf m)
  else m.

(** src/memtable.cc:788-929 (the insertion at the end of loadRecord, 895-925) and 964-1094, load,
    on the decoded entries of the file (LogFormatModel.v models the decoding).  loadRecord adds to
    the sequence index and, unless the record is a command, to the key index, and touches neither
    seqNumAlloc nor minSeqNum. *)
Definition load_entry (e : entry) (st0 : res (mt * N)) : res (mt * N) :=
  match st0 with
  | Ok (m, last) =>
      match e with
      | ERec r =>
          let seq' := add_seq r (m_max m) (m_seq m) in
          let fin key' bf' :=
            Ok (mkMt (m_start m) (m_min m) (m_flushed m) (m_synced m) (m_max m) (m_alloc m)
                     seq' key' (m_chks m) bf', r_seq r) in
          if is_cmd r then fin (m_key m) (m_bf m)
          else match add_key r (m_key m) (m_bf m) with
               | Ok (key', bf') => fin key' bf'
               | Fail e => Fail e
               | Undef => Undef
               end
      | EFlush _ => Ok (m, last)
      | EChk c =>
          (* 943-962, loadCheckpoint *)
          if match rev (m_chks m) with c' :: _ => c' =? c | [] => false end then Ok (m, last)
          else Ok (mkMt (m_start m) (m_min m) (m_flushed m) (m_synced m) (m_max m) (m_alloc m)
                        (m_seq m) (m_key m) (m_chks m ++ [c]) (m_bf m), last)
      end
  | other => other
  end.

(** src/memtable.cc:964-1028, load: marks from the manifest, the entries, then the marks of the
    last record read. *)
Definition mt_load (nbits min_seq flushed synced : N) (es : list entry) : res mt :=
  let m0 := mkMt min_seq min_seq flushed NIL synced synced [] [] [] (bl_create nbits 3) in
  match fold_left (fun a e => load_entry e a) es (Ok (m0, NIL)) with
  | Ok (m, last) =>
      if last =? NIL then Ok m
      else Ok (mkMt (m_start m) (m_min m) (m_flushed m) last last last (m_seq m) (m_key m) (m_chks m) (m_bf m))
  | Fail e => Fail e
  | Undef => Undef
  end.

End Hash.
