(** Model of the writing side of one log file: the page buffer of [MemTable::flush], the
    checkpoint markers, and the append-only file. *)
From Verif Require Import Base Crc32Model LogFormatModel.
Local Open Scope N_scope.

Section Writer.
Variable comp : rec -> option (list N).
(** GlobalConfig::memTableFlushBufferSize, src/memtable.cc:1273-1274. *)
Variable PAGE_LIMIT : N.

(** src/memtable.cc:1267-1271. *)
Definition REC_META_LEN : N := 40.

(** What is in the file and what is still in [tmp_buf]. *)
Record wbuf := mkW { w_file : list N; w_buf : list N }.

(** [ss_tmp_buf.put*] on the fixed buffer of 2*PAGE_LIMIT bytes
    (src/memtable.cc:1288-1291; src/internal_helper.cc:70-84: the write itself is not
    bounds-checked).  [None] is an out-of-bounds write (undefined behaviour). *)
Definition buf_put (w : wbuf) (x : list N) : option wbuf :=
  if 2 * PAGE_LIMIT <? blen (w_buf w) + blen x then None
  else Some (mkW (w_file w) (w_buf w ++ x)).

(** [rws.put(tmp_buf.data, ss_tmp_buf.pos()); ss_tmp_buf.pos(0)]. *)
Definition buf_spill (w : wbuf) : wbuf := mkW (w_file w ++ w_buf w) [].

(** [rws.put] straight to the file. *)
Definition file_put (w : wbuf) (x : list N) : wbuf := mkW (w_file w ++ x) (w_buf w).

(** src/memtable.cc:1419-1427: one marker per checkpoint equal to the record's number. *)
Fixpoint put_chks (w : wbuf) (chks : list N) (seq : N) : option wbuf :=
  match chks with
  | [] => Some w
  | c :: chks' =>
      if c =? seq then
        match buf_put w (enc_chk c) with
        | None => None
        | Some w' => put_chks w' chks' seq
        end
      else put_chks w chks' seq
  end.

(** Body of the loop, src/memtable.cc:1316-1427.  [data_len] uses the size of the original
    value, not of the compressed one (line 1391). *)
Definition write_rec (chks : list N) (w : wbuf) (r : rec) : option wbuf :=
  let w0 := if PAGE_LIMIT <? blen (w_buf w) + REC_META_LEN then buf_spill w else w in
  match buf_put w0 (enc_header comp r) with
  | None => None
  | Some w1 =>
    let data_len := blen (r_key r) + blen (r_val r) + blen (r_meta r) in
    let wd :=
      if PAGE_LIMIT <=? data_len then Some (file_put (buf_spill w1) (enc_data comp r))
      else
        let w2 := if PAGE_LIMIT <? blen (w_buf w1) + data_len then buf_spill w1 else w1 in
        buf_put w2 (enc_data comp r) in
    match wd with
    | None => None
    | Some w3 => put_chks w3 chks (r_seq r)
    end
  end.

Fixpoint write_recs (chks : list N) (w : wbuf) (rs : list rec) : option wbuf :=
  match rs with
  | [] => Some w
  | r :: rs' => match write_rec chks w r with None => None | Some w' => write_recs chks w' rs' end
  end.

(** State of one log file: bytes on the file, records of the by-sequence index in
    ascending order, max / synced sequence numbers ([NIL] when unset), checkpoint list,
    checkpointsDirty.  The key index is modelled in MemTableModel.v. *)
Record lfile := mkLF {
  lf_bytes : list N;
  lf_recs : list rec;
  lf_max : N;
  lf_synced : N;
  lf_chks : list N;
  lf_dirty : bool }.

(** src/log_file.cc:129-178, create. *)
Definition lf_create : lfile := mkLF log_header [] NIL NIL [] false.

(** src/memtable.cc:468-513 putNewRecord, the part that concerns the by-sequence index,
    for a sequence number larger than every previous one (which is what assignSeqNum
    gives unless allowOverwriteSeqNum is set). *)
Definition lf_append (f : lfile) (r : rec) : lfile :=
  mkLF (lf_bytes f) (lf_recs f ++ [r]) (r_seq r) (lf_synced f) (lf_chks f) (lf_dirty f).

(** src/memtable.cc:1485-1501, MemTable::checkpoint. *)
Definition lf_mark (f : lfile) : lfile :=
  if negb (valid_number (lf_max f)) then f
  else match lf_chks f with
       | _ :: _ => if last (lf_chks f) 0 =? lf_max f then f
             else mkLF (lf_bytes f) (lf_recs f) (lf_max f) (lf_synced f) (lf_chks f ++ [lf_max f]) true
       | [] => mkLF (lf_bytes f) (lf_recs f) (lf_max f) (lf_synced f) [lf_max f] true
       end.

(** src/memtable.cc:1429-1439: the marker of a checkpoint without any new record goes
    straight to the file. *)
Definition cold_chk (f : lfile) : bool :=
  match lf_chks f with
  | [] => false
  | _ :: _ => lf_dirty f && valid_number (lf_synced f) && (last (lf_chks f) 0 =? lf_synced f)
  end.

(** Upper end of the flush, src/memtable.cc:1243-1250. *)
Definition flush_upto (f : lfile) (upto : N) : N :=
  if valid_number upto && (upto <? lf_max f) then upto else lf_max f.

(** Records that this flush writes: src/memtable.cc:1252-1263 (cursor at the first number
    above the synced one, or the first record) and 1301-1302 (until seqnum_upto). *)
Definition pending (f : lfile) (upto : N) : list rec :=
  filter (fun r => (negb (valid_number (lf_synced f)) || (lf_synced f <? r_seq r))
                   && (r_seq r <=? flush_upto f upto)) (lf_recs f).

(** src/memtable.cc:1236-1460 flush, then src/log_file.cc:510-514 appendFlushMarker, then
    LogFile::setSyncedSeqNum (src/log_mgr.cc:1270, src/log_file.cc:627-647).  File errors
    are not modelled here; the integrity check of a reopened file is in LogReopenModel.v. *)
Definition lf_sync (f : lfile) (upto : N) : option lfile :=
  if negb (valid_number (lf_max f)) then
    (* no record: nothing flushed, but the flush marker is still appended *)
    Some (mkLF (lf_bytes f ++ enc_flush (lf_synced f)) (lf_recs f) (lf_max f) (lf_synced f)
               (lf_chks f) (lf_dirty f))
  else
    match write_recs (lf_chks f) (mkW (lf_bytes f) []) (pending f upto) with
    | None => None
    | Some w =>
        let w1 := if cold_chk f then file_put w (enc_chk (lf_synced f)) else w in
        let w2 := buf_spill w1 in
        Some (mkLF (w_file w2 ++ enc_flush (lf_synced f)) (lf_recs f) (lf_max f)
                   (flush_upto f upto) (lf_chks f) false)
    end.

(** Steps at the granularity at which threads interleave: writers append under the write
    lock; DB::checkpoint first marks (src/log_mgr.cc:1766) and later syncs (1770). *)
Inductive lop := LAppend (r : rec) | LMark | LSync.

Definition lstep (f : lfile) (o : lop) : option lfile :=
  match o with
  | LAppend r => Some (lf_append f r)
  | LMark => Some (lf_mark f)
  | LSync => lf_sync f NIL
  end.

Fixpoint lrun (f : lfile) (os : list lop) : option lfile :=
  match os with
  | [] => Some f
  | o :: os' => match lstep f o with None => None | Some f' => lrun f' os' end
  end.

(** API calls made one after the other: DB::checkpoint = mark then sync
    (src/log_mgr.cc:1755-1776). *)
Inductive apiop := ASet (r : rec) | ASync | ACheckpoint.
Definition lops_of (a : apiop) : list lop :=
  match a with ASet r => [LAppend r] | ASync => [LSync] | ACheckpoint => [LMark; LSync] end.
Definition api_run (f : lfile) (l : list apiop) : option lfile := lrun f (flat_map lops_of l).

End Writer.
