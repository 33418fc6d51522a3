(** Byte-level model of the log file format: what [MemTable::flush] writes and what
    [MemTable::load] reads. *)
From Verif Require Import Base Crc32Model.
Local Open Scope N_scope.

(** include/libjungle/record.h, [Record]: sequence number, type, key, meta, value.
    The type is kept as the integer of the C++ enum (INSERTION 0, DELETION 1, COMMAND 2). *)
Record rec := mkRec { r_seq : N; r_type : N; r_key : list N; r_meta : list N; r_val : list N }.

Definition INS : N := 0.
Definition DEL : N := 1.
Definition CMD : N := 2.

(** src/memtable.cc:187-193. *)
Definition FLAG_COMPRESSED : N := 16.
(** src/memtable.cc:195-207. *)
Definition flush_marker_flags : N := N.shiftl 1 56.
Definition checkpoint_flags : N := N.shiftl 2 56.
(** src/internal_helper.h, PADDING_HEADER_FLAG. *)
Definition PADDING_HEADER_FLAG : N := N.shiftl 254 56.

(** src/memtable.cc:164-181, record_flags. *)
Definition record_flags (r : rec) : N :=
  if r_type r =? INS then 0 else if r_type r =? DEL then 1 else if r_type r =? CMD then 2 else 0.

(** src/memtable.cc:183-185: static_cast<Record::Type>(flags & 0x0f). *)
Definition type_of_flags (flags : N) : N := N.land flags 15.

(** src/memtable.cc:191-193. *)
Definition flags_compressed (flags : N) : bool := negb (N.land flags FLAG_COMPRESSED =? 0).

Inductive flag_type := FT_RECORD | FT_FLUSH_MARKER | FT_CHECKPOINT | FT_PADDING | FT_UNKNOWN.

(** src/memtable.cc:222-231, identify_type. *)
Definition identify_type (flags : N) : flag_type :=
  if flags =? PADDING_HEADER_FLAG then FT_PADDING
  else let f := N.shiftr flags 56 in
    if f =? 0 then FT_RECORD
    else if f =? 1 then FT_FLUSH_MARKER
    else if f =? 2 then FT_CHECKPOINT
    else if f =? 254 then FT_PADDING
    else FT_UNKNOWN.

(** src/memtable.cc:778-786, getLengthMetaSize. *)
Definition len_meta_size (flags : N) : N := if flags_compressed flags then 24 else 20.

(** Entries of a log file body. *)
Inductive entry :=
| ERec (r : rec)
| EFlush (seq : N)
| EChk (seq : N).

(** Status codes that loading can return. *)
Inductive lstatus :=
| L_OK | L_INCOMPLETE | L_CHECKSUM | L_UNKNOWN_FLAG | L_DECOMP_FAILED | L_INVALID_CONFIG
| L_FILE_NOT_EXIST | L_FUEL.

Section Compression.

(** The user's compression callbacks (DBConfig::compOpt).  [comp r] is the outcome of
    cbGetMaxSize + cbCompress on record [r] (src/memtable.cc:1327-1350): [None] when the
    record is stored uncompressed, [Some c] when compression succeeded with output [c]
    (comp_size = length c > 0).  [decomp c] is the output of cbDecompress, [None] when
    cbDecompress is not configured. *)
Variable comp : rec -> option (list N).
Variable decomp : option (list N -> list N).

(** src/memtable.cc:1327: only insertions are compressed; comp_size must be > 0. *)
Definition compressed (r : rec) : option (list N) :=
  if r_type r =? INS then
    match comp r with
    | Some [] => None
    | o => o
    end
  else None.

(** src/memtable.cc:1377-1383, the value bytes that are written. *)
Definition value_ref (r : rec) : list N :=
  match compressed r with Some c => c | None => r_val r end.

(** src/memtable.cc:1326,1340-1342, flags of the stored record. *)
Definition stored_flags (r : rec) : N :=
  match compressed r with
  | Some _ => N.lor (record_flags r) FLAG_COMPRESSED
  | None => record_flags r
  end.

(** src/memtable.cc:1356-1364, seq number and lengths. *)
Definition len_meta (r : rec) : list N :=
  u64 (r_seq r) ++ u32 (blen (r_key r)) ++ u32 (blen (r_meta r)) ++
  (match compressed r with Some c => u32 (blen c) | None => [] end) ++
  u32 (blen (r_val r)).

(** src/memtable.cc:1385-1388, CRC over key, meta, value (chained). *)
Definition crc_body (k m v : list N) : N := crc32_8 v (crc32_8 m (crc32_8 k 0)).

(** The header part of a record that goes through the page buffer:
    src/memtable.cc:1353-1389. *)
Definition enc_header (r : rec) : list N :=
  u64 (stored_flags r) ++
  u32 (crc32_8 (len_meta r) 0) ++ len_meta r ++
  u32 (crc_body (r_key r) (r_meta r) (value_ref r)).

(** The data part: src/memtable.cc:1398-1400, 1413-1415. *)
Definition enc_data (r : rec) : list N := r_key r ++ r_meta r ++ value_ref r.

Definition enc_rec (r : rec) : list N := enc_header r ++ enc_data r.

(** src/memtable.cc:1462-1471 appendFlushMarker, 1473-1483 appendCheckpointMarker. *)
Definition enc_flush (seq : N) : list N := u64 flush_marker_flags ++ u64 seq.
Definition enc_chk (seq : N) : list N := u64 checkpoint_flags ++ u64 seq.

Definition enc_entry (e : entry) : list N :=
  match e with ERec r => enc_rec r | EFlush s => enc_flush s | EChk s => enc_chk s end.

Definition enc_entries (es : list entry) : list N := flat_map enc_entry es.

(** *** Reading.  The serializer position is represented by the remaining bytes;
    [available n] (src/internal_helper.cc:259-267) is [n <= length remaining]. *)

Inductive rec_result := RFail (s : lstatus) | ROk (r : rec) (rest : list N).

Definition available (n : N) (l : list N) : bool := n <=? blen l.

(** src/memtable.cc:788-929, loadRecord.  The insertion of the record into the two
    indexes (lines 902-921) is modelled in MemTableModel.v. *)
Definition load_record (flags : N) (l : list N) : rec_result :=
  let ms := len_meta_size flags in
  if negb (available (4 + ms + 4) l) then RFail L_INCOMPLETE else
  let crc_len := get_be (firstn 4 l) in
  let l1 := skipn 4 l in
  let len_buf := firstn (N.to_nat ms) l1 in
  let l2 := skipn (N.to_nat ms) l1 in
  if negb (crc_len =? crc32_8 len_buf 0) then RFail L_CHECKSUM else
  let seq := get_be (firstn 8 len_buf) in
  let ksz := get_be (firstn 4 (skipn 8 len_buf)) in
  let msz := get_be (firstn 4 (skipn 12 len_buf)) in
  let vsz := get_be (firstn 4 (skipn 16 len_buf)) in
  let osz := if flags_compressed flags then get_be (firstn 4 (skipn 20 len_buf)) else vsz in
  let crc_data := get_be (firstn 4 l2) in
  let l3 := skipn 4 l2 in
  (* key *)
  if negb (available ksz l3) then RFail L_INCOMPLETE else
  let key := firstn (N.to_nat ksz) l3 in let l4 := skipn (N.to_nat ksz) l3 in
  let c1 := crc32_8 key 0 in
  (* meta *)
  if negb (available msz l4) then RFail L_INCOMPLETE else
  let meta := firstn (N.to_nat msz) l4 in let l5 := skipn (N.to_nat msz) l4 in
  let c2 := crc32_8 meta c1 in
  (* value *)
  if negb (available vsz l5) then RFail L_INCOMPLETE else
  let raw := firstn (N.to_nat vsz) l5 in let l6 := skipn (N.to_nat vsz) l5 in
  let c3 := crc32_8 raw c2 in
  let vres : lstatus + list N :=
    if vsz =? 0 then inr []
    else if flags_compressed flags then
      match decomp with
      | None => inl L_INVALID_CONFIG
      | Some d => let out := d raw in
          if blen out =? osz then inr out else inl L_DECOMP_FAILED
      end
    else inr raw in
  match vres with
  | inl s => RFail s
  | inr value =>
      if negb (crc_data =? c3) then RFail L_CHECKSUM
      else ROk (mkRec seq (type_of_flags flags) key meta value) l6
  end.

(** src/memtable.cc:964-1037, the loop of MemTable::load.  Fuel bounds the number of
    iterations; every iteration consumes at least 8 bytes, so [length l] is enough
    ([load_loop_fuel] in LogFormatProofs.v) and [L_FUEL] is never returned by
    [load_body]. *)
Fixpoint load_loop (fuel : nat) (l : list N) (acc : list entry) : list entry * lstatus :=
  match l with
  | [] => (rev acc, L_OK)
  | _ :: _ =>
    match fuel with
    | O => (rev acc, L_FUEL)
    | S fuel' =>
      if negb (available 8 l) then (rev acc, L_INCOMPLETE) else
      let flags := get_be (firstn 8 l) in
      let l1 := skipn 8 l in
      match identify_type flags with
      | FT_RECORD =>
          match load_record flags l1 with
          | RFail s => (rev acc, s)
          | ROk r rest => load_loop fuel' rest (ERec r :: acc)
          end
      | FT_FLUSH_MARKER =>
          if negb (available 8 l1) then (rev acc, L_INCOMPLETE)
          else load_loop fuel' (skipn 8 l1) (EFlush (get_be (firstn 8 l1)) :: acc)
      | FT_CHECKPOINT =>
          if negb (available 8 l1) then (rev acc, L_INCOMPLETE)
          else load_loop fuel' (skipn 8 l1) (EChk (get_be (firstn 8 l1)) :: acc)
      | FT_PADDING => (rev acc, L_OK)
      | FT_UNKNOWN => (rev acc, L_UNKNOWN_FLAG)
      end
    end
  end.

Definition load_body (l : list N) : list entry * lstatus := load_loop (length l) l [].

(** src/log_file.cc:27-31: footer and version that start every log file. *)
Definition LOGFILE_FOOTER : list N := [170; 187; 204; 221; 238; 255; 171; 204].
Definition LOGFILE_VERSION : N := 1.
(** src/log_file.cc:129-178, create: the header is appended when the file is created. *)
Definition log_header : list N := LOGFILE_FOOTER ++ u32 LOGFILE_VERSION.

(** src/log_file.cc:228-240, loadMemTable: get(8) then getU32, neither checked; a failing
    get leaves the position unchanged (internal_helper.cc:161-175, 211-225). *)
Definition skip_header (f : list N) : list N :=
  let f1 := if available 8 f then skipn 8 f else f in
  if available 4 f1 then skipn 4 f1 else f1.

(** src/log_file.cc:211-259, loadMemTable. *)
Definition load_file (f : list N) : list entry * lstatus :=
  match f with
  | [] => ([], L_FILE_NOT_EXIST)
  | _ => load_body (skip_header f)
  end.

End Compression.
