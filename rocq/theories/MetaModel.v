(** Record metadata stored in tables: TableFile::userMetaToRawMeta / rawMetaToUserMeta. *)
From Verif Require Import Base FileModel LogFormatModel.
Local Open Scope N_scope.

(** src/table_file.h:358-365, TableFile::InternalMeta and its default constructor. *)
Record imeta := { im_tombstone : bool; im_compressed : bool; im_origlen : N }.
Definition imeta0 : imeta := {| im_tombstone := false; im_compressed := false; im_origlen := 0 |}.

(** src/table_file.h:322-324, TF_FLAG_TOMBSTONE and TF_FLAG_COMPRESSED. *)
Definition TF_TOMBSTONE : N := 1.
Definition TF_COMPRESSED : N := 2.

(** src/table_file.cc:790-795, getInternalMetaLen. *)
Definition imeta_len (m : imeta) : nat := (1 + 4 + 4 + (if im_compressed m then 4 else 0))%nat.

(** src/table_file.cc:686-688: the flag word. *)
Definition tf_flags (m : imeta) : N :=
  N.lor (if im_tombstone m then TF_TOMBSTONE else 0) (if im_compressed m then TF_COMPRESSED else 0).

(** src/table_file.cc:663-698, userMetaToRawMeta.  In all callers (table_file.cc:869-884,
    jungle_builder.cc:230) the output buffer is either empty, so that it is allocated here, or a
    local buffer of exactly user_meta.size + I_META_SIZE bytes; the writes fill it. *)
Definition user_to_raw (user : list N) (m : imeta) : list N :=
  [1] ++ u32 0 ++ u32 (tf_flags m)
  ++ (if im_compressed m then u32 (im_origlen m) else []) ++ user.

(** src/table_file.cc:700-738, rawMetaToUserMeta.  [im] and [user] are the caller's output
    variables; the third component is the sticky status of the serializer afterwards.
    [None] as user metadata: the buffer was allocated but not filled. *)
Definition raw_to_user (raw : list N) (im : imeta) (user : list N) (bad : bool)
  : imeta * option (list N) * bool :=
  match raw with
  | [] => (im, Some user, bad)
  | _ =>
    let s0 := {| ms_buf := raw; ms_pos := 0; ms_bad := bad |} in
    let (ident, s1) := ms_getU 1 s0 in
    if negb (ident =? 1) then (im, Some raw, ms_bad s1)
    else
      let (_, s2) := ms_getU 4 s1 in
      let (fl, s3) := ms_getU 4 s2 in
      let im1 := {| im_tombstone := if negb (N.land fl TF_TOMBSTONE =? 0) then true else im_tombstone im;
                    im_compressed := if negb (N.land fl TF_COMPRESSED =? 0) then true else im_compressed im;
                    im_origlen := im_origlen im |} in
      let (im2, s4) :=
        if im_compressed im1
        then let (n, s) := ms_getU 4 s3 in
             ({| im_tombstone := im_tombstone im1; im_compressed := true; im_origlen := n |}, s)
        else (im1, s3) in
      if (length raw <=? ms_pos s4)%nat then (im2, Some user, ms_bad s4)
      else let (d, s5) := ms_get (length raw - ms_pos s4) s4 in (im2, d, ms_bad s5)
  end.

(** src/table_file.cc:740-767, readInternalMeta. *)
Definition read_imeta (raw : list N) (im : imeta) (bad : bool) : imeta * bool :=
  match raw with
  | [] => (im, bad)
  | _ =>
    let s0 := {| ms_buf := raw; ms_pos := 0; ms_bad := bad |} in
    let (ident, s1) := ms_getU 1 s0 in
    if negb (ident =? 1) then (im, ms_bad s1)
    else
      let (_, s2) := ms_getU 4 s1 in
      let (fl, s3) := ms_getU 4 s2 in
      let im1 := {| im_tombstone := if negb (N.land fl TF_TOMBSTONE =? 0) then true else im_tombstone im;
                    im_compressed := if negb (N.land fl TF_COMPRESSED =? 0) then true else im_compressed im;
                    im_origlen := im_origlen im |} in
      if im_compressed im1
      then let (n, s) := ms_getU 4 s3 in
           ({| im_tombstone := im_tombstone im1; im_compressed := true; im_origlen := n |}, ms_bad s)
      else (im1, ms_bad s3)
  end.

(** src/table_file.cc:769-783, tfExtractFlags, tfIsTombstone, tfIsCompressed. *)
Definition tf_extract_flags (raw : list N) (bad : bool) : N * bool :=
  let (_, s1) := ms_getU 1 {| ms_buf := raw; ms_pos := 0; ms_bad := bad |} in
  let (_, s2) := ms_getU 4 s1 in
  let (fl, s3) := ms_getU 4 s2 in (fl, ms_bad s3).
Definition tf_is_tombstone (fl : N) : bool := negb (N.land fl TF_TOMBSTONE =? 0).
Definition tf_is_compressed (fl : N) : bool := negb (N.land fl TF_COMPRESSED =? 0).

(** A ForestDB document as handed to / returned by fdb_set and fdb_get: key, metadata, body,
    sequence number.  ForestDB itself is trusted to return what was stored. *)
Record doc := mkDoc { d_key : list N; d_meta : list N; d_body : list N; d_seq : N }.

Section Callbacks.
(** Compression callbacks of DBConfig (cbGetMaxSize/cbCompress give [Some c] when the
    compressed size is positive; cbDecompress gets the body and an output buffer of the
    original length and returns the bytes it produced, [None] for a negative result). *)
Variable comp : rec -> option (list N).
Variable decomp : option (list N -> N -> option (list N)).

(** src/table_file.cc:836-862: only insertions are compressed; a non-positive size cancels. *)
Definition tf_compressed (r : rec) : option (list N) :=
  if r_type r =? DEL then None
  else match comp r with Some [] => None | x => x end.

(** src/table_file.cc:797-897, setSingle with set_as_it_is = false: the document that is
    written.  The original length is a uint32_t. *)
Definition tf_set_doc (r : rec) : doc :=
  let c := tf_compressed r in
  let im := {| im_tombstone := r_type r =? DEL;
               im_compressed := match c with Some _ => true | None => false end;
               im_origlen := match c with Some _ => blen (r_val r) | None => 0 end |} in
  {| d_key := r_key r; d_meta := user_to_raw (r_meta r) im;
     d_body := match c with Some b => b | None => r_val r end; d_seq := r_seq r |}.

(** src/table_file.cc:1492-1526, decompressValue. *)
Definition decompress_value (body : list N) (im : imeta) : option (list N) :=
  if negb (im_compressed im) then Some body
  else match body with
       | [] => Some []
       | _ => match decomp with
              | None => None                                        (* INVALID_CONFIG *)
              | Some f => match f body (im_origlen im) with
                          | Some v => if blen v =? im_origlen im then Some v else None
                          | None => None                            (* DECOMPRESSION_FAILED *)
                          end
              end
       end.

(** src/table_file.cc:1168-1202, the decoding half of TableFile::get (the same code is in
    getNearest 1305-1330, getPrefix 1404-1440 and table_file_iterator.cc:191-215). *)
Definition tf_get_rec (d : doc) (deleted bad : bool) : option rec * bool :=
  let '(im, um, bad') := raw_to_user (d_meta d) imeta0 [] bad in
  match um, decompress_value (d_body d) im with
  | Some u, Some v =>
      (Some {| r_seq := d_seq d; r_type := if im_tombstone im || deleted then DEL else INS;
               r_key := d_key d; r_meta := u; r_val := v |}, bad')
  | _, _ => (None, bad')
  end.
End Callbacks.
