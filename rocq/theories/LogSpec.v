(** What a user of one log file relies on, independent of the byte format: which records
    and checkpoints must survive. *)
From Verif Require Import Base Crc32Model LogFormatModel LogWriterModel.
Local Open Scope N_scope.

(** What a stored record satisfies in the C++ code: sizes are uint32_t, the sequence
    number is uint64_t, contents are bytes, the type is one of the three enum values. *)
Definition wf_rec (r : rec) : Prop :=
  r_seq r < 2 ^ 64 /\ (r_type r = INS \/ r_type r = DEL \/ r_type r = CMD) /\
  is_bytes (r_key r) /\ is_bytes (r_meta r) /\ is_bytes (r_val r) /\
  blen (r_key r) < 2 ^ 32 /\ blen (r_meta r) < 2 ^ 32 /\ blen (r_val r) < 2 ^ 32.

(** Contract of the user's compression callbacks on record [r]: what decompression does
    to the compressor's output gives the value back. *)
Definition comp_ok (comp : rec -> option (list N)) (decomp : option (list N -> list N)) (r : rec) : Prop :=
  forall c, compressed comp r = Some c ->
    is_bytes c /\ blen c < 2 ^ 32 /\ exists d, decomp = Some d /\ d c = r_val r.

(** The compressed image is at most a page (minus one marker) longer than the value. *)
Definition comp_fits (comp : rec -> option (list N)) (page : N) (r : rec) : Prop :=
  blen (value_ref comp r) + 16 <= blen (r_val r) + page.

Definition wf_entry (comp : rec -> option (list N)) (decomp : option (list N -> list N)) (e : entry) : Prop :=
  match e with
  | ERec r => wf_rec r /\ comp_ok comp decomp r
  | EFlush s => s < 2 ^ 64
  | EChk s => s < 2 ^ 64
  end.

(** A record that can be set: well formed, an assigned (valid) sequence number, and the
    callbacks' contract. *)
Definition rec_ok (comp : rec -> option (list N)) (decomp : option (list N -> list N)) (page : N) (r : rec) : Prop :=
  wf_rec r /\ r_seq r < NIL /\ comp_ok comp decomp r /\ comp_fits comp page r.

Definition seq_lt (a b : rec) : Prop := r_seq a < r_seq b.

(** A complete log file holding the entries [es]. *)
Definition log_file_bytes (comp : rec -> option (list N)) (es : list entry) : list N :=
  log_header ++ enc_entries comp es.

(** The parts of a record on disk. *)
Definition f_flags (comp : rec -> option (list N)) (r : rec) : list N := u64 (stored_flags comp r).
Definition f_lencrc (comp : rec -> option (list N)) (r : rec) : list N := u32 (crc32_8 (len_meta comp r) 0).
Definition f_lens (comp : rec -> option (list N)) (r : rec) : list N := len_meta comp r.
Definition f_bodycrc (comp : rec -> option (list N)) (r : rec) : list N := u32 (crc_body (r_key r) (r_meta r) (value_ref comp r)).
Definition f_body (comp : rec -> option (list N)) (r : rec) : list N := enc_data comp r.

(** The records / checkpoint numbers among the entries read back. *)
Definition recs_of (es : list entry) : list rec :=
  flat_map (fun e => match e with ERec r => [r] | _ => [] end) es.
Definition chks_of (es : list entry) : list N :=
  flat_map (fun e => match e with EChk c => [c] | _ => [] end) es.

(** The entries that a flush of the records [rs] with checkpoints [chks] is meant to
    append. *)
Definition entries_for (chks : list N) (rs : list rec) : list entry :=
  flat_map (fun r => ERec r :: map EChk (filter (fun c => c =? r_seq r) chks)) rs.

(** Records in the order they were set. *)
Definition sets_of (ops : list apiop) : list rec :=
  flat_map (fun o => match o with ASet r => [r] | _ => [] end) ops.

(** Everything set so far; the part acknowledged by a sync or checkpoint; the checkpoint
    numbers, a checkpoint naming the last record set. *)
Record dstate := mkD { d_all : list rec; d_dur : list rec; d_chk : list N }.

Definition dinit : dstate := mkD [] [] [].

Definition dstep (s : dstate) (o : apiop) : dstate :=
  match o with
  | ASet r => mkD (d_all s ++ [r]) (d_dur s) (d_chk s)
  | ASync => mkD (d_all s) (d_all s) (d_chk s)
  | ACheckpoint =>
      let chk :=
        match rev (d_all s) with
        | [] => d_chk s
        | r :: _ =>
            match rev (d_chk s) with
            | c :: _ => if c =? r_seq r then d_chk s else d_chk s ++ [r_seq r]
            | [] => [r_seq r]
            end
        end in
      mkD (d_all s) (d_all s) chk
  end.

Definition drun (ops : list apiop) : dstate := fold_left dstep ops dinit.
