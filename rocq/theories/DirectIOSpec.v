(** What the user of a direct I/O file relies on. *)
From Verif Require Import Base LogFormatModel FileModel DirectIOModel.
Local Open Scope nat_scope.

(** The buffer holds whole alignment units, and a unit has room for the padding mark. *)
Definition dcfg_ok (c : dcfg) : Prop :=
  8 <= dc_align c /\ 0 < dc_buf c /\ dc_buf c mod dc_align c = 0.

(** Executions on one handle, opened on a file that held [f0].  [L] is the logical byte stream:
    the bytes of [f0] and all those appended since, cut where the file was truncated.  [n] is
    its length at the last explicit flush (or opening, or truncation).
    With [gap], a flush is asked for only when the stream grew by no byte or by at least 8 since
    the last one; with [trunc], the file may be truncated. *)
Inductive dreach (c : dcfg) (gap trunc : bool) (f0 : list N) : list N -> nat -> dio -> Prop :=
| dr_open : forall h, d_open c f0 = DOk h -> dreach c gap trunc f0 f0 (length f0) h
| dr_append : forall L n h ok data h', dreach c gap trunc f0 L n h ->
    d_append c (S (length data)) ok 0 data h = DOk h' -> dreach c gap trunc f0 (L ++ data) n h'
| dr_append_err : forall L n h ok p q h', dreach c gap trunc f0 L n h ->
    d_append c (S (length (p ++ q))) ok 0 (p ++ q) h = DErr h' ->
    length L + length p = di_fpos h' + di_bpos h' -> dreach c gap trunc f0 (L ++ p) n h'
| dr_flush : forall L n h h', dreach c gap trunc f0 L n h ->
    (gap = true -> length L = n \/ n + 8 <= length L) ->
    d_flush c true h = DOk h' -> dreach c gap trunc f0 L (length L) h'
| dr_flush_err : forall L n h ok h', dreach c gap trunc f0 L n h ->
    d_flush c ok h = DErr h' -> dreach c gap trunc f0 L n h'
| dr_fsync : forall L n h ok h', dreach c gap trunc f0 L n h ->
    d_fsync ok h = DOk h' \/ d_fsync ok h = DErr h' -> dreach c gap trunc f0 L n h'
| dr_trunc : forall L n h len h', dreach c gap trunc f0 L n h -> trunc = true ->
    len < length (di_file h) -> d_trunc c len h = DOk h' ->
    dreach c gap trunc f0 (firstn len (di_file h)) len h'
| dr_trunc_big : forall L n h len h', dreach c gap trunc f0 L n h -> length (di_file h) <= len ->
    d_trunc c len h = DOk h' -> dreach c gap trunc f0 L n h'.

(** Padding that a reader of the log recognises: the mark, then zero bytes. *)
Definition padding (p : list N) : Prop := p = [] \/ exists k, p = u64 PADDING_HEADER_FLAG ++ repeat 0%N k.

(** A log file kept with direct I/O (log_file.cc:129-178, 404-530): created empty, its header
    written and flushed, then complete entries appended in any pieces, and flushed.  [es]: the
    entries of the last successful flush; [pend]: the bytes appended since. *)
Inductive dlog (c : dcfg) (comp : rec -> option (list N)) : list entry -> list N -> dio -> Prop :=
| dl_create : forall h h1 h2 ok, d_open c [] = DOk h ->
    d_append c (S (length log_header)) ok 0 log_header h = DOk h1 -> d_flush c true h1 = DOk h2 ->
    dlog c comp [] [] h2
| dl_append : forall es pend h ok data h', dlog c comp es pend h ->
    d_append c (S (length data)) ok 0 data h = DOk h' -> dlog c comp es (pend ++ data) h'
| dl_flush : forall es new h h', dlog c comp es (enc_entries comp new) h ->
    d_flush c true h = DOk h' -> dlog c comp (es ++ new) [] h'
| dl_fsync : forall es pend h ok h', dlog c comp es pend h ->
    d_fsync ok h = DOk h' -> dlog c comp es pend h'.
