(** Files as byte lists, and the memory-mode serializer. *)
From Verif Require Import Base.
Local Open Scope N_scope.

(** src/fileops_posix.cc:111-136, pwrite: overwrite at an offset; writing past the end fills
    the hole with zero bytes (POSIX).  Offsets are unbounded (no EFBIG), writes never fail. *)
Definition pwrite (f : list N) (off : nat) (d : list N) : list N :=
  match d with
  | [] => f                                      (* count == 0: returns OK, nothing written *)
  | _ => firstn off f ++ repeat 0 (off - length f) ++ d ++ skipn (off + length d) f
  end.

(** src/fileops_posix.cc:83-109, pread: a short read is an error (FILE_READ_SIZE_MISMATCH). *)
Definition pread (f : list N) (off n : nat) : option (list N) :=
  if (off + n <=? length f)%nat then Some (firstn n (skipn off f)) else
  if (n =? 0)%nat then Some [] else None.

(** src/fileops_posix.cc:199-210, ftruncate. *)
Definition ftruncate (f : list N) (n : nat) : list N :=
  firstn n f ++ repeat 0 (n - length f).

(** src/internal_helper.h:45-115 and internal_helper.cc:37-267, RwSerializer in memory mode,
    reading.  [ms_bad] is the status variable the getter writes through: the getters called
    without an argument share one file-static variable (internal_helper.h:41, [lastRwStatus])
    that is never reset in memory mode, so [ms_bad] persists from one serializer to the next. *)
Record mser := { ms_buf : list N; ms_pos : nat; ms_bad : bool }.

(** getU64/getU32/getU16/getU8 (internal_helper.cc:193-257): out of range sets the status and
    returns 0; the position only moves if the status variable is OK afterwards. *)
Definition ms_getU (w : nat) (s : mser) : N * mser :=
  if (length (ms_buf s) <? ms_pos s + w)%nat
  then (0, {| ms_buf := ms_buf s; ms_pos := ms_pos s; ms_bad := true |})
  else (get_be (firstn w (skipn (ms_pos s) (ms_buf s))),
        {| ms_buf := ms_buf s;
           ms_pos := if ms_bad s then ms_pos s else (ms_pos s + w)%nat;
           ms_bad := ms_bad s |}).

(** get (internal_helper.cc:159-174): local status, so the sticky variable is untouched.  An
    out-of-range read leaves the destination as allocated ([None]). *)
Definition ms_get (n : nat) (s : mser) : option (list N) * mser :=
  if (length (ms_buf s) <? ms_pos s + n)%nat
  then (None, s)
  else (Some (firstn n (skipn (ms_pos s) (ms_buf s))),
        {| ms_buf := ms_buf s; ms_pos := (ms_pos s + n)%nat; ms_bad := ms_bad s |}).

(** RwSerializer in file mode (no append): a file and a position.  Reads past the end leave
    the position and return 0 (the status is passed out; callers modelled here ignore it). *)
Record fser := { fs_file : list N; fs_pos : nat }.

Definition fs_put (d : list N) (s : fser) : fser :=
  {| fs_file := pwrite (fs_file s) (fs_pos s) d; fs_pos := (fs_pos s + length d)%nat |}.

Definition fs_getU (w : nat) (s : fser) : N * fser :=
  match pread (fs_file s) (fs_pos s) w with
  | Some b => (get_be b, {| fs_file := fs_file s; fs_pos := (fs_pos s + w)%nat |})
  | None => (0, s)
  end.

Definition fs_get (n : nat) (s : fser) : option (list N) * fser :=
  match pread (fs_file s) (fs_pos s) n with
  | Some b => (Some b, {| fs_file := fs_file s; fs_pos := (fs_pos s + n)%nat |})
  | None => (None, s)
  end.
