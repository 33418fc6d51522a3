(** Direct I/O (src/fileops_directio.cc).

    Positions are unbounded (eof returns an int: files of 2 GiB and more are not modelled), and a
    file holds what was written to it in order (one thread per handle). *)
From Verif Require Import Base LogFormatModel FileModel.
Local Open Scope nat_scope.

(** bufferSize and alignSize (fileops_directio.h:30-32, db_config.h:430-459). *)
Record dcfg := mkDC { dc_buf : nat; dc_align : nat }.

(** FileHandleDirectIO (fileops_directio.cc:31-72).  [di_file]: what read returns;
    [di_dur]: what the last fsync made durable. *)
Record dio := mkDio { di_file : list N; di_dur : list N; di_fpos : nat; di_flushed : nat; di_fsynced : nat; di_buf : list N; di_bpos : nat }.

(** [DUb]: memory access outside of a buffer. *)
Inductive dres := DOk (h : dio) | DErr (h : dio) | DUb.

(** memcpy into a buffer. *)
Definition mem_put (m : list N) (off : nat) (d : list N) : option (list N) :=
  if off + length d <=? length m then Some (firstn off m ++ d ++ skipn (off + length d) m) else None.

(** readInternal (fileops_directio.cc:113-160): the size is rounded up, the number of bytes
    that the system returns must be the one asked for.  Retries are not modelled (the file does
    not change meanwhile). *)
Inductive rres := ROk (m : list N) | RErr | RUb.
Definition roundup (a n : nat) : nat := if n mod a =? 0 then n else n + (a - n mod a).
Definition read_internal (c : dcfg) (f m : list N) (nbyte off : nat) : rres :=
  let got := firstn (roundup (dc_align c) nbyte) (skipn off f) in
  match mem_put m 0 got with
  | None => RUb
  | Some m' => if length got =? nbyte then ROk m' else RErr
  end.

(** allocAlignedBuf (fileops_directio.cc:96-111). *)
Definition new_buf (c : dcfg) : list N := repeat 0%N (dc_buf c + dc_align c).

(** open (fileops_directio.cc:162-236); an existing file counts as synced. *)
Definition d_open (c : dcfg) (f : list N) : dres :=
  let size := length f in
  let need := size mod dc_align c in
  if need =? 0 then DOk (mkDio f f size size size (new_buf c) 0)
  else match read_internal c f (new_buf c) need (size - need) with
       | ROk b => DOk (mkDio f f (size - need) size size b need)
       | RErr => DErr (mkDio f f 0 0 0 (new_buf c) 0)
       | RUb => DUb
       end.

(** append (fileops_directio.cc:353-422).  [ok i]: the i-th write of this call succeeds (a failed
    write is taken to leave the file as it was) (if need
    be after retries).  [fuel]: bound for the loop. *)
Fixpoint d_append (c : dcfg) (fuel : nat) (ok : nat -> bool) (i : nat) (data : list N) (h : dio) : dres :=
  match data with
  | [] => DOk h
  | _ =>
      match fuel with
      | O => DUb
      | S fuel' =>
          let slice := Nat.min (length data) (dc_buf c - di_bpos h) in
          match mem_put (di_buf h) (di_bpos h) (firstn slice data) with
          | None => DUb
          | Some b =>
              let p := di_bpos h + slice in
              if dc_buf c <=? p then
                if ok i
                then let f := pwrite (di_file h) (di_fpos h) (firstn (dc_buf c) b) in
                     let fp := di_fpos h + dc_buf c in
                     d_append c fuel' ok (S i) (skipn slice data) (mkDio f (di_dur h) fp (Nat.max (di_flushed h) fp) (di_fsynced h) b 0)
                else DErr (mkDio (di_file h) (di_dur h) (di_fpos h) (di_flushed h) (di_fsynced h) b p)
              else d_append c fuel' ok i (skipn slice data) (mkDio (di_file h) (di_dur h) (di_fpos h) (di_flushed h) (di_fsynced h) b p)
          end
      end
  end.

(** flush (fileops_directio.cc:438-507).  (The assertion of line 467 is not compiled in.) *)
Definition d_flush (c : dcfg) (ok : bool) (h : dio) : dres :=
  if di_bpos h =? 0 then DOk h
  else if di_fpos h + di_bpos h <=? di_flushed h then DOk h
  else
    let need := di_bpos h mod dc_align c in
    let padding := if need =? 0 then 0
                   else if dc_align c - need <? 8 then dc_align c - need + dc_align c else dc_align c - need in
    let padded := if need =? 0 then Some (di_buf h)
                  else match mem_put (di_buf h) (di_bpos h) (repeat 0%N padding) with
                       | Some b => mem_put b (di_bpos h) (u64 PADDING_HEADER_FLAG)
                       | None => None
                       end in
    match padded with
    | None => DUb
    | Some b =>
        let aligned := di_bpos h + padding in
        if aligned <=? length b then
          if ok then DOk (mkDio (pwrite (di_file h) (di_fpos h) (firstn aligned b)) (di_dur h) (di_fpos h) (di_fpos h + di_bpos h) (di_fsynced h) b (di_bpos h))
          else DErr (mkDio (di_file h) (di_dur h) (di_fpos h) (di_flushed h) (di_fsynced h) b (di_bpos h))
        else DUb
    end.

(** fsync (fileops_directio.cc:509-528). *)
Definition d_fsync (ok : bool) (h : dio) : dres :=
  if di_flushed h <=? di_fsynced h then DOk h
  else if ok then DOk (mkDio (di_file h) (di_file h) (di_fpos h) (di_flushed h) (di_flushed h) (di_buf h) (di_bpos h))
  else DErr h.

(** ftruncate (fileops_directio.cc:530-598). *)
Definition d_trunc (c : dcfg) (len : nat) (h : dio) : dres :=
  if length (di_file h) <=? len then DOk h
  else
    let f := firstn len (di_file h) in
    let need := len mod dc_align c in
    if need =? 0 then DOk (mkDio f (di_dur h) len len (di_fsynced h) (di_buf h) 0)
    else match read_internal c f (di_buf h) need (roundup (dc_align c) len - dc_align c) with
         | ROk b => DOk (mkDio f (di_dur h) (roundup (dc_align c) len - dc_align c) len (di_fsynced h) b need)
         | RErr => DErr (mkDio f (di_dur h) (di_fpos h) (di_flushed h) (di_fsynced h) (di_buf h) (di_bpos h))
         | RUb => DUb
         end.

(** pread (fileops_directio.cc:272-343).  [tb]: the aligned buffer, which belongs to the thread
    and not to the object; [ub]: the caller's buffer. *)
Inductive pres := POk (ub : list N) | PErr | PUb.
Fixpoint pread_loop (c : dcfg) (fuel : nat) (f tb ub : list N) (off count pos : nat) : pres :=
  if off + count <=? pos then POk ub
  else
    match fuel with
    | O => PUb
    | S fuel' =>
        let slice := Nat.min (off + count - pos) (dc_buf c) in
        let aligned := roundup (dc_align c) slice in
        let aligned := if length f <? pos + aligned then length f - pos else aligned in
        match read_internal c f tb aligned pos with
        | RUb => PUb
        | RErr => PErr
        | ROk tb' =>
            let n := Nat.min (off + count) (pos + aligned) - Nat.max off pos in
            if (off - pos) + n <=? length tb' then
              match mem_put ub (pos - off) (firstn n (skipn (off - pos) tb')) with
              | Some ub' => pread_loop c fuel' f tb' ub' off count (pos + aligned)
              | None => PUb
              end
            else PUb
        end
    end.
Definition d_pread (c : dcfg) (h : dio) (tb ub : list N) (off count : nat) : pres :=
  if count =? 0 then POk ub
  else if length (di_file h) <? off + count then PErr
  else pread_loop c (S (off + count)) (di_file h) tb ub off count (off - off mod dc_align c).
