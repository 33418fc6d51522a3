(** The log manifest: encoding, incremental store with cache and backup, load. *)
From Verif Require Import Base Crc32Model FileModel LogFormatModel.
Local Open Scope N_scope.

(** src/log_manifest.cc:33-34. *)
Definition LOGMANI_FOOTER : list N := [170; 187; 204; 221; 238; 255; 171; 205].
Definition LOGMANI_VERSION : N := 1.

(** What storeInternal reads for each log file (src/log_manifest.cc:546-572): number, and the
    three marks returned by LogFile::getMinSeqNum / getFlushedSeqNum / getSyncedSeqNum. *)
Record ment := mkMent { e_num : N; e_min : N; e_flushed : N; e_synced : N }.

(** src/log_manifest.h: maxLogFileNum, lastFlushedLog, lastSyncedLog, and the list of files
    in ascending order of number. *)
Record lman := mkLman { l_max : N; l_flushed : N; l_synced : N; l_files : list ment }.

(** src/log_manifest.cc:546-572, one entry. *)
Definition enc_ment (e : ment) : list N :=
  u64 (e_num e) ++ u64 (e_min e) ++ u64 (e_flushed e) ++ u64 (e_synced e).

(** src/log_manifest.cc:517-586.  The count (line 530) is read before the walk over the list
    (line 541), so it is a separate argument here; the caller sees a consistent pair only if
    the list does not change in between.  The 4096-byte growing buffer is a plain list. *)
Definition enc_raw (mx fl sy count : N) (es : list ment) : list N :=
  let b := u64 mx ++ u64 fl ++ u64 sy ++ u32 count ++ flat_map enc_ment es ++
           LOGMANI_FOOTER ++ u32 LOGMANI_VERSION in
  b ++ u32 (crc32_8 b 0).

(** The same when the list does not change during the walk. *)
Definition lm_encode (m : lman) : list N :=
  enc_raw (l_max m) (l_flushed m) (l_synced m) (N.of_nat (length (l_files m))) (l_files m).

Inductive mstatus := M_FILE_CORRUPTION | M_CHECKSUM_ERROR.

(** src/log_manifest.cc:300-312: the four fields of an entry. *)
Definition get_ment (s : fser) : ment * fser :=
  let (a, s1) := fs_getU 8 s in
  let (b, s2) := fs_getU 8 s1 in
  let (c, s3) := fs_getU 8 s2 in
  let (d, s4) := fs_getU 8 s3 in
  (mkMent a b c d, s4).

Fixpoint get_ments (n : nat) (s : fser) : list ment :=
  match n with
  | O => []
  | S n' => let (e, s') := get_ment s in e :: get_ments n' s'
  end.

(** src/log_manifest.cc:258-312: size, footer and CRC checks, then the fields.  The entries
    are read here at once; the loop of the code reads them one by one, which makes no
    difference as reading has no side effect.  [fs_getU] past the end of the file returns 0. *)
Definition lm_parse (f : list N) : lman + mstatus :=
  let n := length f in
  if (n <? 16)%nat then inr M_FILE_CORRUPTION else
  if negb (if list_eq_dec N.eq_dec (firstn 8 (skipn (n - 16) f)) LOGMANI_FOOTER then true else false)
  then inr M_FILE_CORRUPTION else
  if negb (crc32_8 (firstn (n - 4) f) 0 =? get_be (skipn (n - 4) f)) then inr M_CHECKSUM_ERROR else
  let (mx, s1) := fs_getU 8 {| fs_file := f; fs_pos := 0 |} in
  let (fl, s2) := fs_getU 8 s1 in
  let (sy, s3) := fs_getU 8 s2 in
  let (cnt, s4) := fs_getU 4 s3 in
  inl (mkLman mx fl sy (get_ments (N.to_nat cnt) s4)).

(** src/log_mgr.cc:104-125, LogMgr::init: load the manifest; on any error copy the backup over
    it and load again. *)
Definition lm_recover (main bak : list N) : option lman :=
  match lm_parse main with
  | inl m => Some m
  | inr _ => match lm_parse bak with inl m => Some m | inr _ => None end
  end.

(** *** The loading loop *)

(** Outcome of LogFile::load (src/log_file.cc:180-259) for one file. *)
Inductive fstat := F_OK | F_NOT_EXIST | F_CHECKSUM | F_OTHER.

(** The relevant part of DBConfig. *)
Record lcfg := { c_section_only : bool; c_truncate_inconsecutive : bool }.

(** State of the manifest object while loading: the counters, the files added so far with the
    marks given to LogFile::load, and the number of a log file created anew (its old content
    is deleted by LogFile::create, src/log_file.cc:129-150). *)
Record lload := mkLoad {
  d_max : N; d_flushed : N; d_synced : N; d_files : list ment; d_new : option N }.

(** src/log_manifest.cc:314-371: the validity checks of log-only mode. *)
Definition invalid_log (c : lcfg) (last_synced : N) (e : ment) (is_last : bool) : bool :=
  c_section_only c && c_truncate_inconsecutive c &&
  ((valid_number (e_min e) &&
     ((valid_number (e_synced e) && (e_synced e <? e_min e)) ||
      (valid_number last_synced && negb (e_min e =? last_synced + 1)))) ||
   (is_last && negb (valid_number (e_min e)))).

(** src/log_manifest.cc:373-381: filling in missing marks. *)
Definition fill_marks (last_synced : N) (e : ment) : ment :=
  mkMent (e_num e)
         (if negb (valid_number (e_min e)) && valid_number last_synced
          then last_synced + 1 else e_min e)
         (e_flushed e)
         (if negb (valid_number (e_synced e)) && valid_number last_synced
          then last_synced else e_synced e).

(** src/log_manifest.cc:456-460: addNewLogFile and raising lastSyncedLog. *)
Definition add_file (d : lload) (e : ment) : lload :=
  mkLoad (d_max d) (d_flushed d)
         (if negb (valid_number (d_synced d)) || (d_synced d <? e_num e) then e_num e else d_synced d)
         (d_files d ++ [e]) (d_new d).

Section Load.
Variable cfg : lcfg.
(** Status of loading log file [n]. *)
Variable fload : N -> fstat.

(** src/log_manifest.cc:297-461, the loop over the entries.  [d_files d = []] is
    [getNumLogFiles() == 0]. *)
Fixpoint load_files (es : list ment) (last_synced : N) (first_read : bool) (d : lload) : lload :=
  match es with
  | [] => d
  | e :: rest =>
    let is_last := match rest with [] => true | _ => false end in
    if invalid_log cfg last_synced e is_last then
      if e_num e =? 0 then d
      else mkLoad (e_num e - 1) (d_flushed d) (e_num e - 1) (d_files d) (d_new d)
    else
      let last' := if valid_number (e_synced e) then e_synced e else last_synced in
      let e' := fill_marks last' e in
      if valid_number (d_flushed d) && (e_num e <? d_flushed d)
      then load_files rest last' first_read d
      else
        match fload (e_num e) with
        | F_OK | F_OTHER => load_files rest last' true (add_file d e')
        | F_NOT_EXIST | F_CHECKSUM =>
          if negb first_read && negb is_last
          then load_files rest last' first_read (mkLoad (d_max d) NIL NIL (d_files d) (d_new d))
          else match d_files d with
               | _ :: _ =>
                 if e_num e =? 0 then d
                 else mkLoad (e_num e - 1) (d_flushed d) (e_num e - 1) (d_files d) (d_new d)
               | [] =>
                 add_file (mkLoad (d_max d) NIL NIL (d_files d) (Some (d_max d)))
                          (mkMent (d_max d) (e_min e') (e_flushed e') (e_synced e'))
               end
        end
  end.

(** src/log_manifest.cc:240-479, load. *)
Definition lm_load (f : list N) : lload + mstatus :=
  match lm_parse f with
  | inr s => inr s
  | inl m => inl (load_files (l_files m) NIL false
                    (mkLoad (l_max m) (l_flushed m) (l_synced m) [] None))
  end.
End Load.

(** The outcome of LogFile::load given the content of the directory: a missing file is
    FILE_NOT_EXIST (src/log_file.cc:188); otherwise the status of reading it. *)
Definition fload_of (decomp : option (list N -> list N)) (dir : N -> option (list N)) (n : N) : fstat :=
  match dir n with
  | None => F_NOT_EXIST
  | Some f => match snd (load_file decomp f) with
              | L_OK => F_OK
              | L_FILE_NOT_EXIST => F_NOT_EXIST
              | L_CHECKSUM => F_CHECKSUM
              | _ => F_OTHER
              end
  end.

(** *** Storing *)

(** A file on disk: the content seen by reads, the content known to be on stable storage, and
    whether everything written has been fsynced since. *)
Record dfile := mkDf { df_cur : list N; df_dur : list N; df_clean : bool }.
Record disk := mkDisk { k_main : dfile; k_bak : dfile }.

(** Disk operations issued by one store; [true] addresses the backup file.  [DJunk x] stands
    for a backup attempt that failed half way, leaving [x]. *)
Inductive dop :=
| DWrite (b : bool) (off : nat) (d : list N)
| DTrunc (b : bool) (n : nat)
| DShrink (b : bool) (n : nat)
| DSync (b : bool)
| DJunk (b : bool) (x : list N).

Definition on_file (b : bool) (g : dfile -> dfile) (k : disk) : disk :=
  if b then mkDisk (k_main k) (g (k_bak k)) else mkDisk (g (k_main k)) (k_bak k).

Definition dirty (f : list N -> list N) (d : dfile) : dfile := mkDf (f (df_cur d)) (df_dur d) false.

Definition dstep (o : dop) (k : disk) : disk :=
  match o with
  | DWrite b off d => on_file b (dirty (fun f => pwrite f off d)) k
  | DTrunc b n => on_file b (dirty (fun f => ftruncate f n)) k
  | DShrink b n => on_file b (dirty (fun f => if (n <? length f)%nat then ftruncate f n else f)) k
  | DSync b => on_file b (fun d => mkDf (df_cur d) (df_cur d) true) k
  | DJunk b x => on_file b (dirty (fun _ => x)) k
  end.

Definition dexec (os : list dop) (k : disk) : disk := fold_left (fun k o => dstep o k) os k.

(** The in-memory part: cachedManifest (with its capacity), lenCachedManifest,
    fullBackupRequired (src/log_manifest.h, ctor src/log_manifest.cc:153-168). *)
Record mcache := mkMc { mc_data : list N; mc_len : nat; mc_full : bool }.

Definition mc_fresh (buf : list N) : mcache := mkMc buf 0 true.

(** src/log_manifest.cc:596-604: index of the first difference; the loop runs up to the
    smaller of the capacity of the cache and the new length. *)
Fixpoint first_diff (a b : list N) : option nat :=
  match a, b with
  | x :: a', y :: b' => if x =? y then option_map S (first_diff a' b') else Some 0%nat
  | _, _ => None
  end.

Definition diff_pos (mc : mcache) (buf : list N) : nat :=
  if (mc_len mc =? 0)%nat then 0%nat
  else match first_diff (mc_data mc) buf with Some i => i | None => 0%nat end.

(** How the system calls of a store end. *)
Inductive outcome := NoSync | SyncOk | FsyncFail | BackupFail (x : list N).

Section Store.
(** Content of freshly allocated memory (cachedManifest.alloc, line 618). *)
Variable garbage : nat -> list N.

(** src/log_manifest.cc:614-624: doubling until it fits (at least one doubling is enough to
    describe the content: a prefix that is then overwritten, followed by garbage). *)
Definition cache_put (mc : mcache) (buf : list N) (full : bool) : mcache :=
  mkMc (buf ++ (if (length (mc_data mc) <? length buf)%nat
                then garbage (length buf) else skipn (length buf) (mc_data mc)))
       (length buf) full.

(** src/log_manifest.cc:588-643 with BackupRestore::backup (src/internal_helper.cc:359-406):
    the disk operations, in order.  [ftruncate] of the backup happens only if it was longer
    than the new content before the write, which is the same as being longer after it. *)
Definition store_ops (mc : mcache) (buf : list N) (oc : outcome) : list dop :=
  let fd := diff_pos mc buf in
  let bfd := if mc_full mc then 0%nat else fd in
  (if (fd <? length buf)%nat then [DWrite false fd (skipn fd buf)] else []) ++
  (if ((mc_len mc =? 0) || (length buf <? mc_len mc))%nat then [DTrunc false (length buf)] else []) ++
  match oc with
  | NoSync => []
  | FsyncFail => []
  | SyncOk =>
      [DSync false] ++
      (if (bfd <? length buf)%nat then [DWrite true bfd (skipn bfd buf)] else []) ++
      [DShrink true (length buf); DSync true]
  | BackupFail x => [DSync false; DJunk true x]
  end.

Definition is_sync_ok (oc : outcome) : bool := match oc with SyncOk => true | _ => false end.

(** In-memory effect of a completed store (lines 614-626, 641). *)
Definition store_mem (mc : mcache) (buf : list N) (oc : outcome) : mcache :=
  cache_put mc buf (negb (is_sync_ok oc)).

Definition store (st : disk * mcache) (vo : lman * outcome) : disk * mcache :=
  let (k, mc) := st in
  let buf := lm_encode (fst vo) in
  (dexec (store_ops mc buf (snd vo)) k, store_mem mc buf (snd vo)).

(** src/log_manifest.cc:606-611 with a failing pwrite: [n] bytes reached the file, the
    function returns the error and the cached copy is not updated. *)
Definition store_failed (st : disk * mcache) (v : lman) (n : nat) : disk * mcache :=
  let (k, mc) := st in
  let buf := lm_encode v in
  let fd := diff_pos mc buf in
  (dstep (DWrite false fd (firstn n (skipn fd buf))) k, mc).

Definition stores (st : disk * mcache) (h : list (lman * outcome)) : disk * mcache :=
  fold_left store h st.
End Store.
