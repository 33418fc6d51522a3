(** The table manifest: store, load, backup. *)
From Verif Require Import Base Crc32Model KeyModel FileModel LogManifestModel.
Local Open Scope N_scope.

(** src/table_manifest.cc:27-28. *)
Definition TABMANI_FOOTER : list N := [170; 187; 204; 221; 238; 255; 171; 239].
Definition TABMANI_VERSION : N := 1.

(** src/table_manifest.h:44-49. *)
Definition ST_NORMAL : N := 0.
Definition ST_COMPACT_SRC : N := 1.
Definition ST_COMPACT_DST : N := 2.

(** src/table_manifest.h:43-169, TableInfo: number, hashNum, status, minKey, the checkpoint map
    of its file (src/table_file.h chkMap: a std::map, here its ascending list of pairs) and
    prevTableSearchRequired.  The level is the position in the list of levels.  Reference
    counts, stacks and the file handle are not part of this model. *)
Record tinfo := mkTinfo {
  t_num : N; t_hash : N; t_status : N; t_min : key; t_chks : list (N * N); t_prev : bool }.

(** src/table_manifest.cc:31-60, LevelInfo: the counter and the skiplist in iteration order.
    src/table_manifest.h: maxTableNum and the vector of levels. *)
Record tman := mkTman { tm_max : N; tm_levels : list (N * list tinfo) }.

(** *** Store *)

(** A file-mode RwSerializer (src/internal_helper.cc:37-158): the writes issued so far and the
    position. *)
Record wser := mkW { w_ops : list (nat * list N); w_pos : nat }.
Definition w_put (d : list N) (w : wser) : wser :=
  mkW (w_ops w ++ [(w_pos w, d)]) (w_pos w + length d).
(** ss.pos(p); ss.put(d); ss.pos(cur): an overwrite that leaves the position. *)
Definition w_patch (p : nat) (d : list N) (w : wser) : wser := mkW (w_ops w ++ [(p, d)]) (w_pos w).

Definition w_apply (f : list N) (ops : list (nat * list N)) : list N :=
  fold_left (fun f o => pwrite f (fst o) (snd o)) ops f.

(** src/table_file.cc:1581-1592, appendCheckpoints. *)
Definition put_chks (chks : list (N * N)) (w : wser) : wser :=
  fold_left (fun w c => w_put (u64 (snd c)) (w_put (u64 (fst c)) w)) chks
            (w_put (u32 (N.of_nat (length chks))) w).

(** src/table_manifest.cc:318-352: one table; skipped (but counted) if COMPACT_DST. *)
Definition put_table (level0 : bool) (t : tinfo) (w : wser) : wser :=
  if t_status t =? ST_COMPACT_DST then w else
  let w1 := w_put (u64 (t_num t)) w in
  let w2 := if level0
            then w_put (u32 (t_status t)) (w_put (u32 (t_hash t)) (w_put (u32 8) w1))
            else w_put (t_min t) (w_put (u32 (blen (t_min t))) w1) in
  put_chks (t_chks t) w2.

(** src/table_manifest.cc:297-374: one level. *)
Definition put_level (level0 : bool) (lv : N * list tinfo) (w : wser) : wser :=
  let pos_num := w_pos w in
  let w1 := w_put (u32 (fst lv)) w in
  let w2 := fold_left (fun w t => put_table level0 t w) (snd lv) w1 in
  let counted := N.of_nat (length (snd lv)) in
  if counted =? fst lv then w2 else w_patch pos_num (u32 counted) w2.

Fixpoint put_levels (level0 : bool) (ls : list (N * list tinfo)) (w : wser) : wser :=
  match ls with
  | [] => w
  | lv :: rest => put_levels false rest (put_level level0 lv w)
  end.

(** src/table_manifest.cc:282-380: everything up to the CRC. *)
Definition tm_puts (m : tman) : wser :=
  w_put (u32 TABMANI_VERSION) (w_put TABMANI_FOOTER
    (put_levels true (tm_levels m)
      (w_put (u32 (N.of_nat (length (tm_levels m)))) (w_put (u64 (tm_max m)) (mkW [] 0))))).

(** src/table_manifest.cc:380-396: CRC of the file read back, written at the end, truncate. *)
Definition tm_store (f0 : list N) (m : tman) : list N :=
  let w := tm_puts m in
  let f1 := w_apply f0 (w_ops w) in
  let crc := crc32_8 (match pread f1 0 (w_pos w) with Some b => b | None => repeat 0 (w_pos w) end) 0 in
  ftruncate (pwrite f1 (w_pos w) (u32 crc)) (w_pos w + 4).

(** The disk operations of store(true) (src/table_manifest.cc:282-402), with
    BackupRestore::backup = copyFile (src/internal_helper.cc:269-313). *)
Definition tm_store_ops (f0 : list N) (m : tman) (sync : bool) : list dop :=
  let w := tm_puts m in
  let f1 := w_apply f0 (w_ops w) in
  let crc := crc32_8 (match pread f1 0 (w_pos w) with Some b => b | None => repeat 0 (w_pos w) end) 0 in
  let img := tm_store f0 m in
  map (fun o => DWrite false (fst o) (snd o)) (w_ops w) ++
  [DWrite false (w_pos w) (u32 crc); DTrunc false (w_pos w + 4)] ++
  (if sync then [DSync false; DWrite true 0 img; DTrunc true (length img); DSync true] else []).

(** *** Load *)

(** std::map::insert (src/table_file.cc:1602): no effect if the key exists. *)
Fixpoint map_insert (c : N * N) (m : list (N * N)) : list (N * N) :=
  match m with
  | [] => [c]
  | d :: m' => if fst c <? fst d then c :: m
               else if fst c =? fst d then m else d :: map_insert c m'
  end.

(** src/table_file.cc:1594-1605, loadCheckpoints. *)
Fixpoint get_chks (n : nat) (s : fser) (acc : list (N * N)) : list (N * N) * fser :=
  match n with
  | O => (acc, s)
  | S n' => let (a, s1) := fs_getU 8 s in
            let (b, s2) := fs_getU 8 s1 in
            get_chks n' s2 (map_insert (a, b) acc)
  end.

(** src/skiplist.cc:403-..., skiplist_insert with TableInfo::cmp (src/table_manifest.h:82-87):
    the new node goes before the first node whose min key is not smaller. *)
Fixpoint sl_insert (t : tinfo) (l : list tinfo) : list tinfo :=
  match l with
  | [] => [t]
  | u :: l' => if kltb (t_min u) (t_min t) then u :: sl_insert t l' else t :: l
  end.

Section Load.
(** TableFile::getMinKey / getMaxKey of table [n] (src/table_file.cc:1745-1797); [None] when
    the table is empty or the call fails. *)
Variable tab_min : N -> option key.
Variable tab_max : N -> option key.

(** src/table_manifest.cc:176-206: the entry itself; opening the table file (line 214) has no
    effect on the manifest and its status is ignored. *)
Definition get_table (level0 : bool) (s : fser) : tinfo * fser :=
  let (num, s1) := fs_getU 8 s in
  let (ksz, s2) := fs_getU 4 s1 in
  let '(h, st, k, s3) :=
    if level0 then
      let (h, s3) := if 4 <=? ksz then fs_getU 4 s2 else (0, s2) in
      let (st, s4) := if 8 <=? ksz then fs_getU 4 s3 else (0, s3) in
      (h, st, [], s4)
    else if ksz =? 0 then (0, 0, [], s2)
    else match fs_get (N.to_nat ksz) s2 with
         | (Some b, s3) => (0, 0, b, s3)
         | (None, s3) => (0, 0, repeat 0 (N.to_nat ksz), s3)   (* alloc without data *)
         end in
  let (n, s4) := fs_getU 4 s3 in
  let (chks, s5) := get_chks (N.to_nat n) s4 [] in
  (mkTinfo num h st k chks false, s5).

(** src/table_manifest.cc:219-252: min key correction and the overlap flag. *)
Definition fix_min (level0 : bool) (last_max : key) (t : tinfo) : tinfo :=
  if level0 then t else
  let mk := match tab_min (t_num t) with
            | Some k => if negb (blen (t_min t) =? 0) && kltb k (t_min t) then k else t_min t
            | None => t_min t
            end in
  mkTinfo (t_num t) (t_hash t) (t_status t) mk (t_chks t)
          (negb (blen mk =? 0) && kleb mk last_max).

Definition next_max (level0 : bool) (last_max : key) (t : tinfo) : key :=
  if level0 then last_max else match tab_max (t_num t) with Some k => k | None => [] end.

(** src/table_manifest.cc:173-262: the tables of one level. *)
Fixpoint get_tables (level0 : bool) (n : nat) (s : fser) (last_max : key) (acc : list tinfo)
  : list tinfo * fser :=
  match n with
  | O => (acc, s)
  | S n' =>
    let (t, s') := get_table level0 s in
    let t' := fix_min level0 last_max t in
    get_tables level0 n' s' (next_max level0 last_max t) (sl_insert t' acc)
  end.

(** src/table_manifest.cc:161-263: the levels. *)
Fixpoint get_levels (level0 : bool) (n : nat) (s : fser) : list (N * list tinfo) :=
  match n with
  | O => []
  | S n' =>
    let (cnt, s1) := fs_getU 4 s in
    let (ts, s2) := get_tables level0 (N.to_nat cnt) s1 [] [] in
    (cnt, ts) :: get_levels false n' s2
  end.

(** src/table_manifest.cc:115-272, load. *)
Definition tm_load (f : list N) : tman + mstatus :=
  let n := length f in
  if (n <? 16)%nat then inr M_FILE_CORRUPTION else
  if negb (if list_eq_dec N.eq_dec (firstn 8 (skipn (n - 16) f)) TABMANI_FOOTER then true else false)
  then inr M_FILE_CORRUPTION else
  if negb (crc32_8 (firstn (n - 4) f) 0 =? get_be (skipn (n - 4) f)) then inr M_CHECKSUM_ERROR else
  let (mx, s1) := fs_getU 8 {| fs_file := f; fs_pos := 0 |} in
  let (nl, s2) := fs_getU 4 s1 in
  inl (mkTman mx (get_levels true (N.to_nat nl) s2)).

(** src/table_mgr.cc:202-212: load, on error restore the backup and load again. *)
Definition tm_recover (main bak : list N) : option tman :=
  match tm_load main with
  | inl m => Some m
  | inr _ => match tm_load bak with inl m => Some m | inr _ => None end
  end.
End Load.
