(** The table section: [TableMgr] over its levels of table files (src/table_mgr.cc,
    table_manifest.cc, table_set_batch.cc, table_compaction.cc, table_split.cc, and the parts of
    table_file.cc they use).

    Simplifications, valid for the whole file:
    - a table file is what ForestDB keeps in it: one document per key, in key order; a document is
      the record it was written from (MetaProps.v: encoding and decoding of the metadata are
      inverse to each other);
    - keys are ordered by SizedBuf::cmp (no custom comparison function); normal iteration, not
      [fastIndexScan]; no user callback that drops records;
    - the lookup booster is BoosterModel.v; snapshots of table files are CheckpointModel.v;
    - sizes are not tracked: where the code decides by accumulated sizes, the model takes the
      decision as an argument, and the theorems hold for every decision;
    - [prevTableSearchRequired] is false (it is set only when overlapping tables are found while
      the manifest is loaded, see RepairModel.v) and there are no stacks (TableInfo::stack is
      never set);
    - every operation below is one atomic step; ReaderModel.v interleaves a lookup with them. *)
From Verif Require Import Base KeyModel LogFormatModel BloomModel MemTableModel.
Local Open Scope N_scope.

(** ForestDB: fdb_set, fdb_del, fdb_get. *)
Fixpoint fd_set (r : rec) (l : list rec) : list rec :=
  match l with
  | [] => [r]
  | x :: t => match kcmp (r_key r) (r_key x) with
              | Lt => r :: l
              | Eq => r :: t
              | Gt => x :: fd_set r t
              end
  end.
Definition fd_del (k : key) (l : list rec) : list rec := filter (fun x => negb (keqb (r_key x) k)) l.
Definition fd_get (k : key) (l : list rec) : option rec := find (fun x => keqb (r_key x) k) l.

(** src/table_manifest.h:43-180, TableInfo with its TableFile.  [b_src]: status COMPACT_SRC
    (otherwise NORMAL); [b_bf]: the bloom filter, if the table has one. *)
Record tbl := mkT { b_num : N; b_src : bool; b_hash : N; b_min : key; b_docs : list rec; b_bf : option bloom }.

(** include/libjungle/db_config.h: numL0Partitions, bloomFilterBitsPerUnit (0: no filters; here
    the number of bits of every filter), useBloomFilterForGet, nextLevelExtension,
    purgeDeletedDocImmediately. *)
Record tcfg := mkTC { tc_parts : N; tc_bits : N; tc_bfget : bool; tc_ext : bool; tc_purge : bool }.

(** src/table_manifest.cc:28-57, 79-86: maxTableNum + 1, level 0 and the levels above it, each in
    the order of the skiplist (by min key, a new table before those with the same min key). *)
Record lsm := mkL { l_next : N; l_zero : list tbl; l_up : list (list tbl) }.

Definition num_levels (s : lsm) : nat := S (length (l_up s)).

Section Hash.
(** Hash pair of a key for the bloom filters; partition of a key in level 0
    (table_mgr.cc:60-63 and internal_helper.h, get_murmur_hash % numL0Partitions). *)
Variable hash : key -> N * N.
Variable part : key -> N.

(** src/table_file.cc:380-444 and 497-527: a new table file. *)
Definition new_bf (c : tcfg) : option bloom := if tc_bits c =? 0 then None else Some (bl_create (tc_bits c) 3).
Definition new_tbl (c : tcfg) (num h : N) (min : key) : tbl := mkT num false h min [] (new_bf c).

Definition bf_add (k : key) (b : option bloom) : option bloom :=
  match b with
  | None => None
  | Some f => match bl_set (hash k) f with Some f' => Some f' | None => Some f end
  end.

(** src/table_file.cc:797-937, setSingle.  [raw]: the record comes from getByOffset
    (table_file.cc:1531-1579), which labels every record as an insertion, so that the bloom
    filter is set for tombstones too; [purge]: purgeDeletedDocImmediately, and the table is
    in the last level, which is not level 0. *)
Definition tf_set (raw purge : bool) (r : rec) (t : tbl) : tbl :=
  mkT (b_num t) (b_src t) (b_hash t) (b_min t)
      (if purge && is_del r then fd_del (r_key r) (b_docs t) else fd_set r (b_docs t))
      (if raw || is_ins r then bf_add (r_key r) (b_bf t) else b_bf t).
Definition tf_sets (raw purge : bool) (rs : list rec) (t : tbl) : tbl :=
  fold_left (fun t r => tf_set raw purge r t) rs t.

(** src/table_file.cc:1076-1202, get. *)
Definition tf_get (c : tcfg) (k : key) (t : tbl) : res rec :=
  let miss := match b_bf t with
              | Some f => tc_bfget c && match bl_check (hash k) f with Some b => negb b | None => false end
              | None => false
              end in
  if miss then Fail KEY_NOT_FOUND
  else match fd_get k (b_docs t) with Some r => Ok r | None => Fail KEY_NOT_FOUND end.

(** src/skiplist.cc:403-..., skiplist_insert with TableInfo::cmp (table_manifest.h:82-87). *)
Fixpoint add_tbl (t : tbl) (l : list tbl) : list tbl :=
  match l with
  | [] => [t]
  | u :: l' => if kltb (b_min u) (b_min t) then u :: add_tbl t l' else t :: l
  end.
(** src/table_manifest.cc:498-548, removeTableFile. *)
Definition rm_tbl (n : N) (l : list tbl) : list tbl := filter (fun t => negb (b_num t =? n)) l.
Definition tbl_at (n : N) (l : list tbl) : option tbl := find (fun t => b_num t =? n) l.

(** skiplist_find_smaller_or_equal: the last table whose min key is not above [k]. *)
Fixpoint floor (k : key) (l : list tbl) : option tbl :=
  match l with
  | [] => None
  | t :: l' => if kleb (b_min t) k then match floor k l' with Some u => Some u | None => Some t end else None
  end.

(** ** Lookup *)

(** src/table_mgr.cc:827-842, getSmallestNormalTable. *)
Fixpoint smallest (l : list tbl) (best : option tbl) : option tbl :=
  match l with
  | [] => best
  | t :: l' => smallest l' (if negb (b_src t) && match best with Some b => b_num t <? b_num b | None => b_num t <? NIL end
                            then Some t else best)
  end.
Definition smallest_normal (l : list tbl) : option tbl := smallest l None.

(** src/table_manifest.cc:569-601, getTablesByHash (one partition). *)
Definition by_hash (h : N) (l : list tbl) : list tbl := filter (fun t => b_hash t =? h) l.
(** src/table_manifest.cc:610-653, getTablesPoint; [None]: TABLE_NOT_FOUND. *)
Definition tables_point (lv : nat) (k : key) (s : lsm) : list tbl :=
  match lv with
  | O => by_hash (part k) (l_zero s)
  | S i => match floor k (nth i (l_up s) []) with Some t => [t] | None => [] end
  end.

(** include/libjungle/record.h, Record::empty: neither key nor value. *)
Definition rec_empty (r : option rec) : bool :=
  match r with None => true | Some r => match r_key r, r_val r with [], [] => true | _, _ => false end end.

(** src/table_mgr.cc:601-639: the tables of one level, except the one searched already.
    [inl latest]: the newest record so far; [inr st]: return at once with status [st] ([None] is
    success, without having filled in the record). *)
Fixpoint search (c : tcfg) (k : key) (skip : option N) (ts : list tbl) (latest : option rec) : option rec + option st :=
  match ts with
  | [] => inl latest
  | t :: ts' =>
      if match skip with Some n => b_num t =? n | None => false end then search c k skip ts' latest
      else match tf_get c k t with
           | Ok r => if rec_empty latest || (match latest with Some l => r_seq l | None => 0 end <? r_seq r)
                     then search c k skip ts' (Some r)
                     else inr None
           | Fail e => match e with KEY_NOT_FOUND => search c k skip ts' latest | _ => inr (Some e) end
           | Undef => inr None
           end
  end.

(** One level of src/table_mgr.cc:572-647.  [inl (Some r)]: the loop over the levels ends with
    [r]; [inl None]: next level; [inr st]: the function returns. *)
Definition level_get (c : tcfg) (k : key) (lv : nat) (s : lsm) : option rec + option st :=
  let ts := tables_point lv k s in
  let rest skip := match search c k skip ts None with
                   | inl l => inl (if rec_empty l then None else l)
                   | inr e => inr e
                   end in
  match lv with
  | O => match smallest_normal ts with
         | Some t => match tf_get c k t with
                     | Ok r => inl (Some r)
                     | Fail KEY_NOT_FOUND => rest (Some (b_num t))
                     | Fail e => inr (Some e)
                     | Undef => inr None
                     end
         | None => rest None
         end
  | S _ => rest None
  end.

(** What TableMgr::get delivers.  [GotNothing]: it returns success and leaves the record
    unfilled. *)
Inductive got := Got (r : rec) | GotNothing | GotErr (e : st).

(** src/table_mgr.cc:559-656, TableMgr::get: levels [lv .. lv+n). *)
Fixpoint levels_get (c : tcfg) (k : key) (lv n : nat) (s : lsm) : got :=
  match n with
  | O => GotErr KEY_NOT_FOUND
  | S n' => match level_get c k lv s with
            | inl (Some r) => if rec_empty (Some r) then GotErr KEY_NOT_FOUND else Got r
            | inl None => levels_get c k (S lv) n' s
            | inr (Some e) => GotErr e
            | inr None => GotNothing
            end
  end.
Definition tm_get (c : tcfg) (k : key) (s : lsm) : got := levels_get c k 0 (num_levels s) s.

(** ** Flush into level 0 *)

(** src/table_file.cc:939-1074, setBatch with a target hash: stops at the first record that
    ForestDB refuses ([bad]), and the caller (table_set_batch.cc:28-50, setTableFile) ignores the
    error. *)
Fixpoint tf_batch (bad : rec -> bool) (h : N) (rs : list rec) (t : tbl) : tbl :=
  match rs with
  | [] => t
  | r :: rs' => if negb (part (r_key r) =? h) || is_cmd r then tf_batch bad h rs' t
                else if bad r then t
                else tf_batch bad h rs' (tf_set false false r t)
  end.

Definition upd_tbl (n : N) (f : tbl -> tbl) (l : list tbl) : list tbl :=
  map (fun t => if b_num t =? n then f t else t) l.

(** src/table_set_batch.cc:199-296, setBatchHash: for each partition the smallest normal table;
    a partition without one is skipped. *)
Definition batch_part (bad : rec -> bool) (rs : list rec) (h : N) (l : list tbl) : list tbl :=
  match smallest_normal (by_hash h l) with
  | Some t => upd_tbl (b_num t) (tf_batch bad h rs) l
  | None => l
  end.
Fixpoint batch_parts (bad : rec -> bool) (rs : list rec) (n : nat) (h : N) (l : list tbl) : list tbl :=
  match n with
  | O => l
  | S n' => batch_parts bad rs n' (h + 1) (batch_part bad rs h l)
  end.
(** src/table_set_batch.cc:173-197, setBatch. *)
Definition set_batch (c : tcfg) (bad : rec -> bool) (rs : list rec) (s : lsm) : lsm :=
  mkL (l_next s) (batch_parts bad rs (N.to_nat (tc_parts c)) 0 (l_zero s)) (l_up s).

(** ** Compaction from one level to the next *)

(** src/table_manifest.cc:674-729, getTablesRange on a level above 0: from the table that covers
    [kmin] (or the first one) on, those whose min key is not above [kmax] (empty: no bound). *)
Fixpoint from_floor (k : key) (l : list tbl) : list tbl :=
  match l with
  | [] => []
  | t :: l' => match l' with
               | u :: _ => if kleb (b_min u) k then from_floor k l' else l
               | [] => l
               end
  end.
Definition is_nil {A} (l : list A) : bool := match l with [] => true | _ => false end.
Definition tables_range (kmin kmax : key) (l : list tbl) : list tbl :=
  filter (fun t => is_nil kmax || kleb (b_min t) kmax) (from_floor kmin l).

(** src/table_file.cc:1745-1763, getMaxKey (empty if the table is). *)
Definition max_key (t : tbl) : key := match rev (b_docs t) with r :: _ => r_key r | [] => [] end.

(** src/table_mgr.h:466-486, RecGroupItr: records that go to one table, an existing one or a new one
    with the given min key. *)
Record grp := mkG { g_min : key; g_tab : option tbl; g_recs : list rec }.

(** src/table_compaction.cc:155-171 and 252-266: the last of the remaining tables whose min key
    is not above [k]. *)
Fixpoint advance (k : key) (cur : tbl) (rest : list tbl) : tbl * list tbl :=
  match rest with
  | t :: rest' => if kleb (b_min t) k then advance k t rest' else (cur, rest)
  | [] => (cur, [])
  end.

(** src/table_compaction.cc:232-333, update_next_table_info for the records [docs], of which
    [docs]'s first one has index [i].  [over i]: the size or the number of records accumulated
    exceeds the limit. *)
Fixpoint scan (over : nat -> bool) (maxk : key) (i : nat) (docs : list rec) (rest : list tbl) (cur : grp) : list grp :=
  match docs with
  | [] => [cur]
  | r :: docs' =>
      let other := if over i && kltb maxk (r_key r)
                   then cur :: scan over maxk (S i) docs' rest (mkG (r_key r) None [r])
                   else scan over maxk (S i) docs' rest (mkG (g_min cur) (g_tab cur) (g_recs cur ++ [r])) in
      match rest with
      | nt :: rest' =>
          if kleb (b_min nt) (r_key r)
          then let (d, rest2) := advance (r_key r) nt rest' in
               cur :: scan over maxk (S i) docs' rest2 (mkG (b_min nt) (Some d) [r])
          else other
      | [] => other
      end
  end.

(** src/table_compaction.cc:113-171: the first group. *)
Definition groups (over : nat -> bool) (vmin : key) (docs : list rec) (tabs : list tbl) : list grp :=
  let maxk := match rev tabs with t :: _ => (match max_key t with [] => b_min t | k => k end) | [] => [] end in
  match tabs with
  | [] => scan over maxk 0 docs [] (mkG [] None [])
  | t :: tabs' =>
      if kltb vmin (b_min t) then scan over maxk 0 docs tabs (mkG [] None [])
      else let (d, rest) := advance vmin t tabs' in
           scan over maxk 0 docs rest (mkG (b_min t) (Some d) [])
  end.

(** src/table_compaction.cc:415-484 and table_set_batch.cc:53-154, setTableFileOffset: records of
    the groups with an existing table. [sel]: the record was written before the compaction was
    cancelled. *)
Definition write_old (raw purge : bool) (sel : rec -> bool) (gs : list grp) (l : list tbl) : list tbl :=
  fold_left (fun l g => match g_tab g with
                        | Some d => upd_tbl (b_num d) (tf_sets raw purge (filter sel (g_recs g))) l
                        | None => l
                        end) gs l.
(** The new tables: numbers from [n] on.  [mk j]: the file of the j-th one can be created;
    otherwise its records are skipped (table_compaction.cc:432-436, table_split.cc:258-262). *)
Fixpoint new_tbls (c : tcfg) (mk : nat -> bool) (j : nat) (n : N) (gs : list grp) : list tbl :=
  match gs with
  | [] => []
  | g :: gs' =>
      match g_tab g with
      | Some _ => new_tbls c mk j n gs'
      | None => if mk j then tf_sets true false (g_recs g) (new_tbl c n 0 (g_min g)) :: new_tbls c mk (S j) (n + 1) gs'
                else new_tbls c mk (S j) (n + 1) gs'
      end
  end.
(** src/table_compaction.cc:493-500, table_split.cc:317-324: added in descending order of min
    key. *)
Definition add_all (ts l : list tbl) : list tbl := fold_right add_tbl l ts.

Definition level (lv : nat) (s : lsm) : list tbl := match lv with O => l_zero s | S i => nth i (l_up s) [] end.
Fixpoint set_nth {A} (i : nat) (x : A) (l : list A) : list A :=
  match l, i with
  | [], _ => []
  | _ :: t, O => x :: t
  | y :: t, S i' => y :: set_nth i' x t
  end.
Definition set_level (lv : nat) (l : list tbl) (s : lsm) : lsm :=
  match lv with
  | O => mkL (l_next s) l (l_up s)
  | S i => mkL (l_next s) (l_zero s) (set_nth i l (l_up s))
  end.
Definition with_next (n : N) (s : lsm) : lsm := mkL n (l_zero s) (l_up s).
(** src/table_manifest.cc:425-442, extendLevel. *)
Definition extend (s : lsm) : lsm := mkL (l_next s) (l_zero s) (l_up s ++ [[]]).
Definition is_last (lv : nat) (s : lsm) : bool := Nat.eqb (S lv) (num_levels s).

(** src/table_compaction.cc:29-579, compactLevelItr on table [num] of level [lv], below the last
    level or level 0.  With [fin = false] the compaction is cancelled after the records selected
    by [sel] were written to existing tables (new files are deleted, lines 474-478). *)
Definition compact_victim (c : tcfg) (over : nat -> bool) (mk : nat -> bool) (fin : bool) (sel : rec -> bool)
    (lv : nat) (num : N) (s0 : lsm) : option lsm :=
  match tbl_at num (level lv s0) with
  | None => None
  | Some v =>
      let last := is_last lv s0 in
      let s := if last then extend s0 else s0 in
      let dst := level (S lv) s in
      let gs := groups over (b_min v) (b_docs v) (tables_range (b_min v) (max_key v) dst) in
      let purge := tc_purge c && is_last (S lv) s in
      if fin then
        let news := new_tbls c mk 0 (l_next s) gs in
        let n' := l_next s + N.of_nat (length (filter (fun g => match g_tab g with None => true | _ => false end) gs)) in
        let s1 := set_level (S lv) (add_all news (write_old true purge (fun _ => true) gs dst)) s in
        let s2 := set_level lv (rm_tbl num (level lv s1)) s1 in
        let fill := Nat.ltb 0 lv && negb last && (N.of_nat (length (level lv s2)) <? tc_parts c * 2) in
        Some (if fill
              then with_next (n' + 1) (set_level lv (add_tbl (new_tbl c n' 0 (b_min v)) (level lv s2)) s2)
              else with_next n' s2)
      else Some (set_level (S lv) (write_old true purge sel gs dst) s)
  end.

(** src/table_compaction.cc:581-658, migrateLevel of the last level: every table moves one level
    down, under a new TableInfo. *)
Definition migrated (t : tbl) : tbl := mkT (b_num t) false 0 (b_min t) (b_docs t) (b_bf t).
Definition migrate (lv : nat) (s : lsm) : option lsm :=
  if is_last lv s && negb (is_nil (level lv s)) then
    let ts := level lv s in
    Some (set_level lv [] (set_level (S lv) (add_all (map migrated ts) []) (extend s)))
  else None.

(** src/table_compaction.cc:50-53: an inter-level compaction of the last level is a migration. *)
Definition compact_level c over mk fin sel (lv : nat) (num : N) (s : lsm) : option lsm :=
  if is_last lv s && Nat.ltb 0 lv then migrate lv s else compact_victim c over mk fin sel lv num s.

(** src/table_compaction.cc:759-883, compactL0 in level extension mode up to the change of
    status: if the partition has no COMPACT_SRC table, its normal table becomes one and a new
    table takes the writes.  (With two normal tables, which are left behind by L0-only mode, the
    larger one becomes the source.) *)
Definition src_of (h : N) (l : list tbl) : option tbl := find (fun t => b_src t) (by_hash h l).
Definition set_src (t : tbl) : tbl := mkT (b_num t) true (b_hash t) (b_min t) (b_docs t) (b_bf t).
Definition l0_roll (c : tcfg) (h : N) (s : lsm) : option lsm :=
  match src_of h (l_zero s) with
  | Some _ => Some s
  | None =>
      match smallest_normal (by_hash h (l_zero s)) with
      | None => None
      | Some o =>
          match smallest_normal (rm_tbl (b_num o) (by_hash h (l_zero s))) with
          | Some m => Some (mkL (l_next s) (upd_tbl (b_num m) set_src (l_zero s)) (l_up s))
          | None => Some (mkL (l_next s + 1)
                              (upd_tbl (b_num o) set_src (add_tbl (new_tbl c (l_next s) h []) (l_zero s))) (l_up s))
          end
      end
  end.
(** src/table_compaction.cc:906-926: the rest of compactL0, on the source table. *)
Definition compact_l0 c over mk fin sel (h : N) (s : lsm) : option lsm :=
  match l0_roll c h s with
  | None => None
  | Some s1 => match src_of h (l_zero s1) with
               | Some v => compact_level c over mk fin sel 0 (b_num v) s1
               | None => None
               end
  end.

(** ** In-place compaction, split, merge *)

(** src/table_file_compaction.cc:89-345, compactToManually: a copy without the tombstones, which
    are kept below the last level in level extension mode (lines 190-201) or on request. *)
Definition copy_live (c : tcfg) (keep : bool) (num : N) (t : tbl) : tbl :=
  tf_sets true false (filter (fun r => keep || negb (is_del r)) (b_docs t)) (new_tbl c num 0 (b_min t)).
(** src/table_compaction.cc:660-757, compactInPlace on a level above 0 (jungle.cc:593-601). *)
Definition in_place (c : tcfg) (preserve : bool) (lv : nat) (num : N) (s : lsm) : option lsm :=
  match lv, tbl_at num (level lv s) with
  | S _, Some v =>
      let keep := preserve || (tc_ext c && negb (is_last lv s)) in
      let t := copy_live c keep (l_next s) v in
      Some (with_next (l_next s + 1) (set_level lv (rm_tbl num (add_tbl t (level lv s))) s))
  | _, _ => None
  end.

(** src/table_split.cc:127-195: the records of each output.  [cut i]: the table is full after the
    i-th record. *)
Fixpoint cuts (cut : nat -> bool) (i : nat) (docs : list rec) (cur : grp) : list grp :=
  match docs with
  | [] => [cur]
  | r :: docs' =>
      match i with
      | S i' => if cut i' then cur :: cuts cut (S i) docs' (mkG (r_key r) None [r])
                else cuts cut (S i) docs' (mkG (g_min cur) None (g_recs cur ++ [r]))
      | O => cuts cut 1 docs' (mkG (g_min cur) None (g_recs cur ++ [r]))
      end
  end.
(** src/table_split.cc:61-368, splitTableItr (a split into fewer than two tables is cancelled,
    lines 197-222). *)
Definition split (c : tcfg) (cut : nat -> bool) (mk : nat -> bool) (lv : nat) (num : N) (s : lsm) : option lsm :=
  match lv, tbl_at num (level lv s) with
  | S _, Some v =>
      let gs := cuts cut 0 (b_docs v) (mkG (b_min v) None []) in
      if Nat.ltb 1 (length gs) then
        let news := new_tbls c mk 0 (l_next s) gs in
        Some (with_next (l_next s + N.of_nat (length gs)) (set_level lv (rm_tbl num (add_all news (level lv s))) s))
      else None
  | _, _ => None
  end.

(** src/table_split.cc:395-401: the table before the victim. *)
Fixpoint before (num : N) (prev : option tbl) (l : list tbl) : option tbl :=
  match l with
  | [] => prev
  | t :: l' => if b_num t =? num then prev else before num (Some t) l'
  end.
(** src/table_split.cc:370-518, mergeLevel: the victim's records go to the table before it.
    Without one an assertion fails. *)
Definition merge (c : tcfg) (lv : nat) (num : N) (s : lsm) : option lsm :=
  match lv, tbl_at num (level lv s) with
  | S _, Some v =>
      match before num None (level lv s) with
      | Some d => let purge := tc_purge c && is_last lv s in
                  Some (set_level lv (rm_tbl num (upd_tbl (b_num d) (tf_sets false purge (b_docs v)) (level lv s))) s)
      | None => None
      end
  | _, _ => None
  end.

(** Closing and opening the database: the manifest is written in the order of the skiplists and
    every table is inserted before those with the same min key when it is loaded
    (TableManifestModel.v), which reverses the order of the tables of level 0.  The bloom filters
    are loaded as they were saved (C24); the tables of the other levels have distinct min keys. *)
Definition reload (s : lsm) : lsm := mkL (l_next s) (rev (l_zero s)) (l_up s).

(** ** Executions *)

Inductive lop :=
| LFlush (bad : rec -> bool) (rs : list rec)
| LRoll (h : N)
| LZero (over mk : nat -> bool) (fin : bool) (sel : rec -> bool) (h : N)
| LDown (over mk : nat -> bool) (fin : bool) (sel : rec -> bool) (lv : nat) (num : N)
| LPlace (preserve : bool) (lv : nat) (num : N)
| LSplit (cut mk : nat -> bool) (lv : nat) (num : N)
| LMerge (lv : nat) (num : N)
| LReload.

(** One operation; [None]: refused, nothing changes. *)
Definition lstep (c : tcfg) (o : lop) (s : lsm) : option lsm :=
  match o with
  | LFlush bad rs => Some (set_batch c bad rs s)
  | LRoll h => l0_roll c h s
  | LZero over mk fin sel h => compact_l0 c over mk fin sel h s
  | LDown over mk fin sel lv num => match lv with O => None | S _ => compact_level c over mk fin sel lv num s end
  | LPlace p lv num => in_place c p lv num s
  | LSplit cut mk lv num => split c cut mk lv num s
  | LMerge lv num => merge c lv num s
  | LReload => Some (reload s)
  end.

(** src/table_mgr.cc:271-301: a new table section; one table per partition. *)
Fixpoint init_tbls (c : tcfg) (n : nat) (h : N) (l : list tbl) : list tbl :=
  match n with
  | O => l
  | S n' => init_tbls c n' (h + 1) (add_tbl (new_tbl c h h []) l)
  end.
Definition lsm_new (c : tcfg) : lsm := mkL (tc_parts c) (init_tbls c (N.to_nat (tc_parts c)) 0 []) [].

End Hash.
