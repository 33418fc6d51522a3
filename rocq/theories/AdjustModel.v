(** Model of src/table_mgr.cc:252-265 and 325-445: when an existing database is opened with
    another number of level-0 partitions, all tables of level 0 are compacted into level 1 and
    replaced by empty tables of the new number. *)
From Coq Require Import List NArith Bool Lia Arith.
From Verif Require Import Base LogFormatModel KeyModel BloomModel MemTableModel LsmModel.
Import ListNotations.
Local Open Scope N_scope.

Section Hash.
Variable hash : key -> N * N.

(** src/table_compaction.cc:29-579, compactLevelItr on table [num] of level 0 with
    [doNotRemoveOldFile] (line 514): as [compact_victim hash c over mk fin sel 0 num] of
    LsmModel.v, but the table stays where it is. *)
Definition compact_keep (c : tcfg) (over : nat -> bool) (mk : nat -> bool) (fin : bool) (sel : rec -> bool)
    (num : N) (s0 : lsm) : option lsm :=
  match tbl_at num (level 0 s0) with
  | None => None
  | Some v =>
      let s := if is_last 0 s0 then extend s0 else s0 in
      let dst := level 1 s in
      let gs := groups over (b_min v) (b_docs v) (tables_range (b_min v) (max_key v) dst) in
      let purge := tc_purge c && is_last 1 s in
      if fin then
        let news := new_tbls hash c mk 0 (l_next s) gs in
        let n' := l_next s + N.of_nat (length (filter (fun g => match g_tab g with None => true | _ => false end) gs)) in
        Some (with_next n' (set_level 1 (add_all news (write_old hash true purge (fun _ => true) gs dst)) s))
      else Some (set_level 1 (write_old hash true purge sel gs dst) s)
  end.

(** Lines 377-386: the tables of one partition, in the order of the list.  [ov] gives the
    decisions of line 201-285 of table_compaction.cc (which output is full) for each table, [mk]
    whether the files could be created. *)
Fixpoint adj_tables (c : tcfg) (ov mk : N -> nat -> bool) (ts : list tbl) (s : lsm) : option lsm :=
  match ts with
  | [] => Some s
  | t :: ts' => match compact_keep c (ov (b_num t)) (mk (b_num t)) true (fun _ => true) (b_num t) s with
                | Some s' => adj_tables c ov mk ts' s'
                | None => None
                end
  end.

(** src/table_manifest.cc:580-608, getL0Tables, for the partitions [h], [h+1], ... (lines 345-400):
    the list is not changed by the compactions, so it is taken once. *)
Fixpoint adj_list (n : nat) (h : N) (l : list tbl) : list tbl :=
  match n with O => [] | S n' => by_hash h l ++ adj_list n' (h + 1) l end.

(** Lines 413-423: the new tables, numbered from [num]. *)
Fixpoint adj_new (c : tcfg) (n : nat) (num h : N) (l : list tbl) : list tbl :=
  match n with O => l | S n' => adj_new c n' (num + 1) (h + 1) (add_tbl (new_tbl c num h []) l) end.

(** The same configuration with [p] partitions. *)
Definition with_parts (p : N) (c : tcfg) : tcfg := mkTC p (tc_bits c) (tc_bfget c) (tc_ext c) (tc_purge c).

(** src/table_mgr.cc:325-445, adjustNumL0Partitions.  [None]: an error; the old number stays in
    use (lines 257-262).  Not modelled: failures of lines 413-423. *)
Definition adjust (c : tcfg) (p : N) (ov mk : N -> nat -> bool) (s : lsm) : option lsm :=
  let old := adj_list (N.to_nat (tc_parts c)) 0 (l_zero s) in
  match adj_tables c ov mk old s with
  | None => None
  | Some s1 =>
      let z := adj_new (with_parts p c) (N.to_nat p) (l_next s1) 0 (l_zero s1) in
      Some (mkL (l_next s1 + p) (fold_left (fun z t => rm_tbl (b_num t) z) old z) (l_up s1))
  end.

End Hash.
