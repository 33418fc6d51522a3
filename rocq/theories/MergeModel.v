(** Model of L0-only mode (nextLevelExtension = false): merging two tables into one, and the
    steps of a compaction of level 0 as readers see them. *)
From Coq Require Import List NArith Bool.
From Verif Require Import Base LogFormatModel KeyModel BloomModel MemTableModel LsmModel.
Import ListNotations.
Local Open Scope N_scope.

(** src/table_file_compaction.cc:420-516, the loop of mergeCompactTo over the documents of the
    two files, both in key order (ForestDB's iterators; one that has reached its end stays
    there).  With equal keys the document of the file to merge wins unless this file's has a
    higher sequence number (lines 471-489).  Cancellation (lines 517-522) and failing writes,
    whose result is ignored (line 506), are not modelled. *)
Fixpoint merge2 (mine : list rec) : list rec -> list rec :=
  match mine with
  | [] => fun other => other
  | m :: mine' =>
      fix go (other : list rec) : list rec :=
        match other with
        | [] => m :: mine'
        | o :: other' =>
            match kcmp (r_key m) (r_key o) with
            | Lt => m :: merge2 mine' other
            | Gt => o :: go other'
            | Eq => (if r_seq o <? r_seq m then m else o) :: merge2 mine' other'
            end
        end
  end.

(** src/table_file_compaction.cc:491-516: deletions are dropped unless the caller keeps them. *)
Definition merge_out (keep : bool) (mine other : list rec) : list rec :=
  filter (fun r => keep || negb (is_del r)) (merge2 mine other).

Section Hash.
Variable hash : key -> N * N.
Variable part : key -> N.

(** The compacted table; its bloom filter holds every key written (lines 510-515). *)
Definition merge_tbl (c : tcfg) (keep : bool) (num h : N) (mine other : list rec) : tbl :=
  tf_sets hash true false (merge_out keep mine other) (new_tbl c num h []).

(** src/table_mgr.cc:804-825 and 844-868, getTwoSmallSrcTables / getTwoSmallNormalTables: the
    two tables with the smallest numbers. *)
Fixpoint ins_num (t : tbl) (l : list tbl) : list tbl :=
  match l with
  | [] => [t]
  | u :: l' => if b_num t <? b_num u then t :: l else u :: ins_num t l'
  end.
Definition by_num (l : list tbl) : list tbl := fold_right ins_num [] l.
Definition two (l : list tbl) : option tbl * option tbl :=
  match by_num l with a :: b :: _ => (Some a, Some b) | [a] => (Some a, None) | [] => (None, None) end.
Definition srcs (h : N) (l : list tbl) : list tbl := filter (fun t => b_src t) (by_hash h l).
Definition normals (h : N) (l : list tbl) : list tbl := filter (fun t => negb (b_src t)) (by_hash h l).

(** src/table_compaction.cc:797-903, compactL0 up to the change of status, when
    nextLevelExtension is off: the chosen tables, and the level with a new normal table if the
    chosen ones were normal. *)
Definition z_begin (c : tcfg) (h : N) (s : lsm) : option (tbl * option tbl * lsm) :=
  let mark o m l := match m with Some m => upd_tbl (b_num m) set_src (upd_tbl (b_num o) set_src l) | None => upd_tbl (b_num o) set_src l end in
  match two (srcs h (l_zero s)) with
  | (Some o, m) => Some (o, m, s)
  | (None, _) =>
      match two (normals h (l_zero s)) with
      | (Some o, m) => Some (o, m, mkL (l_next s + 1) (mark o m (add_tbl (new_tbl c (l_next s) h []) (l_zero s))) (l_up s))
      | (None, _) => None
      end
  end.

(** src/table_compaction.cc:910-927 (mergeCompactTo, or compactTo for a single table) and
    939-949: the compacted table is added next to its sources. *)
Definition z_add (c : tcfg) (keep : bool) (h : N) (o : tbl) (m : option tbl) (s : lsm) : lsm :=
  let other := match m with Some m => b_docs m | None => [] end in
  mkL (l_next s + 1) (add_tbl (merge_tbl c keep (l_next s) h (b_docs o) other) (l_zero s)) (l_up s).
(** src/table_compaction.cc:951-953: the sources are removed, one after the other. *)
Definition z_drop (t : tbl) (s : lsm) : lsm := mkL (l_next s) (rm_tbl (b_num t) (l_zero s)) (l_up s).

(** The whole compaction: [None] if it cannot start; otherwise the states between its steps,
    which concurrent readers see. *)
Definition z_steps (c : tcfg) (keep : bool) (h : N) (s : lsm) : option (list lsm) :=
  match z_begin c h s with
  | None => None
  | Some (o, m, s1) =>
      let s2 := z_add c keep h o m s1 in
      let s3 := z_drop o s2 in
      Some (match m with Some m => [s1; s2; s3; z_drop m s3] | None => [s1; s2; s3] end)
  end.

Inductive zop :=
| ZFlush (rs : list rec)
| ZCompact (keep : bool) (h : N)
| ZCancel (h : N)      (* cancelled: only the change of status remains *)
| ZReload.

Definition zstep (c : tcfg) (o : zop) (s : lsm) : option lsm :=
  match o with
  | ZFlush rs => Some (set_batch hash part c (fun _ => false) rs s)
  | ZCompact keep h => match z_steps c keep h s with Some ss => Some (last ss s) | None => None end
  | ZCancel h => match z_begin c h s with Some (_, _, s1) => Some s1 | None => None end
  | ZReload => Some (reload s)
  end.
End Hash.
