(** Iteration by sequence number over the whole database. *)
From Verif Require Import Base LogFormatModel KeyModel MemTableModel LogMgrModel LsmModel IterModel LeafIterModel DbIterModel.
Local Open Scope N_scope.

(** src/log_iterator.cc:82-233, initInternal by number with addLogFileItr (37-57), without a
    snapshot: one leaf per file on which MemTable::Iterator::initSN succeeds; its status is
    otherwise ignored. *)
Definition log_leaves_sn (min max : N) (g : lmgr) : option (list msi) :=
  match itr_range min max g with
  | None => None
  | Some (inr _) => Some []
  | Some (inl (a, b)) =>
      match itr_files a b g with
      | None => None
      | Some (lo, hi) =>
          match files_between (N.to_nat (hi + 1 - lo)) lo (g_files g) with
          | None => None
          | Some fs => Some (some_of (map (fun f => y_init (f_mt f) a b false) fs))
          end
      end
  end.

(** src/table_iterator.cc:91-177 by number (every table of every level: 144, 146 with empty keys)
    and src/table_file_iterator.cc:93-155, TableFile::Iterator::initSN: the bounds handed to
    ForestDB, whose iterator delivers the documents of the table in the range in the order of their
    numbers.  A maximum of 0 means no maximum to ForestDB. *)
Definition in_seqs (min max : N) (s : N) : bool :=
  ((if valid_number min then min else 0) <=? s) &&
  (let m := if valid_number max then max else 0 in (m =? 0) || (s <=? m)).
Fixpoint by_number (r : rec) (l : list rec) : list rec :=
  match l with
  | [] => [r]
  | x :: t => if r_seq r <=? r_seq x then r :: l else x :: by_number r t
  end.
Definition sort_numbers (l : list rec) : list rec := fold_right by_number [] l.
Definition tab_leaves_sn (min max : N) (s : lsm) : list tfi :=
  some_of (map (fun t => t_init (sort_numbers (filter (fun r => in_seqs min max (r_seq r)) (b_docs t)))) (tab_tables [] [] s)).

(** src/iterator.cc:101-156, Iterator::initSN. *)
Definition db_itr_sn (fuel : nat) (min max : N) (g : lmgr) (s : lsm) : option (option (dit msi)) :=
  match log_leaves_sn min max g with
  | None => None
  | Some l => d_init msi y_get y_next BySeq fuel (m_init msi y_get BySeq (number l)) (m_init tfi t_get BySeq (number (tab_leaves_sn min max s)))
  end.
