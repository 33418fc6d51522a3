(** Iterator (src/iterator.cc): the merge of one LogMgr::Iterator and one TableMgr::Iterator, with
    the deleted keys left out; and how the two find their sources. *)
From Verif Require Import Base LogFormatModel KeyModel BloomModel MemTableModel LogMgrModel LsmModel IterModel LeafIterModel IterSpec.
Local Open Scope N_scope.

(** src/db_internal.h:190-215, ItrItem: logItr or tableItr. *)
Inductive src (L : Type) := LogS (m : mit L) | TabS (m : mit tfi).
Arguments LogS {L} m.
Arguments TabS {L} m.

Section Db.
(** The leaf of the log iterator: by key or by sequence number (LeafIterModel.v). *)
Variable L : Type.
Variable l_get : L -> rec.
Variable l_next l_prev : L -> option (L * bool).
Variable l_seek : bool -> rec -> L -> option (L * bool).
Variable l_end : L -> option (L * bool).
Variable ty : itype.

Definition lift {A B} (f : A -> B) (x : option (A * bool)) : option (B * bool) :=
  match x with Some (a, b) => Some (f a, b) | None => None end.

(** The calls of src/iterator.cc:200-201, 208-213, 315-316, 461-482 on one of the two. *)
Definition s_get (s : src L) : rec := match s with LogS m => m_get L l_get m | TabS m => m_get tfi t_get m end.
Definition s_next (s : src L) : option (src L * bool) :=
  match s with LogS m => lift LogS (m_next L l_get l_next ty m) | TabS m => lift TabS (m_next tfi t_get t_next ty m) end.
Definition s_prev (s : src L) : option (src L * bool) :=
  match s with LogS m => lift LogS (m_prev L l_get l_prev ty m) | TabS m => lift TabS (m_prev tfi t_get t_prev ty m) end.
Definition s_seek (greater : bool) (t : rec) (s : src L) : option (src L * bool) :=
  match s with
  | LogS m => lift LogS (m_seek L l_get l_seek l_end ty greater false t m)
  | TabS m => lift TabS (m_seek tfi t_get (t_seek ty) t_to_end ty greater false t m)
  end.
(** gotoEnd of the inner iterators: seekInternal with goto_end (the record is not used). *)
Definition no_rec : rec := mkRec 0 INS [] [] [].
Definition s_end (s : src L) : option (src L * bool) :=
  match s with
  | LogS m => lift LogS (m_seek L l_get l_seek l_end ty false true no_rec m)
  | TabS m => lift TabS (m_seek tfi t_get (t_seek ty) t_to_end ty false true no_rec m)
  end.

Definition dit := mit (src L).
Definition d_cur (d : dit) : rec := m_get (src L) s_get d.
(** src/iterator.cc:158-173, get: [None] for KEY_NOT_FOUND (by key, a deleted key). *)
Definition shown (r : rec) : bool := match ty with ByKey => is_ins r | BySeq => true end.
Definition d_get (d : dit) : option rec := if shown (d_cur d) then Some (d_cur d) else None.

(** src/iterator.cc:283-383 and 175-281, next() and prev(): the loop over deleted keys; [None] if
    the fuel runs out. *)
Fixpoint d_next (fuel : nat) (d : dit) : option (dit * bool) :=
  match fuel with
  | O => None
  | S f => match m_next (src L) s_get s_next ty d with
           | Some (d', true) => if shown (d_cur d') then Some (d', true) else d_next f d'
           | other => other
           end
  end.
Fixpoint d_prev (fuel : nat) (d : dit) : option (dit * bool) :=
  match fuel with
  | O => None
  | S f => match m_prev (src L) s_get s_prev ty d with
           | Some (d', true) => if shown (d_cur d') then Some (d', true) else d_prev f d'
           | other => other
           end
  end.

(** src/iterator.cc:438-561, seekInternal; the loop of lines 545-557 ends after the first call,
    because next() and prev() themselves go on to a key that is not deleted. *)
Definition d_seek (fuel : nat) (greater end_ : bool) (t : rec) (d : dit) : option dit :=
  match m_seek (src L) s_get s_seek s_end ty greater end_ t d with
  | None => None
  | Some (d', _) =>
      if shown (d_cur d') then Some d'
      else match (if greater then d_next fuel d' else d_prev fuel d') with
           | Some (d2, _) => Some d2
           | None => None
           end
  end.

(** src/iterator.cc:29-99, init, and 101-156, initSN.  [Some None]: the empty iterator, on which
    every other call does nothing (lines 161, 178, 286, 446).  The log iterator is number 0 and the
    table iterator number 1: if both hold the same record, the log's comes first by sequence number
    and the table's by key (src/db_internal.h:216-256). *)
Definition sources (log tab : option (src L)) : list (nat * src L) :=
  match log with Some m => [(0%nat, m)] | None => [] end ++ match tab with Some m => [(1%nat, m)] | None => [] end.
Definition d_init (fuel : nat) (log : option (mit L)) (tab : option (mit tfi)) : option (option dit) :=
  match m_init (src L) s_get ty (sources (option_map LogS log) (option_map TabS tab)) with
  | None => Some None
  | Some d => if shown (d_cur d) then Some (Some d)
              else match d_next fuel d with Some (d', _) => Some (Some d') | None => None end
  end.

(** A user's loop: get, next, get, next, ... until next() fails. *)
Fixpoint d_scan (n fuel : nat) (d : dit) : list rec :=
  match n with
  | O => []
  | S n' => match d_get d with
            | None => []
            | Some r => r :: match d_next fuel d with Some (d', true) => d_scan n' fuel d' | _ => [] end
            end
  end.
(** The same with prev(). *)
Fixpoint d_scan_back (n fuel : nat) (d : dit) : list rec :=
  match n with
  | O => []
  | S n' => match d_get d with
            | None => []
            | Some r => r :: match d_prev fuel d with Some (d', true) => d_scan_back n' fuel d' | _ => [] end
            end
  end.

(** One call of a user, and the result of get() after each of several; seek's and gotoEnd's status
    is not kept. *)
Definition d_move (fuel : nat) (m : move) (d : dit) : option (dit * bool) :=
  match m with
  | Next => d_next fuel d
  | Prev => d_prev fuel d
  | SeekG t => match d_seek fuel true false t d with Some d' => Some (d', true) | None => None end
  | SeekS t => match d_seek fuel false false t d with Some d' => Some (d', true) | None => None end
  | ToEnd => match d_seek fuel false true no_rec d with Some d' => Some (d', true) | None => None end
  end.
Fixpoint d_moves (fuel : nat) (ms : list move) (d : dit) : option (list (bool * option rec)) :=
  match ms with
  | [] => Some []
  | m :: ms' => match d_move fuel m d with
                | Some (d', b) => match d_moves fuel ms' d' with Some out => Some ((b, d_get d') :: out) | None => None end
                | None => None
                end
  end.
End Db.

(** ** Finding the sources *)

(** src/log_mgr.cc:1800-1834, getAvailSeqRange; [None]: it does not return. *)
Definition avail_range (g : lmgr) : option (N * N) :=
  match last_flushed g, max_num g with
  | Some lf, Some mx =>
      match file_at lf (g_files g), file_at mx (g_files g) with
      | Some a, Some b =>
          Some (if m_flushed (f_mt a) =? NIL then 0 else m_flushed (f_mt a) + 1, m_max (f_mt b))
      | _, _ => None
      end
  | _, _ => None
  end.

(** src/log_iterator.cc:94-124 without a snapshot: the range of numbers the iterator sees; [inr]:
    no record available. *)
Definition itr_range (min max : N) (g : lmgr) : option ((N * N) + unit) :=
  match avail_range g with
  | None => None
  | Some (a, b) =>
      let a' := if valid_number min && (a <? min) then min else a in
      let b' := if valid_number max && (max <? b) then max else b in
      let b2 := if negb (g_bar g =? 0) && (g_bar g <? b') then g_bar g else b' in
      Some (if b2 <? a' then inr tt else inl (a', b2))
  end.

(** src/log_iterator.cc:156-180, the files; 182-213 are covered by [files_between]. *)
Definition itr_files (a b : N) (g : lmgr) : option (N * N) :=
  match last_flushed g, max_num g with
  | Some lf, Some mx =>
      let lo := if valid_number a then match file_by_seq a false (g_files g) with Some f => f_num f | None => lf end else lf in
      let hi := if valid_number b then match file_by_seq b false (g_files g) with Some f => N.max lo (f_num f) | None => mx end else mx in
      Some (lo, hi)
  | _, _ => None
  end.
(** src/log_iterator.cc:182-213: the files numbered from [lo] on, [n] of them; one that does not
    exist makes the loop start again, for ever unless something else changes. *)
Fixpoint files_between (n : nat) (lo : N) (fs : list lgf) : option (list lgf) :=
  match n with
  | O => Some []
  | S n' => match file_at lo fs, files_between n' (lo + 1) fs with Some f, Some l => Some (f :: l) | _, _ => None end
  end.

(** src/log_iterator.cc:82-233, initInternal by key, with addLogFileItr (37-57): one leaf per file
    that has a visible key in the range; [Some None] if there is none. *)
Definition number {A} (l : list A) : list (nat * A) := combine (seq 0 (length l)) l.
Definition some_of {A} (l : list (option A)) : list A := flat_map (fun x => match x with Some y => [y] | None => [] end) l.
Definition log_leaves (start end_ : key) (g : lmgr) : option (list mki) :=
  match itr_range NIL NIL g with
  | None => None
  | Some (inr _) => Some []
  | Some (inl (a, b)) =>
      match itr_files a b g with
      | None => None
      | Some (lo, hi) =>
          match files_between (N.to_nat (hi + 1 - lo)) lo (g_files g) with
          | None => None
          | Some fs => Some (some_of (map (fun f => x_init (m_key (f_mt f)) start end_ a b) fs))
          end
      end
  end.
Definition log_itr (start end_ : key) (g : lmgr) : option (option (mit mki)) :=
  match log_leaves start end_ g with
  | None => None
  | Some l => Some (m_init mki x_get ByKey (number l))
  end.

(** src/table_iterator.cc:91-177, initInternal by key: every table of level 0 and, from the other
    levels, those getTablesRange returns; ForestDB's iterator delivers the documents of the table
    in the range. *)
Definition in_range (start end_ : key) (k : key) : bool :=
  kleb start k && (is_nil end_ || kleb k end_).
Definition tab_tables (start end_ : key) (s : lsm) : list tbl :=
  l_zero s ++ flat_map (tables_range start end_) (l_up s).
Definition tab_leaves (start end_ : key) (s : lsm) : list tfi :=
  some_of (map (fun t => t_init (filter (fun r => in_range start end_ (r_key r)) (b_docs t))) (tab_tables start end_ s)).
Definition tab_itr (start end_ : key) (s : lsm) : option (mit tfi) :=
  m_init tfi t_get ByKey (number (tab_leaves start end_ s)).

(** Iterator::init on the whole database. *)
Definition db_itr (fuel : nat) (start end_ : key) (g : lmgr) (s : lsm) : option (option (dit mki)) :=
  match log_itr start end_ g with
  | None => None
  | Some log => d_init mki x_get x_next ByKey fuel log (tab_itr start end_ s)
  end.
