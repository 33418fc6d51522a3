(** The leaves of the merging iterators: MemTable::Iterator (src/memtable_iterator.cc), used
    through LogFile::Iterator (src/log_file.cc:795-870, plain forwarding), and TableFile::Iterator
    (src/table_file_iterator.cc) over ForestDB's iterator.  No custom comparison function. *)
From Verif Require Import Base LogFormatModel KeyModel MemTableModel IterModel.
Local Open Scope N_scope.

(** src/memtable.h, MemTable::Iterator by key.  [x_nodes]: idxByKey as it is at the time of the
    call; [x_cur]: the key of the node the cursor holds. *)
Record mki := mkX { x_nodes : list (key * list rec); x_cur : key; x_start : key; x_end : key; x_from : N; x_upto : N }.
Definition x_move (x : mki) (k : key) : mki := mkX (x_nodes x) k (x_start x) (x_end x) (x_from x) (x_upto x).

(** src/memtable.cc:105-114, getMinSeq (the list is never empty), and 116-142, validKeyExist with
    allow_tombstone. *)
Definition min_seq_of (rs : list rec) : N := match rs with r :: _ => r_seq r | [] => 0 end.
Definition node_valid (from upto : N) (rs : list rec) : bool :=
  negb (upto <? min_seq_of rs) && match latest_rec from upto rs with Some _ => true | None => false end.

Definition above_end (x : mki) (k : key) : bool := negb (keqb (x_end x) []) && kltb (x_end x) k.
Definition below_start (x : mki) (k : key) : bool := negb (keqb (x_start x) []) && kltb k (x_start x).

(** src/memtable_iterator.cc:61-78 (init), 205-225 (next), 316-334 (findFirstValidNode forward):
    the first valid node of [l], not above the end key. *)
Fixpoint fwd_valid (x : mki) (l : list (key * list rec)) : option key :=
  match l with
  | [] => None
  | (k, rs) :: t => if above_end x k then None
                    else if node_valid (x_from x) (x_upto x) rs then Some k else fwd_valid x t
  end.
(** src/memtable_iterator.cc:159-176 (prev), 337-354 (findFirstValidNode backward). *)
Fixpoint bwd_valid (x : mki) (l : list (key * list rec)) : option key :=
  match l with
  | [] => None
  | (k, rs) :: t => if below_start x k then None
                    else if node_valid (x_from x) (x_upto x) rs then Some k else bwd_valid x t
  end.

(** skiplist_find_greater_or_equal, skiplist_find_smaller_or_equal, skiplist_next, skiplist_prev:
    the nodes from the found one on, in the direction of the search. *)
Definition nodes_ge (k : key) (l : list (key * list rec)) := filter (fun n => kleb k (fst n)) l.
Definition nodes_le (k : key) (l : list (key * list rec)) := rev (filter (fun n => kleb (fst n) k) l).
Definition nodes_gt (k : key) (l : list (key * list rec)) := filter (fun n => kltb k (fst n)) l.
Definition nodes_lt (k : key) (l : list (key * list rec)) := rev (filter (fun n => kltb (fst n) k) l).

(** src/memtable_iterator.cc:34-81, init. *)
Definition x_init (nodes : list (key * list rec)) (start end_ : key) (from upto : N) : option mki :=
  let x := mkX nodes [] start end_ from upto in
  match fwd_valid x (nodes_ge start nodes) with Some k => Some (x_move x k) | None => None end.

(** src/memtable_iterator.cc:133-143, get; undefined if the node has no visible record. *)
Definition x_get (x : mki) : rec :=
  match find (fun n => keqb (fst n) (x_cur x)) (x_nodes x) with
  | Some n => match latest_rec (x_from x) (x_upto x) (snd n) with Some r => r | None => mkRec 0 INS [] [] [] end
  | None => mkRec 0 INS [] [] []
  end.

(** src/memtable_iterator.cc:198-244 and 152-196, next and prev. *)
Definition x_next (x : mki) : option (mki * bool) :=
  match fwd_valid x (nodes_gt (x_cur x) (x_nodes x)) with Some k => Some (x_move x k, true) | None => Some (x, false) end.
Definition x_prev (x : mki) : option (mki * bool) :=
  match bwd_valid x (nodes_lt (x_cur x) (x_nodes x)) with Some k => Some (x_move x k, true) | None => Some (x, false) end.

(** src/memtable_iterator.cc:246-311, seek to the key of [t]. *)
Definition x_seek (greater : bool) (t : rec) (x : mki) : option (mki * bool) :=
  let q := if greater && keqb (r_key t) [] && negb (keqb (x_start x) []) then x_start x else r_key t in
  let found :=
    if greater then
      match nodes_ge q (x_nodes x) with
      | [] => bwd_valid x (if keqb (x_end x) [] then rev (x_nodes x) else nodes_le (x_end x) (x_nodes x))
      | l => fwd_valid x l
      end
    else
      match nodes_le q (x_nodes x) with
      | [] => fwd_valid x (if keqb (x_start x) [] then x_nodes x else nodes_ge (x_start x) (x_nodes x))
      | l => bwd_valid x l
      end in
  match found with Some k => Some (x_move x k, true) | None => Some (x, false) end.

(** src/memtable_iterator.cc:430-456, gotoEnd. *)
Definition x_to_end (x : mki) : option (mki * bool) :=
  match bwd_valid x (if keqb (x_end x) [] then rev (x_nodes x) else nodes_le (x_end x) (x_nodes x)) with
  | Some k => Some (x_move x k, true)
  | None => Some (x, false)
  end.

(** ** By sequence number *)

(** src/memtable.h, MemTable::Iterator by sequence number: idxBySeq, the number the cursor is at,
    minSeq, maxSeq. *)
Record msi := mkY { y_nodes : list rec; y_cur : N; y_min : N; y_max : N }.
Definition y_move (y : msi) (s : N) : msi := mkY (y_nodes y) s (y_min y) (y_max y).

(** src/memtable_iterator.cc:83-131, initSN; the failures are [None]. *)
Definition y_init (m : mt) (min max : N) (log_store_snapshot : bool) : option msi :=
  if m_max m =? NIL then None
  else
    let a := if negb (m_min m =? NIL) && (min <? m_min m) then m_min m else min in
    let b := if negb log_store_snapshot && negb (m_flushed m =? NIL) && (a <? m_flushed m) then m_flushed m else a in
    let c := if m_max m <? b then m_max m else b in
    if max <? c then None
    else match find (fun r => c <=? r_seq r) (m_seq m) with
         | None => None
         | Some r =>
             let d := if negb (m_min m =? NIL) && (max <? m_min m) then m_min m else max in
             let e := if m_max m <? d then m_max m else d in
             Some (mkY (m_seq m) (r_seq r) c e)
         end.

Definition y_get (y : msi) : rec :=
  match seq_find (y_cur y) (y_nodes y) with Some r => r | None => mkRec 0 INS [] [] [] end.

(** src/memtable_iterator.cc:227-241 and 179-193. *)
Definition y_next (y : msi) : option (msi * bool) :=
  match find (fun r => y_cur y <? r_seq r) (y_nodes y) with
  | Some r => if y_max y <? r_seq r then Some (y, false) else Some (y_move y (r_seq r), true)
  | None => Some (y, false)
  end.
Definition y_prev (y : msi) : option (msi * bool) :=
  match find (fun r => r_seq r <? y_cur y) (rev (y_nodes y)) with
  | Some r => if r_seq r <? y_min y then Some (y, false) else Some (y_move y (r_seq r), true)
  | None => Some (y, false)
  end.

(** src/memtable_iterator.cc:359-402, seekSN. *)
Definition y_ge (s : N) (y : msi) := find (fun r => s <=? r_seq r) (y_nodes y).
Definition y_le (s : N) (y : msi) := find (fun r => r_seq r <=? s) (rev (y_nodes y)).
Definition y_seek_sn (greater : bool) (s : N) (y : msi) : option (msi * bool) :=
  let found :=
    if greater then
      match y_ge (if s <? y_min y then y_min y else s) y with Some r => Some r | None => y_le (y_max y) y end
    else
      match y_le (if s <? y_max y then y_max y else s) y with Some r => Some r | None => y_ge (y_min y) y end in
  match found with Some r => Some (y_move y (r_seq r), true) | None => Some (y, false) end.
Definition y_seek (greater : bool) (t : rec) (y : msi) := y_seek_sn greater (r_seq t) y.
(** src/memtable_iterator.cc:451-453. *)
Definition y_to_end (y : msi) := y_seek_sn false (y_max y) y.

(** ** Tables *)

(** src/table_file_iterator.cc, over the contract of ForestDB's iterator: a cursor over the
    documents of the snapshot in the range, in order; [t_docs] is that list. *)
Record tfi := mkT { t_docs : list rec; t_pos : nat }.
Definition t_get (t : tfi) : rec := nth (t_pos t) (t_docs t) (mkRec 0 INS [] [] []).
(** 240-264, prev and next: a failed move is undone. *)
Definition t_next (t : tfi) : option (tfi * bool) :=
  if Nat.ltb (S (t_pos t)) (length (t_docs t)) then Some (mkT (t_docs t) (S (t_pos t)), true) else Some (t, false).
Definition t_prev (t : tfi) : option (tfi * bool) :=
  match t_pos t with O => Some (t, false) | S p => Some (mkT (t_docs t) p, true) end.
(** 266-309, seek and seekSN: at the last (first) document if there is none in the direction. *)
Fixpoint pos_of (p : rec -> bool) (l : list rec) : option nat :=
  match l with [] => None | x :: l' => if p x then Some O else option_map S (pos_of p l') end.
Definition t_seek (ty : itype) (greater : bool) (q : rec) (t : tfi) : option (tfi * bool) :=
  if match ty with ByKey => keqb (r_key q) [] | BySeq => false end then Some (mkT (t_docs t) 0, true)
  else
    let n := length (t_docs t) in
    let p := if greater
             then match pos_of (fun x => negb (is_lt (cmpr ty x q))) (t_docs t) with Some i => i | None => pred n end
             else match pos_of (fun x => negb (is_gt (cmpr ty x q))) (rev (t_docs t)) with Some i => (pred n - i)%nat | None => O end in
    Some (mkT (t_docs t) p, true).
Definition t_to_end (t : tfi) : option (tfi * bool) := Some (mkT (t_docs t) (pred (length (t_docs t))), true).
(** src/table_iterator.cc:38-66: a table without a document in the range is left out. *)
Definition t_init (docs : list rec) : option tfi := match docs with [] => None | _ => Some (mkT docs 0) end.
