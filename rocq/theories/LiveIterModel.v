(** An iterator by key on a database that is written to while it is open.

    The iterator keeps pointers to the memtables of the log files it was opened on
    (src/log_iterator.cc:37-57 takes a reference of the file; src/memtable_iterator.cc keeps a
    skiplist node), so it sees what putNewRecord adds to them later.  The tables are read through
    snapshots of ForestDB, taken when the iterator is opened.

    Simplification: a write happens before or after a call of a memtable iterator, not within. *)
From Verif Require Import Base LogFormatModel KeyModel MemTableModel LogMgrModel LsmModel IterModel LeafIterModel DbIterModel.
Local Open Scope N_scope.

(** src/memtable.cc:412-442 on the memtable below the cursor. *)
Definition x_write (r : rec) (x : mki) : mki := mkX (fst (key_push r (x_nodes x))) (x_cur x) (x_start x) (x_end x) (x_from x) (x_upto x).
Definition x_writes (rs : list rec) (x : mki) : mki := fold_left (fun y r => x_write r y) rs x.

(** [v_todo]: for each of the coming calls of the memtable iterator, the records that are written
    to its file before that call. *)
Record lvi := mkV { v_it : mki; v_todo : list (list rec) }.
Definition v_now (v : lvi) : lvi := match v_todo v with [] => v | rs :: t => mkV (x_writes rs (v_it v)) t end.
Definition v_do (call : mki -> option (mki * bool)) (v : lvi) : option (lvi * bool) :=
  let w := v_now v in match call (v_it w) with Some (x, b) => Some (mkV x (v_todo w), b) | None => None end.
Definition v_get (v : lvi) : rec := x_get (v_it (v_now v)).
Definition v_next : lvi -> option (lvi * bool) := v_do x_next.
Definition v_prev : lvi -> option (lvi * bool) := v_do x_prev.
Definition v_seek (greater : bool) (t : rec) : lvi -> option (lvi * bool) := v_do (x_seek greater t).
Definition v_to_end : lvi -> option (lvi * bool) := v_do x_to_end.

(** src/iterator.cc:29-99, Iterator::init as in DbIterModel.v; [todo i] is what happens to the
    [i]-th log file of the iterator from then on. *)
Definition db_itr_live (fuel : nat) (todo : nat -> list (list rec)) (start end_ : key) (g : lmgr) (s : lsm) : option (option (dit lvi)) :=
  match log_leaves start end_ g with
  | None => None
  | Some l => d_init lvi v_get v_next ByKey fuel (m_init lvi v_get ByKey (number (map (fun x => mkV (snd x) (todo (fst x))) (number l)))) (tab_itr start end_ s)
  end.
