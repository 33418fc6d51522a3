(** DB::discardDirty (src/jungle.cc:465-470, src/log_mgr.cc:1312-1359) on the database of DbModel.v,
    and the key iterator of the log section with the node that discardDirty can leave empty.

    [lm_discard] and [mt_discard] (LogMgrModel.v, MemTableModel.v) are the calls below DB::discardDirty.
    Left out: a sync running at the same time (syncSema answers OPERATION_IN_PROGRESS then,
    log_mgr.cc:1318-1322), the database in read-only mode (ReadOnlyModel.v). *)
From Verif Require Import Base KeyModel LogFormatModel BloomModel MemTableModel LogMgrModel IterModel LeafIterModel
  DbModel DbIterModel.
Local Open Scope N_scope.

(** src/jungle.cc:465-470, DB::discardDirty. *)
Definition db_discard (b : N) (d : db) : res unit * db :=
  let (x, g) := lm_discard b (d_log d) in (x, mkDb g (d_tab d) (d_gone d) (d_bat d)).

(** src/memtable.cc:105-114, getMinSeq: the first element of an empty list is read (after
    assert(0), which a release build leaves out). *)
Definition min_seq_u (rs : list rec) : option N := match rs with r :: _ => Some (r_seq r) | [] => None end.
(** src/memtable.cc:116-142, validKeyExist with allow_tombstone. *)
Definition node_valid_u (from upto : N) (rs : list rec) : option bool :=
  match min_seq_u rs with
  | None => None
  | Some s => Some (negb (upto <? s) && match latest_rec from upto rs with Some _ => true | None => false end)
  end.
(** src/memtable_iterator.cc:61-78 (init), 205-225 (next): the first valid node not above the end
    key. *)
Fixpoint fwd_valid_u (x : mki) (l : list (key * list rec)) : res (option key) :=
  match l with
  | [] => Ok None
  | (k, rs) :: t => if above_end x k then Ok None
                    else match node_valid_u (x_from x) (x_upto x) rs with
                         | None => Undef
                         | Some true => Ok (Some k)
                         | Some false => fwd_valid_u x t
                         end
  end.
(** src/memtable_iterator.cc:34-81, init. *)
Definition x_init_u (nodes : list (key * list rec)) (start end_ : key) (from upto : N) : res (option mki) :=
  let x := mkX nodes [] start end_ from upto in
  match fwd_valid_u x (nodes_ge start nodes) with
  | Ok (Some k) => Ok (Some (x_move x k))
  | Ok None => Ok None
  | Fail e => Fail e
  | Undef => Undef
  end.
(** src/memtable_iterator.cc:198-226, next: the new position and whether there was one. *)
Definition x_next_u (x : mki) : res (mki * bool) :=
  match fwd_valid_u x (nodes_gt (x_cur x) (x_nodes x)) with
  | Ok (Some k) => Ok (x_move x k, true)
  | Ok None => Ok (x, false)
  | Fail e => Fail e
  | Undef => Undef
  end.

Fixpoint all_ok {A} (l : list (res (option A))) : res (list A) :=
  match l with
  | [] => Ok []
  | Ok o :: t => match all_ok t with Ok xs => Ok (match o with Some x => x :: xs | None => xs end) | other => other end
  | Fail e :: _ => Fail e
  | Undef :: _ => Undef
  end.

(** src/log_iterator.cc:82-233, initInternal by key without a snapshot (as [log_leaves] in
    DbIterModel.v): the leaves of the iterator that DB users open with Iterator::init.  A missing
    file, which makes it try for ever, is [Fail NOT_INITIALIZED_ST]. *)
Definition log_open (start end_ : key) (g : lmgr) : res (list mki) :=
  match itr_range NIL NIL g with
  | None => Fail NOT_INITIALIZED_ST
  | Some (inr _) => Ok []
  | Some (inl (a, b)) =>
      match itr_files a b g with
      | None => Fail NOT_INITIALIZED_ST
      | Some (lo, hi) =>
          match DbIterModel.files_between (N.to_nat (hi + 1 - lo)) lo (g_files g) with
          | None => Fail NOT_INITIALIZED_ST
          | Some fs => all_ok (map (fun f => x_init_u (m_key (f_mt f)) start end_ a b) fs)
          end
      end
  end.
