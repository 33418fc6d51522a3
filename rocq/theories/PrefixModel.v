(** Prefix search: DB::getRecordsByPrefix (src/jungle.cc:835-876) over the log section and the table
    section.

    Simplifications: keys are compared by SizedBuf::cmp; no custom hash of prefixes is set
    (table_manifest.cc:788-801, table_file.cc:1347-1356: then every level-0 table is searched and no
    bloom filter is used); values are not compressed; reading a table does not fail. *)
From Verif Require Import Base KeyModel LogFormatModel BloomModel MemTableModel LogMgrModel DbModel LsmModel FullModel IterModel LeafIterModel DbIterModel.
Local Open Scope N_scope.

(** src/log_mgr.cc:1166-1170, table_file.cc:1365-1369, table_manifest.cc:816-818: [k] starts
    with [p]. *)
Fixpoint starts (p k : key) : bool :=
  match p, k with
  | [], _ => true
  | a :: p', b :: k' => (a =? b) && starts p' k'
  | _ :: _, [] => false
  end.

Fixpoint while_prefix (p : key) (l : list rec) : list rec :=
  match l with
  | [] => []
  | r :: l' => if starts p (r_key r) then r :: while_prefix p l' else []
  end.

(** src/log_mgr.cc:1174-1192, the loop over the log iterator (the records it would pass to a
    callback that never stops).  [None]: the fuel runs out. *)
Fixpoint log_walk (fuel : nat) (p : key) (m : mit mki) : option (list rec) :=
  match fuel with
  | O => None
  | S f =>
      let r := m_get mki x_get m in
      if starts p (r_key r)
      then match m_next mki x_get x_next ByKey m with
           | Some (m', true) => match log_walk f p m' with Some l => Some (r :: l) | None => None end
           | Some (_, false) => Some [r]
           | None => None
           end
      else Some []
  end.
(** src/log_mgr.cc:1157-1195, LogMgr::getPrefix: an iterator from the prefix on; neither the
    checkpoint nor the list of log files of a snapshot is used. *)
Definition log_prefix (fuel : nat) (p : key) (g : lmgr) : option (list rec) :=
  match log_itr p [] g with
  | None => None
  | Some None => Some []
  | Some (Some m) => log_walk fuel p m
  end.

(** src/table_file.cc:1339-1449, TableFile::getPrefix: successive calls of fdb_get_nearest, the
    first one with GREATER_OR_EQUAL on the prefix, pass through the sorted documents. *)
Fixpoint drop_less (p : key) (l : list rec) : list rec :=
  match l with
  | [] => []
  | r :: l' => if kltb (r_key r) p then drop_less p l' else l
  end.
Definition doc_prefix (p : key) (docs : list rec) : list rec := while_prefix p (drop_less p docs).

(** src/table_manifest.cc:803-838, getTablesPrefix on a level above 0: the table the prefix belongs
    to (or the first one), and the next one if its minimum key starts with the prefix. *)
Definition tables_prefix (p : key) (ts : list tbl) : list tbl :=
  match from_floor p ts with
  | [] => []
  | t :: rest => t :: match rest with u :: _ => if starts p (b_min u) then [u] else [] | [] => [] end
  end.
(** src/table_mgr.cc:752-785, TableMgr::getPrefix. *)
Definition tab_prefix (p : key) (s : lsm) : list rec :=
  flat_map (fun t => doc_prefix p (b_docs t)) (l_zero s ++ flat_map (tables_prefix p) (l_up s)).

(** The callback sees the records one by one; [cb seen] is true if it stops after those in [seen].
    The result: what it has seen, and whether it stopped. *)
Fixpoint feed (cb : list rec -> bool) (seen l : list rec) : list rec * bool :=
  match l with
  | [] => (seen, false)
  | r :: l' => if cb (seen ++ [r]) then (seen ++ [r], true) else feed cb (seen ++ [r]) l'
  end.

(** src/jungle.cc:835-876. *)
Definition prefix_end (cb : list rec -> bool) (log tab : list rec) : res unit * list rec :=
  let '(seen, stop) := feed cb [] log in
  if stop then (Ok tt, seen)
  else let '(seen2, _) := feed cb seen tab in
       (match seen2 with [] => Fail KEY_NOT_FOUND | _ => Ok tt end, seen2).
Definition f_prefix (fuel : nat) (cb : list rec -> bool) (p : key) (f : fdb) : option (res unit * list rec) :=
  match log_prefix fuel p (d_log (fd_db f)) with
  | None => None
  | Some log => Some (prefix_end cb log (tab_prefix p (fd_lsm f)))
  end.

(** Through a snapshot: the log section is read as it is now (see [log_prefix]), the tables as they
    were; these are taken as one table with the records they had been given. *)
Definition snap_prefix (fuel : nat) (cb : list rec -> bool) (p : key) (sn : snap) (d : db) : option (res unit * list rec) :=
  match log_prefix fuel p (d_log d) with
  | None => None
  | Some log => Some (prefix_end cb log (doc_prefix p (fold_left (fun l r => if is_cmd r then l else fd_set r l) (sn_tab sn) [])))
  end.
