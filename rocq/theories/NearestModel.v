(** Nearest-key search: DB::getNearestRecordByKey (src/jungle.cc:743-833) over the log section
    (lm_nearest of LogMgrModel.v) and the table section.

    Simplifications: keys are compared by SizedBuf::cmp; fdb_get_nearest finds the closest document
    of the table; the lookup booster (table_file.cc:1262-1288), which answers exact matches only,
    is left out; [meta_only] is false. *)
From Verif Require Import Base KeyModel LogFormatModel BloomModel MemTableModel LogMgrModel DbModel LsmModel FullModel.
Local Open Scope N_scope.

(** ForestDB: fdb_get_nearest; src/table_file.cc:1204-1337, TableFile::getNearest. *)
Definition doc_near (o : sopt) (k : key) (docs : list rec) : option rec :=
  match o with
  | GE => find (fun d => kleb k (r_key d)) docs
  | G => find (fun d => kltb k (r_key d)) docs
  | SE => find (fun d => kleb (r_key d) k) (rev docs)
  | S_ => find (fun d => kltb (r_key d) k) (rev docs)
  | EQ => find (fun d => keqb k (r_key d)) docs
  end.

(** src/table_manifest.cc:752-757: the table found by skiplist_find_smaller_or_equal, or the first
    one, with its neighbours. *)
Fixpoint around (k : key) (prev : option tbl) (l : list tbl) : option (option tbl * tbl * option tbl) :=
  match l with
  | [] => None
  | t :: l' => match l' with
               | u :: _ => if kleb (b_min u) k then around k (Some t) l' else Some (prev, t, Some u)
               | [] => Some (prev, t, None)
               end
  end.
(** src/table_manifest.cc:748-774, getTablesNearest on a level above 0. *)
Definition tables_near (o : sopt) (k : key) (l : list tbl) : list tbl :=
  match around k None l with
  | None => []
  | Some (p, t, n) =>
      (match p with Some x => if is_smaller o then [x] else [] | None => [] end)
      ++ [t] ++ (match n with Some x => if is_greater o then [x] else [] | None => [] end)
  end.

(** src/table_mgr.cc:680-704, update_cur_nearest: on the same key the higher number. *)
Definition upd_tab (o : sopt) (cur : option rec) (r : rec) : option rec :=
  match cur with
  | None => Some r
  | Some c => match r_key c with
              | [] => Some r
              | _ => match (if is_greater o then kcmp (r_key r) (r_key c)
                            else if is_smaller o then kcmp (r_key c) (r_key r) else Eq) with
                     | Lt => Some r
                     | Eq => if r_seq c <? r_seq r then Some r else cur
                     | Gt => cur
                     end
              end
  end.
Definition near_tabs (o : sopt) (k : key) (ts : list tbl) (cur : option rec) : option rec :=
  fold_left (fun cur t => match doc_near o k (b_docs t) with Some r => upd_tab o cur r | None => cur end) ts cur.
(** src/table_mgr.cc:658-750, TableMgr::getNearest; level 0: every table
    (table_manifest.cc:740-744). *)
Definition tm_nearest (o : sopt) (k : key) (s : lsm) : option rec :=
  let r := fold_left (fun cur ts => near_tabs o k (tables_near o k ts) cur) (l_up s) (near_tabs o k (l_zero s) None) in
  if rec_empty r then None else r.

(** src/jungle.cc:776-832: the closer of the two, the newer one of the same key. *)
Definition choose (o : sopt) (l t : option rec) : res rec :=
  match (if rec_empty l then None else l), (if rec_empty t then None else t) with
  | None, None => Fail KEY_NOT_FOUND
  | Some x, None => Ok x
  | None, Some y => Ok y
  | Some x, Some y =>
      match kcmp (r_key x) (r_key y) with
      | Eq => if r_seq y <=? r_seq x then Ok x else Ok y
      | Lt => if is_greater o then Ok x else if is_smaller o then Ok y else Ok x
      | Gt => if is_greater o then Ok y else Ok x
      end
  end.

(** src/jungle.cc:743-833. *)
Definition near_end (o : sopt) (l : res rec) (t : option rec) : res rec :=
  match o with
  | EQ => Fail INVALID_PARAMETERS
  | _ => match l with
         | Undef => Undef
         | Ok r => choose o (Some r) t
         | Fail KEY_NOT_FOUND => choose o None t
         | Fail e => Fail e
         end
  end.
Definition f_nearest (c : cfg) (o : sopt) (k : key) (f : fdb) : res rec :=
  near_end o (lm_nearest c o k (d_log (fd_db f))) (tm_nearest o k (fd_lsm f)).

(** Through a snapshot.  The tables at the time of the snapshot are taken as one table with the
    records they had been given (tombstones included). *)
Definition snap_nearest (sn : snap) (o : sopt) (k : key) (d : db) : res rec :=
  match sn_files sn with
  | None => Undef
  | Some ns =>
      match pinned ns (g_files (d_log d) ++ d_gone d) with
      | None => Undef
      | Some fs => near_end o (lm_nearest_snap (sn_chk sn) fs o k)
                            (doc_near o k (fold_left (fun l r => if is_cmd r then l else fd_set r l) (sn_tab sn) []))
      end
  end.
