(** Background jobs of the table section that run at the same time: how they choose their tables,
    lock them and work on them (src/table_helper.cc:88-210, src/table_compaction.cc,
    src/table_split.cc).

    The operations of LsmModel.v are jobs that choose, lock and work in one step.  Here a job does
    these things one after the other, and operations and other jobs come in between.
    Simplifications: the work itself, with the locks held, is one step; a job that is cancelled has
    no effect (partial effects: LsmModel.v); level extension mode. *)
From Verif Require Import Base KeyModel LogFormatModel BloomModel MemTableModel LsmModel.
Local Open Scope N_scope.

(** compactInPlace, splitLevel, mergeLevel, compactLevelItr. *)
Inductive jkind := JPlace (preserve : bool) | JSplit (cut mk : nat -> bool) | JMerge | JDown (over mk : nat -> bool).
(** [jb_v]: the victim; [jb_dst]: the other tables, once they were chosen.  A job refers to tables
    by pointers and holds references, so that a removed table stays as it was.  [jb_hold]: the
    tables it has locked; [jb_ready]: all that it needs. *)
Record job := mkJb { jb_kind : jkind; jb_lv : nat; jb_v : tbl; jb_dst : option (list tbl); jb_hold : list N; jb_ready : bool }.
(** [j_locked]: TableMgr::lockedTables (table_mgr.h:567).  The order of the jobs has no meaning. *)
Record jst := mkJ { j_lsm : lsm; j_locked : list N; j_jobs : list job }.

Fixpoint without {A} (n : nat) (l : list A) : list A :=
  match l, n with [], _ => [] | _ :: t, O => t | x :: t, S n' => x :: without n' t end.
Definition mem (x : N) (l : list N) : bool := existsb (N.eqb x) l.

(** TableLockHolder (table_helper.cc:103-161): all or nothing.  (The numbers are distinct.) *)
Definition try_lock (want locked : list N) : option (list N) :=
  if existsb (fun x => mem x locked) want then None else Some (want ++ locked).
Definition unlock (held locked : list N) : list N := filter (fun x => negb (mem x held)) locked.

(** The tables that a pointer refers to, after a step that led to [s]. *)
Definition now (lv : nat) (s : lsm) (t : tbl) : tbl := match tbl_at (b_num t) (level lv s) with Some t' => t' | None => t end.
Definition dst_lv (j : job) : nat := match jb_kind j with JDown _ _ => S (jb_lv j) | _ => jb_lv j end.
Definition refresh (s : lsm) (j : job) : job :=
  mkJb (jb_kind j) (jb_lv j) (now (jb_lv j) s (jb_v j)) (option_map (map (now (dst_lv j) s)) (jb_dst j)) (jb_hold j) (jb_ready j).

Section Hash.
Variable hash : key -> N * N.
Variable part : key -> N.

(** ** The work *)

(** src/table_compaction.cc:660-757, see [in_place]. *)
Definition place_of (c : tcfg) (preserve : bool) (lv : nat) (v : tbl) (s : lsm) : lsm :=
  let keep := preserve || (tc_ext c && negb (is_last lv s)) in
  with_next (l_next s + 1) (set_level lv (rm_tbl (b_num v) (add_tbl (copy_live hash c keep (l_next s) v) (level lv s))) s).
(** src/table_split.cc:61-368, see [split]. *)
Definition split_of (c : tcfg) (cut mk : nat -> bool) (lv : nat) (v : tbl) (s : lsm) : lsm :=
  let gs := cuts cut 0 (b_docs v) (mkG (b_min v) None []) in
  if Nat.ltb 1 (length gs)
  then with_next (l_next s + N.of_nat (length gs)) (set_level lv (rm_tbl (b_num v) (add_all (new_tbls hash c mk 0 (l_next s) gs) (level lv s))) s)
  else s.
(** src/table_split.cc:370-518, see [merge]. *)
Definition merge_of (c : tcfg) (lv : nat) (v d : tbl) (s : lsm) : lsm :=
  let purge := tc_purge c && is_last lv s in
  set_level lv (rm_tbl (b_num v) (upd_tbl (b_num d) (tf_sets hash false purge (b_docs v)) (level lv s))) s.
(** src/table_compaction.cc:29-579, see [compact_victim]; [tabs]: the tables chosen in the next
    level.  What is written to a table that was removed is lost with it. *)
Definition down_of (c : tcfg) (over mk : nat -> bool) (lv : nat) (v : tbl) (tabs : list tbl) (s0 : lsm) : lsm :=
  let last := is_last lv s0 in
  let s := if last then extend s0 else s0 in
  let dst := level (S lv) s in
  let gs := groups over (b_min v) (b_docs v) tabs in
  let purge := tc_purge c && is_last (S lv) s in
  let news := new_tbls hash c mk 0 (l_next s) gs in
  let n' := l_next s + N.of_nat (length (filter (fun g => match g_tab g with None => true | _ => false end) gs)) in
  let s1 := set_level (S lv) (add_all news (write_old hash true purge (fun _ => true) gs dst)) s in
  let s2 := set_level lv (rm_tbl (b_num v) (level lv s1)) s1 in
  let fill := Nat.ltb 0 lv && negb last && (N.of_nat (length (level lv s2)) <? tc_parts c * 2) in
  if fill then with_next (n' + 1) (set_level lv (add_tbl (new_tbl c n' 0 (b_min v)) (level lv s2)) s2) else with_next n' s2.

Definition range_of (lv : nat) (v : tbl) (s : lsm) : list tbl := tables_range (b_min v) (max_key v) (level (S lv) s).

(** The tables that an operation locks. *)
Definition touches (c : tcfg) (o : lop) (s : lsm) : list N :=
  match o with
  | LZero _ _ _ _ h =>
      match l0_roll c h s with
      | Some s1 => match src_of h (l_zero s1) with Some v => b_num v :: map b_num (range_of 0 v s1) | None => [] end
      | None => []
      end
  | LDown _ _ _ _ lv num =>
      if is_last lv s then map b_num (level lv s)
      else match tbl_at num (level lv s) with Some v => num :: map b_num (range_of lv v s) | None => [] end
  | LPlace _ _ num | LSplit _ _ _ num => [num]
  | LMerge lv num => num :: match before num None (level lv s) with Some d => [b_num d] | None => [] end
  | _ => []
  end.
Definition is_down (j : job) : bool := match jb_kind j with JDown _ _ => true | _ => false end.
(** LevelLockHolder (table_helper.cc:166-210): one compaction to the next level at a time. *)
Definition level_locked (lv : nat) (js : list job) : bool :=
  existsb (fun j => is_down j && Nat.eqb (jb_lv j) lv && negb (is_nil (jb_hold j))) js.
(** compactStatus (table_compaction.cc:777-783): one compaction of a partition at a time. *)
Definition part_busy (h : N) (js : list job) : bool := existsb (fun j => Nat.eqb (jb_lv j) 0 && (b_hash (jb_v j) =? h)) js.
Definition blocked (o : lop) (js : list job) : bool :=
  match o with
  | LRoll h => part_busy h js
  | LZero _ _ _ _ h => part_busy h js || level_locked 0 js
  | LDown _ _ _ _ lv _ => level_locked lv js
  | LReload => negb (is_nil js)
  | _ => false
  end.

Inductive kop :=
| KOp (o : lop)                                  (* an operation in one step *)
| KPick (k : jkind) (lv : nat) (num : N)         (* pickVictimTable, table_compact_condition.cc:36-315, or compactL0 *)
| KRange (n : nat)                               (* table_compaction.cc:92-95, table_split.cc:388-404 *)
| KLock (n : nat)                                (* table_compaction.cc:78-84, 680-682; table_split.cc:83-84, 434-438 *)
| KLockDst (n : nat)                             (* table_compaction.cc:109-111 *)
| KWork (n : nat)
| KFail (n : nat).                               (* it gives up *)

Definition drop (n : nat) (j : job) (s : jst) : jst := mkJ (j_lsm s) (unlock (jb_hold j) (j_locked s)) (without n (j_jobs s)).
Definition put (n : nat) (j : job) (locked : list N) (s : jst) : jst := mkJ (j_lsm s) locked (j :: without n (j_jobs s)).
Definition with_lsm (l : lsm) (s : jst) : jst := mkJ l (j_locked s) (map (refresh l) (j_jobs s)).

Definition j_work (c : tcfg) (j : job) (s : lsm) : lsm :=
  match jb_kind j, jb_dst j with
  | JPlace p, _ => place_of c p (jb_lv j) (jb_v j) s
  | JSplit cut mk, _ => split_of c cut mk (jb_lv j) (jb_v j) s
  | JMerge, Some [d] => merge_of c (jb_lv j) (jb_v j) d s
  | JDown over mk, Some ts => down_of c over mk (jb_lv j) (jb_v j) ts s
  | _, _ => s
  end.

Definition j_step (c : tcfg) (o : kop) (s : jst) : option jst :=
  match o with
  | KOp o =>
      if blocked o (j_jobs s) || existsb (fun x => mem x (j_locked s)) (touches c o (j_lsm s)) then None
      else match lstep hash part c o (j_lsm s) with Some l => Some (with_lsm l s) | None => None end
  | KPick k lv num =>
      match tbl_at num (level lv (j_lsm s)) with
      | Some v =>
          if mem num (j_locked s) then None
          else if match k, lv with
                  | JDown _ _, O => b_src v && negb (part_busy (b_hash v) (j_jobs s))
                  | JDown _ _, S _ => negb (is_last lv (j_lsm s))
                  | _, O => false
                  | _, S _ => true
                  end
          then Some (mkJ (j_lsm s) (j_locked s) (mkJb k lv v None [] false :: j_jobs s)) else None
      | None => None
      end
  | KRange n =>
      match nth_error (j_jobs s) n with
      | Some (mkJb JMerge lv v None [] false) =>
          match before (b_num v) None (level lv (j_lsm s)) with
          | Some d => Some (put n (mkJb JMerge lv v (Some [d]) [] false) (j_locked s) s)
          | None => Some (drop n (mkJb JMerge lv v None [] false) s)
          end
      | Some (mkJb (JDown over mk) lv v None (x :: h) false) =>
          Some (put n (mkJb (JDown over mk) lv v (Some (range_of lv v (j_lsm s))) (x :: h) false) (j_locked s) s)
      | _ => None
      end
  | KLock n =>
      match nth_error (j_jobs s) n with
      | Some (mkJb k lv v d [] false) =>
          let want := match k, d with
                      | JMerge, Some [t] => Some (nodup N.eq_dec [b_num v; b_num t])
                      | JMerge, _ => None
                      | _, _ => Some [b_num v]
                      end in
          match want with
          | None => None
          | Some w =>
              match (if match k with JDown _ _ => level_locked lv (j_jobs s) | _ => false end then None else try_lock w (j_locked s)) with
              | None => Some (drop n (mkJb k lv v d [] false) s)
              | Some locked => Some (put n (mkJb k lv v d w (match k with JDown _ _ => false | _ => true end)) locked s)
              end
          end
      | _ => None
      end
  | KLockDst n =>
      match nth_error (j_jobs s) n with
      | Some (mkJb (JDown over mk) lv v (Some ts) (x :: h) false) =>
          match try_lock (nodup N.eq_dec (map b_num ts)) (j_locked s) with
          | None => Some (drop n (mkJb (JDown over mk) lv v (Some ts) (x :: h) false) s)
          | Some locked => Some (put n (mkJb (JDown over mk) lv v (Some ts) (nodup N.eq_dec (map b_num ts) ++ x :: h) true) locked s)
          end
      | _ => None
      end
  | KWork n =>
      match nth_error (j_jobs s) n with
      | Some j => if jb_ready j then Some (with_lsm (j_work c j (j_lsm s)) (drop n j s)) else None
      | None => None
      end
  | KFail n =>
      match nth_error (j_jobs s) n with Some j => Some (drop n j s) | None => None end
  end.

Definition j_new (c : tcfg) : jst := mkJ (lsm_new c) [] [].
End Hash.
