(** Which table the compactor takes next on a level above 0
    (src/table_compact_condition.cc:36-345 and 649-760).

    Simplifications: table stacks (deprecated) are left out, so that every table is a base table;
    the products with 1.5, 0.2, 0.4 and 1.6, which the code computes in floating point, are exact
    here; the sum of the active sizes of a level does not wrap; the debug parameters forceMerge and
    urgentCompactionRatio are off.  The list of tables is one consistent view. *)
From Verif Require Import Base KeyModel.
Local Open Scope N_scope.

(** src/table_manifest.h, TableInfo: the number, the smallest key, prevTableSearchRequired, whether
    the table is in TableMgr::lockedTables, and what getStats returns: the size of the active data
    and the size of the file, or an error. *)
Record vtab := mkV { v_num : N; v_min : key; v_fix : bool; v_locked : bool; v_stats : option (N * N) }.

(** src/table_compact_condition.cc:54-55, 60-61, 113, 127-142, 149, 158-165, 233: the limits in use.  [vc_factor] is
    compactionFactor, or itcOpt.factor when traffic is idle; [vc_urgent] is
    urgentCompactionMaxTableIdx, 0 if not set. *)
Record vcfg := mkVc { vc_max : N; vc_tables : N; vc_file : N; vc_factor : N; vc_merge : N; vc_urgent : N }.

(** src/table_compact_condition.cc:88-93: not locked, and the statistics can be read. *)
Definition stats_of (t : vtab) : option (N * N) := if v_locked t then None else v_stats t.

(** src/table_compact_condition.cc:151, in 64 bits. *)
Definition ratio (w tot : N) : N := (tot * 100) mod 2 ^ 64 / w.

(** src/table_compact_condition.cc:145-173, STALE_RATIO: the first table with the largest ratio. *)
Fixpoint pick_stale (c : vcfg) (honor : bool) (ts : list vtab) (best : N) (v : option vtab) : option vtab :=
  match ts with
  | [] => v
  | t :: r =>
      match stats_of t with
      | None => pick_stale c honor r best v
      | Some (w, tot) =>
          if (w =? 0) || (tot <? vc_file c) || (honor && (ratio w tot <? vc_factor c)) then pick_stale c honor r best v
          else if best <? ratio w tot then pick_stale c honor r (ratio w tot) (Some t)
          else pick_stale c honor r best v
      end
  end.

(** src/table_compact_condition.cc:116-139, WORKING_SET_SIZE and WORKING_SET_SIZE_SPLIT: is the
    table a candidate. *)
Definition over_limit (c : vcfg) (split honor : bool) (t : vtab) : bool :=
  match stats_of t with
  | None => false
  | Some (w, _) =>
      if honor
      then if negb split && negb (vc_urgent c =? 0) then v_num t <=? vc_urgent c
           else if split then 3 * vc_max c <? 2 * w else vc_max c <? w
      else true
  end.
(** src/table_compact_condition.cc:262-275: the candidate with the smallest number. *)
Fixpoint oldest (ts : list vtab) (least : N) (v : option vtab) : option vtab :=
  match ts with
  | [] => v
  | t :: r => if v_num t <? least then oldest r (v_num t) (Some t) else oldest r least v
  end.
Definition pick_wss (c : vcfg) (split honor : bool) (ts : list vtab) : option vtab :=
  oldest (filter (over_limit c split honor) ts) (2 ^ 64 - 1) None.

(** src/table_compact_condition.cc:112-116, 192-194: the average active size of the level. *)
Fixpoint sum_big (c : vcfg) (ts : list vtab) (sum num : N) : N * N :=
  match ts with
  | [] => (sum, num)
  | t :: r => match stats_of t with
              | Some (w, tot) => if vc_file c <? tot then sum_big c r (sum + w) (num + 1) else sum_big c r sum num
              | None => sum_big c r sum num
              end
  end.
Definition average (c : vcfg) (ts : list vtab) : N := let (s, n) := sum_big c ts 0 0 in if n =? 0 then s else s / n.

(** src/table_compact_condition.cc:175-188, SMALL_WORKING_SET: the smallest table with a non-empty smallest
    key that is not the last one. *)
Fixpoint smallest (ts : list vtab) (least : N) (v : option vtab) : N * option vtab :=
  match ts with
  | [] => (least, v)
  | t :: r =>
      match stats_of t with
      | Some (w, _) =>
          if negb (match v_min t with [] => true | _ => false end) && negb (match r with [] => true | _ => false end) && (w <? least)
          then smallest r w (Some t) else smallest r least v
      | None => smallest r least v
      end
  end.
(** src/table_compact_condition.cc:215-253: the first table that may be merged with the one before it.
    No look at the locks; the status of getStats is ignored, and its result is 0 on an error. *)
Definition raw (t : vtab) : N * N := match v_stats t with Some x => x | None => (0, 0) end.
Definition merges (c : vcfg) (avg : N) (d t : vtab) : bool :=
  let (sw, st) := raw t in
  let (dw, dt) := raw d in
  negb (st =? 0) && negb (dt =? 0) &&
  (((sw <=? avg) && (10 * dw <=? 16 * avg)) || (negb (vc_merge c =? 0) && (sw <=? vc_merge c))).
Fixpoint by_average (c : vcfg) (avg : N) (ts : list vtab) (dst : option vtab) : option vtab :=
  match ts with
  | [] => None
  | t :: r =>
      match dst with
      | Some d => if negb (match v_min t with [] => true | _ => false end) && negb (match r with [] => true | _ => false end) && merges c avg d t
                  then Some t else by_average c avg r (Some t)
      | None => by_average c avg r (Some t)
      end
  end.
(** src/table_compact_condition.cc:60-72, 197-258. *)
Definition pick_small (c : vcfg) (honor : bool) (ts : list vtab) : option vtab :=
  if N.of_nat (length ts) <=? vc_tables c then None
  else
    let (least, v) := smallest ts (2 ^ 64 - 1) None in
    let avg := average c ts in
    if least <? 2 ^ 64 - 1
    then if honor
         then match (if 10 * avg <=? 4 * vc_max c then by_average c avg ts None else None) with
              | Some t => Some t
              | None => if 10 * least <=? 2 * avg then v else None
              end
         else v
    else None.

(** src/table_compact_condition.cc:325-345, pickTableToFix. *)
Definition pick_fix (ts : list vtab) : option vtab := find (fun t => negb (v_locked t) && v_fix t) ts.

(** src/table_compact_condition.cc:649-760, chkLPCompactCond, when compaction is allowed.
    [over]: the level is not locked and its active size exceeds its limit (680-697). *)
Inductive job := Interlevel | InPlace (t : vtab) | Fix (t : vtab) | Split (t : vtab) | Merge (t : vtab).
Definition choose (c : vcfg) (over : bool) (ts : list vtab) : option job :=
  if over then Some Interlevel
  else match (if vc_urgent c =? 0 then None else pick_wss c false true ts) with
       | Some t => Some (InPlace t)
       | None =>
           match pick_fix ts with
           | Some t => Some (Fix t)
           | None =>
               match pick_wss c true true ts with
               | Some t => Some (Split t)
               | None =>
                   match pick_stale c true ts 0 None with
                   | Some t => Some (InPlace t)
                   | None => option_map Merge (pick_small c true ts)
                   end
               end
           end
       end.
