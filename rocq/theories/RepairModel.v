(** Model of the detection and repair of tables of one level (other than 0) whose key ranges
    overlap: src/table_manifest.cc:174-260 (loading the manifest), 610-653 (lookup),
    src/table_split.cc:519-680 (fixTable).

    Simplifications:
    - one level; a table is as in LsmModel.v, with its records sorted by key;
    - a write to a table file is visible to lookups at once and survives a crash after the next
      commit of that file (ForestDB); other commits of the same file do not occur meanwhile;
    - lookup boosters are not modelled; the iterator over the target works on a snapshot. *)
From Coq Require Import List NArith Bool Lia Arith.
From Verif Require Import Base LogFormatModel KeyModel BloomModel MemTableModel LsmModel.
Import ListNotations.
Local Open Scope N_scope.

(** prevTableSearchRequired (src/table_manifest.h:168): the numbers of the tables that have it. *)
Definition flagged (fl : list N) (n : N) : bool := existsb (N.eqb n) fl.
(** src/table_split.cc:660. *)
Definition unflag (n : N) (fl : list N) : list N := filter (fun m => negb (m =? n)) fl.

(** src/table_manifest.cc:219-233: the min key of a table, corrected if the table has a smaller
    key. *)
Definition real_min (t : tbl) : key :=
  match b_docs t with
  | r :: _ => if negb (is_nil (b_min t)) && kltb (r_key r) (b_min t) then r_key r else b_min t
  | [] => b_min t
  end.
Definition with_min (t : tbl) : tbl := mkT (b_num t) (b_src t) (b_hash t) (real_min t) (b_docs t) (b_bf t).

(** src/table_manifest.cc:174-260: the tables of one level in the order of the file; [last]:
    last_max_key. *)
Fixpoint open_tabs (last : key) (ts : list tbl) (acc : list tbl) (fl : list N) : list tbl * list N :=
  match ts with
  | [] => (acc, fl)
  | t :: ts' =>
      let m := real_min t in
      open_tabs (max_key t) ts' (add_tbl (with_min t) acc)
                (if negb (is_nil m) && kleb m last then b_num t :: fl else fl)
  end.
Definition open_level (ts : list tbl) : list tbl * list N := open_tabs [] ts [] [].

Section Hash.
Variable hash : key -> N * N.

(** src/table_manifest.cc:626-650: getTablesPoint above level 0. *)
Definition points (fl : list N) (k : key) (l : list tbl) : list tbl :=
  match floor k l with
  | None => []
  | Some t => t :: (if flagged fl (b_num t)
                    then match before (b_num t) None l with Some p => [p] | None => [] end
                    else [])
  end.
(** src/table_mgr.cc:601-647 for a level above 0; the result as in [level_get] of LsmModel.v. *)
Definition read_tabs (c : tcfg) (k : key) (ts : list tbl) : option rec + option st :=
  match search hash c k None ts None with
  | inl o => inl (if rec_empty o then None else o)
  | inr e => inr e
  end.
Definition lookup (c : tcfg) (fl : list N) (k : key) (l : list tbl) : option rec + option st :=
  read_tabs c k (points fl k l).

(** src/table_file.cc:797-937, setSingle with [force_delete]. *)
Definition tf_remove (r : rec) (t : tbl) : tbl :=
  mkT (b_num t) (b_src t) (b_hash t) (b_min t) (fd_del (r_key r) (b_docs t))
      (if is_ins r then bf_add hash (r_key r) (b_bf t) else b_bf t).

(** src/table_split.cc:606-644: one record [r] of the target table [tn] goes to the victim [vn];
    [purge] as in [tf_set]. *)
Definition move_one (c : tcfg) (purge : bool) (tn vn : N) (r : rec) (l : list tbl) : list tbl :=
  match tbl_at vn l with
  | Some v =>
      let put := match tf_get hash c (r_key r) v with Ok rv => r_seq rv <? r_seq r | _ => true end in
      upd_tbl tn (tf_remove r) (if put then upd_tbl vn (tf_set hash false purge r) l else l)
  | None => l
  end.

(** Where the repair is: records to move; commit of the target; commit of the victim; clearing
    the flag; done. *)
Inductive ppc := PMove (rs : list rec) | PSyncTarget | PSyncVictim | PClear | PDone.
(** The tables as lookups see them, as they are on disk, the flags, and the repair of [p_vn] from
    the table [p_tn] before it. *)
Record prep := mkP { p_mem : list tbl; p_disk : list tbl; p_fl : list N; p_tn : N; p_vn : N; p_pc : ppc }.

(** src/table_split.cc:519-604: [None]: refused (no such table, not flagged, or no table before
    it, in which case an assertion fails). *)
Definition pbegin (n : N) (fl : list N) (l : list tbl) : option prep :=
  if flagged fl n then
    match tbl_at n l, before n None l with
    | Some v, Some t => Some (mkP l l fl (b_num t) n (PMove (filter (fun r => kleb (b_min v) (r_key r)) (b_docs t))))
    | _, _ => None
    end
  else None.

(** The contents of table [n] in [from] replace those in [l] (a commit of its file). *)
Definition commit (n : N) (from l : list tbl) : list tbl :=
  match tbl_at n from with Some t => upd_tbl n (fun _ => t) l | None => l end.

(** src/table_split.cc:598-660. *)
Definition pstep (c : tcfg) (purge : bool) (p : prep) : prep :=
  match p_pc p with
  | PMove (r :: rs) => mkP (move_one c purge (p_tn p) (p_vn p) r (p_mem p)) (p_disk p) (p_fl p) (p_tn p) (p_vn p) (PMove rs)
  | PMove [] => mkP (p_mem p) (p_disk p) (p_fl p) (p_tn p) (p_vn p) PSyncTarget
  | PSyncTarget => mkP (p_mem p) (commit (p_tn p) (p_mem p) (p_disk p)) (p_fl p) (p_tn p) (p_vn p) PSyncVictim
  | PSyncVictim => mkP (p_mem p) (commit (p_vn p) (p_mem p) (p_disk p)) (p_fl p) (p_tn p) (p_vn p) PClear
  | PClear => mkP (p_mem p) (p_disk p) (unflag (p_vn p) (p_fl p)) (p_tn p) (p_vn p) PDone
  | PDone => p
  end.
Fixpoint psteps (c : tcfg) (purge : bool) (n : nat) (p : prep) : prep :=
  match n with O => p | S n' => psteps c purge n' (pstep c purge p) end.

End Hash.
