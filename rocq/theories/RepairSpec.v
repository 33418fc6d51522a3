(** What is expected of lookups in, and of the repair of, a level whose tables overlap. *)
From Coq Require Import List NArith Bool Lia Arith Sorted.
From Verif Require Import Base LogFormatModel KeyModel BloomModel BloomProofs MemTableModel LsmModel RepairModel.
Import ListNotations.
Local Open Scope N_scope.

(** [r] is a version of [k] in some table of the level. *)
Definition version (k : key) (l : list tbl) (r : rec) : Prop := r_key r = k /\ exists t, In t l /\ In r (b_docs t).
(** The newest version of [k] in the level, if any. *)
Definition newest (k : key) (l : list tbl) (o : option rec) : Prop :=
  match o with
  | Some r => version k l r /\ forall r', version k l r' -> r_seq r' <= r_seq r
  | None => forall r, ~ version k l r
  end.

(** The newest versions of [l0] are those of [l], except that tombstones may be gone. *)
Definition keeps (purge : bool) (l0 l : list tbl) : Prop :=
  forall k o, newest k l o -> newest k l0 o \/ (purge = true /\ o = None /\ exists r, is_del r = true /\ newest k l0 (Some r)).

Section Hash.
Variable hash : key -> N * N.

(** A table file: records sorted by key, none below the min key, and all of them found in it. *)
Definition table_ok (c : tcfg) (t : tbl) : Prop :=
  StronglySorted (fun a b => klt (r_key a) (r_key b)) (b_docs t) /\
  forall r, In r (b_docs t) -> kle (b_min t) (r_key r) /\ r_key r <> [] /\ tf_get hash c (r_key r) t = Ok r.

(** Tables with distinct numbers, ascending min keys, that overlap at most their neighbours. *)
Definition overlaps_next (c : tcfg) (l : list tbl) : Prop :=
  StronglySorted (fun a b => klt (b_min a) (b_min b)) l /\ NoDup (map b_num l) /\ (forall t, In t l -> table_ok c t) /\
  forall x y z r, In x l -> In y l -> In z l -> klt (b_min x) (b_min y) -> klt (b_min y) (b_min z) -> In r (b_docs x) -> klt (r_key r) (b_min z).

(** If a key is in two tables, then the newer version is in the first one. *)
Definition newer_first (l : list tbl) : Prop :=
  forall x y a b, In x l -> In y l -> klt (b_min x) (b_min y) -> In a (b_docs x) -> In b (b_docs y) -> r_key a = r_key b -> r_seq b < r_seq a.

(** Bloom filters do not hide tombstones that are moved (C22). *)
Definition moves_seen (c : tcfg) (l : list tbl) : Prop :=
  (forall t f, In t l -> b_bf t = Some f -> wf_bl f) /\
  (tc_bfget c = false \/ (forall t, In t l -> b_bf t = None) \/ forall t r, In t l -> In r (b_docs t) -> is_ins r = true).

(** The level after opening and any number of repairs, each complete or given up anywhere. *)
Inductive mended (c : tcfg) (purge : bool) (ts : list tbl) : list N -> list tbl -> Prop :=
| me_open : mended c purge ts (snd (open_level ts)) (fst (open_level ts))
| me_fix : forall fl l n p i, mended c purge ts fl l -> pbegin n fl l = Some p ->
    mended c purge ts (p_fl (psteps hash c purge i p)) (p_mem (psteps hash c purge i p)).

End Hash.
