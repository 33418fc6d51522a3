(** Words for C137. *)
From Verif Require Import Base L0CondModel.
Local Open Scope N_scope.

(** Compaction is allowed, possible in this mode, and no other one stands in the way. *)
Definition may_compact (c : zcfg) (e : zenv) : Prop :=
  z_ro c = false /\ z_log c = false /\ e_allow e = true /\ e_busy e = false /\ (z_ext c = true -> e_l1jobs e = 0).
(** The user has not asked for compaction through debug parameters or a table number. *)
Definition not_asked (e : zenv) : Prop := e_debug e = false /\ e_idx e = 0.

(** The file has more than [f] percent of its active data, in whole percents. *)
Definition above (f : N) (t : zst) : Prop := 0 < z_act t /\ (f + 1) * z_act t <= 100 * z_tot t.
(** So have the two files together compared with the active data of the second one. *)
Definition above_both (f : N) (t : zst) (s : option zst) : Prop :=
  match s with Some s => 0 < z_act s -> (f + 1) * z_act s <= 100 * (z_tot t + z_tot s) | None => True end.
(** The percentages that can be set are 32-bit numbers. *)
Definition factor_ok (c : zcfg) : Prop := 0 < z_factor c /\ z_factor c * 2 < 0xffffffff.
(** The same surroundings with or without traffic. *)
Definition with_idle (b : bool) (e : zenv) : zenv :=
  mkZe (e_allow e) (e_busy e) (e_l1jobs e) (e_debug e) (e_dsize e) (e_dratio e) (e_idx e) b (e_itc e) (e_levels e) (e_l1 e) (e_seq e).
(** Keys are not being loaded in order, or this does not matter. *)
Definition no_delay (c : zcfg) (e : zenv) : Prop := z_ext c = false \/ e_seq e = false.
(** The user has asked for the compaction of this table: by a size, a table number, or, if level 0
    is the last one, a percentage. *)
Definition asked (c : zcfg) (e : zenv) (num : N) (t : zst) : Prop :=
  (e_debug e = true /\ 0 < e_dsize e /\ e_dsize e < z_tot t) \/
  (0 < e_idx e /\ num <= e_idx e) \/
  (e_debug e = true /\ 0 < e_dratio e /\ e_levels e = 1 /\ z_file c < z_tot t /\ above (e_dratio e) t).
