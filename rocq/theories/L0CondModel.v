(** When a partition of level 0 is compacted (src/table_compact_condition.cc:391-646).

    Simplifications: the statistics can be read; the sums and the products with constants and
    settings, other than the one noted, do not wrap.  The list of tables has been searched already
    (419-434): the table to compact, the other one if there are two, and whether the first one was
    being compacted when the process ended before. *)
From Verif Require Import Base.
Local Open Scope N_scope.

(** Active bytes, file size, block reuse cycle (TableStats). *)
Record zst := mkZ { z_act : N; z_tot : N; z_cyc : N }.

(** DBConfig (include/libjungle/db_config.h): readOnly, logSectionOnly, compactionFactor, minFileSizeToCompact,
    minBlockReuseCycleToCompact, nextLevelExtension, maxL0TableSize, numL0Partitions,
    seqLoadingDelayFactor. *)
Record zcfg := mkZc { z_ro : bool; z_log : bool; z_factor : N; z_file : N; z_cycle : N; z_ext : bool; z_max : N; z_parts : N; z_delay : N }.

(** What the decision depends on besides: allowCompaction, compactStatus of the partition, the
    number of compactions of level 1 (398-412); isDebugParamEffective, urgentCompactionFilesize and
    urgentCompactionRatio; urgentCompactionMaxTableIdx; idle traffic and itcOpt.factor; the number of
    levels and the file bytes of level 1, if it exists; seqLoading. *)
Record zenv := mkZe { e_allow : bool; e_busy : bool; e_l1jobs : N; e_debug : bool; e_dsize : N; e_dratio : N; e_idx : N;
                      e_idle : bool; e_itc : N; e_levels : N; e_l1 : option N; e_seq : bool }.

(** src/table_compact_condition.cc:442-453. *)
Definition z_ratio (t : zst) : N := if z_act t =? 0 then 0 else z_tot t * 100 / z_act t.
Definition s_ratio (t : zst) (s : option zst) : N :=
  match s with
  | Some s => if z_act s =? 0 then 0xffffffff else (z_tot t + z_tot s) * 100 / z_act s
  | None => 0xffffffff
  end.

(** src/table_compact_condition.cc:466-501: block reuse, ratio, and the two requests, with
    whether the user asked for it. *)
Definition urgent (c : zcfg) (e : zenv) (num : N) (t : zst) (s : option zst) : bool * bool :=
  let d1 := negb (z_cycle c =? 0) && (z_cycle c * 2 <=? z_cyc t) in
  let d2 := negb (z_ext c) && (64 * 1024 * 1024 <? z_tot t) && (z_factor c * 2 <? z_ratio t) && (z_factor c * 2 <? s_ratio t s) in
  let u1 := e_debug e && negb (e_dsize e =? 0) && (e_dsize e <? z_tot t) in
  let u2 := negb (e_idx e =? 0) && (num <=? e_idx e) in
  (d1 || d2 || u1 || u2, u1 || u2).

(** src/table_compact_condition.cc:506-526. *)
Definition by_debug (c : zcfg) (e : zenv) (t : zst) : bool :=
  e_debug e && negb (e_dratio e =? 0) && (e_levels e =? 1) && (z_file c <? z_tot t) && (e_dratio e <? z_ratio t).
Definition by_idle (c : zcfg) (e : zenv) (t : zst) : bool :=
  e_idle e && negb (e_itc e =? 0) && (z_file c <? z_tot t) && (e_itc e <? z_ratio t).
(** src/table_compact_condition.cc:528-557: with a second table, its size times
    (urgentCompactionRatio - 100), computed in 64 bits without sign. *)
Definition worth (e : zenv) (t : zst) (s : option zst) : bool :=
  match s with
  | Some s => z_tot s * ((e_dratio e + 2 ^ 64 - 100) mod 2 ^ 64) mod 2 ^ 64 <? z_tot t * 100
  | None => true
  end.

(** src/table_compact_condition.cc:589-613. *)
Definition normal (c : zcfg) (e : zenv) (t : zst) (s : option zst) : bool :=
  (z_file c <? z_tot t) && (z_cycle c <=? z_cyc t) && (z_factor c <? z_ratio t) && (z_factor c <? s_ratio t s) &&
  (negb (z_ext c) ||
   match e_l1 e with
   | None => true
   | Some total => (z_max c <? z_tot t) || (total <? z_tot t * z_parts c)
   end).

(** src/table_compact_condition.cc:585: an absent second table has the size 0. *)
Definition act_of (s : option zst) : N := match s with Some s => z_act s | None => 0 end.

(** src/table_compact_condition.cc:391-646, chkL0CompactCond.  [forced]: the table was being
    compacted when the process ended. *)
Definition l0_decide (c : zcfg) (e : zenv) (num : N) (forced : bool) (t : zst) (s : option zst) : bool :=
  if z_ro c || negb (e_allow e) || z_log c || e_busy e || (z_factor c =? 0) || (z_ext c && (0 <? e_l1jobs e)) then false
  else
    let (d, u) := urgent c e num t s in
    let u' := u || by_debug c e t in
    let d' := d || ((by_debug c e t || by_idle c e t) && worth e t s) in
    let last d := d || (z_ext c && (z_max c <? z_act t + act_of s)) || normal c e t s || forced in
    if negb (d' && u') && z_ext c && e_seq e
    then if negb (z_delay c =? 0) && (z_max c * z_delay c <? z_tot t) then last true else false
    else last d'.
