(** C137.  A partition of level 0 is compacted when and only when the settings call for it. *)
From Verif Require Import Base L0CondModel L0CondSpec L0CondProofs.
Local Open Scope N_scope.

(** There is one of the documented reasons, or a request, for each compaction. *)
Theorem C137_reason : forall c e num forced t s, factor_ok c -> l0_decide c e num forced t s = true ->
  may_compact c e /\
  (forced = true \/ asked c e num t \/
   (e_idle e = true /\ 0 < e_itc e /\ z_file c < z_tot t /\ above (e_itc e) t) \/
   (0 < z_cycle c /\ 2 * z_cycle c <= z_cyc t) \/
   (z_ext c = true /\ z_max c < z_act t + act_of s) \/
   (z_ext c = true /\ e_seq e = true /\ 0 < z_delay c /\ z_max c * z_delay c < z_tot t) \/
   ((z_file c < z_tot t \/ 64 * 1024 * 1024 < z_tot t) /\ above (z_factor c) t /\ above_both (z_factor c) t s)).
Proof. exact reasons. Qed.
Print Assumptions C137_reason.

(** An interrupted compaction is taken up again; active data over the limit of level 0 is moved on;
    without further levels, a file that has reached the factor is compacted.  Missing: while keys
    are loaded in order (refuted below). *)
Theorem C137_done_partial : forall c e num forced t s, factor_ok c -> may_compact c e -> no_delay c e ->
  (forced = true \/ (z_ext c = true /\ z_max c < z_act t + act_of s) \/
   (z_ext c = false /\ z_file c < z_tot t /\ z_cycle c <= z_cyc t /\ above (z_factor c) t /\ above_both (z_factor c) t s)) ->
  l0_decide c e num forced t s = true.
Proof. exact complete. Qed.
Print Assumptions C137_done_partial.

(** While keys are loaded in order, compaction waits until the file has reached the configured
    multiple of the limit. *)
Theorem C137_delayed : forall c e num forced t s, not_asked e -> z_ext c = true -> e_seq e = true ->
  z_delay c = 0 \/ z_tot t <= z_max c * z_delay c -> l0_decide c e num forced t s = false.
Proof. exact delayed. Qed.
Print Assumptions C137_delayed.

(** With the factor 0, or when compaction is not possible, there is none. *)
Theorem C137_off : forall c e num forced t s, z_factor c = 0 \/ ~ may_compact c e -> l0_decide c e num forced t s = false.
Proof. exact off. Qed.
Print Assumptions C137_off.

(** When traffic is idle, the factor for idle traffic counts.  Missing: a partition with two tables
    (refuted below). *)
Theorem C137_idle_partial : forall c e num forced t, 0 < z_factor c -> may_compact c e -> no_delay c e -> e_idle e = true -> 0 < e_itc e ->
  z_file c < z_tot t -> above (e_itc e) t -> l0_decide c e num forced t None = true.
Proof. exact idle_one. Qed.
Print Assumptions C137_idle_partial.

(** In a partition with two tables, unless a debug parameter is set, idle traffic never makes a
    difference, whatever the sizes (up to 2^64 / 100 together) and the factor for it. *)
Theorem C137_idle_never_partial : forall c e num forced t s b, e_dratio e = 0 -> 0 < z_tot s -> 100 * (z_tot t + z_tot s) <= 2 ^ 64 ->
  l0_decide c (with_idle b e) num forced t (Some s) = l0_decide c (with_idle false e) num forced t (Some s).
Proof. exact idle_two. Qed.
Print Assumptions C137_idle_never_partial.

(** Settings: factor 300, files above 16 bytes; idle traffic, factor 150 for it. *)
Definition zc (ext : bool) : zcfg := mkZc false false 300 16 0 ext 1000 4 0.
Definition ze (idle seq : bool) : zenv := mkZe true false 0 false 0 0 0 idle 150 1 None seq.

(** A table with 250 percent, and a second one of one byte: not compacted, though it would be
    without the second one. *)
Theorem C137_idle_two_refuted : exists c e num t s, may_compact c e /\ no_delay c e /\ e_idle e = true /\ 0 < e_itc e /\
  z_file c < z_tot t /\ above (e_itc e) t /\ above_both (e_itc e) t (Some s) /\
  l0_decide c e num false t (Some s) = false /\ l0_decide c e num false t None = true.
Proof.
  exists (zc false), (ze true false), 1, (mkZ 1000 2500 0), (mkZ 1 1 0).
  split; [repeat split; discriminate|]. split; [left; reflexivity|]. split; [reflexivity|]. split; [reflexivity|]. split; [reflexivity|].
  split; [split; [reflexivity|vm_compute; discriminate]|]. split; [intros _; vm_compute; discriminate|]. split; vm_compute; reflexivity.
Qed.
Print Assumptions C137_idle_two_refuted.

(** A compaction was interrupted, and keys are being loaded in order: it is not taken up again,
    even if the active data exceeds the limit of level 0 many times. *)
Theorem C137_interrupted_refuted : exists c e num t, factor_ok c /\ may_compact c e /\ z_max c * 1000 < z_act t /\
  l0_decide c e num true t None = false.
Proof.
  exists (zc true), (ze false true), 1, (mkZ 2000000 3000000 0).
  split; [split; vm_compute; reflexivity|]. split; [repeat split|]. split; vm_compute; reflexivity.
Qed.
Print Assumptions C137_interrupted_refuted.

(** A request by size or by table number always leads to a compaction, also while keys are loaded
    in order. *)
Theorem C137_requested : forall c e num forced t s, may_compact c e -> 0 < z_factor c ->
  (e_debug e = true /\ 0 < e_dsize e /\ e_dsize e < z_tot t) \/ (0 < e_idx e /\ num <= e_idx e) ->
  l0_decide c e num forced t s = true.
Proof. exact requested. Qed.
Print Assumptions C137_requested.

(** So does a request by percentage if level 0 is the last one and, with two tables, the first one
    is large enough beside the second. *)
Theorem C137_requested_ratio : forall c e num forced t s, may_compact c e -> 0 < z_factor c ->
  e_debug e = true -> 0 < e_dratio e -> e_levels e = 1 -> z_file c < z_tot t -> above (e_dratio e) t ->
  match s with
  | Some s => 100 <= e_dratio e /\ e_dratio e < 2 ^ 32 /\ z_tot s * (e_dratio e - 100) < z_tot t * 100
  | None => True
  end ->
  l0_decide c e num forced t s = true.
Proof. exact requested_ratio. Qed.
Print Assumptions C137_requested_ratio.

(** Cases of requests: by size, by number and by percentage, while keys are loaded in order; the
    same table is left alone without them. *)
Definition zq (debug : bool) (size ratio idx : N) : zenv := mkZe true false 0 debug size ratio idx false 0 1 None true.
Example C137_requested_case :
  may_compact (zc true) (zq true 100 0 0) /\ asked (zc true) (zq true 100 0 0) 5 (mkZ 100 500 0) /\
  asked (zc true) (zq false 0 0 7) 5 (mkZ 100 500 0) /\ asked (zc true) (zq true 0 150 0) 5 (mkZ 100 500 0) /\
  l0_decide (zc true) (zq true 100 0 0) 5 false (mkZ 100 500 0) None = true /\
  l0_decide (zc true) (zq false 0 0 7) 5 false (mkZ 100 500 0) None = true /\
  l0_decide (zc true) (zq true 0 150 0) 5 false (mkZ 100 500 0) (Some (mkZ 300 400 0)) = true /\
  l0_decide (zc true) (zq true 0 0 0) 5 false (mkZ 100 500 0) None = false.
Proof.
  split; [repeat split|]. split; [left; repeat split|]. split; [right; left; split; [reflexivity|discriminate]|].
  split; [right; right; split; [reflexivity|split; [reflexivity|split; [reflexivity|split; [vm_compute; reflexivity|split; [reflexivity|vm_compute; discriminate]]]]]|].
  split; [vm_compute; reflexivity|]. split; [vm_compute; reflexivity|]. split; vm_compute; reflexivity.
Qed.

(** Cases: each reason in turn. *)
Example C137_case :
  factor_ok (zc true) /\ may_compact (zc true) (ze false false) /\ not_asked (ze false false) /\
  l0_decide (zc false) (ze false false) 1 false (mkZ 100 301 0) None = true /\
  l0_decide (zc false) (ze false false) 1 false (mkZ 100 300 0) None = false /\
  l0_decide (zc false) (ze false false) 1 false (mkZ 100 500 0) (Some (mkZ 400 600 0)) = false /\
  l0_decide (zc true) (ze false false) 1 false (mkZ 900 1000 0) None = false /\
  l0_decide (zc true) (ze false false) 1 false (mkZ 1001 1100 0) None = true /\
  l0_decide (zc true) (ze false false) 1 true (mkZ 1 1 0) None = true /\
  l0_decide (zc false) (ze true false) 1 false (mkZ 1000 2500 0) None = true.
Proof. split; [split; vm_compute; reflexivity|]. split; [repeat split|]. split; [split; reflexivity|]. repeat split; vm_compute; reflexivity. Qed.
