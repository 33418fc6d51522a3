(** C60: throttling. *)
From Verif Require Import Base ThrottleModel.
Local Open Scope N_scope.

(** Sensible settings: the start below the limit; and numbers so small that nothing is cut off. *)
Definition sensible (o : lt_opt) (total : N) : Prop :=
  lt_start o < lt_limit o /\ lt_limit o < 2 ^ 32 /\ 0 < lt_max o /\ total * lt_max o < 2 ^ 32.

Lemma throttling_val : forall o old total, sensible o total ->
  global_throttling o old total = Some (N.min (lt_max o) ((total - lt_start o) * lt_max o / (lt_limit o - lt_start o))).
Proof.
  intros [s l m] old total (A & B & C & D). cbn [lt_start lt_limit lt_max] in *. unfold global_throttling. cbn [lt_start lt_limit lt_max].
  replace (m =? 0) with false by lia.
  destruct (s <? total) eqn:E; [|f_equal; assert (total - s = 0) as -> by lia; cbn [N.mul]; rewrite N.div_0_l by lia; lia].
  assert (Ed : (l + 2 ^ 32 - s) mod 2 ^ 32 = l - s).
  { assert (l + 2 ^ 32 - s = l - s + 1 * 2 ^ 32) as -> by lia. rewrite N.mod_add by lia. apply N.mod_small. lia. }
  rewrite Ed. replace (l - s =? 0) with false by lia. f_equal.
  assert (P : (total - s) * m < 2 ^ 32) by nia. rewrite (N.mod_small _ (2 ^ 64)) by (transitivity (2 ^ 32); [exact P|reflexivity]).
  rewrite (N.mod_small (_ / _) (2 ^ 32)).
  2:{ apply N.le_lt_trans with (2 := P). apply N.div_le_upper_bound; [lia|]. nia. }
  destruct (m <? (total - s) * m / (l - s)) eqn:F; lia.
Qed.

(** The sleep time never exceeds the maximum, is zero up to [startNumLogs] log files, is the
    maximum from [limitNumLogs] log files on, and never shrinks when there are more log files. *)
Theorem C60_writer_sleep : forall o old total, sensible o total ->
  exists t, global_throttling o old total = Some t /\ t <= lt_max o /\ (total <= lt_start o -> t = 0) /\ (lt_limit o <= total -> t = lt_max o) /\
    forall old' total' t', total <= total' -> sensible o total' -> global_throttling o old' total' = Some t' -> t <= t'.
Proof.
  intros o old total H. assert (V := throttling_val o old total H). eexists; split; [exact V|]. clear V.
  destruct H as (A & B & C & D). split; [lia|]. split; [intros Hs; assert (total - lt_start o = 0) as -> by lia; cbn [N.mul]; rewrite N.div_0_l by lia; lia|]. split.
  - intros Hl. apply N.min_l. apply N.div_le_lower_bound; [lia|]. nia.
  - intros old' total' t' Ht H' E. rewrite (throttling_val _ _ _ H') in E. injection E as <-.
    apply N.min_le_compat_l. apply N.div_le_mono; [lia|]. nia.
Qed.
Print Assumptions C60_writer_sleep.
Example C60_case : sensible (mkLT 256 512 100) 300 /\ global_throttling (mkLT 256 512 100) 0 256 = Some 0 /\
  global_throttling (mkLT 256 512 100) 0 300 = Some 17 /\ global_throttling (mkLT 256 512 100) 0 511 = Some 99 /\ global_throttling (mkLT 256 512 100) 0 5000 = Some 100.
Proof. split; [unfold sensible; cbn; lia|]. vm_compute. repeat split. Qed.

(** Other settings. Limit and start equal: division by zero.  Limit below start: no writer sleeps,
    however many log files there are.  *)
Theorem C60_equal_refuted : exists o total, lt_start o = lt_limit o /\ 0 < lt_max o /\ global_throttling o 0 total = None.
Proof. exists (mkLT 512 512 100), 513. repeat split. Qed.
Print Assumptions C60_equal_refuted.
Theorem C60_reversed_refuted : exists o total, 0 < lt_max o /\ lt_start o < total /\ lt_limit o < total /\ global_throttling o 0 total = Some 0.
Proof. exists (mkLT 512 256 100), 40000. repeat split. Qed.
Print Assumptions C60_reversed_refuted.

(** The share of time a compaction works is at most (100 - F) percent, up to the rounding of the
    sleep time to milliseconds; and it sleeps no longer than needed for that. *)
Theorem C60_compaction_share : forall f e, f <= 99 -> e * 99 < 2 ^ 64 ->
  let s := compaction_sleep f e in e * 100 <= (100 - f) * (e + s + 1) /\ (100 - f) * (e + s) <= e * 100.
Proof.
  intros f e Hf He. cbv zeta. unfold compaction_sleep. destruct (f =? 0) eqn:E0; [assert (f = 0) by lia; subst; lia|].
  rewrite N.min_l by lia. rewrite N.mod_small by nia.
  assert (D := N.div_mod (e * f) (100 - f) ltac:(lia)). assert (M := N.mod_lt (e * f) (100 - f) ltac:(lia)).
  set (q := e * f / (100 - f)) in *. set (r := (e * f) mod (100 - f)) in *. clearbody q r. nia.
Qed.
Print Assumptions C60_compaction_share.
Example C60_share_case : compaction_sleep 80 250 = 1000 /\ compaction_sleep 33 205 = 100.
Proof. vm_compute. split; reflexivity. Qed.
