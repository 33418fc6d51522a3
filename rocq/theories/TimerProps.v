(** Statements about the timers behind delayed flush requests. *)
From Coq Require Import List NArith Bool Lia.
From Verif Require Import Base TimerModel TimerSpec TimerProofs.
Import ListNotations.
Local Open Scope N_scope.

(** A way to reach a state is a list of steps. *)
Lemma reach_run os : forall s s', treach s -> trun os s = Go s' -> treach s'.
Proof.
  induction os as [|o os IH]; intros s s' R H; cbn [trun] in H; [now injection H as <-|].
  destruct (tstep o s) as [| |s1] eqn:E; try discriminate. apply (IH s1); [eapply tr_step; eauto|exact H].
Qed.

(** C103: a timer fires at most once, fires only after its whole delay, and does not fire if it was
    cancelled (before or after the cancellation). *)
Theorem C103_once : forall s i, treach s -> (length (runs i s) <= 1)%nat.
Proof. exact fires_once. Qed.
Print Assumptions C103_once.

Theorem C103_not_early : forall s i t, treach s -> In t (runs i s) -> exists k, task_at s i = Some k /\ k_reg k + k_int k < t.
Proof. exact not_early. Qed.
Print Assumptions C103_not_early.

Theorem C103_cancelled : forall s i, treach s -> In (ECancel i) (s_log s) -> runs i s = [].
Proof. exact cancelled_never_runs. Qed.
Print Assumptions C103_cancelled.

(** Two timers: the first fires at 1025 after a delay of 1000, the second is cancelled. *)
Example C103_case :
  let os := [Push 0; Sched 0 1000; Tick 5; Push 1; Sched 1 2000; Pass; Tick 1020; Pass; Exec; Log; Wake; End; CloseCancel 1] in
  match trun os tm_init with Go s => runs 0 s = [1025] /\ runs 1 s = [] /\ In (ECancel 1) (s_log s) | _ => False end.
Proof. vm_compute. auto 6. Qed.

(** C104: a timer that was set is still to fire, or fired, or was cancelled; as long as nothing was
    cancelled a pass of the coordinator has no undefined behaviour and starts a timer that is due
    if there is one. *)
Theorem C104_kept_partial : forall s i k, treach s -> task_at s i = Some k ->
  pending i s \/ In (ECancel i) (s_log s) \/ length (runs i s) = 1%nat.
Proof. exact kept_until. Qed.
Print Assumptions C104_kept_partial.

Theorem C104_defined_partial : forall s o, treach s -> (forall j, ~ In (ECancel j) (s_log s)) -> tstep o s <> Wild.
Proof. exact pass_never_wild. Qed.
Print Assumptions C104_defined_partial.

Theorem C104_starts_due_partial : forall s u i k, treach s -> (forall j, ~ In (ECancel j) (s_log s)) ->
  s_pc s = Asleep u -> s_woken s = true \/ u <= s_now s ->
  In i (s_timed s) -> task_at s i = Some k -> k_reg k + k_int k < s_now s ->
  exists s' j kj sl, tstep Pass s = Go s' /\ s_pc s' = Chosen j sl /\ task_at s' j = Some kj /\ k_st kj = Waiting /\ k_reg kj + k_int kj < s_now s'.
Proof. exact pass_picks. Qed.
Print Assumptions C104_starts_due_partial.

(** Closing a database whose timer is set: when the delay is over, the coordinator removes the
    cancelled timer, the last of its list, and advances past the end of the list. *)
Theorem C104_defined_refuted : exists os, trun os tm_init = Wild.
Proof. exists [Push 0; Sched 0 1000; Pass; CloseCancel 0; CloseFree 0; Tick 1001; Pass]. vm_compute. reflexivity. Qed.
Print Assumptions C104_defined_refuted.

(** A live timer behind a cancelled one: passed over in the pass that finds it due. *)
Theorem C104_starts_due_refuted : exists os s s' k, trun os tm_init = Go s /\ (exists u, s_pc s = Asleep u /\ u <= s_now s) /\
  In 1%nat (s_timed s) /\ task_at s 1 = Some k /\ k_st k = Waiting /\ k_reg k + k_int k < s_now s /\
  tstep Pass s = Go s' /\ (exists u, s_pc s' = Asleep u).
Proof.
  eexists [Push 0; Sched 0 1000; Push 1; Sched 1 1000; Pass; CloseCancel 0; Tick 1001], _, _, _.
  repeat match goal with |- exists _, _ => eexists | |- _ /\ _ => split end; try (vm_compute; reflexivity); vm_compute; auto; discriminate.
Qed.
Print Assumptions C104_starts_due_refuted.

Example C104_case :
  match trun [Push 0; Sched 0 1000; Push 1; Sched 1 500; Pass; Tick 1001] tm_init with
  | Go s => s_timed s = [0%nat; 1%nat] /\ (forall j, ~ In (ECancel j) (s_log s)) /\ s_pc s = Asleep 400 /\ (400 <= s_now s)
  | _ => False end.
Proof. vm_compute. repeat split; try discriminate. intros j [H|[H|[H|[H|[]]]]]; discriminate. Qed.

(** C105: the coordinator never sleeps more than a second, and if a pass starts no timer, it wakes up
    before every timer that is still to fire. *)
Theorem C105_second_partial : forall s u, treach s -> s_pc s = Asleep u -> u <= s_now s + 1000000.
Proof. intros s u R. apply (sleep_bound s R). Qed.
Print Assumptions C105_second_partial.

Theorem C105_in_time_partial : forall s s' u i k, treach s -> tstep Pass s = Go s' -> s_pc s' = Asleep u ->
  pending i s' -> task_at s' i = Some k -> u <= N.max (s_now s') (k_reg k + k_int k).
Proof. exact sleep_ends_in_time. Qed.
Print Assumptions C105_in_time_partial.

(** Two timers with the same delay: after the first the coordinator sleeps for a second, although the
    second is due, and nothing has it woken. *)
Theorem C105_in_time_refuted : exists os s k u, trun os tm_init = Go s /\ pending 1 s /\ task_at s 1 = Some k /\
  k_reg k + k_int k < s_now s /\ s_pc s = Asleep u /\ s_woken s = false /\ u = s_now s + 999900.
Proof.
  eexists [Push 0; Sched 0 1000; Push 1; Sched 1 1000; Pass; Tick 1001; Pass; Exec; Log; Wake; End], _, _, _.
  repeat match goal with |- _ /\ _ => split end; try (vm_compute; reflexivity). vm_compute. split; [reflexivity|left; now left].
Qed.
Print Assumptions C105_in_time_refuted.

Example C105_case :
  match trun [Push 0; Sched 0 5000; Push 1; Sched 1 3000] tm_init with
  | Go s => match tstep Pass s with Go s' => s_pc s' = Asleep 2900 /\ pending 0 s' /\ pending 1 s' | _ => False end
  | _ => False end.
Proof. vm_compute. repeat split; auto 6. Qed.

(** C106: if a database is closed while its callback is not executing, the callback never uses memory
    of it after it was freed. *)
Theorem C106_no_freed_partial : forall s d, treach_calm s -> ~ In (EFreed d) (s_log s).
Proof. exact calm_no_freed. Qed.
Print Assumptions C106_no_freed_partial.

(** Closing does not wait for a callback that has started. *)
Theorem C106_no_freed_refuted : exists os s, trun os tm_init = Go s /\ In (EFreed 0) (s_log s).
Proof.
  eexists [Push 0; Sched 0 1000; Pass; Tick 1001; Pass; Exec; CloseCancel 0; CloseFree 0; Log], _.
  split; [vm_compute; reflexivity|]. vm_compute. auto.
Qed.
Print Assumptions C106_no_freed_refuted.

Lemma calm_run os : (forall d, ~ In (CloseCancel d) os) -> forall s s', treach_calm s -> trun os s = Go s' -> treach_calm s'.
Proof.
  induction os as [|o os IH]; intros N s s' R H; cbn [trun] in H; [now injection H as <-|].
  destruct (tstep o s) as [| |s1] eqn:E; try discriminate. apply (IH (fun d A => N d (or_intror A)) s1); [|exact H].
  eapply tc_step; eauto. intros d i X. subst o. destruct (N d). now left.
Qed.

Example C106_case :
  exists s, treach_calm s /\ s_free s 0 = true /\ s_free s 1 = false /\ runs 1 s = [1001] /\ In (ECancel 0) (s_log s).
Proof.
  destruct (trun [Sched 0 5000; Sched 1 1000] tm_init) as [| |s1] eqn:E1; try (vm_compute in E1; discriminate).
  assert (R1 : treach_calm s1). { eapply calm_run; [|apply tc_init|exact E1]. intros d [A|[A|[]]]; discriminate. }
  destruct (tstep (CloseCancel 0) s1) as [| |s2] eqn:E2; try (vm_compute in E1; injection E1 as <-; vm_compute in E2; discriminate).
  assert (R2 : treach_calm s2).
  { eapply tc_step; [exact R1|exact E2|]. intros d i E J. injection E as <-. vm_compute in E1. injection E1 as <-. vm_compute in J. injection J as <-. vm_compute. discriminate. }
  destruct (trun [CloseFree 0; Tick 1001; Pass; Exec; Log; Wake] s2) as [| |s3] eqn:E3;
    try (vm_compute in E1; injection E1 as <-; vm_compute in E2; injection E2 as <-; vm_compute in E3; discriminate).
  exists s3. split; [eapply calm_run; [|exact R2|exact E3]; intros d A; cbn [In] in A; intuition discriminate|].
  vm_compute in E1; injection E1 as <-; vm_compute in E2; injection E2 as <-; vm_compute in E3; injection E3 as <-. vm_compute. auto 10.
Qed.

(** C107: a delayed request of a database that is not closed is followed by a wake-up of the flusher, or
    has a timer that is still to fire, or a callback that is still to do it; provided no callback of it
    was executing when the request came. *)
Theorem C107_followed_partial : forall s, treach s -> forall d, s_closed s d = false ->
  woken_since d (s_log s) = true \/ exists i, owner s i = d /\ (pending i s \/ exists sl, s_pc s = UseLog i sl \/ s_pc s = DoWake i sl).
Proof. exact request_followed. Qed.
Print Assumptions C107_followed_partial.

(** A request that comes between the wake-up and the end of the callback: it is queued, no new timer is
    set, no wake-up follows. *)
Theorem C107_followed_refuted : exists os s rest, trun os tm_init = Go s /\ s_closed s 0 = false /\ s_log s = ESched 0 true :: EPush 0 :: rest /\
  s_timed s = [] /\ (exists u, s_pc s = Asleep u).
Proof.
  eexists [Push 0; Sched 0 1000; Pass; Tick 1001; Pass; Exec; Log; Wake; Push 0; Sched 0 1000; End], _, _.
  repeat match goal with |- _ /\ _ => split end; try (vm_compute; reflexivity). eexists. vm_compute. reflexivity.
Qed.
Print Assumptions C107_followed_refuted.

Example C107_case :
  match trun [Push 0; Sched 0 1000; Pass; Tick 1001; Pass; Exec; Log; Wake; End; Push 0; Sched 0 1000] tm_init with
  | Go s => woken_since 0 (s_log s) = false /\ owner s 1 = 0%nat /\ pending 1 s
  | _ => False end.
Proof. vm_compute. repeat split; auto. Qed.
