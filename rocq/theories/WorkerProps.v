(** C89 to C93: background workers. *)
From Coq Require Import Arith List Bool Lia.
From Verif Require Import WorkerModel WorkerSpec WorkerRegModel WorkerProofs Worker2Proofs Worker3Proofs Worker4Proofs.
Import ListNotations.
Local Open Scope nat_scope.

(** C89: whatever the other threads do, after a call that wakes a started worker has returned, the worker
    starts a pass that begins after the call began, by its own next 13 steps at the latest; no timer is
    needed. *)
Theorem C89_wakeup_served : forall os1 s t s1 os2 s2 os3 s3,
  forallb before os1 = true -> run os1 init = Some s -> serving s = true ->
  step (Invoke t) s = Some s1 -> forallb kept os2 = true -> run os2 s1 = Some s2 -> s_c s2 t = Out ->
  forallb kept os3 = true -> run os3 s2 = Some s3 -> 12 < wks os3 ->
  s_n s < s_n s3.
Proof. exact wakeup. Qed.
Print Assumptions C89_wakeup_served.

(** C89: until then the worker can make its next step, or the thread it waits for can. *)
Theorem C89_not_blocked : forall os1 s t s1 os2 s2 os3 s3,
  forallb before os1 = true -> run os1 init = Some s -> serving s = true ->
  step (Invoke t) s = Some s1 -> forallb kept os2 = true -> run os2 s1 = Some s2 -> s_c s2 t = Out ->
  forallb kept os3 = true -> run os3 s2 = Some s3 -> s_n s3 = s_n s ->
  (exists s', step Wk s3 = Some s') \/ (exists u s', s_lock s3 = Some (ClL u) /\ step (Cl u) s3 = Some s').
Proof. exact wakeup_live. Qed.
Print Assumptions C89_not_blocked.

(** C90: a worker told to terminate and then woken ends by its own next 8 steps at the latest, and until
    then it or the thread it waits for can move; spurious failures do no harm here. *)
Theorem C90_terminates : forall os0 s0 os1 s t s1 os2 s2 os3 s3,
  run os0 init = Some s0 -> forallb tk os1 = true -> run (Halt :: os1) s0 = Some s ->
  step (Invoke t) s = Some s1 -> forallb tk os2 = true -> run os2 s1 = Some s2 -> s_c s2 t = Out ->
  forallb tk os3 = true -> run os3 s2 = Some s3 ->
  s_pc s3 = Dead \/ (wks os3 < 8 /\ ((exists s', step Wk s3 = Some s') \/ (exists u s', s_lock s3 = Some (ClL u) /\ step (Cl u) s3 = Some s'))).
Proof. exact terminates. Qed.
Print Assumptions C90_terminates.

(** C90: at most one more pass starts after the worker was told to terminate. *)
Theorem C90_at_most_one_pass : forall os s s', forallb tk os = true -> run (Halt :: os) s = Some s' -> s_n s' <= S (s_n s).
Proof. exact few_passes. Qed.
Print Assumptions C90_at_most_one_pass.

(** C91, partial: if no request is made with a delay, a request is taken from the queue after 16 steps of
    the worker for each request in the queue; no timer is needed.  Missing: requests with a delay, for which
    the refutation below holds. *)
Theorem C91_request_taken_partial : forall os1 sx t d sp os2 s2 os3 s3,
  forallb plain os1 = true -> run os1 init = Some sx -> s_c sx t = P d false -> serving sx = true ->
  step (Cl t) sx = Some sp -> forallb ok os2 = true -> run os2 sp = Some s2 -> s_c s2 t = Out ->
  forallb ok os3 = true -> run os3 s2 = Some s3 -> 16 * length (s_q s2) <= wks os3 ->
  taken d (os2 ++ os3) sp.
Proof. exact request_taken. Qed.
Print Assumptions C91_request_taken_partial.

(** The worker alone, from its creation to its first sleep. *)
Definition c89_boot : list act := [Add; Run] ++ repeat Wk 6.
Definition asleep (s : st) : bool := match s_pc s with W3 => negb (s_ntf s) | _ => false end.

(** Only the threads named in an execution move. *)
Definition cnamed (t : nat) (a : act) : bool := match a with Invoke u | Request u _ _ | Cl u => u =? t | _ => false end.
Lemma run_cnamed : forall os s s' t, forallb (fun a => negb (cnamed t a)) os = true -> run os s = Some s' -> s_c s' t = s_c s t.
Proof.
  induction os as [|a os IH]; intros s s' t N H; [injection H as <-; reflexivity|]. cbn [forallb run] in *. apply andb_prop in N. destruct N as (N1 & N2).
  destruct (step a s) as [s1|] eqn:E; [|discriminate]. rewrite (IH s1 s' t N2 H). apply negb_true_iff in N1.
  destruct a as [| | | |u|u d dl|u| | | | |]; cbn [cnamed] in N1; cbn [step] in E; unfold wstep, cstep in E;
    repeat match type of E with context [match ?x with _ => _ end] => destruct x eqn:?; try discriminate end; injection E as <-; cbn; try reflexivity;
    rewrite (Nat.eqb_sym t u), N1; reflexivity.
Qed.
Lemma run_cout : forall os s, run os init = Some s -> forallb (fun a => match a with Invoke u | Request u _ _ | Cl u => u <? 2 | _ => true end) os = true ->
  match run os init with Some x => match s_c x 0, s_c x 1 with Out, Out => true | _, _ => false end | None => false end = true ->
  forall t, s_c s t = Out.
Proof.
  intros os s E N H. rewrite E in H. intros [|[|t]].
  - destruct (s_c s 0), (s_c s 1); try discriminate; reflexivity.
  - destruct (s_c s 0), (s_c s 1); try discriminate; reflexivity.
  - rewrite (run_cnamed os init s (S (S t))); [reflexivity| |exact E]. rewrite forallb_forall in N |- *. intros a Ha. specialize (N a Ha).
    destruct a; cbn [cnamed]; try reflexivity; apply Nat.ltb_lt in N; apply negb_true_iff, Nat.eqb_neq; lia.
Qed.

(** C91 refuted: a request with a delay is in the queue before one without; the pass started for the second
    takes the first and then goes to sleep; the second is left until a timer. *)
Definition c91_t1 : list act :=
  c89_boot ++ [Request 0 7 true; Cl 0; Request 1 8 false; Cl 1; Cl 1; Cl 1; Cl 1; Cl 1] ++ repeat Wk 17.
Theorem C91_delayed_first_refuted : exists s, run c91_t1 init = Some s /\ serving s = true /\
  In 8 (map fst (s_q s)) /\ s_c s 1 = Out /\ asleep s = true /\ step Wk s = None /\ s_c s 0 = C1.
Proof.
  destruct (run c91_t1 init) as [s|] eqn:E; [|vm_compute in E; discriminate]. exists s. split; [reflexivity|].
  assert (C : match run c91_t1 init with Some x => (serving x, map fst (s_q x), s_c x 1, asleep x, match step Wk x with None => true | _ => false end, s_c x 0) | None => (false, [], C1, false, false, Out) end
    = (true, [8], Out, true, true, C1)) by (vm_compute; reflexivity).
  rewrite E in C. injection C as C1' C2' C3' C4' C5' C6'. rewrite C2'. repeat split; auto; [left; reflexivity|]. clear - C5'. cbn [step] in *. destruct (wstep s); [discriminate|reflexivity].
Qed.
Print Assumptions C91_delayed_first_refuted.

(** C92 refuted: the compare-and-swap that ends a pass fails spuriously once: the worker never starts
    another pass, whoever wakes it, and never sleeps. *)
Definition c92_a : list act := c89_boot ++ [Spur] ++ repeat Wk 9 ++ [WkWeak].
Theorem C92_stuck_refuted : exists s, run c92_a init = Some s /\
  forall os s', forallb (fun a => match a with Add | Halt => false | _ => true end) os = true -> run os s = Some s' -> s_n s' = s_n s /\ asleep s' = false.
Proof.
  destruct (run c92_a init) as [s|] eqn:E; [|vm_compute in E; discriminate]. exists s. split; [reflexivity|]. intros os s' Hl H.
  assert (C : match run c92_a init with Some x => (s_status x, s_pc x) | None => (Stop, L4) end = (Working, L0a)) by (vm_compute; reflexivity).
  rewrite E in C. injection C as C1' C2'. destruct (spin_run Working os s s') as (X & Y & _); auto; [split; [exact C1'|rewrite C2'; exact I]|].
  split; [exact X|]. unfold asleep. destruct (s_pc s'); try reflexivity. congruence.
Qed.
Print Assumptions C92_stuck_refuted.

(** C92 refuted: the compare-and-swap that starts a pass fails spuriously: a wake-up is lost. *)
Definition c92_b : list act := c89_boot ++ [Invoke 0; Cl 0; Cl 0; Cl 0; Cl 0] ++ repeat Wk 6 ++ [WkWeak] ++ repeat Wk 6.
Theorem C92_lost_wakeup_refuted : exists s, run c92_b init = Some s /\ serving s = true /\ s_n s = 0 /\ (forall t, s_c s t = Out) /\ asleep s = true.
Proof.
  destruct (run c92_b init) as [s|] eqn:E; [|vm_compute in E; discriminate]. exists s. split; [reflexivity|].
  assert (C : match run c92_b init with Some x => (serving x, s_n x, asleep x) | None => (false, 1, false) end = (true, 0, true)) by (vm_compute; reflexivity).
  rewrite E in C. injection C as C1' C2' C3'. repeat split; auto. apply (run_cout c92_b s E); vm_compute; reflexivity.
Qed.
Print Assumptions C92_lost_wakeup_refuted.

(** C92 refuted: the compare-and-swap in run fails spuriously: the worker never works at all. *)
Theorem C92_never_started_refuted : exists s, run [Add; RunWeak] init = Some s /\
  forall os s', forallb (fun a => match a with Run | Halt => false | _ => true end) os = true -> run os s = Some s' -> s_n s' = 0.
Proof. eexists. split; [reflexivity|]. intros os s' Hl H. exact (stop_run os (set_status Stop init) s' Hl eq_refl I H). Qed.
Print Assumptions C92_never_started_refuted.

(** C93, partial: a started worker that nobody calls and that has no requests goes to sleep. *)
Theorem C93_sleeps_partial : forall os s, forallb before os = true -> run os init = Some s -> serving s = true -> s_q s = [] -> (forall t, s_c s t = Out) ->
  exists n s', n <= 50 /\ run (repeat Wk n) s = Some s' /\ s_pc s' = W3 /\ s_ntf s' = false.
Proof. exact goes_to_sleep. Qed.
Print Assumptions C93_sleeps_partial.

(** C93, partial: if the calls that start the log reclaimer do not overlap, there is at most one, and it is
    registered and started. *)
Theorem C93_one_reclaimer_partial : forall s, rseq s -> (forall t, r_pc s t = ROut) ->
  (r_reg s = None /\ r_status s = []) \/ (r_reg s = Some 0 /\ r_status s = [Idle]).
Proof. exact one_reclaimer. Qed.
Print Assumptions C93_one_reclaimer_partial.

(** C93 refuted: two databases are opened in log-store mode at the same time: two reclaimers are created, one
    is never registered; such a worker never sleeps and can always move: it takes a processor for ever. *)
Definition c93_trace : list ract := [Ask 0; Ask 1; RGo 0; RGo 1; RGo 0; RGo 1; RGo 0; RGo 1; RGo 0; RGo 1].
Theorem C93_spins_refuted :
  (exists s, rrun c93_trace rinit = Some s /\ r_pc s 0 = ROut /\ r_pc s 1 = ROut /\ r_reg s = Some 0 /\ r_status s = [Idle; NoInst]) /\
  (forall os s, forallb (fun a => match a with Add | Halt => false | _ => true end) os = true -> run os init = Some s ->
     s_n s = 0 /\ asleep s = false /\ exists s', step Wk s = Some s').
Proof.
  split.
  - destruct (rrun c93_trace rinit) as [s|] eqn:E; [|vm_compute in E; discriminate]. exists s. split; [reflexivity|].
    assert (C : match rrun c93_trace rinit with Some x => (r_pc x 0, r_pc x 1, r_reg x, r_status x) | None => (ROut, ROut, None, []) end
                = (ROut, ROut, Some 0, [Idle; NoInst])) by (vm_compute; reflexivity).
    rewrite E in C. injection C as C1' C2' C3' C4'. auto.
  - intros os s Hl H. destruct (spin_run NoInst os init s) as (X & Y & Z); auto; [split; [reflexivity|exact I]|]. split; [exact X|]. split; [|exact Z].
    unfold asleep. destruct (s_pc s); try reflexivity. congruence.
Qed.
Print Assumptions C93_spins_refuted.

(** Cases. *)
Definition after (os : list act) (s : st) (P : st -> Prop) : Prop := match run os s with Some s' => P s' | None => False end.
(** A call that finds the worker going to sleep. *)
Example C89_case : forallb before ([Add; Run] ++ repeat Wk 3) = true /\
  after ([Add; Run] ++ repeat Wk 3) init (fun s => serving s = true /\ s_pc s = W1 /\
    after [Invoke 5; Cl 5; Wk; Wk; Wk; Cl 5; Cl 5; Cl 5] s (fun s2 => s_c s2 5 = Out /\ s_pc s2 = W3 /\ s_ntf s2 = true /\
      after (repeat Wk 9) s2 (fun s3 => s_n s3 = 1))).
Proof. vm_compute. repeat split. Qed.
(** A worker told to terminate while it sleeps. *)
Example C90_case : after c89_boot init (fun s0 => s_pc s0 = W3 /\
  after [Halt; Invoke 3; Cl 3; Cl 3; Cl 3; Cl 3] s0 (fun s2 => s_c s2 3 = Out /\ after (repeat Wk 7) s2 (fun s3 => s_pc s3 = Dead))).
Proof. vm_compute. repeat split. Qed.
(** Two requests in the queue. *)
Example C91_case : after (c89_boot ++ [Request 0 7 false; Cl 0; Request 1 8 false]) init (fun sx => s_c sx 1 = P 8 false /\ serving sx = true /\
  after [Cl 1] sx (fun sp => map fst (s_q sp) = [7; 8] /\ after (repeat (Cl 1) 4) sp (fun s2 => s_c s2 1 = Out /\
    after (repeat Wk 20) s2 (fun s3 => s_q s3 = [])))).
Proof. vm_compute. repeat split. Qed.
