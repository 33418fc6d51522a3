(** C87 and C88: handles of a database that several threads open and close. *)
From Coq Require Import Arith List Bool Lia.
From Verif Require Import HandleModel HandleProofs.
Import ListNotations.
Local Open Scope nat_scope.

(** C87, partial: as long as no close overlaps another open or close (opens may overlap each other), every
    handle given out is not null, is the one object registered for the path, and exists.
    Missing: closes that overlap, for which the refutations below hold. *)
Theorem C87_valid_partial : forall s, sreach s ->
  s_bad s = false /\ forall h, In h (s_held s) -> exists o, h = Some o /\ s_live s o = true /\ s_map s = Some o.
Proof. exact handles_valid. Qed.
Print Assumptions C87_valid_partial.

(** C88, partial: under the same condition the reference count is the number of handles given out, there is
    one object, and it is deleted with the last handle. *)
Theorem C88_closed_partial : forall s, sreach s -> (forall t, s_pc s t = Out) ->
  (forall o, s_map s = Some o -> s_ref s o = length (s_held s) /\ (s_held s <> []) /\ forall o', s_live s o' = true -> o' = o) /\
  (s_held s = [] -> s_map s = None /\ forall o, s_live s o = false).
Proof. exact closed_quiet. Qed.
Print Assumptions C88_closed_partial.

Definition reachable (s : st) : Prop := exists os, run os init = Some s.

(** Computing with executions: only the threads named in it move. *)
Definition named (t : nat) (a : act) : bool := match a with Open u | Close u _ | Go u | Weak u => u =? t | Use _ => false end.
Lemma step_named : forall a s s' t, named t a = false -> step a s = Some s' -> s_pc s' t = s_pc s t.
Proof.
  intros a s s' t N H. assert (U : forall u p, (u =? t) = false -> upd u p (s_pc s) t = s_pc s t).
  { intros u p Hu. unfold upd. rewrite Nat.eqb_sym, Hu. reflexivity. }
  destruct a as [u|u o|u|u|o]; cbn [named] in N; cbn [step] in H.
  - destruct (s_pc s u); try discriminate. injection H as <-. apply U, N.
  - destruct (s_pc s u); try discriminate. destruct (take o (s_held s)); [|discriminate]. injection H as <-. apply U, N.
  - destruct (s_pc s u) as [| |x| |x|x| |x|x|x|x|x]; try discriminate; try (destruct (s_lock s); [discriminate|]);
      try (destruct (s_map s)); try (destruct (s_ref s x =? 0)); try (destruct (s_ref s x =? 1)); injection H as <-; apply U, N.
  - destruct (s_pc s u); try discriminate. injection H as <-. apply U, N.
  - destruct (take o (s_held s)); [|discriminate]. injection H as <-. reflexivity.
Qed.
Lemma run_named : forall os s s' t, forallb (fun a => negb (named t a)) os = true -> run os s = Some s' -> s_pc s' t = s_pc s t.
Proof.
  induction os as [|a os IH]; intros s s' t N H; [injection H as <-; reflexivity|]. cbn [forallb run] in *. apply andb_prop in N. destruct N as (N1 & N2).
  destruct (step a s) as [s1|] eqn:E; [|discriminate]. rewrite (IH s1 s' t N2 H). apply (step_named a); [|exact E]. apply negb_true_iff. exact N1.
Qed.
Lemma run_out : forall os s, run os init = Some s -> forallb (fun a => match a with Open u | Close u _ | Go u | Weak u => u <? 2 | Use _ => true end) os = true ->
  match run os init with Some x => match s_pc x 0, s_pc x 1 with Out, Out => true | _, _ => false end | None => false end = true ->
  forall t, s_pc s t = Out.
Proof.
  intros os s E N H. rewrite E in H. intros [|[|t]].
  - destruct (s_pc s 0), (s_pc s 1); try discriminate; reflexivity.
  - destruct (s_pc s 0), (s_pc s 1); try discriminate; reflexivity.
  - rewrite (run_named os init s (S (S t))); [reflexivity| |exact E]. rewrite forallb_forall in N |- *. intros a Ha. specialize (N a Ha).
    destruct a; cbn [named]; try reflexivity; apply Nat.ltb_lt in N; apply negb_true_iff, Nat.eqb_neq; lia.
Qed.

(** C87 refuted: between the last reference going to zero and the removal from the map another thread
    gets the handle; it is deleted under its feet. *)
Definition c87_free : list act := [Open 0; Go 0; Go 0; Go 0; Close 0 0; Go 0; Go 0; Open 1; Go 1; Go 1; Go 0; Go 0].
Theorem C87_use_after_free_refuted : exists s o, reachable s /\ In (Some o) (s_held s) /\ s_live s o = false /\
  (forall t, s_pc s t = Out) /\ exists s', step (Use o) s = Some s' /\ s_bad s' = true.
Proof.
  destruct (run c87_free init) as [s|] eqn:E; [|vm_compute in E; discriminate].
  assert (C : match run c87_free init with Some x => (s_held x, s_live x 0, s_bad x) | None => ([], true, true) end = ([Some 0], false, false)) by (vm_compute; reflexivity).
  rewrite E in C. injection C as C1 C2 C3. exists s, 0. split; [exists c87_free; exact E|]. rewrite C1. split; [now left|]. split; [exact C2|].
  split; [apply (run_out c87_free s E); vm_compute; reflexivity|]. exists (touch 0 s). cbn [step]. rewrite C1. split; [reflexivity|]. cbn [touch s_bad]. rewrite C2, C3. reflexivity.
Qed.
Print Assumptions C87_use_after_free_refuted.

(** C87 refuted: two threads open at the same time, one of them closes before the other one looks for the
    registered object: the other open reports success with a null handle. *)
Definition c87_null : list act := [Open 0; Open 1; Go 0; Go 1; Go 0; Go 1; Go 0; Go 1; Go 1; Close 0 0; Go 0; Go 0; Go 0; Go 0; Go 1].
Theorem C87_null_handle_refuted : exists s, reachable s /\ In None (s_held s) /\ s_map s = None /\ (forall t, s_pc s t = Out).
Proof.
  destruct (run c87_null init) as [s|] eqn:E; [|vm_compute in E; discriminate].
  assert (C : match run c87_null init with Some x => (s_held x, s_map x) | None => ([], None) end = ([None], None)) by (vm_compute; reflexivity).
  rewrite E in C. injection C as C1 C2. exists s. split; [exists c87_null; exact E|]. rewrite C1. split; [now left|]. split; [exact C2|].
  apply (run_out c87_null s E); vm_compute; reflexivity.
Qed.
Print Assumptions C87_null_handle_refuted.

(** C88 refuted: two closes at the same time both see the other's reference: the count becomes zero and
    the database is never closed. *)
Definition c88_two : list act := [Open 0; Go 0; Go 0; Go 0; Open 1; Go 1; Go 1; Close 0 0; Close 1 0; Go 0; Go 1; Go 0; Go 1; Go 0; Go 1].
Theorem C88_never_closed_refuted : exists s o, reachable s /\ s_held s = [] /\ (forall t, s_pc s t = Out) /\
  s_map s = Some o /\ s_live s o = true /\ s_ref s o = 0.
Proof.
  destruct (run c88_two init) as [s|] eqn:E; [|vm_compute in E; discriminate].
  assert (C : match run c88_two init with Some x => (s_held x, s_map x, s_live x 0, s_ref x 0) | None => ([None], None, false, 1) end = ([], Some 0, true, 0)) by (vm_compute; reflexivity).
  rewrite E in C. injection C as C1 C2 C3 C4. exists s, 0. split; [exists c88_two; exact E|]. split; [exact C1|].
  split; [apply (run_out c88_two s E); vm_compute; reflexivity|]. auto.
Qed.
Print Assumptions C88_never_closed_refuted.

(** C88 refuted also with one thread: if the weak compare-and-swap fails although the count is one. *)
Definition c88_weak : list act := [Open 0; Go 0; Go 0; Go 0; Close 0 0; Go 0; Weak 0; Go 0].
Theorem C88_weak_refuted : exists s o, reachable s /\ s_held s = [] /\ (forall t, s_pc s t = Out) /\
  s_map s = Some o /\ s_live s o = true /\ s_ref s o = 0.
Proof.
  destruct (run c88_weak init) as [s|] eqn:E; [|vm_compute in E; discriminate].
  assert (C : match run c88_weak init with Some x => (s_held x, s_map x, s_live x 0, s_ref x 0) | None => ([None], None, false, 1) end = ([], Some 0, true, 0)) by (vm_compute; reflexivity).
  rewrite E in C. injection C as C1 C2 C3 C4. exists s, 0. split; [exists c88_weak; exact E|]. split; [exact C1|].
  split; [apply (run_out c88_weak s E); vm_compute; reflexivity|]. auto.
Qed.
Print Assumptions C88_weak_refuted.

(** A case: two opens overlap, one object is thrown away, both threads get the other one; after both have
    closed nothing is left. *)
Definition alone_b (a : act) (s : st) : bool :=
  match a with
  | Open _ => negb (is_close (s_pc s 0)) && negb (is_close (s_pc s 1))
  | Close _ _ => match s_pc s 0, s_pc s 1 with Out, Out => true | _, _ => false end
  | Weak _ => false
  | _ => true
  end.
Fixpoint srun (os : list act) (s : st) : option st :=
  match os with [] => Some s | a :: os' => if alone_b a s then match step a s with Some s' => srun os' s' | None => None end else None end.
Lemma srun_reach : forall os s s', sreach s -> (forall t, 2 <= t -> s_pc s t = Out) ->
  forallb (fun a => match a with Open u | Close u _ | Go u | Weak u => u <? 2 | Use _ => true end) os = true -> srun os s = Some s' -> sreach s'.
Proof.
  induction os as [|a os IH]; intros s s' R O N H; [injection H as <-; exact R|]. cbn [forallb srun] in *. apply andb_prop in N. destruct N as (N1 & N2).
  destruct (alone_b a s) eqn:A; [|discriminate]. destruct (step a s) as [s1|] eqn:E; [|discriminate]. apply (IH s1 s'); [|intros t Ht|exact N2|exact H].
  - eapply sr_step; [exact R| |exact E]. destruct a; cbn [alone alone_b] in *; try exact I; try discriminate.
    + apply andb_prop in A. destruct A as (A1 & A2). intros [|[|t']]; [apply negb_true_iff; exact A1|apply negb_true_iff; exact A2|rewrite O by lia; reflexivity].
    + intros [|[|t']]; [destruct (s_pc s 0), (s_pc s 1); try discriminate; reflexivity|destruct (s_pc s 0), (s_pc s 1); try discriminate; reflexivity|apply O; lia].
  - rewrite (step_named a s s1 t); [apply O, Ht| |exact E]. destruct a; cbn [named]; try reflexivity; apply Nat.ltb_lt in N1; apply Nat.eqb_neq; lia.
Qed.
Definition c87_ex1 : list act := [Open 0; Open 1; Go 0; Go 1; Go 0; Go 1; Go 0; Go 1; Go 1; Go 1; Go 1].
Definition c87_ex2 : list act := [Close 0 0; Go 0; Go 0; Go 0; Close 1 0; Go 1; Go 1; Go 1; Go 1].
Example C87_case : exists s s', sreach s /\ s_held s = [Some 0; Some 0] /\ s_live s 1 = false /\ s_ref s 0 = 2 /\
  sreach s' /\ s_held s' = [] /\ s_map s' = None /\ s_live s' 0 = false.
Proof.
  destruct (srun c87_ex1 init) as [s|] eqn:E; [|vm_compute in E; discriminate].
  destruct (srun (c87_ex1 ++ c87_ex2) init) as [s'|] eqn:E'; [|vm_compute in E'; discriminate].
  assert (C : match srun c87_ex1 init with Some x => (s_held x, s_live x 1, s_ref x 0) | None => ([], true, 0) end = ([Some 0; Some 0], false, 2)) by (vm_compute; reflexivity).
  assert (C' : match srun (c87_ex1 ++ c87_ex2) init with Some x => (s_held x, s_map x, s_live x 0) | None => ([None], None, true) end = ([], None, false)) by (vm_compute; reflexivity).
  rewrite E in C. rewrite E' in C'. injection C as C1 C2 C3. injection C' as D1 D2 D3. exists s, s'.
  split; [apply (srun_reach c87_ex1 init); [constructor|reflexivity|reflexivity|exact E]|]. repeat (split; [assumption|]).
  split; [apply (srun_reach (c87_ex1 ++ c87_ex2) init); [constructor|reflexivity|reflexivity|exact E']|]. auto.
Qed.
