(** Proofs about WorkerModel: wake-ups, termination, requests. *)
From Coq Require Import Arith List Bool Lia.
From Verif Require Import WorkerModel WorkerSpec WorkerProofs.
Import ListNotations.
Local Open Scope nat_scope.

Definition TI (s : st) : Prop := s_status s <> Term /\ s_pc s <> LX /\ s_pc s <> Dead.
Lemma step_TI : forall a s s', nohalt a = true -> TI s -> step a s = Some s' -> TI s'.
Proof.
  intros a s s' Hn (T1 & T2 & T3) H. unfold TI. destruct a as [| | | |t|t d dl|t| | | | |]; try discriminate; cbn [step] in H; unfold wstep, cstep in H;
    repeat match type of H with context [match ?x with _ => _ end] => destruct x eqn:?; try discriminate; try congruence end; injection H as <-; cbn; repeat split; congruence.
Qed.
Lemma run_TI : forall os s s', forallb nohalt os = true -> TI s -> run os s = Some s' -> TI s'.
Proof.
  induction os as [|a os IH]; intros s s' Hs B H; cbn [run forallb] in *; [injection H as <-; exact B|].
  apply andb_prop in Hs. destruct Hs as (Ha & Hs). destruct (step a s) as [s1|] eqn:E; [|discriminate]. exact (IH s1 s' Hs (step_TI a s s1 Ha B E) H).
Qed.
Lemma init_TI : TI init. Proof. repeat split; discriminate. Qed.
Lemma init_SI : SI init. Proof. intros X. discriminate X. Qed.
Lemma kept_nohalt : forall a, kept a = true -> nohalt a = true. Proof. destruct a; try reflexivity; discriminate. Qed.
Lemma forall_impl : forall (f g : act -> bool) os, (forall a, f a = true -> g a = true) -> forallb f os = true -> forallb g os = true.
Proof. intros f g os I. induction os as [|a os IH]; [reflexivity|]. cbn. intros H. apply andb_prop in H. destruct H as (H1 & H2). rewrite (I a H1). auto. Qed.

Lemma run_app : forall os1 os2 s, run (os1 ++ os2) s = match run os1 s with Some s' => run os2 s' | None => None end.
Proof. induction os1 as [|a os1 IH]; intros os2 s; [reflexivity|]. cbn [app run]. destruct (step a s); [apply IH|reflexivity]. Qed.

Lemma K_run : forall t os s s', forallb kept os = true -> BI s -> SI s -> TI s -> K t s -> run os s = Some s' ->
  s_n s < s_n s' \/ (s_n s' = s_n s /\ K t s').
Proof.
  intros t. induction os as [|a os IH]; intros s s' Hk B S T HK H; cbn [run forallb] in *.
  - injection H as <-. right. split; [reflexivity|exact HK].
  - apply andb_prop in Hk. destruct Hk as (Ha & Hk). destruct (step a s) as [s1|] eqn:E; [|discriminate].
    destruct T as (T0 & T1 & T2). destruct (K_step t a s s1 Ha B S T1 T2 HK E) as [X|(X1 & X2 & X4 & X5)].
    + left. apply run_mono in H. lia.
    + assert (B' := step_BI a s s1 B E). assert (S' := step_SI a s s1 (kept_strong a Ha) S E).
      assert (T' : TI s1) by (apply (step_TI a s s1); [apply kept_nohalt; exact Ha|repeat split; assumption|exact E]).
      destruct (IH s1 s' Hk B' S' T' X2 H) as [Y|(Y1 & Y2)]; [left; lia|right; split; [lia|exact Y2]].
Qed.

Lemma K_out : forall t s, K t s -> s_c s t = Out -> G s.
Proof. intros t s [HG|(H1 & H2)] E; [exact HG|]. rewrite E in H2. destruct H2. Qed.

Lemma rank_le : forall p, rank p <= 12.
Proof. destruct p; cbn; lia. Qed.

(** After a call that woke the worker has returned, the worker starts a pass that began after the call, in
    at most 12 steps of its own. *)
Lemma wakeup : forall os1 s t s1 os2 s2 os3 s3,
  forallb before os1 = true -> run os1 init = Some s -> serving s = true ->
  step (Invoke t) s = Some s1 -> forallb kept os2 = true -> run os2 s1 = Some s2 -> s_c s2 t = Out ->
  forallb kept os3 = true -> run os3 s2 = Some s3 -> 12 < wks os3 ->
  s_n s < s_n s3.
Proof.
  intros os1 s t s1 os2 s2 os3 s3 H1 R1 V C H2 R2 O H3 R3 W.
  assert (B : BI s) by (exact (run_BI os1 init s init_BI R1)).
  assert (S : SI s) by (apply (run_SI os1 init s); [revert H1; apply forall_impl; intros a Ha; apply andb_prop in Ha; apply Ha|exact init_SI|exact R1]).
  assert (T : TI s) by (apply (run_TI os1 init s); [revert H1; apply forall_impl; intros a Ha; apply andb_prop in Ha; apply Ha|exact init_TI|exact R1]).
  assert (B1 := step_BI _ _ _ B C). assert (S1 := step_SI (Invoke t) _ _ eq_refl S C). assert (T1 := step_TI (Invoke t) _ _ eq_refl T C).
  assert (N1 : s_n s1 = s_n s /\ K t s1).
  { cbn [step] in C. destruct (s_c s t); try discriminate. injection C as <-. split; [reflexivity|]. right. split; [exact V|]. rewrite cgo_c, Nat.eqb_refl. exact I. }
  destruct N1 as (N1 & K1). destruct (K_run t os2 s1 s2 H2 B1 S1 T1 K1 R2) as [X|(X1 & X2)].
  - apply run_mono in R3. lia.
  - apply K_out in X2; [|exact O].
    assert (B2 := run_BI os2 _ _ B1 R2).
    assert (S2 : SI s2) by (apply (run_SI os2 s1); [revert H2; apply forall_impl, kept_strong|exact S1|exact R2]).
    assert (T2 : TI s2) by (apply (run_TI os2 s1); [revert H2; apply forall_impl, kept_nohalt|exact T1|exact R2]).
    destruct T2 as (_ & T2 & T2'). destruct (G_run os3 s2 s3 H3 B2 S2 T2 T2' X2 R3) as [Y|(Y1 & Y2 & Y3)]; [lia|].
    assert (Z := rank_le (s_pc s2)). lia.
Qed.

(** Meanwhile nothing blocks for ever: the worker can move, or the thread that holds the mutex can. *)
Lemma G_live : forall s, BI s -> s_pc s <> Dead -> G s ->
  (exists s', step Wk s = Some s') \/ (exists t s', s_lock s = Some (ClL t) /\ step (Cl t) s = Some s').
Proof.
  intros s (B1 & B2 & B3) ND (_ & HA). unfold awake in HA. cbn [step]. unfold wstep. destruct (s_pc s) eqn:Ep; try congruence; try (left; eexists; reflexivity).
  - destruct (s_lock s) as [[|t]|] eqn:El; [exfalso; assert (X := proj1 B1 eq_refl); discriminate X| |left; eexists; reflexivity].
    right. exists t. assert (X := proj1 (B2 t) eq_refl). unfold cstep. destruct (s_c s t); try discriminate X; eexists; (split; reflexivity).
  - cbn in B3. destruct (s_ea s); try discriminate. cbn in HA. rewrite HA. left. eexists. reflexivity.
  - destruct (s_lock s) as [[|t]|] eqn:El; [exfalso; assert (X := proj1 B1 eq_refl); discriminate X| |left; eexists; reflexivity].
    right. exists t. assert (X := proj1 (B2 t) eq_refl). unfold cstep. destruct (s_c s t); try discriminate X; eexists; (split; reflexivity).
Qed.
Lemma wakeup_live : forall os1 s t s1 os2 s2 os3 s3,
  forallb before os1 = true -> run os1 init = Some s -> serving s = true ->
  step (Invoke t) s = Some s1 -> forallb kept os2 = true -> run os2 s1 = Some s2 -> s_c s2 t = Out ->
  forallb kept os3 = true -> run os3 s2 = Some s3 -> s_n s3 = s_n s ->
  (exists s', step Wk s3 = Some s') \/ (exists u s', s_lock s3 = Some (ClL u) /\ step (Cl u) s3 = Some s').
Proof.
  intros os1 s t s1 os2 s2 os3 s3 H1 R1 V C H2 R2 O H3 R3 W.
  assert (B : BI s) by (exact (run_BI os1 init s init_BI R1)).
  assert (S : SI s) by (apply (run_SI os1 init s); [revert H1; apply forall_impl; intros a Ha; apply andb_prop in Ha; apply Ha|exact init_SI|exact R1]).
  assert (T : TI s) by (apply (run_TI os1 init s); [revert H1; apply forall_impl; intros a Ha; apply andb_prop in Ha; apply Ha|exact init_TI|exact R1]).
  assert (B1 := step_BI _ _ _ B C). assert (S1 := step_SI (Invoke t) _ _ eq_refl S C). assert (T1 := step_TI (Invoke t) _ _ eq_refl T C).
  assert (N1 : s_n s1 = s_n s /\ K t s1).
  { cbn [step] in C. destruct (s_c s t); try discriminate. injection C as <-. split; [reflexivity|]. right. split; [exact V|]. rewrite cgo_c, Nat.eqb_refl. exact I. }
  destruct N1 as (N1 & K1). destruct (K_run t os2 s1 s2 H2 B1 S1 T1 K1 R2) as [X|(X1 & X2)].
  - apply run_mono in R3. lia.
  - apply K_out in X2; [|exact O].
    assert (B2 := run_BI os2 _ _ B1 R2).
    assert (S2 : SI s2) by (apply (run_SI os2 s1); [revert H2; apply forall_impl, kept_strong|exact S1|exact R2]).
    assert (T2 : TI s2) by (apply (run_TI os2 s1); [revert H2; apply forall_impl, kept_nohalt|exact T1|exact R2]).
    assert (T3 : TI s3) by (apply (run_TI os3 s2); [revert H3; apply forall_impl, kept_nohalt|exact T2|exact R3]).
    destruct T2 as (_ & T2 & T2'). destruct (G_run os3 s2 s3 H3 B2 S2 T2 T2' X2 R3) as [Y|(Y1 & Y2 & Y3)]; [lia|].
    apply G_live; [exact (run_BI os3 _ _ B2 R3)|apply T3|exact Y2].
Qed.

(** *** Termination *)
Definition GT (s : st) : bool :=
  match s_pc s with
  | Dead => match s_status s with NoInst | Term => true | _ => false end
  | _ => match s_status s with Term => true | _ => false end &&
    match s_pc s with
    | L0c | W0 | W1 | W2 | W3d | W4 => match s_ea s with edone => true | _ => false end
    | W2b => false
    | W3 => s_ntf s
    | _ => true
    end
  end.
Definition trank (p : wpc) : nat :=
  match p with
  | Dead => 0 | LX => 1 | L1 => 2 | L0b => 3 | L0a => 4 | L2 => 5 | L6 => 5 | L5 => 6 | L4 => 7 | L3 => 8
  | W4 => 3 | W3d => 4 | W3c => 5 | W3b => 6 | W3 => 7 | W2b => 8 | W2 => 5 | W1 => 6 | W0 => 4 | L0c => 5
  end.
Definition TS (s : st) : Prop := s_status s = Term \/ (s_pc s = Dead /\ s_status s = NoInst).
Lemma TS_step : forall a s s', tk a = true -> TS s -> step a s = Some s' -> TS s'.
Proof.
  intros a s s' Hk T H. unfold TS in *. destruct a as [| | | |t|t d dl|t| | | | |]; try discriminate; cbn [step] in H; unfold wstep, cstep in H;
    repeat match type of H with context [match ?x with _ => _ end] => destruct x eqn:?; try discriminate end; injection H as <-; cbn; try (left; reflexivity);
    destruct T as [T|(T1 & T2)]; try discriminate; try congruence; auto.
Qed.
(** The number of passes started, and the one that is past the test. *)
Definition soon (s : st) : nat := s_n s + match s_pc s with L3 | L4 => 1 | _ => 0 end.
Lemma soon_step : forall a s s', TS s -> step a s = Some s' -> soon s' <= soon s.
Proof.
  intros a s s' T H. unfold TS, soon in *. destruct a as [| | | |t|t d dl|t| | | | |]; cbn [step] in H; unfold wstep, cstep in H;
    repeat match type of H with context [match ?x with _ => _ end] => destruct x eqn:?; try discriminate end; injection H as <-; cbn; rewrite ?Heqw, ?Heqw0, ?Heqw1;
    try lia; destruct T as [T|(T1 & T2)]; try congruence; try lia; destruct (s_pc s); lia.
Qed.
Lemma soon_run : forall os s s', forallb tk os = true -> TS s -> run os s = Some s' -> soon s' <= soon s /\ TS s'.
Proof.
  induction os as [|a os IH]; intros s s' Hk T H; cbn [run forallb] in *; [injection H as <-; split; [lia|exact T]|].
  apply andb_prop in Hk. destruct Hk as (Ha & Hk). destruct (step a s) as [s1|] eqn:E; [|discriminate].
  destruct (IH s1 s' Hk (TS_step a s s1 Ha T E) H) as (X & Y). assert (Z := soon_step a s s1 T E). split; [lia|exact Y].
Qed.
Lemma few_passes : forall os s s', forallb tk os = true -> run (Halt :: os) s = Some s' -> s_n s' <= S (s_n s).
Proof.
  intros os s s' Hk H. cbn [run step] in H. destruct (soon_run os (set_status Term s) s' Hk) as (X & _); [left; reflexivity|exact H|].
  unfold soon in X. cbn in X. destruct (s_pc s); lia.
Qed.

Lemma GT_step : forall a s s', tk a = true -> BI s -> GT s = true -> step a s = Some s' ->
  GT s' = true /\ trank (s_pc s') + wk a <= trank (s_pc s).
Proof.
  intros a s s' Hk (B1 & B2 & B3) HG H. unfold GT in *. destruct a as [| | | |t|t d dl|t| | | | |]; try discriminate; cbn [step wk] in *.
  - unfold wstep in H. destruct (s_pc s) eqn:Ep; try discriminate; cbn [ea_ok] in B3;
      repeat match type of H with context [match ?x with _ => _ end] => destruct x eqn:?; try discriminate end; injection H as <-; cbn in *;
      rewrite ?Heqw, ?Heqe in *; try (split; [first [reflexivity|exact HG|apply andb_prop in HG; rewrite (proj1 HG); reflexivity]|lia]); try discriminate.
  - destruct (s_pc s) eqn:Ep; try discriminate; injection H as <-; cbn in *; (split; [exact HG|lia]).
  - destruct (s_pc s) eqn:Ep; try discriminate; injection H as <-; cbn in *. split; [|lia]. destruct (s_status s); try discriminate; reflexivity.
  - destruct (s_pc s) eqn:Ep; try discriminate; injection H as <-; cbn in *; rewrite Ep. split; [exact HG|cbn; lia].
  - destruct (s_c s t); try discriminate. injection H as <-. cbn. split; [exact HG|lia].
  - destruct (s_c s t); try discriminate. injection H as <-. cbn. split; [exact HG|lia].
  - assert (HP : s_pc s' = s_pc s /\ s_status s' = s_status s /\ (s_ea s' = s_ea s \/ s_ea s' = edone) /\ (s_ntf s' = s_ntf s \/ s_ntf s' = true)).
    { unfold cstep in H. repeat match type of H with context [match ?x with _ => _ end] => destruct x eqn:?; try discriminate end; injection H as <-; cbn; auto. }
    destruct HP as (P1 & P2 & P3 & P4). rewrite P1, P2. split; [|lia].
    destruct P3 as [P3|P3], P4 as [P4|P4]; rewrite P3, P4; destruct (s_pc s), (s_status s); cbn in *; first [exact HG|reflexivity|discriminate].
  - injection H as <-. cbn. split; [exact HG|lia].
  - injection H as <-. destruct (s_pc s) eqn:Ep, (s_status s) eqn:Es; cbn in *; rewrite ?Ep, ?Es; cbn in *; (split; [first [exact HG|discriminate]|lia]).
  - injection H as <-. split; [exact HG|lia].
  - injection H as <-. cbn. split; [|lia]. destruct (s_pc s), (s_status s); cbn in *; first [exact HG|discriminate].
Qed.

Definition KT (t : nat) (s : st) : Prop :=
  GT s = true \/ (TS s /\ match s_c s t with C1 => True | C2 | C3 => match s_ea s with eidle => false | _ => true end = true | _ => False end).
Lemma KT_step : forall t a s s', tk a = true -> BI s -> KT t s -> step a s = Some s' -> KT t s'.
Proof.
  intros t a s s' Hk B [HG|(HT & HC)] H.
  { left. exact (proj1 (GT_step a s s' Hk B HG H)). }
  assert (HT' : TS s') by (eapply TS_step; eauto). destruct B as (B1 & B2 & B3).
  assert (Q : (s_c s' t = s_c s t /\ (match s_ea s with eidle => false | _ => true end = true -> match s_ea s' with eidle => false | _ => true end = true \/ GT s' = true)) \/ (a = Cl t)).
  { unfold TS, GT in *. destruct a as [| | | |u|u d dl|u| | | | |]; try discriminate; cbn [step] in H.
    - left. unfold wstep in H. repeat match type of H with context [match ?x with _ => _ end] => destruct x eqn:?; try discriminate end; injection H as <-; cbn in *;
        (split; [reflexivity|intros X; first [discriminate X|left; reflexivity|left; exact X|rewrite Heqe in *; first [discriminate X|left; reflexivity]|idtac]]).
      right. destruct HT as [HT|(HT & _)]; [rewrite HT; reflexivity|congruence].
    - left. destruct (s_pc s); try discriminate; injection H as <-; cbn; auto.
    - left. destruct (s_pc s); try discriminate; injection H as <-; cbn; auto.
    - left. destruct (s_pc s); try discriminate; injection H as <-; cbn; auto.
    - left. destruct (s_c s u) eqn:Eu; try discriminate. injection H as <-. rewrite cgo_c. cu u t; [rewrite Eu in HC; destruct HC|]. cbn. auto.
    - left. destruct (s_c s u) eqn:Eu; try discriminate. injection H as <-. rewrite cgo_c. cu u t; [rewrite Eu in HC; destruct HC|]. cbn. auto.
    - destruct (Nat.eq_dec u t) as [->|Ne]; [right; reflexivity|left]. apply Nat.eqb_neq in Ne. rewrite Nat.eqb_sym in Ne.
      unfold cstep in H. repeat match type of H with context [match ?x with _ => _ end] => destruct x eqn:?; try discriminate end; injection H as <-; cbn; rewrite Ne; rewrite ?Heqe; auto.
    - left. injection H as <-. cbn. auto.
    - left. injection H as <-. destruct (s_status s); cbn; auto.
    - left. injection H as <-. auto.
    - left. injection H as <-. cbn. auto. }
  destruct Q as [(Q1 & Q2)| ->].
  - destruct (s_c s t) eqn:Ec; try contradiction.
    + right. split; [exact HT'|]. rewrite Q1. exact I.
    + destruct (Q2 HC) as [Q3|Q3]; [right; split; [exact HT'|rewrite Q1; exact Q3]|left; exact Q3].
    + destruct (Q2 HC) as [Q3|Q3]; [right; split; [exact HT'|rewrite Q1; exact Q3]|left; exact Q3].
  - cbn [step] in H. unfold cstep in H. destruct (s_c s t) eqn:Ec; try contradiction.
    + destruct (s_ea s) eqn:Ee; injection H as <-; try (right; split; [exact HT'|]; rewrite cgo_c, Nat.eqb_refl; cbn; rewrite Ee; reflexivity).
      left. unfold GT, TS in *. cbn in *. destruct HT as [HT|(HT1 & HT2)]; [rewrite HT|rewrite HT1, HT2; reflexivity]. destruct (s_pc s); cbn in *; try reflexivity; discriminate.
    + destruct (s_lock s); try discriminate. injection H as <-. right. split; [exact HT'|]. rewrite cgo_c, Nat.eqb_refl. exact HC.
    + left. assert (NW : wlocks (s_pc s) = false).
      { destruct (wlocks (s_pc s)) eqn:E; [|reflexivity]. assert (X : s_lock s = Some (ClL t)) by (apply B2; rewrite Ec; reflexivity). rewrite (proj2 B1 eq_refl) in X. discriminate. }
      unfold GT, TS in *. destruct (s_ea s) eqn:Ee; injection H as <-; destruct (s_pc s) eqn:Ep; cbn in *; rewrite ?Ep, ?Ee; try discriminate;
        destruct HT as [HT|(HT1 & HT2)]; try discriminate HT1; rewrite ?HT, ?HT2; reflexivity.
Qed.
Lemma KT_run : forall t os s s', forallb tk os = true -> BI s -> KT t s -> run os s = Some s' -> KT t s'.
Proof.
  intros t. induction os as [|a os IH]; intros s s' Hk B HK H; cbn [run forallb] in *; [injection H as <-; exact HK|].
  apply andb_prop in Hk. destruct Hk as (Ha & Hk). destruct (step a s) as [s1|] eqn:E; [|discriminate].
  exact (IH s1 s' Hk (step_BI a s s1 B E) (KT_step t a s s1 Ha B HK E) H).
Qed.
Lemma GT_run : forall os s s', forallb tk os = true -> BI s -> GT s = true -> run os s = Some s' -> GT s' = true /\ trank (s_pc s') + wks os <= trank (s_pc s).
Proof.
  induction os as [|a os IH]; intros s s' Hk B HG H; cbn [run forallb wks] in *; [injection H as <-; split; [exact HG|lia]|].
  apply andb_prop in Hk. destruct Hk as (Ha & Hk). destruct (step a s) as [s1|] eqn:E; [|discriminate].
  destruct (GT_step a s s1 Ha B HG E) as (X1 & X2). destruct (IH s1 s' Hk (step_BI a s s1 B E) X1 H) as (Y1 & Y2). split; [exact Y1|lia].
Qed.
Lemma trank_le : forall p, trank p <= 8. Proof. destruct p; cbn; lia. Qed.
Lemma trank_0 : forall p, trank p = 0 -> p = Dead. Proof. destruct p; cbn; try lia; reflexivity. Qed.
Lemma GT_live : forall s, BI s -> GT s = true -> s_pc s = Dead \/ (exists s', step Wk s = Some s') \/ (exists t s', s_lock s = Some (ClL t) /\ step (Cl t) s = Some s').
Proof.
  intros s (B1 & B2 & B3) HA. unfold GT in HA. cbn [step]. unfold wstep. destruct (s_pc s) eqn:Ep; try (now left); right; try (left; eexists; reflexivity).
  - destruct (s_lock s) as [[|t]|] eqn:El; [exfalso; assert (X := proj1 B1 eq_refl); discriminate X| |left; eexists; reflexivity].
    right. exists t. assert (X := proj1 (B2 t) eq_refl). unfold cstep. destruct (s_c s t); try discriminate X; eexists; (split; reflexivity).
  - apply andb_prop in HA. rewrite (proj2 HA). left. eexists. reflexivity.
  - destruct (s_lock s) as [[|t]|] eqn:El; [exfalso; assert (X := proj1 B1 eq_refl); discriminate X| |left; eexists; reflexivity].
    right. exists t. assert (X := proj1 (B2 t) eq_refl). unfold cstep. destruct (s_c s t); try discriminate X; eexists; (split; reflexivity).
Qed.

(** Termination: after the store and a wake-up that began later has returned, the worker ends in at most 8
    steps of its own; until then it, or the holder of the mutex, can move. *)
Lemma terminates : forall os0 s0 os1 s t s1 os2 s2 os3 s3,
  run os0 init = Some s0 -> forallb tk os1 = true -> run (Halt :: os1) s0 = Some s ->
  step (Invoke t) s = Some s1 -> forallb tk os2 = true -> run os2 s1 = Some s2 -> s_c s2 t = Out ->
  forallb tk os3 = true -> run os3 s2 = Some s3 ->
  s_pc s3 = Dead \/ (wks os3 < 8 /\ ((exists s', step Wk s3 = Some s') \/ (exists u s', s_lock s3 = Some (ClL u) /\ step (Cl u) s3 = Some s'))).
Proof.
  intros os0 s0 os1 s t s1 os2 s2 os3 s3 R0 H1 R1 C H2 R2 O H3 R3.
  assert (B0 : BI s0) by (exact (run_BI os0 init s0 init_BI R0)). assert (B : BI s) by (exact (run_BI _ s0 s B0 R1)).
  assert (T : TS s). { cbn [run step] in R1. refine (proj2 (soon_run os1 _ s H1 _ R1)). left. reflexivity. }
  assert (B1 := step_BI _ _ _ B C). assert (K1 : KT t s1).
  { right. split; [exact (TS_step (Invoke t) s s1 eq_refl T C)|]. cbn [step] in C. destruct (s_c s t); try discriminate. injection C as <-. rewrite cgo_c, Nat.eqb_refl. exact I. }
  assert (K2 := KT_run t os2 s1 s2 H2 B1 K1 R2). assert (B2 := run_BI os2 _ _ B1 R2).
  destruct K2 as [K2|(_ & K2)]; [|rewrite O in K2; destruct K2].
  destruct (GT_run os3 s2 s3 H3 B2 K2 R3) as (X1 & X2). destruct (GT_live s3 (run_BI os3 _ _ B2 R3) X1) as [Y|Y]; [now left|].
  destruct (s_pc s3) eqn:E3; try (now left); right; (split; [cbn [trank] in X2; assert (Z := trank_le (s_pc s2)); lia|exact Y]).
Qed.
