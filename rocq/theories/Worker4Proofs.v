(** Proofs about WorkerModel and WorkerRegModel: sleeping, and states a worker never leaves. *)
From Coq Require Import Arith List Bool Lia.
From Verif Require Import WorkerModel WorkerSpec WorkerRegModel WorkerProofs Worker2Proofs.
Import ListNotations.
Local Open Scope nat_scope.

Definition base (p : wpc) : nat :=
  match p with
  | W2b => 1 | W2 => 2 | W1 => 3 | W0 => 4 | L0c => 5 | L0a => 7 | L6 => 8 | L5 => 9 | L4 => 10 | L3 => 11 | L2 => 12 | L1 => 13
  | L0b => 14 | W4 => 14 | W3d => 15 | W3c => 16 | W3b => 17 | W3 => 18 | LX => 0 | Dead => 0
  end.
Definition pot (s : st) : nat :=
  match s_pc s with W3 => if s_ntf s then 18 else 0 | p => base p end + match s_pc s with L1 | L2 | L3 => 0 | _ => if s_dns s then 10 else 0 end +
  match s_pc s with W3d | W4 => 0 | _ => match s_ea s with edone => 15 | _ => 0 end end.
Lemma pot_step : forall s, BI s -> SI s -> TI s -> serving s = true -> s_q s = [] -> (forall t, s_c s t = Out) -> ~ (s_pc s = W3 /\ s_ntf s = false) ->
  exists s', step Wk s = Some s' /\ pot s' < pot s /\ BI s' /\ SI s' /\ TI s' /\ serving s' = true /\ s_q s' = [] /\ (forall t, s_c s' t = Out).
Proof.
  intros s B S T V Q O NS. destruct (step Wk s) as [s'|] eqn:E.
  - exists s'. split; [reflexivity|]. assert (B' := step_BI Wk s s' B E). assert (S' := step_SI Wk s s' eq_refl S E). assert (T' := step_TI Wk s s' eq_refl T E).
    assert (V' : serving s' = true) by (eapply (step_serving Wk); [reflexivity|exact V|exact E|apply T]).
    assert (X : pot s' < pot s /\ s_q s' = [] /\ s_c s' = s_c s).
    { destruct B as (B1 & B2 & B3). destruct T as (T0 & T1 & T2). unfold pot, serving, SI in *. cbn [step] in E. unfold wstep in E. destruct (s_pc s) eqn:Ep; cbn [ea_ok] in B3; try congruence;
        repeat match type of E with context [match ?x with _ => _ end] => destruct x eqn:?; try discriminate end; injection E as <-; cbn; rewrite ?Q; cbn; rewrite ?Heqe, ?Heqb;
        try (exfalso; apply S; first [assumption|reflexivity]); (split; [|split; reflexivity]); try discriminate; try (destruct (s_dns s), (s_ea s); cbn; try discriminate; lia). }
    destruct X as (X1 & X2 & X3). repeat split; auto; try (apply B'); try (apply T'). intros t. rewrite X3. apply O.
  - exfalso. destruct B as (B1 & B2 & B3). destruct T as (T0 & T1 & T2). cbn [step] in E. unfold wstep in E. destruct (s_pc s) eqn:Ep; try discriminate; try congruence;
      repeat match type of E with context [match ?x with _ => _ end] => destruct x eqn:?; try discriminate end; try (apply NS; split; congruence).
    + destruct w as [|t]; [assert (X := proj1 B1 eq_refl); discriminate X|]. assert (X := proj1 (B2 t) eq_refl). rewrite O in X. discriminate X.
    + destruct w as [|t]; [assert (X := proj1 B1 eq_refl); discriminate X|]. assert (X := proj1 (B2 t) eq_refl). rewrite O in X. discriminate X.
Qed.
Lemma pot_run : forall k s, pot s <= k -> BI s -> SI s -> TI s -> serving s = true -> s_q s = [] -> (forall t, s_c s t = Out) ->
  exists n s', n <= k /\ run (repeat Wk n) s = Some s' /\ s_pc s' = W3 /\ s_ntf s' = false.
Proof.
  induction k as [|k IH]; intros s Hp B S T V Q O.
  - assert (D : {s_pc s = W3 /\ s_ntf s = false} + {~ (s_pc s = W3 /\ s_ntf s = false)}) by (destruct (s_pc s), (s_ntf s); try (left; split; reflexivity); right; intros (X & Y); discriminate).
    destruct D as [(D1 & D2)|D]; [exists 0, s; repeat split; auto|]. destruct (pot_step s B S T V Q O D) as (s' & _ & X & _). lia.
  - assert (D : {s_pc s = W3 /\ s_ntf s = false} + {~ (s_pc s = W3 /\ s_ntf s = false)}) by (destruct (s_pc s), (s_ntf s); try (left; split; reflexivity); right; intros (X & Y); discriminate).
    destruct D as [(D1 & D2)|D]; [exists 0, s; repeat split; auto; lia|]. destruct (pot_step s B S T V Q O D) as (s' & E & X & B' & S' & T' & V' & Q' & O').
    destruct (IH s') as (n & s2 & N1 & N2 & N3); auto; try lia. exists (Datatypes.S n), s2. split; [lia|]. cbn [repeat run]. rewrite E. auto.
Qed.
Lemma goes_to_sleep : forall os s, forallb before os = true -> run os init = Some s -> serving s = true -> s_q s = [] -> (forall t, s_c s t = Out) ->
  exists n s', n <= 50 /\ run (repeat Wk n) s = Some s' /\ s_pc s' = W3 /\ s_ntf s' = false.
Proof.
  intros os s H1 R1 V Q O. apply pot_run; auto.
  - unfold pot. destruct (s_pc s), (s_dns s), (s_ea s), (s_ntf s); cbn; lia.
  - exact (run_BI os init s init_BI R1).
  - apply (run_SI os init s); [revert H1; apply forall_impl; intros a Ha; apply andb_prop in Ha; apply Ha|exact init_SI|exact R1].
  - apply (run_TI os init s); [revert H1; apply forall_impl; intros a Ha; apply andb_prop in Ha; apply Ha|exact init_TI|exact R1].
Qed.

(** *** States that are never left *)
Definition lim (a : act) : bool := match a with Add | Halt => false | _ => true end.
Definition spin (w : wst) (s : st) : Prop := s_status s = w /\ match s_pc s with L0a | L0b | L1 | L2 => True | _ => False end.
Lemma spin_step : forall w a s s', (w = Working \/ w = NoInst) -> lim a = true -> spin w s -> step a s = Some s' -> spin w s' /\ s_n s' = s_n s.
Proof.
  intros w a s s' Hw Ha (S1 & S2) H. unfold spin in *. destruct a as [| | | |t|t d dl|t| | | | |]; try discriminate; cbn [step] in H.
  - unfold wstep in H. destruct (s_pc s); try contradiction; rewrite S1 in H; destruct Hw as [-> | ->]; injection H as <-; cbn; auto.
  - destruct (s_pc s); try contradiction; try discriminate; injection H as <-; cbn; auto.
  - destruct (s_pc s); try contradiction; discriminate.
  - destruct (s_pc s); try contradiction; discriminate.
  - destruct (s_c s t); try discriminate. injection H as <-. cbn. auto.
  - destruct (s_c s t); try discriminate. injection H as <-. cbn. auto.
  - unfold cstep in H. destruct (s_pc s) eqn:Ep; try contradiction;
      repeat match type of H with context [match ?x with _ => _ end] => destruct x eqn:?; try discriminate end; injection H as <-; cbn; rewrite Ep; auto.
  - injection H as <-. cbn. auto.
  - rewrite S1 in H. destruct Hw as [-> | ->]; injection H as <-; cbn; auto.
  - injection H as <-. auto.
Qed.
Lemma spin_run : forall w os s s', (w = Working \/ w = NoInst) -> forallb lim os = true -> spin w s -> run os s = Some s' ->
  s_n s' = s_n s /\ s_pc s' <> W3 /\ exists s'', step Wk s' = Some s''.
Proof.
  intros w. induction os as [|a os IH]; intros s s' Hw Hl HS H; cbn [run forallb] in *.
  - injection H as <-. split; [reflexivity|]. destruct HS as (S1 & S2). cbn [step]. unfold wstep. destruct (s_pc s); try contradiction; (split; [discriminate|eexists; reflexivity]).
  - apply andb_prop in Hl. destruct Hl as (Ha & Hl). destruct (step a s) as [s1|] eqn:E; [|discriminate].
    destruct (spin_step w a s s1 Hw Ha HS E) as (X1 & X2). destruct (IH s1 s' Hw Hl X1 H) as (Y1 & Y2). split; [lia|exact Y2].
Qed.
Definition norun (a : act) : bool := match a with Run | Halt => false | _ => true end.
Lemma stop_run : forall os s s', forallb norun os = true -> s_status s = Stop -> match s_pc s with L3 | L4 => False | _ => True end -> run os s = Some s' -> s_n s' = s_n s.
Proof.
  induction os as [|a os IH]; intros s s' Hl S1 S2 H; cbn [run forallb] in *; [injection H as <-; reflexivity|].
  apply andb_prop in Hl. destruct Hl as (Ha & Hl). destruct (step a s) as [s1|] eqn:E; [|discriminate].
  assert (X : s_n s1 = s_n s /\ (s_status s1 = Stop /\ match s_pc s1 with L3 | L4 => False | _ => True end \/ s_pc s1 = Dead)).
  { destruct a as [| | | |t|t d dl|t| | | | |]; try discriminate; cbn [step] in E; unfold wstep, cstep in E;
      repeat match type of E with context [match ?x with _ => _ end] => destruct x eqn:?; try discriminate end; injection E as <-; cbn; rewrite ?Heqw; try contradiction; auto; try congruence;
      split; auto; left; split; auto; destruct (s_pc s); auto. }
  destruct X as (X1 & [(X2 & X3)|X2]); [rewrite (IH s1 s' Hl X2 X3 H); exact X1|]. rewrite <- X1. clear IH Ha E S1 S2 X1. revert s1 X2 Hl H. induction os as [|b os IH]; intros s1 X2 Hl H; cbn [run forallb] in *; [injection H as <-; reflexivity|].
  apply andb_prop in Hl. destruct Hl as (Ha & Hl). destruct (step b s1) as [s2|] eqn:E; [|discriminate].
  assert (Y : s_n s2 = s_n s1 /\ s_pc s2 = Dead).
  { destruct b as [| | | |t|t d dl|t| | | | |]; try discriminate; cbn [step] in E; unfold wstep, cstep in E; rewrite ?X2 in E; try discriminate;
      repeat match type of E with context [match ?x with _ => _ end] => destruct x eqn:?; try discriminate end; injection E as <-; cbn; auto. }
  destruct Y as (Y1 & Y2). rewrite (IH s2 Y2 Hl H). exact Y1.
Qed.

(** *** Registration *)
(** Calls that do not overlap. *)
Inductive rseq : rst -> Prop :=
| rs_init : rseq rinit
| rs_step : forall s a s', rseq s -> (match a with Ask _ => forall t, r_pc s t = ROut | _ => True end) -> rstep a s = Some s' -> rseq s'.
Definition rinv (s : rst) : Prop :=
  (exists t, r_pc s t <> ROut /\ (forall u, u <> t -> r_pc s u = ROut) /\
     match r_pc s t with
     | R1 => (r_reg s = None /\ r_status s = []) \/ (r_reg s = Some 0 /\ r_status s = [Idle])
     | R2 => r_reg s = None /\ r_status s = []
     | R3 w => w = 0 /\ r_reg s = None /\ r_status s = [NoInst]
     | R4 w => w = 0 /\ r_reg s = Some 0 /\ r_status s = [Stop]
     | ROut => True
     end) \/
  ((forall t, r_pc s t = ROut) /\ ((r_reg s = None /\ r_status s = []) \/ (r_reg s = Some 0 /\ r_status s = [Idle]))).
Lemma rseq_inv : forall s, rseq s -> rinv s.
Proof.
  induction 1 as [|s a s' _ IH Hc E]; [right; split; [reflexivity|left; split; reflexivity]|].
  destruct a as [t|t]; cbn [rstep] in E.
  - rewrite (Hc t) in E. injection E as <-. destruct IH as [(u & Hu & _)|(_ & IH)]; [exfalso; apply Hu, Hc|].
    left. exists t. cbn. rewrite Nat.eqb_refl. split; [discriminate|]. split; [|exact IH]. intros u Hu. apply Nat.eqb_neq in Hu. rewrite Hu. apply Hc.
  - destruct IH as [(u & Hu & Hv & Hi)|(IH & _)]; [|rewrite IH in E; discriminate].
    destruct (Nat.eq_dec u t) as [->|Ne]; [|rewrite (Hv t) in E by congruence; discriminate].
    assert (Rt : forall p s1, p <> ROut -> r_pc (rgo t p s1) t <> ROut) by (intros p s1 Hp; cbn; rewrite Nat.eqb_refl; exact Hp).
    assert (Ro : forall p s1, r_pc s1 = r_pc s -> forall u, u <> t -> r_pc (rgo t p s1) u = ROut) by (intros p s1 Ep u Hn; cbn; apply Nat.eqb_neq in Hn; rewrite Hn, Ep; apply Hv, Nat.eqb_neq, Hn).
    assert (Ra : forall s1, r_pc s1 = r_pc s -> forall u, r_pc (rgo t ROut s1) u = ROut) by (intros s1 Ep u; cbn; destruct (u =? t) eqn:En; [reflexivity|rewrite Ep; apply Hv, Nat.eqb_neq, En]).
    destruct (r_pc s t) as [| | |w|w] eqn:Et; try congruence.
    + injection E as <-. destruct Hi as [(H1 & H2)|(H1 & H2)]; rewrite H1.
      * left. exists t. split; [apply Rt; discriminate|]. split; [apply Ro; reflexivity|]. cbn. rewrite Nat.eqb_refl. auto.
      * right. split; [apply Ra; reflexivity|]. right. auto.
    + injection E as <-. destruct Hi as (H1 & H2). left. exists t. split; [apply Rt; discriminate|]. split; [apply Ro; reflexivity|]. cbn. rewrite Nat.eqb_refl, H1, H2. auto.
    + injection E as <-. destruct Hi as (-> & H1 & H2). rewrite H1, H2. left. exists t. split; [apply Rt; discriminate|]. split; [apply Ro; reflexivity|]. cbn. rewrite Nat.eqb_refl. auto.
    + injection E as <-. destruct Hi as (-> & H1 & H2). rewrite H2. cbn [nth]. right. split; [apply Ra; reflexivity|]. right. cbn. auto.
Qed.
Lemma one_reclaimer : forall s, rseq s -> (forall t, r_pc s t = ROut) -> (r_reg s = None /\ r_status s = []) \/ (r_reg s = Some 0 /\ r_status s = [Idle]).
Proof. intros s R O. destruct (rseq_inv s R) as [(t & Ht & _)|(_ & H)]; [exfalso; apply Ht, O|exact H]. Qed.
