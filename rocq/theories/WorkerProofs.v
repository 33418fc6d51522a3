(** Proofs about WorkerModel. *)
From Coq Require Import Arith List Bool Lia.
From Verif Require Import WorkerModel WorkerSpec.
Import ListNotations.
Local Open Scope nat_scope.

Definition wlocks (p : wpc) : bool := match p with W2 | W2b | W3c | W3d => true | _ => false end.
Definition clocks (p : cpc) : bool := match p with C3 | C4 => true | _ => false end.
Definition ea_ok (p : wpc) (e : eas) : bool :=
  match p, e with
  | (W1 | W2), (eready | edone) => true
  | (W1 | W2), _ => false
  | (W2b | W3 | W3b | W3c), ewaiting => true
  | (W2b | W3 | W3b | W3c), _ => false
  | (W3d | W4), edone => true
  | (W3d | W4), _ => false
  | _, (eidle | edone) => true
  | _, _ => false
  end.
(** The mutex and the awaiter. *)
Definition BI (s : st) : Prop :=
  (s_lock s = Some WkL <-> wlocks (s_pc s) = true) /\
  (forall t, s_lock s = Some (ClL t) <-> clocks (s_c s t) = true) /\
  ea_ok (s_pc s) (s_ea s) = true.
(** Without spurious failures. *)
Definition SI (s : st) : Prop :=
  s_status s = Working -> match s_pc s with L3 | L4 | L5 | L6 => True | _ => False end.

Lemma cgo_c : forall t p s u, s_c (cgo t p s) u = if u =? t then p else s_c s u.
Proof. reflexivity. Qed.

Ltac some_inj H := match type of H with Some ?a = Some ?b => assert (a = b) by (injection H; auto); clear H end.
Ltac cu t u := destruct (u =? t) eqn:?Etu; [apply Nat.eqb_eq in Etu; subst|apply Nat.eqb_neq in Etu].

Lemma step_BI : forall a s s', BI s -> step a s = Some s' -> BI s'.
Proof.
  intros a s s' (B1 & B2 & B3) H. unfold BI.
  assert (NW : forall t, clocks (s_c s t) = true -> wlocks (s_pc s) = false).
  { intros t Ht. apply B2 in Ht. destruct (wlocks (s_pc s)) eqn:E; [|reflexivity]. destruct B1 as (_ & X). rewrite (X eq_refl) in Ht. discriminate. }
  destruct a as [| | | |t|t d dl|t| | | | |]; cbn [step] in H.
  - unfold wstep in H. destruct (s_pc s) eqn:Ep; cbn [wlocks] in B1; try discriminate;
      repeat match type of H with context [match ?x with _ => _ end] => destruct x eqn:?; try discriminate end;
      try (injection H as <-);
      cbn [s_lock s_pc s_c s_ea wgo set_ea set_lock set_ntf set_dns set_status begin_body end_body wlocks] in *;
      rewrite ?Heqe in *; cbn [ea_ok] in *; try discriminate;
      try (split; [first [exact B1 | intuition discriminate | (split; intros X; [discriminate X || (apply B1 in X; discriminate)|discriminate])]|split; [|first [reflexivity|exact B3]]]);
      try exact B2; intros t; specialize (B2 t); try (destruct (s_lock s); discriminate);
      try (split; intros X; [discriminate|apply B2 in X; first [discriminate|rewrite (proj2 B1 eq_refl) in X; discriminate]]).
  - destruct (s_pc s) eqn:Ep; try discriminate; injection H as <-; cbn; cbn in B1, B3; rewrite ?Ep in *; auto.
  - destruct (s_pc s) eqn:Ep; try discriminate; injection H as <-; cbn; cbn in B1, B3; rewrite ?Ep in *; auto.
  - destruct (s_pc s) eqn:Ep; try discriminate; injection H as <-; cbn; cbn in B1, B3; rewrite ?Ep in *; auto.
  - destruct (s_c s t) eqn:Ec; try discriminate. injection H as <-. split; [exact B1|]. split; [|exact B3].
    intros u. rewrite cgo_c. specialize (B2 u). cu t u; [rewrite Ec in B2|]; exact B2.
  - destruct (s_c s t) eqn:Ec; try discriminate. injection H as <-. split; [exact B1|]. split; [|exact B3].
    intros u. rewrite cgo_c. specialize (B2 u). cu t u; [rewrite Ec in B2|]; exact B2.
  - unfold cstep in H. destruct (s_c s t) as [|d dl| | | |] eqn:Ec; try discriminate.
    + injection H as <-. split; [exact B1|]. split; [|exact B3]. intros u. rewrite cgo_c. specialize (B2 u). cu t u; [rewrite Ec in B2|]; exact B2.
    + destruct (s_ea s) eqn:Ee; injection H as <-;
        (split; [exact B1|]; split; [intros u; rewrite cgo_c; specialize (B2 u); cu t u; [rewrite Ec in B2|]; exact B2|cbn; rewrite ?Ee; try exact B3]).
      destruct (s_pc s); cbn in *; congruence.
    + destruct (s_lock s) eqn:El; try discriminate. injection H as <-. split; [|split; [|exact B3]].
      * cbn [s_lock s_pc cgo set_lock]. split; [discriminate|]. intros X. apply B1 in X. discriminate.
      * intros u. rewrite cgo_c. cbn [s_lock cgo set_lock]. specialize (B2 u). cu t u; [split; reflexivity|].
        split; [intros X; injection X as ->; congruence|]. intros X. apply B2 in X. discriminate.
    + assert (Hc : clocks (s_c s t) = true) by (rewrite Ec; reflexivity). specialize (NW t Hc).
      assert (R : forall s1, s_lock s1 = s_lock s -> s_c s1 = s_c s -> s_pc s1 = s_pc s -> ea_ok (s_pc s) (s_ea s1) = true -> BI (cgo t C4 s1)).
      { intros s1 E1 E2 E3 E4. split; [|split].
        - cbn [cgo s_lock s_pc]. rewrite E1, E3. exact B1.
        - intros u. rewrite cgo_c. cbn [cgo s_lock]. rewrite E1, E2. specialize (B2 u). cu t u; [rewrite Ec in B2|]; exact B2.
        - cbn [cgo s_pc s_ea]. rewrite E3. exact E4. }
      destruct (s_ea s) eqn:Ee; injection H as <-; try (destruct (s_pc s) eqn:Ep); apply R; cbn; rewrite ?Ep, ?Ee; try reflexivity; try exact B3; cbn in B3; try discriminate.
    + injection H as <-. split; [|split; [|exact B3]].
      * cbn [cgo set_lock s_lock s_pc]. split; [discriminate|]. intros X. rewrite (NW t) in X; [discriminate|rewrite Ec; reflexivity].
      * intros u. rewrite cgo_c. cbn [cgo set_lock s_lock]. split; [discriminate|]. intros X. exfalso. cu t u; [discriminate X|].
        apply B2 in X. assert (Y : s_lock s = Some (ClL t)) by (apply B2; rewrite Ec; reflexivity). rewrite X in Y. injection Y as ->. congruence.
  - injection H as <-. split; [exact B1|]. split; [exact B2|exact B3].
  - injection H as <-. split; [exact B1|]. split; [exact B2|exact B3].
  - injection H as <-. destruct (s_status s); (split; [exact B1|]; split; [exact B2|exact B3]).
  - injection H as <-. split; [exact B1|]. split; [exact B2|exact B3].
  - injection H as <-. split; [exact B1|]. split; [exact B2|exact B3].
Qed.

Lemma init_BI : BI init.
Proof. split; [|split]; cbn; [split; discriminate|intros t; split; discriminate|reflexivity]. Qed.
Lemma run_BI : forall os s s', BI s -> run os s = Some s' -> BI s'.
Proof.
  induction os as [|a os IH]; intros s s' B H; cbn [run] in H; [injection H as <-; exact B|].
  destruct (step a s) as [s1|] eqn:E; [|discriminate]. exact (IH s1 s' (step_BI a s s1 B E) H).
Qed.

Lemma step_SI : forall a s s', strong a = true -> SI s -> step a s = Some s' -> SI s'.
Proof.
  intros a s s' Hs HI H. unfold SI in *. destruct a as [| | | |t|t d dl|t| | | | |]; try discriminate; cbn [step] in H.
  - unfold wstep in H. destruct (s_pc s) eqn:Ep; try discriminate;
      repeat match type of H with context [match ?x with _ => _ end] => destruct x eqn:?; try discriminate end;
      injection H as <-; cbn; intros X; try exact I; try discriminate; try congruence; try (apply HI in X; exact X); try (rewrite X in *; discriminate); try (apply HI; congruence).
  - destruct (s_pc s) eqn:Ep; try discriminate; injection H as <-; cbn; intros X; exact (HI X).
  - destruct (s_pc s) eqn:Ep; try discriminate; injection H as <-; cbn; intros X; rewrite Ep; exact (HI X).
  - destruct (s_c s t); try discriminate. injection H as <-. exact HI.
  - destruct (s_c s t); try discriminate. injection H as <-. exact HI.
  - unfold cstep in H. destruct (s_c s t); try discriminate;
      repeat match type of H with context [match ?x with _ => _ end] => destruct x eqn:?; try discriminate end; injection H as <-; cbn; intros X; rewrite ?Heqw; exact (HI X).
  - injection H as <-. exact HI.
  - injection H as <-. cbn. discriminate.
  - injection H as <-. destruct (s_status s) eqn:E; cbn; try exact HI; rewrite ?E in *; try discriminate; exact HI.
  - injection H as <-. exact HI.
  - injection H as <-. cbn. discriminate.
Qed.
Lemma run_SI : forall os s s', forallb strong os = true -> SI s -> run os s = Some s' -> SI s'.
Proof.
  induction os as [|a os IH]; intros s s' Hs B H; cbn [run forallb] in *; [injection H as <-; exact B|].
  apply andb_prop in Hs. destruct Hs as (Ha & Hs). destruct (step a s) as [s1|] eqn:E; [|discriminate]. exact (IH s1 s' Hs (step_SI a s s1 Ha B E) H).
Qed.

(** *** The wake-up is not lost *)
(** The worker is past [reset] and before the body. *)
Definition past (p : wpc) : bool := match p with L1 | L2 | L3 | L4 => true | _ => false end.
Definition awake (s : st) : bool :=
  match s_ea s with edone => true | _ => false end || past (s_pc s) ||
  match s_pc s with W3 => s_ntf s | W3b | W3c => true | _ => false end.
Definition G (s : st) : Prop := serving s = true /\ awake s = true.
Definition rank (p : wpc) : nat :=
  match p with
  | L4 => 1 | L3 => 2 | L2 => 3 | L1 => 4 | W4 => 5 | W3d => 6 | W3c => 7 | W3b => 8 | W3 => 9 | W2b => 10
  | W2 => 7 | W1 => 8 | W0 => 6 | L0c => 8 | L0b => 9 | L0a => 10 | L6 => 11 | L5 => 12 | LX => 0 | Dead => 0
  end.
Lemma step_serving : forall a s s', kept a = true -> serving s = true -> step a s = Some s' -> s_pc s <> LX -> serving s' = true.
Proof.
  intros a s s' Hk Hs H NX. unfold serving in *. destruct a as [| | | |t|t d dl|t| | | | |]; try discriminate; cbn [step] in H.
  - unfold wstep in H. destruct (s_pc s) eqn:Ep; try discriminate; try congruence;
      repeat match type of H with context [match ?x with _ => _ end] => destruct x eqn:?; try discriminate end; injection H as <-; cbn; rewrite ?Heqw; try reflexivity; try exact Hs; try discriminate.
  - destruct (s_pc s); try discriminate; injection H as <-; exact Hs.
  - destruct (s_pc s); try discriminate; injection H as <-; exact Hs.
  - destruct (s_c s t); try discriminate. injection H as <-. exact Hs.
  - destruct (s_c s t); try discriminate. injection H as <-. exact Hs.
  - unfold cstep in H. destruct (s_c s t); try discriminate;
      repeat match type of H with context [match ?x with _ => _ end] => destruct x eqn:?; try discriminate end; injection H as <-; exact Hs.
  - injection H as <-. exact Hs.
  - injection H as <-. destruct (s_status s) eqn:E; cbn; rewrite ?E; try reflexivity; discriminate.
  - injection H as <-. exact Hs.
Qed.

Lemma G_step : forall a s s', kept a = true -> BI s -> SI s -> s_pc s <> LX -> s_pc s <> Dead -> G s -> step a s = Some s' ->
  s_n s' = S (s_n s) \/ (s_n s' = s_n s /\ G s' /\ rank (s_pc s') + wk a <= rank (s_pc s) /\ s_pc s' <> LX /\ s_pc s' <> Dead).
Proof.
  intros a s s' Hk (B1 & B2 & B3) HS N1 N2 (G1 & G2) H.
  assert (HG1 : serving s' = true) by (eapply step_serving; eauto). unfold G. rewrite HG1. clear HG1.
  unfold awake, serving, SI in *.
  destruct a as [| | | |t|t d dl|t| | | | |]; try discriminate; cbn [step wk] in *.
  - unfold wstep in H. destruct (s_pc s) eqn:Ep; try congruence; cbn [past ea_ok orb] in *; rewrite ?orb_false_r, ?orb_true_r in *.
    all: repeat match type of H with context [match ?x with _ => _ end] => destruct x eqn:?; try discriminate end.
    all: injection H as <-; cbn [wgo s_ea s_pc s_n s_ntf set_ea set_lock set_ntf set_dns set_status begin_body end_body past rank].
    all: try (left; reflexivity).
    all: try (exfalso; apply HS; congruence).
    all: try discriminate.
    all: right; split; [reflexivity|]; split; [split; [reflexivity|]|split; [lia|split; discriminate]]; rewrite ?orb_true_r, ?orb_false_r; try reflexivity; try exact G2; try (rewrite Heqe; reflexivity); try discriminate.
  - destruct (s_pc s) eqn:Ep; try discriminate. injection H as <-. right. cbn [wgo s_ea s_pc s_n s_ntf past rank]. rewrite orb_true_r. repeat split; try lia; discriminate.
  - destruct (s_pc s) eqn:Ep; try discriminate. injection H as <-. right. cbn [set_dns s_ea s_pc s_n s_ntf past rank] in *. rewrite Ep. repeat split; try (cbn [rank]; lia); try discriminate. exact G2.
  - destruct (s_c s t); try discriminate. injection H as <-. right. cbn [cgo s_ea s_pc s_n s_ntf]. repeat split; auto; lia.
  - destruct (s_c s t); try discriminate. injection H as <-. right. cbn [cgo s_ea s_pc s_n s_ntf]. repeat split; auto; lia.
  - right. unfold cstep in H. destruct (s_c s t) as [|d dl| | | |] eqn:Ec; try discriminate.
    + injection H as <-. cbn [cgo set_q s_ea s_pc s_n s_ntf]. repeat split; auto; lia.
    + destruct (s_ea s) eqn:Ee; injection H as <-; cbn [cgo set_ea s_ea s_pc s_n s_ntf]; rewrite ?Ee; repeat split; auto; lia.
    + destruct (s_lock s); try discriminate. injection H as <-. cbn [cgo set_lock s_ea s_pc s_n s_ntf]. repeat split; auto; lia.
    + destruct (s_ea s) eqn:Ee; injection H as <-; destruct (s_pc s) eqn:Ep; cbn [cgo set_ea set_ntf s_ea s_pc s_n s_ntf past]; rewrite ?Ep, ?Ee; repeat split; auto; lia.
    + injection H as <-. cbn [cgo set_lock s_ea s_pc s_n s_ntf]. repeat split; auto; lia.
  - injection H as <-. right. cbn [set_q s_ea s_pc s_n s_ntf]. repeat split; auto; lia.
  - injection H as <-. right. destruct (s_status s); cbn [set_status s_ea s_pc s_n s_ntf]; repeat split; auto; lia.
  - injection H as <-. right. repeat split; auto; lia.
Qed.

Lemma step_mono : forall a s s', step a s = Some s' -> s_n s <= s_n s'.
Proof.
  intros a s s' H. destruct a as [| | | |t|t d dl|t| | | | |]; cbn [step] in H; unfold wstep, cstep in H;
    repeat match type of H with context [match ?x with _ => _ end] => destruct x eqn:?; try discriminate end; injection H as <-; cbn; lia.
Qed.
Lemma run_mono : forall os s s', run os s = Some s' -> s_n s <= s_n s'.
Proof.
  induction os as [|a os IH]; intros s s' H; cbn [run] in H; [injection H as <-; lia|].
  destruct (step a s) as [s1|] eqn:E; [|discriminate]. apply step_mono in E. apply IH in H. lia.
Qed.
Lemma kept_strong : forall a, kept a = true -> strong a = true.
Proof. destruct a; try reflexivity; discriminate. Qed.

Lemma G_run : forall os s s', forallb kept os = true -> BI s -> SI s -> s_pc s <> LX -> s_pc s <> Dead -> G s -> run os s = Some s' ->
  s_n s < s_n s' \/ (s_n s' = s_n s /\ G s' /\ rank (s_pc s') + wks os <= rank (s_pc s)).
Proof.
  induction os as [|a os IH]; intros s s' Hk B S N1 N2 HG H; cbn [run forallb wks] in *.
  - injection H as <-. right. repeat split; [apply HG|apply HG|lia].
  - apply andb_prop in Hk. destruct Hk as (Ha & Hk). destruct (step a s) as [s1|] eqn:E; [|discriminate].
    destruct (G_step a s s1 Ha B S N1 N2 HG E) as [X|(X1 & X2 & X3 & X4 & X5)].
    + left. apply run_mono in H. lia.
    + assert (B' := step_BI a s s1 B E). assert (S' := step_SI a s s1 (kept_strong a Ha) S E).
      destruct (IH s1 s' Hk B' S' X4 X5 X2 H) as [Y|(Y1 & Y2 & Y3)]; [left; lia|right; repeat split; [lia|apply Y2|apply Y2|lia]].
Qed.

(** A call under way. *)
Definition K (t : nat) (s : st) : Prop :=
  G s \/ (serving s = true /\ match s_c s t with C1 => True | C2 | C3 => match s_ea s with eidle => false | _ => true end || past (s_pc s) = true | _ => False end).

Lemma K_step : forall t a s s', kept a = true -> BI s -> SI s -> s_pc s <> LX -> s_pc s <> Dead -> K t s -> step a s = Some s' ->
  s_n s' = S (s_n s) \/ (s_n s' = s_n s /\ K t s' /\ s_pc s' <> LX /\ s_pc s' <> Dead).
Proof.
  intros t a s s' Hk B HS N1 N2 [HG|(HV & HC)] H.
  { destruct (G_step a s s' Hk B HS N1 N2 HG H) as [X|(X1 & X2 & X3 & X4 & X5)]; [now left|]. right. split; [exact X1|]. split; [now left|]. now split. }
  assert (HV' : serving s' = true) by (eapply step_serving; eauto).
  destruct B as (B1 & B2 & B3).
  assert (Q : s_n s' = S (s_n s) \/ (s_n s' = s_n s /\ s_pc s' <> LX /\ s_pc s' <> Dead)).
  { clear HC HV'. unfold serving in HV. destruct a as [| | | |u|u d dl|u| | | | |]; try discriminate; cbn [step] in H; unfold wstep, cstep in H;
      repeat match type of H with context [match ?x with _ => _ end] => destruct x eqn:?; try discriminate end; injection H as <-; cbn;
      first [left; reflexivity|right; split; [reflexivity|split; congruence]|exfalso; congruence|idtac]. }
  destruct Q as [Q|(Q1 & Q2 & Q3)]; [now left|]. right. split; [exact Q1|]. split; [|now split]. unfold K, G. rewrite HV'. clear HV'. unfold serving, SI in HV, HS.
  destruct (s_c s t) eqn:Ec; try contradiction; cbn [past] in *.
  - (* C1 *) destruct a as [| | | |u|u d dl|u| | | | |]; try discriminate; cbn [step] in H;
      try (right; split; [reflexivity|]; unfold wstep in H; repeat match type of H with context [match ?x with _ => _ end] => destruct x eqn:?; try discriminate end; injection H as <-; cbn; rewrite ?Ec; exact I).
    + right. split; [reflexivity|]. destruct (s_c s u) eqn:Eu; try discriminate. injection H as <-. rewrite cgo_c. cu u t; [exact I|rewrite Ec; exact I].
    + right. split; [reflexivity|]. destruct (s_c s u) eqn:Eu; try discriminate. injection H as <-. rewrite cgo_c. cu u t; [congruence|rewrite Ec; exact I].
    + destruct (Nat.eq_dec u t) as [->|Ne].
      * unfold cstep in H. rewrite Ec in H. destruct (s_ea s) eqn:Ee; injection H as <-.
        -- left. split; [reflexivity|]. reflexivity.
        -- right. split; [reflexivity|]. rewrite cgo_c, Nat.eqb_refl. cbn. rewrite Ee. reflexivity.
        -- right. split; [reflexivity|]. rewrite cgo_c, Nat.eqb_refl. cbn. rewrite Ee. reflexivity.
        -- right. split; [reflexivity|]. rewrite cgo_c, Nat.eqb_refl. cbn. rewrite Ee. reflexivity.
      * right. split; [reflexivity|]. assert (Hc : s_c s' t = C1); [|rewrite Hc; exact I]. apply Nat.eqb_neq in Ne. rewrite Nat.eqb_sym in Ne.
        unfold cstep in H. repeat match type of H with context [match ?x with _ => _ end] => destruct x eqn:?; try discriminate end; injection H as <-; cbn; rewrite Ne; exact Ec.
  - (* C2 *) destruct a as [| | | |u|u d dl|u| | | | |]; try discriminate; cbn [step] in H.
    + unfold wstep in H. destruct (s_pc s) eqn:Ep; try congruence; cbn [ea_ok past] in *; rewrite ?orb_true_r, ?orb_false_r in *;
        repeat match type of H with context [match ?x with _ => _ end] => destruct x eqn:?; try discriminate end; injection H as <-; cbn in *;
        try (right; split; [reflexivity|]; rewrite ?Ec, ?orb_true_r, ?orb_false_r; rewrite ?Heqe; first [reflexivity|exact HC|discriminate]);
        try (exfalso; cbn in Q1; lia); try (exfalso; apply HS; congruence); try discriminate; try congruence.
    + destruct (s_pc s) eqn:Ep; try discriminate. injection H as <-. cbn in *. right. split; [reflexivity|]. rewrite Ec. exact HC.
    + destruct (s_pc s) eqn:Ep; try discriminate. injection H as <-. cbn in *. right. split; [reflexivity|]. rewrite Ec, Ep. exact HC.
    + destruct (s_c s u) eqn:Eu; try discriminate. injection H as <-. right. split; [reflexivity|]. rewrite cgo_c. cu u t; [congruence|]. rewrite Ec. exact HC.
    + destruct (s_c s u) eqn:Eu; try discriminate. injection H as <-. right. split; [reflexivity|]. rewrite cgo_c. cu u t; [congruence|]. rewrite Ec. exact HC.
    + right. split; [reflexivity|]. destruct (Nat.eq_dec u t) as [->|Ne].
      * unfold cstep in H. rewrite Ec in H. destruct (s_lock s); try discriminate. injection H as <-. rewrite cgo_c, Nat.eqb_refl. exact HC.
      * apply Nat.eqb_neq in Ne. rewrite Nat.eqb_sym in Ne.
        assert (Hc : s_c s' t = C2 /\ s_pc s' = s_pc s /\ (s_ea s' = s_ea s \/ s_ea s' = edone)).
        { unfold cstep in H. repeat match type of H with context [match ?x with _ => _ end] => destruct x eqn:?; try discriminate end; injection H as <-; cbn; rewrite Ne; repeat split; auto. }
        destruct Hc as (Hc1 & Hc2 & [Hc3|Hc3]); rewrite Hc1, Hc2, Hc3; [exact HC|reflexivity].
    + injection H as <-. right. split; [reflexivity|]. cbn. rewrite Ec. exact HC.
    + injection H as <-. right. split; [reflexivity|]. destruct (s_status s); cbn; rewrite Ec; exact HC.
    + injection H as <-. right. split; [reflexivity|]. rewrite Ec. exact HC.
  - (* C3 *) assert (NW : wlocks (s_pc s) = false).
    { destruct (wlocks (s_pc s)) eqn:E; [|reflexivity]. assert (X : s_lock s = Some (ClL t)) by (apply B2; rewrite Ec; reflexivity). rewrite (proj2 B1 eq_refl) in X. discriminate. }
    destruct a as [| | | |u|u d dl|u| | | | |]; try discriminate; cbn [step] in H.
    + unfold wstep in H. destruct (s_pc s) eqn:Ep; try congruence; cbn [ea_ok past] in *; rewrite ?orb_true_r, ?orb_false_r in *;
        repeat match type of H with context [match ?x with _ => _ end] => destruct x eqn:?; try discriminate end; injection H as <-; cbn in *;
        try (right; split; [reflexivity|]; rewrite ?Ec, ?orb_true_r, ?orb_false_r; rewrite ?Heqe; first [reflexivity|exact HC|discriminate]);
        try (exfalso; cbn in Q1; lia); try (exfalso; apply HS; congruence); try discriminate; try congruence.
    + destruct (s_pc s) eqn:Ep; try discriminate. injection H as <-. cbn in *. right. split; [reflexivity|]. rewrite Ec. exact HC.
    + destruct (s_pc s) eqn:Ep; try discriminate. injection H as <-. cbn in *. right. split; [reflexivity|]. rewrite Ec, Ep. exact HC.
    + destruct (s_c s u) eqn:Eu; try discriminate. injection H as <-. right. split; [reflexivity|]. rewrite cgo_c. cu u t; [congruence|]. rewrite Ec. exact HC.
    + destruct (s_c s u) eqn:Eu; try discriminate. injection H as <-. right. split; [reflexivity|]. rewrite cgo_c. cu u t; [congruence|]. rewrite Ec. exact HC.
    + destruct (Nat.eq_dec u t) as [->|Ne].
      * left. split; [reflexivity|]. unfold cstep in H. rewrite Ec in H. unfold awake.
        destruct (s_ea s) eqn:Ee; injection H as <-; destruct (s_pc s) eqn:Ep; cbn in *; rewrite ?Ee, ?Ep; try reflexivity; discriminate.
      * right. split; [reflexivity|]. apply Nat.eqb_neq in Ne. rewrite Nat.eqb_sym in Ne.
        assert (Hc : s_c s' t = C3 /\ s_pc s' = s_pc s /\ (s_ea s' = s_ea s \/ s_ea s' = edone)).
        { unfold cstep in H. repeat match type of H with context [match ?x with _ => _ end] => destruct x eqn:?; try discriminate end; injection H as <-; cbn; rewrite Ne; repeat split; auto. }
        destruct Hc as (Hc1 & Hc2 & [Hc3|Hc3]); rewrite Hc1, Hc2, Hc3; [exact HC|reflexivity].
    + injection H as <-. right. split; [reflexivity|]. cbn. rewrite Ec. exact HC.
    + injection H as <-. right. split; [reflexivity|]. destruct (s_status s); cbn; rewrite Ec; exact HC.
    + injection H as <-. right. split; [reflexivity|]. rewrite Ec. exact HC.
Qed.
