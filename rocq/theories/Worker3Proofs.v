(** Proofs about WorkerModel: requests are taken from the queue without waiting for a timer. *)
From Coq Require Import Arith List Bool Lia.
From Verif Require Import WorkerModel WorkerSpec WorkerProofs Worker2Proofs.
Import ListNotations.
Local Open Scope nat_scope.

Definition ND (s : st) : Prop :=
  (forall x, In x (s_q s) -> snd x = false) /\ (match s_cur s with Some (_, true) => False | _ => True end) /\
  (forall t d dl, s_c s t = P d dl -> dl = false) /\ NoDup (map fst (s_q s)).

Lemma push_in : forall d dl q x, In x (push d dl q) -> In x q \/ x = (d, dl).
Proof.
  induction q as [|(e, y) q IH]; intros x H; cbn [push] in H; [destruct H as [H|[]]; auto|].
  destruct (e =? d) eqn:E.
  - apply Nat.eqb_eq in E. subst e. destruct H as [H|H]; [right; symmetry; exact H|left; right; exact H].
  - destruct H as [H|H]; [left; left; exact H|]. apply IH in H. destruct H as [H|H]; [left; right; exact H|right; exact H].
Qed.
Lemma push_fst : forall d dl q, map fst (push d dl q) = if existsb (Nat.eqb d) (map fst q) then map fst q else map fst q ++ [d].
Proof.
  induction q as [|(e, y) q IH]; [reflexivity|]. cbn [push map fst existsb]. rewrite (Nat.eqb_sym d e). destruct (e =? d) eqn:E; [reflexivity|].
  cbn [map fst orb]. rewrite IH. destruct (existsb (Nat.eqb d) (map fst q)); reflexivity.
Qed.
Lemma push_nth : forall d dl q i x, nth_error (map fst q) i = Some x -> nth_error (map fst (push d dl q)) i = Some x.
Proof.
  intros d dl q i x H. rewrite push_fst. destruct (existsb _ _); [exact H|]. rewrite nth_error_app1; [exact H|]. apply nth_error_Some. congruence.
Qed.
Lemma push_nodup : forall d dl q, NoDup (map fst q) -> NoDup (map fst (push d dl q)).
Proof.
  intros d dl q H. rewrite push_fst. destruct (existsb (Nat.eqb d) (map fst q)) eqn:E; [exact H|].
  apply (NoDup_Add (a := d) (l := map fst q)); [|split; [exact H|]].
  - assert (X := Add_app d (map fst q) []). rewrite app_nil_r in X. exact X.
  - intros X. assert (Y : existsb (Nat.eqb d) (map fst q) = true) by (apply existsb_exists; exists d; split; [exact X|apply Nat.eqb_refl]). congruence.
Qed.
Lemma push_has : forall d dl q, In d (map fst (push d dl q)).
Proof.
  intros d dl q. rewrite push_fst. destruct (existsb (Nat.eqb d) (map fst q)) eqn:E; [|apply in_or_app; right; left; reflexivity].
  apply existsb_exists in E. destruct E as (x & Hx & E). apply Nat.eqb_eq in E. subst x. exact Hx.
Qed.

Lemma tl_in : forall (q : list (nat * bool)) x, In x (tl q) -> In x q.
Proof. destruct q; cbn; auto. Qed.
Lemma tl_nodup : forall (q : list (nat * bool)), NoDup (map fst q) -> NoDup (map fst (tl q)).
Proof. destruct q as [|x q]; cbn; [auto|]. intros H. inversion H. assumption. Qed.

Lemma step_ND : forall a s s', nodelay a = true -> ND s -> step a s = Some s' -> ND s'.
Proof.
  intros a s s' Hn (N1 & N2 & N3 & N4) H. unfold ND. destruct a as [| | | |u|u d dl|u| | | | |]; cbn [step nodelay] in *.
  - unfold wstep in H. repeat match type of H with context [match ?x with _ => _ end] => destruct x eqn:?; try discriminate end; injection H as <-;
      cbn [wgo set_ea set_lock set_ntf set_dns set_status begin_body end_body s_q s_cur s_c]; auto.
    split; [intros x Hx; apply N1, tl_in, Hx|]. split; [|split; [exact N3|apply tl_nodup, N4]].
    destruct (s_q s) as [|(e, [|]) q] eqn:Eq; cbn; auto. specialize (N1 (e, true) (or_introl eq_refl)). discriminate N1.
  - destruct (s_pc s); try discriminate; injection H as <-; auto.
  - destruct (s_pc s); try discriminate; injection H as <-; auto.
  - destruct (s_pc s); try discriminate; injection H as <-; auto.
  - destruct (s_c s u); try discriminate. injection H as <-. repeat split; auto. intros t d dl. rewrite cgo_c. cu u t; [discriminate|apply N3].
  - destruct (s_c s u); try discriminate. injection H as <-. repeat split; auto. intros t d' dl'. rewrite cgo_c. cu u t; [|apply N3].
    intros X. injection X as <- <-. destruct dl; [discriminate|reflexivity].
  - unfold cstep in H. destruct (s_c s u) as [|d dl| | | |] eqn:Ec; try discriminate.
    + injection H as <-. cbn [cgo set_q s_q s_cur]. assert (D := N3 u d dl Ec). subst dl. repeat split; auto.
      * intros x Hx. apply push_in in Hx. destruct Hx as [Hx| ->]; [apply N1, Hx|reflexivity].
      * intros t d' dl'. rewrite cgo_c. cu u t; [discriminate|apply N3].
      * apply push_nodup, N4.
    + destruct (s_ea s); injection H as <-; repeat split; auto; intros t d' dl'; rewrite cgo_c; (cu u t; [discriminate|apply N3]).
    + destruct (s_lock s); try discriminate; injection H as <-; repeat split; auto; intros t d' dl'; rewrite cgo_c; (cu u t; [discriminate|apply N3]).
    + destruct (s_ea s); injection H as <-; destruct (s_pc s); repeat split; auto; intros t d' dl'; rewrite cgo_c; (cu u t; [discriminate|apply N3]).
    + injection H as <-; repeat split; auto; intros t d' dl'; rewrite cgo_c; (cu u t; [discriminate|apply N3]).
  - injection H as <-. cbn. repeat split; auto; [intros x Hx; apply N1, tl_in, Hx|apply tl_nodup, N4].
  - injection H as <-. auto.
  - injection H as <-. destruct (s_status s); auto.
  - injection H as <-. auto.
  - injection H as <-. auto.
Qed.

Definition AW (s : st) : Prop :=
  serving s = true /\ (awake s || match s_pc s with L5 => true | L6 | L0a | L0b | L0c => s_dns s | _ => false end = true).

Lemma AW_step : forall a s s', kept a = true -> BI s -> SI s -> TI s -> ND s -> s_q s <> [] -> AW s -> step a s = Some s' ->
  AW s' /\ ((a = Wk /\ s_pc s = L4 /\ s_pc s' = L5 /\ s_q s' = tl (s_q s)) \/ rank (s_pc s') + wk a <= rank (s_pc s)).
Proof.
  intros a s s' Hk B HS HT HN HQ (A1 & A2) H. destruct HT as (T0 & T1 & T2).
  assert (HG1 : serving s' = true) by (eapply step_serving; eauto). unfold AW. rewrite HG1.
  destruct (awake s) eqn:EA.
  { destruct (G_step a s s' Hk B HS T1 T2 (conj A1 EA) H) as [X|(X1 & X2 & X3 & X4 & X5)].
    - assert (Y : a = Wk /\ s_pc s = L4 /\ s' = begin_body s).
      { destruct a as [| | | |u|u d dl|u| | | | |]; cbn [step] in H; unfold wstep, cstep in H;
          repeat match type of H with context [match ?x with _ => _ end] => destruct x eqn:?; try discriminate end; injection H as <-; cbn in X; try lia. auto. }
      destruct Y as (-> & Y & ->). split; [split; [reflexivity|]|left; auto]. cbn. apply orb_true_r.
    - split; [split; [reflexivity|rewrite (proj2 X2); reflexivity]|right; exact X3]. }
  cbn [orb] in A2. unfold awake in *. destruct HN as (_ & N2 & _). unfold serving, SI in *.
  destruct a as [| | | |u|u d dl|u| | | | |]; try discriminate; cbn [step wk] in *.
  - unfold wstep in H. destruct (s_pc s) eqn:Ep; try discriminate A2; cbn in EA.
    + destruct (s_status s) eqn:Es; try discriminate; injection H as <-; cbn; rewrite ?A2, ?orb_true_r; (split; [auto|right; cbn; lia]).
    + destruct (s_status s) eqn:Es; try discriminate; injection H as <-; cbn; rewrite ?A2, ?orb_true_r; (split; [auto|right; cbn; lia]).
    + rewrite A2 in H. injection H as <-. cbn. rewrite orb_true_r. split; [auto|right; cbn; lia].
    + injection H as <-. unfold end_body. cbn. split; [|right; lia]. split; [reflexivity|]. destruct (s_q s); [congruence|]. destruct (s_cur s) as [(x, [|])|]; try contradiction; cbn; rewrite ?orb_true_r; reflexivity.
    + injection H as <-. destruct (s_status s); cbn; rewrite ?A2, ?orb_true_r; (split; [auto|right; lia]).
  - destruct (s_pc s); try discriminate.
  - destruct (s_pc s) eqn:Ep; try discriminate. injection H as <-. cbn. rewrite Ep, orb_true_r. split; [auto|right; cbn; lia].
  - destruct (s_c s u); try discriminate. injection H as <-. cbn. rewrite A2, orb_true_r. split; [auto|right; lia].
  - destruct (s_c s u); try discriminate. injection H as <-. cbn. rewrite A2, orb_true_r. split; [auto|right; lia].
  - assert (HP : s_pc s' = s_pc s /\ s_dns s' = s_dns s).
    { unfold cstep in H. repeat match type of H with context [match ?x with _ => _ end] => destruct x eqn:?; try discriminate end; injection H as <-; cbn; auto. }
    destruct HP as (P1 & P2). rewrite P1, P2, A2, orb_true_r. split; [auto|right; lia].
  - injection H as <-. cbn. rewrite A2, orb_true_r. split; [auto|right; lia].
  - injection H as <-. destruct (s_status s); cbn; rewrite A2, orb_true_r; (split; [auto|right; lia]).
  - injection H as <-. rewrite A2, orb_true_r. split; [auto|right; lia].
Qed.

(** The position of a request only decreases. *)
Lemma q_step : forall a s s' d i, NoDup (map fst (s_q s)) -> nth_error (map fst (s_q s)) i = Some d -> step a s = Some s' ->
  ~ In d (map fst (s_q s')) \/ exists i', i' <= i /\ nth_error (map fst (s_q s')) i' = Some d /\ (s_q s' = tl (s_q s) -> i' < i).
Proof.
  intros a s s' d i N H E.
  assert (Q : s_q s' = s_q s \/ s_q s' = tl (s_q s) \/ exists e dl, s_q s' = push e dl (s_q s)).
  { destruct a as [| | | |u|u e dl|u| | | | |]; cbn [step] in E; unfold wstep, cstep in E;
      repeat match type of E with context [match ?x with _ => _ end] => destruct x eqn:?; try discriminate end; injection E as <-; cbn; eauto. }
  assert (NT : s_q s <> tl (s_q s)).
  { destruct (s_q s) as [|x q]; [destruct i; discriminate|]. cbn. intros X. apply (f_equal (@length _)) in X. cbn in X. lia. }
  destruct Q as [Q|[Q|(e & dl & Q)]].
  - right. exists i. rewrite Q. repeat split; auto. intros X. congruence.
  - rewrite Q. destruct (s_q s) as [|(e, x) q] eqn:Eq; [destruct i; discriminate|]. cbn in *. destruct i as [|i].
    + left. injection H as <-. inversion N. assumption.
    + right. exists i. repeat split; auto.
  - right. exists i. rewrite Q. repeat split; [lia|apply push_nth, H|]. intros X. exfalso. apply (f_equal (@length _)) in X.
    assert (L := f_equal (@length _) (push_fst e dl (s_q s))). rewrite map_length in L.
    destruct (s_q s) as [|y q] eqn:Eq; [destruct i; discriminate|]. cbn [tl] in X. rewrite X in L. destruct (existsb _ _) in L; rewrite ?app_length, map_length in L; cbn in L; lia.
Qed.

Lemma taken_cons : forall d a os s s1, step a s = Some s1 -> taken d os s1 -> taken d (a :: os) s.
Proof. intros d a os s s1 E (o1 & o2 & s' & -> & R & N). exists (a :: o1), o2, s'. split; [reflexivity|]. split; [cbn; rewrite E; exact R|exact N]. Qed.
Lemma taken_now : forall d os s, ~ In d (map fst (s_q s)) -> taken d os s.
Proof. intros d os s N. exists [], os, s. repeat split; auto. Qed.
Lemma taken_app : forall d o1 o2 s s1, run o1 s = Some s1 -> taken d o2 s1 -> taken d (o1 ++ o2) s.
Proof. intros d o1 o2 s s1 E (a & b & s' & -> & R & N). exists (o1 ++ a), b, s'. rewrite app_assoc. split; [reflexivity|]. rewrite run_app, E. auto. Qed.
Lemma taken_l : forall d o1 o2 s, taken d o1 s -> taken d (o1 ++ o2) s.
Proof. intros d o1 o2 s (a & b & s' & -> & R & N). exists a, (b ++ o2), s'. rewrite app_assoc. auto. Qed.

Record INV (s : st) : Prop := { iB : BI s; iS : SI s; iT : TI s; iN : ND s }.
Lemma INV_step : forall a s s', strong a = true -> nohalt a = true -> nodelay a = true -> INV s -> step a s = Some s' -> INV s'.
Proof.
  intros a s s' H1 H2 H3 [B S T N] E. split; [exact (step_BI a s s' B E)|exact (step_SI a s s' H1 S E)|exact (step_TI a s s' H2 T E)|exact (step_ND a s s' H3 N E)].
Qed.
Lemma INV_init : INV init.
Proof.
  split; [exact init_BI|exact init_SI|exact init_TI|]. repeat split; cbn; try constructor; try (intros x []); discriminate.
Qed.
Lemma INV_run : forall os s s', forallb plain os = true -> INV s -> run os s = Some s' -> INV s'.
Proof.
  induction os as [|a os IH]; intros s s' Hk I H; cbn [run forallb] in *; [injection H as <-; exact I|].
  apply andb_prop in Hk. destruct Hk as (Ha & Hk). destruct (step a s) as [s1|] eqn:E; [|discriminate].
  apply (IH s1 s' Hk); [|exact H]. apply andb_prop in Ha. destruct Ha as (Ha & Ha3). apply andb_prop in Ha. destruct Ha as (Ha1 & Ha2). exact (INV_step a s s1 Ha1 Ha2 Ha3 I E).
Qed.
Lemma ok_plain : forall a, ok a = true -> plain a = true.
Proof. intros a H. apply andb_prop in H. destruct H as (H1 & H2). unfold plain. rewrite (kept_strong a H1), (kept_nohalt a H1), H2. reflexivity. Qed.
Lemma ok_step : forall a s s', ok a = true -> INV s -> step a s = Some s' -> INV s'.
Proof. intros a s s' H I E. apply (INV_run [a] s s'); [cbn; rewrite (ok_plain a H); reflexivity|exact I|cbn; rewrite E; reflexivity]. Qed.

Lemma AW_run : forall os s s' d i, forallb ok os = true -> INV s -> AW s -> nth_error (map fst (s_q s)) i = Some d -> run os s = Some s' ->
  taken d os s \/ (AW s' /\ exists i', nth_error (map fst (s_q s')) i' = Some d /\ i' * 16 + rank (s_pc s') + wks os <= i * 16 + rank (s_pc s)).
Proof.
  induction os as [|a os IH]; intros s s' d i Hk I A Hi H; cbn [run forallb wks] in *.
  - injection H as <-. right. split; [exact A|]. exists i. split; [exact Hi|lia].
  - apply andb_prop in Hk. destruct Hk as (Ha & Hk). destruct (step a s) as [s1|] eqn:E; [|discriminate].
    assert (I1 := ok_step a s s1 Ha I E). destruct (andb_prop _ _ Ha) as (Hkp & Hnd).
    assert (Q0 : s_q s <> []) by (intros X; rewrite X in Hi; destruct i; discriminate).
    destruct (AW_step a s s1 Hkp (iB s I) (iS s I) (iT s I) (iN s I) Q0 A E) as (A1 & R).
    destruct (q_step a s s1 d i (proj2 (proj2 (proj2 (iN s I)))) Hi E) as [X|(i1 & L & Hi1 & Lt)].
    { left. apply (taken_cons d a os s s1 E). apply taken_now. exact X. }
    destruct (IH s1 s' d i1 Hk I1 A1 Hi1 H) as [T|(A2 & i2 & Hi2 & M)].
    { left. exact (taken_cons d a os s s1 E T). }
    right. split; [exact A2|]. exists i2. split; [exact Hi2|]. destruct R as [(-> & R1 & R2 & R3)|R].
    + specialize (Lt R3). rewrite R1, R2 in *. cbn [wk rank] in *. lia.
    + lia.
Qed.

Lemma AWK_run : forall t os s s' d, forallb ok os = true -> INV s -> (AW s \/ K t s) -> In d (map fst (s_q s)) -> run os s = Some s' ->
  taken d os s \/ ((AW s' \/ K t s') /\ In d (map fst (s_q s'))).
Proof.
  intros t. induction os as [|a os IH]; intros s s' d Hk I A Hi H; cbn [run forallb] in *.
  - injection H as <-. right. split; assumption.
  - apply andb_prop in Hk. destruct Hk as (Ha & Hk). destruct (step a s) as [s1|] eqn:E; [|discriminate].
    assert (I1 := ok_step a s s1 Ha I E). destruct (andb_prop _ _ Ha) as (Hkp & Hnd).
    destruct (in_dec Nat.eq_dec d (map fst (s_q s1))) as [Hd|Hd]; [|left; apply (taken_cons d a os s s1 E), taken_now, Hd].
    assert (A1 : AW s1 \/ K t s1).
    { destruct A as [A|A].
      - left. refine (proj1 (AW_step a s s1 Hkp (iB s I) (iS s I) (iT s I) (iN s I) _ A E)). intros X. rewrite X in Hi. destruct Hi.
      - destruct (iT s I) as (T0 & T1 & T2). destruct (K_step t a s s1 Hkp (iB s I) (iS s I) T1 T2 A E) as [X|(X1 & X2 & _)]; [|right; exact X2].
        left. split; [eapply step_serving; [exact Hkp| |exact E|exact T1]; destruct A as [(A & _)|(A & _)]; exact A|].
        assert (Y : s1 = begin_body s).
        { destruct a as [| | | |u|u e dl|u| | | | |]; cbn [step] in E; unfold wstep, cstep in E;
            repeat match type of E with context [match ?x with _ => _ end] => destruct x eqn:?; try discriminate end; injection E as <-; cbn in X; try lia. reflexivity. }
        rewrite Y. cbn. apply orb_true_r. }
    destruct (IH s1 s' d Hk I1 A1 Hd H) as [T|T]; [left; exact (taken_cons d a os s s1 E T)|right; exact T].
Qed.

(** The request of a thread is taken, at the latest after sixteen steps of the worker for each request in
    the queue. *)
Lemma request_taken : forall os1 sx t d sp os2 s2 os3 s3,
  forallb plain os1 = true -> run os1 init = Some sx -> s_c sx t = P d false -> serving sx = true ->
  step (Cl t) sx = Some sp -> forallb ok os2 = true -> run os2 sp = Some s2 -> s_c s2 t = Out ->
  forallb ok os3 = true -> run os3 s2 = Some s3 -> 16 * length (s_q s2) <= wks os3 ->
  taken d (os2 ++ os3) sp.
Proof.
  intros os1 sx t d sp os2 s2 os3 s3 H1 R1 C V E H2 R2 O H3 R3 W.
  assert (I := INV_run os1 init sx H1 INV_init R1). assert (Ip := ok_step (Cl t) sx sp eq_refl I E).
  cbn [step] in E. unfold cstep in E. rewrite C in E. injection E as Ep. rewrite <- Ep in Ip, R2. rewrite <- Ep. clear Ep sp.
  set (sp := cgo t C1 (set_q (push d false (s_q sx)) sx)) in *.
  assert (Hd : In d (map fst (s_q sp))) by (apply push_has).
  assert (A : AW sp \/ K t sp). { right. right. split; [exact V|]. unfold sp. rewrite cgo_c, Nat.eqb_refl. exact Logic.I. }
  destruct (AWK_run t os2 sp s2 d H2 Ip A Hd R2) as [T|(A2 & Hd2)]; [apply taken_l, T|].
  apply (taken_app d os2 os3 sp s2 R2).
  assert (A3 : AW s2). { destruct A2 as [A2|A2]; [exact A2|]. apply K_out in A2; [|exact O]. destruct A2 as (Z1 & Z2). split; [exact Z1|rewrite Z2; reflexivity]. }
  assert (I2 : INV s2). { apply (INV_run os2 sp s2); [revert H2; apply forall_impl, ok_plain|exact Ip|exact R2]. }
  apply In_nth_error in Hd2. destruct Hd2 as (i & Hi).
  destruct (AW_run os3 s2 s3 d i H3 I2 A3 Hi R3) as [T|(_ & i' & Hi' & M)]; [exact T|].
  assert (Li : i < length (map fst (s_q s2))) by (apply nth_error_Some; congruence). rewrite map_length in Li.
  assert (Rk := rank_le (s_pc s2)). exfalso. lia.
Qed.
