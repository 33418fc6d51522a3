(** skiplist_next returns a strictly later entry unless some entry was erased. *)
From Coq Require Import NArith Arith List Bool Lia.
From Verif Require Import Base SkipModel SkipSpec SkipProofs SkipProofs2.
Local Open Scope nat_scope.

Section Proofs.
Variable key : nat -> N.
Variable top : nat -> nat.
Variable maxl : nat.
Hypothesis ord : ordered key.

Definition lost (s : st) (q : N) (t : nat) : Prop := exists x d, s_died s x = Some d /\ d < t /\ (q <= key x)%N.

Definition gt_job (s : st) (w : work) : Prop := match w_job w with JFind q GT => lost s q (s_clk s) | _ => True end.

Definition work_of (p : pc) : option work :=
  match p with
  | Idle | Done _ _ _ _ | Crash _ => None
  | Top w | SRead w _ _ | SGot w _ _ _ _ | SSkip w _ _ _ _ | SLock w _ _ _ | SVal1 w _ _ _ _ | SVal2 w _ _ _ _ | SStore w _ _ _
  | ARead w _ _ _ | AGot w _ _ _ _ | ASkip w _ _ _ _ | Clr w _ _ | ILink w _ | IFull w | IUnl w | Cnt w _ | Scan w _
  | ERm w | ECas w | ESet w | ECheck w | EBack w | EMark w | EUnl w _ | EFin w => Some w
  end.

Definition NI (s : st) (p : pc) : Prop :=
  match p with
  | Done t0 t1 (JFind q GT) _ => lost s q t1
  | Done t0 t1 (JNext n) (RFound (Some y)) => (key n < key y)%N
  | SGot w _ _ y _ | SSkip w _ _ y _ => gt_job s w /\ s_ph s y <> New
  | _ => match work_of p with Some w => gt_job s w | None => True end
  end.

Definition WI (s : st) : Prop := forall x T k, s_ph s x = Ins T k -> s_wl s x = true.

Lemma lost_more : forall s s' q t t', (forall x d, s_died s x = Some d -> s_died s' x = Some d) -> t <= t' -> lost s q t -> lost s' q t'.
Proof. intros s s' q t t' H L (x & d & A & B & C). exists x, d. repeat split; auto. lia. Qed.

Lemma gt_more : forall s s' w, (forall x d, s_died s x = Some d -> s_died s' x = Some d) -> s_clk s <= s_clk s' -> gt_job s w -> gt_job s' w.
Proof. intros s s' w H L G. unfold gt_job in *. destruct (w_job w) as [| |q []|]; try exact G. apply (lost_more s s' q (s_clk s)); assumption. Qed.

Lemma NI_more : forall s s' p, (forall x d, s_died s x = Some d -> s_died s' x = Some d) -> (forall x, s_ph s' x = New -> s_ph s x = New) -> s_clk s <= s_clk s' -> NI s p -> NI s' p.
Proof.
  intros s s' p H1 H2 H3 H. destruct p; cbn [NI work_of] in *; try exact H; try (apply (gt_more s s' w H1 H3 H)); try (split; [apply (gt_more s s' w H1 H3), H|intros X; apply H, H2, X]).
  destruct j as [n nd|n|q m|n]; try exact H. destruct m; try exact H. apply (lost_more s s' q t1 t1 H1 (le_n _) H).
Qed.

(** What the pieces of a step leave alone. *)
Definition sameph (s s' : st) : Prop := s_ph s' = s_ph s /\ s_wl s' = s_wl s /\ s_died s' = s_died s /\ s_clk s' = s_clk s.

Lemma clear_same : forall w k a s, sameph s (snd (clear key top w k a s)).
Proof.
  intros w k a s. unfold clear. destruct (match w_job w with JIns n _ | JErase n => k <=? top n | _ => false end); [repeat split|].
  destruct a; [|destruct (w_job w), r; repeat split]. unfold retry. destruct (w_job w); [repeat split|repeat split|repeat split|]. destruct (n =? head); repeat split.
Qed.

Lemma decide_same : forall w l cur y f s, sameph s (snd (decide key top w l cur y f s)).
Proof.
  intros w l cur y f s. unfold decide. destruct (w_job w).
  - destruct (key y <? key n)%N; [repeat split|]. destruct (nodup && (key y =? key n)%N); [exact (clear_same w (l + 1) (Fin RDup) (drop cur (drop y s)))|]. destruct (l <=? top n); repeat split.
  - destruct ((key y <? key n)%N || (l <=? top n) && negb f); [destruct (y =? tail); repeat split|]. destruct (l <=? top n); repeat split.
  - destruct (key y <? q)%N; [repeat split|]. destruct (match m with SMEQ | EQ | GTEQ => (key y =? q)%N | _ => false end); [repeat split|]. destruct (0 <? l); [repeat split|].
    destruct m, (cur =? head), (y =? tail); repeat split.
  - repeat split.
Qed.

(** Where a retry leads, given that a retry of skiplist_next means that something is gone. *)
Lemma retry_NI : forall s s0 w, gt_job s w -> (forall n, w_job w = JNext n -> n <> head -> lost s (key n) (s_clk s)) -> NI s (fst (retry key w s0)).
Proof.
  intros s s0 w G H. unfold retry. destruct (w_job w) as [n nd|n|q m|n] eqn:E; cbn [fst NI work_of]; try exact G. destruct (Nat.eqb_spec n head) as [->|N]; cbn [fst NI work_of]; [exact G|].
  unfold gt_job. cbn [w_job]. apply H; [reflexivity|exact N].
Qed.

Lemma clear_NI : forall s s0 w k a, gt_job s w -> (forall n, w_job w = JNext n -> n <> head -> lost s (key n) (s_clk s)) ->
  match a with Fin r => match w_job w with JIns _ _ | JErase _ => True | _ => False end | Retry => True end -> NI s (fst (clear key top w k a s0)).
Proof.
  intros s s0 w k a G H A. unfold clear. destruct (match w_job w with JIns n _ | JErase n => k <=? top n | _ => false end); [exact G|]. destruct a; [apply retry_NI; assumption|].
  destruct (w_job w) eqn:E; try destruct A; cbn [fst NI work_of finish]; rewrite ?E; try exact G; exact Logic.I.
Qed.

Lemma decide_NI : forall s s0 w l cur y f, gt_job s w -> s_clk s0 = s_clk s -> (forall n, w_job w = JNext n -> (key n < key y)%N) -> NI s (fst (decide key top w l cur y f s0)).
Proof.
  intros s s0 w l cur y f G C H. unfold decide. destruct (w_job w) as [n nd|n|q m|n] eqn:E.
  - destruct (key y <? key n)%N; [exact G|]. destruct (nd && (key y =? key n)%N); [apply clear_NI; [exact G|intros x X; congruence|rewrite E; exact Logic.I]|].
    destruct (l <=? top n); cbn [fst NI work_of]; [|exact G]. unfold gt_job in *. cbn [set_next set_prev w_job]. rewrite E in *. exact G.
  - destruct ((key y <? key n)%N || (l <=? top n) && negb f); [destruct (y =? tail); [exact Logic.I|exact G]|].
    destruct (l <=? top n); cbn [fst NI work_of]; [|exact G]. unfold gt_job in *. cbn [set_next set_prev w_job]. rewrite E in *. exact G.
  - assert (X : forall r, NI s (Done (w_t0 w) (s_clk s0) (JFind q m) r)) by (intros r; cbn [NI]; unfold gt_job in G; rewrite E in G; destruct m; try exact Logic.I; rewrite C; exact G).
    destruct (key y <? q)%N; [exact G|]. destruct (match m with SMEQ | EQ | GTEQ => (key y =? q)%N | _ => false end); [unfold finish; cbn [fst]; rewrite E; apply X|]. destruct (0 <? l); [exact G|].
    destruct m, (cur =? head), (y =? tail); unfold finish; cbn [fst]; rewrite E; apply X.
  - unfold finish. cbn [fst NI]. rewrite E. destruct (y =? tail); [exact Logic.I|]. apply H. reflexivity.
Qed.

Lemma step_NI : forall T spur s p s1, Inv key top s -> WI s -> NI s (s_th s T) -> step1 key top maxl false T spur (s_th s T) s = Some (p, s1) ->
  NI s p /\ (forall x, s_ph s1 x = New -> s_ph s x = New) /\ WI s1.
Proof.
  intros T spur s p s1 [I IT] HW HN H. specialize (IT T). remember (s_th s T) as p0 eqn:Ht. symmetry in Ht.
  assert (Kp : forall x : pc * st, Some x = Some (p, s1) -> sameph s (snd x) -> NI s (fst x) ->
     NI s p /\ (forall x, s_ph s1 x = New -> s_ph s x = New) /\ WI s1).
  { intros x E1 (E2 & E3 & _) E4. injection E1 as ->. cbn [fst snd] in *. split; [exact E4|]. split; [rewrite E2; auto|]. unfold WI. rewrite E2, E3. exact HW. }
  assert (Ck : forall s0 s2, sameph s s0 -> sameph s0 s2 -> sameph s s2) by (intros s0 s2 (A1 & A2 & A3 & A4) (B1 & B2 & B3 & B4); repeat split; congruence).
  destruct p0; unfold step1 in H; cbn [negb andb] in H; try discriminate H; cbv zeta in H; cbn [NI work_of] in HN.
  - destruct (w_job w) as [n d|n|q m|n] eqn:J; [|destruct (s_tl s <? top n)|..]; (apply (Kp _ H); [repeat split|]); solve [exact HN|exact Logic.I].
  - (* SRead *)
    destruct (s_wl s cur); [discriminate|]. destruct (fl s cur) eqn:Fc.
    + destruct (cur =? tail); (apply (Kp _ H); [repeat split|]); cbn [fst NI work_of]; [exact Logic.I|]. split; [exact HN|]. cbn [TI] in IT. destruct IT as (_ & O & _).
      assert (A : at_ top s l cur). { destruct O as [O|(O1 & O2 & O3)]; [left; exact O|right]. split; [exact O1|]. split; [exact O2|]. unfold fl in Fc. destruct (s_ph s cur); try discriminate. exact Logic.I. }
      destruct (si_nx _ _ _ I l cur A) as ([B|(_ & _ & B)] & _); [rewrite B, (si_tail _ _ _ I); discriminate|]. intros X. rewrite X in B. exact B.
    + cbn [TI] in IT. destruct IT as (_ & O & J).
      apply (Kp _ H).
      * apply (Ck (dropc w cur s)); [unfold dropc; destruct (w_job w); repeat split|apply clear_same].
      * apply clear_NI; [exact HN| |exact Logic.I]. intros n E Nh. rewrite E in J. destruct J as [-> ->]. destruct O as [O|(O1 & O2 & O3)]; [contradiction|].
        destruct (si_dead _ _ _ I n O1 O3) as [d D]; [intros X; unfold fl in Fc; rewrite X in Fc; discriminate|]. exists n, d. destruct (si_died _ _ _ I n d D) as (L & _). repeat split; auto; lia.
  - (* SGot *)
    destruct HN as [HN Hy]. destruct (fl s y && negb (wanted w y)); apply (Kp _ H).
    + apply (Ck (touch y s)); [repeat split|apply decide_same].
    + apply decide_NI; [exact HN|reflexivity|]. intros n E. cbn [TI] in IT. destruct IT as ((_ & _ & J) & (_ & L & _)). rewrite E in J. destruct J as [-> _]. exact L.
    + repeat split.
    + split; assumption.
  - (* SSkip *)
    destruct HN as [HN Hy]. destruct (s_wl s y) eqn:Wy; [discriminate|]. destruct (fl s y) eqn:Fy.
    + destruct (y =? tail); (apply (Kp _ H); [repeat split|]); cbn [fst NI work_of]; [exact Logic.I|]. split; [exact HN|]. cbn [TI] in IT. destruct IT as (_ & ((U & Lt) & _)).
      assert (A : at_ top s l y). { right. split; [exact U|]. split; [exact Lt|]. unfold fl in Fy. destruct (s_ph s y); try discriminate. exact Logic.I. }
      destruct (si_nx _ _ _ I l y A) as ([B|(_ & _ & B)] & _); [rewrite B, (si_tail _ _ _ I); discriminate|]. intros X. rewrite X in B. exact B.
    + cbn [TI] in IT. destruct IT as ((_ & O & J) & ((U & Lt) & Lk & _)). apply (Kp _ H).
      * apply (Ck (dropc w cur (drop y s))); [unfold dropc; destruct (w_job w); repeat split|apply clear_same].
      * apply clear_NI; [exact HN| |exact Logic.I]. intros n E Nh. rewrite E in J. destruct J as [-> ->].
        assert (P : past (s_ph s y)). { destruct (s_ph s y) eqn:P; try exact Logic.I; [contradiction|]. assert (X := HW y T0 k P). congruence. }
        destruct (si_dead _ _ _ I y U P) as [d D]; [intros X; unfold fl in Fy; rewrite X in Fy; discriminate|]. exists y, d. destruct (si_died _ _ _ I y d D) as (L & _). repeat split; auto; lia.
  - (* SLock *)
    assert (Nn : forall n, w_job w = JNext n -> n <> head -> lost s (key n) (s_clk s)) by (intros n E; cbn [TI] in IT; destruct IT as [_ IT]; rewrite E in IT; destruct IT).
    destruct ((l <? w_top top w) && (w_prev w (l + 1) =? cur)); [apply (Kp _ H); [repeat split|exact HN]|].
    destruct (s_own s cur); apply (Kp _ H); try exact HN; try (repeat split; fail); [apply (Ck (drop cur s)); [unfold dropc; destruct (w_job w); repeat split|apply clear_same]|apply clear_NI; auto].
  - assert (Nn : forall n, w_job w = JNext n -> n <> head -> lost s (key n) (s_clk s)) by (intros n E; cbn [TI] in IT; destruct IT as [[[_ IT] _] _]; rewrite E in IT; destruct IT).
    destruct (fl s cur); apply (Kp _ H); try exact HN; try (repeat split; fail); [apply (Ck (drop cur s)); [unfold dropc; destruct (w_job w); repeat split|apply clear_same]|apply clear_NI; auto].
  - assert (Nn : forall n, w_job w = JNext n -> n <> head -> lost s (key n) (s_clk s)) by (intros n E; cbn [TI] in IT; destruct IT as [[[_ IT] _] _]; rewrite E in IT; destruct IT).
    destruct (fl s y); [destruct (w_job w); apply (Kp _ H); try exact HN; repeat split|].
    apply (Kp _ H); [apply (Ck (drop cur (touch y s))); [repeat split|apply clear_same]|apply clear_NI; auto].
  - apply (Kp _ H); [repeat split|exact HN].
  - destruct (s_wl s cur); [discriminate|]. destruct (fl s cur); (apply (Kp _ H); [repeat split|]); solve [exact HN|exact Logic.I].
  - assert (Nn : forall n, w_job w = JNext n -> n <> head -> lost s (key n) (s_clk s)) by (intros n E; cbn [TI] in IT; destruct IT as [[[_ IT] _] _]; rewrite E in IT; destruct IT).
    destruct (fl s z && negb (wanted w z)); [destruct (z =? y)|]; apply (Kp _ H).
    + unfold agreed. destruct (0 <? l); [repeat split|]. destruct (w_job w); repeat split.
    + unfold agreed. destruct (0 <? l); [exact HN|]. destruct (w_job w); exact HN.
    + apply (Ck (drop cur (drop z s))); [repeat split|apply clear_same].
    + apply clear_NI; auto.
    + repeat split.
    + exact HN.
  - destruct (s_wl s z); [discriminate|]. destruct (fl s z); [destruct (z =? tail)|]; (apply (Kp _ H); [repeat split|]); solve [exact HN|exact Logic.I].
  - (* Clr *)
    cbn [TI] in IT. destruct IT as [C IT]. apply (Kp _ H).
    + destruct (((k =? w_top top w) || negb (w_prev w k =? w_prev w (k + 1))) && true).
      * apply (Ck (touch (w_prev w k) (set_own (upd (s_own s) (w_prev w k) None) s))); [repeat split|apply clear_same].
      * apply clear_same.
    + apply clear_NI; [exact HN| |destruct a; [exact Logic.I|destruct (w_job w); try exact Logic.I; exact IT]]. intros n E. rewrite E in IT. destruct IT.
  - (* ILink *)
    cbn [TI] in IT. destruct IT as [Lk _].
    destruct (s_wl s (w_prev w k)); [discriminate|].
    assert (E : s_ph s1 = upd (s_ph s) (w_node w) (Ins T (k + 1)) /\ s_wl s1 = s_wl s) by (destruct (s_nx s (w_prev w k) k =? w_next w k), (k <? top (w_node w)); injection H as <- <-; split; reflexivity).
    destruct E as [E1 E2]. assert (P : exists j, s_ph s (w_node w) = Ins T j) by (unfold linkok, w_node in *; destruct (w_job w); [exists k; apply Lk|destruct Lk..]). destruct P as [j P].
    split; [destruct (k <? top (w_node w)); injection H as <- _; exact HN|]. unfold WI. rewrite E1, E2. split.
    + intros x X. destruct (Nat.eq_dec x (w_node w)) as [->|Nx]; [rewrite upd_eq in X; discriminate|rewrite upd_ne in X by exact Nx; exact X].
    + intros x U j2 X. destruct (Nat.eq_dec x (w_node w)) as [->|Nx]; [apply (HW _ _ _ P)|rewrite upd_ne in X by exact Nx; apply (HW _ _ _ X)].
  - (* IFull *)
    injection H as <- <-. split; [exact HN|]. unfold WI. cbn. split.
    + intros x X. destruct (Nat.eq_dec x (w_node w)) as [->|Nx]; [rewrite upd_eq in X; discriminate|rewrite upd_ne in X by exact Nx; exact X].
    + intros x U j2 X. destruct (Nat.eq_dec x (w_node w)) as [->|Nx]; [rewrite upd_eq in X; discriminate|rewrite upd_ne in X by exact Nx; apply (HW _ _ _ X)].
  - (* IUnl *)
    injection H as <- <-. split; [exact HN|]. split; [auto|]. unfold WI. cbn. intros x U j2 X. destruct (Nat.eq_dec x (w_node w)) as [->|Nx]; [|rewrite upd_ne by exact Nx; apply (HW _ _ _ X)].
    exfalso. assert (P : past (s_ph s (w_node w)) \/ w_node w = head) 
    by (cbn [TI] in IT; unfold postok, clrok, w_node in *; destruct (w_job w) as [n d|n|q m|n]; [left; destruct IT as (_ & _ & _ & b & B & _); apply (si_born _ _ _ I n b B)|left; destruct IT as (_ & _ & _ & _ & _ & d & D & _); apply (si_died _ _ _ I n d D)|destruct IT..]). destruct P as [P|P]; [rewrite X in P; exact P|]. rewrite P, (si_head _ _ _ I) in X. discriminate.
  - apply (Kp _ H); [repeat split|exact HN].
  - cbn [TI] in IT. assert (Jw : match w_job w with JIns _ _ | JErase _ => True | _ => False end) by (unfold postok in IT; destruct (w_job w); try exact Logic.I; exact IT).
    assert (Nn : forall n, w_job w = JNext n -> n <> head -> lost s (key n) (s_clk s)) by (intros n E; rewrite E in Jw; destruct Jw).
    destruct ii as [|i]; [apply (Kp _ H); [apply clear_same|apply clear_NI; auto]|].
    destruct (0 <? s_cnt s i); apply (Kp _ H); [apply (Ck (set_tl i s)); [repeat split|apply clear_same]|apply clear_NI; auto|repeat split|exact HN].
  - cbn [TI] in IT. destruct IT as [_ IT]. destruct (s_rm s (w_node w)); (apply (Kp _ H); [repeat split|]); [|exact HN]. unfold finish. cbn [fst NI]. destruct (w_job w); try destruct IT. exact Logic.I.
  - destruct (s_own s (w_node w)); (apply (Kp _ H); [repeat split|exact HN]).
  - apply (Kp _ H); [repeat split|exact HN].
  - destruct (fl s (w_node w)); (apply (Kp _ H); [repeat split|exact HN]).
  - cbn [TI] in IT. destruct IT as [_ IT]. apply (Kp _ H); [repeat split|]. unfold finish. cbn [fst NI]. destruct (w_job w); try destruct IT. exact Logic.I.
  - (* EMark *)
    destruct (s_wl s (w_node w)); [discriminate|]. injection H as <- <-. split; [exact HN|]. unfold WI. cbn. split.
    + intros x X. destruct (Nat.eq_dec x (w_node w)) as [->|Nx]; [rewrite upd_eq in X; discriminate|rewrite upd_ne in X by exact Nx; exact X].
    + intros x U j2 X. destruct (Nat.eq_dec x (w_node w)) as [->|Nx]; [rewrite upd_eq in X; discriminate|rewrite upd_ne in X by exact Nx; apply (HW _ _ _ X)].
  - (* EUnl *)
    destruct (s_wl s (w_prev w k)); [discriminate|].
    assert (E : s_wl s1 = s_wl s /\ (s_ph s1 = upd (s_ph s) (w_node w) Dead \/ s_ph s1 = upd (s_ph s) (w_node w) (Del T (k + 1))) /\ NI s p).
    { destruct (s_nx s (w_prev w k) k =? w_node w), (k <? top (w_node w)); injection H as <- <-; (split; [reflexivity|]); (split; [|exact HN]); ((left; reflexivity) || (right; reflexivity)). }
    destruct E as (E2 & E1 & E3). split; [exact E3|]. unfold WI. rewrite E2. split.
    + intros x X. destruct (Nat.eq_dec x (w_node w)) as [->|Nx]; destruct E1 as [E1|E1]; rewrite E1 in X; [rewrite upd_eq in X; discriminate..|rewrite upd_ne in X by exact Nx; exact X|rewrite upd_ne in X by exact Nx; exact X].
    + intros x U j2 X. destruct (Nat.eq_dec x (w_node w)) as [->|Nx]; destruct E1 as [E1|E1]; rewrite E1 in X; [rewrite upd_eq in X; discriminate..|rewrite upd_ne in X by exact Nx; apply (HW _ _ _ X)|rewrite upd_ne in X by exact Nx; apply (HW _ _ _ X)].
  - cbn [TI] in IT. apply (Kp _ H); [repeat split|]. unfold finish. cbn [fst NI]. destruct (w_job w); try destruct IT. exact Logic.I.
Qed.

Definition AI (s : st) : Prop := WI s /\ forall T, NI s (s_th s T).

Lemma start_NI : forall T j s p s1, Inv key top s -> WI s -> guard key (Start T j) -> start T j s = Some (p, s1) ->
  NI s p /\ (forall x, s_ph s1 x = New -> s_ph s x = New) /\ WI s1.
Proof.
  intros T j s p s1 [I _] HW G H. unfold start in H. destruct (idle (s_th s T)); [|discriminate]. destruct j as [n d|n|q m|n].
  - destruct (s_ph s n) eqn:P; try discriminate. injection H as <- <-. split; [exact Logic.I|]. unfold WI. cbn. split.
    + intros x X. destruct (Nat.eq_dec x n) as [->|N]; [exact P|rewrite upd_ne in X by exact N; exact X].
    + intros x U k X. destruct (Nat.eq_dec x n) as [->|N]; [apply upd_eq|]. rewrite upd_ne in X |- * by exact N. apply (HW _ _ _ X).
  - destruct (s_born s n); [|discriminate]. injection H as <- <-. split; [exact Logic.I|]. split; [auto|exact HW].
  - injection H as <- <-. split; [|split; [auto|exact HW]]. cbn [NI work_of]. unfold gt_job. cbn [w_job]. destruct m; try exact Logic.I. destruct G as [G _]. contradiction.
  - destruct (s_born s n); [|destruct (n =? head); [|discriminate]]; injection H as <- <-; (split; [exact Logic.I|split; [auto|exact HW]]).
Qed.

Lemma after_AI : forall T s p s1, AI s -> s_th s1 = s_th s -> Good key top T s p s1 -> NI s p -> (forall x, s_ph s1 x = New -> s_ph s x = New) -> WI s1 -> AI (after_ T p s1).
Proof.
  intros T s p s1 [HW HN] Et (_ & _ & F) Hp P W. split; [exact W|]. intros U. change (s_th (after_ T p s1)) with (upd (s_th s1) T p). rewrite Et.
  apply (NI_more s); [apply (fr_d1 _ _ _ F)|exact P|rewrite (fr_clk _ _ _ F); lia|]. destruct (Nat.eq_dec U T) as [->|N]; [rewrite upd_eq; exact Hp|rewrite upd_ne by exact N; apply HN].
Qed.

Lemma AI_step : forall e s s', Inv key top s -> AI s -> guard key e -> step key top maxl false e s = Some s' -> AI s'.
Proof.
  intros e s s' HI HA G H. assert (O := ord). destruct O as (O1 & O2 & O3). destruct e as [T j|T spur|n up|n]; cbn [step] in H.
  - destruct (start T j s) as [[p s1]|] eqn:E; [|discriminate]. cbn [put] in H. injection H as <-. destruct (start_NI T j s p s1 HI (proj1 HA) G E) as (A & B & C).
    apply (after_AI T s p s1 HA (start_th _ _ _ _ _ E)); try assumption. apply (start_good key top O1 O3 T j s p s1 (proj1 HI) G E).
  - destruct (step1 key top maxl false T spur (s_th s T) s) as [[p s1]|] eqn:E; [|discriminate]. cbn [put] in H. injection H as <-.
    destruct (step_NI T spur s p s1 HI (proj1 HA) (proj2 HA T) E) as (A & B & C).
    apply (after_AI T s p s1 HA (step1_th _ _ _ _ _ _ _ _ _ E)); try assumption. apply (step1_good key top maxl O1 O3 T spur s p s1 HI E).
  - injection H as <-. destruct up; exact HA.
  - unfold free_node in H. destruct (s_own s n); [discriminate|]. destruct (s_rm s n && negb (s_wl s n) && (s_rc s n =? 0)); [|discriminate]. injection H as <-. exact HA.
Qed.

Lemma reach_AI : forall s, reach key top maxl s -> AI s.
Proof.
  intros s H. induction H as [|e s s' H IH G E].
  - split; [intros x T k X; cbn in X; destruct (x <=? 1); discriminate|intros T; exact Logic.I].
  - apply (AI_step e s); [apply (reach_inv2 key top maxl ord s H)|exact IH|exact G|exact E].
Qed.
End Proofs.
