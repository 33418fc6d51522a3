(** Flags are released, and nothing is lost from the bottom layer. *)
From Coq Require Import NArith Arith List Bool Lia.
From Verif Require Import Base SkipModel SkipSpec SkipProofs.
Local Open Scope nat_scope.

Section Proofs.
Variable key : nat -> N.
Variable top : nat -> nat.
Variable maxl : nat.

(** The nodes whose flag a call holds: prevs[a..], and the node it erases. *)
Definition hold (w : work) (a x : nat) : Prop :=
  match w_job w with
  | JIns n _ => exists k, a <= k /\ k <= top n /\ x = w_prev w k
  | JErase n => x = n \/ exists k, a <= k /\ k <= top n /\ x = w_prev w k
  | _ => False
  end.
Definition holdn (w : work) (x : nat) : Prop := match w_job w with JErase n => x = n | _ => False end.

Definition heldp (p : pc) (x : nat) : Prop :=
  match p with
  | Idle | Done _ _ _ _ | ERm _ | ECas _ => False
  | Crash _ => True
  | Top w | ESet w | ECheck w | EBack w | EFin w => holdn w x
  | SRead w l _ | SGot w l _ _ _ | SSkip w l _ _ _ | SLock w l _ _ => hold w (l + 1) x
  | SVal1 w l cur _ ll | SVal2 w l cur _ ll => hold w ll x /\ (ll = l \/ ll = l + 1)
  | SStore w l _ _ | ARead w l _ _ | AGot w l _ _ _ | ASkip w l _ _ _ => hold w l x
  | Clr w k _ => hold w k x
  | ILink w _ | IFull w | IUnl w | Cnt w _ | Scan w _ | EMark w | EUnl w _ => hold w 0 x
  end.

Lemma hold_le : forall w a b x, b <= a -> hold w a x -> hold w b x.
Proof.
  intros w a b x L H. unfold hold in *. destruct (w_job w) as [n d|n|q m|n]; try exact H.
  - destruct H as (k & A & B & C). exists k. repeat split; auto; lia.
  - destruct H as [H|(k & A & B & C)]; [left; exact H|right]. exists k. repeat split; auto; lia.
Qed.

Lemma hold_n : forall w a x, holdn w x -> hold w a x.
Proof. intros w a x H. unfold hold, holdn in *. destruct (w_job w); try destruct H. left. reflexivity. Qed.

Lemma hold_out : forall w a x, match w_job w with JIns n _ | JErase n => a <=? top n | _ => false end = false -> hold w a x -> holdn w x.
Proof.
  intros w a x E H. unfold hold, holdn in *. destruct (w_job w) as [n d|n|q m|n]; try exact H; apply Nat.leb_gt in E.
  - destruct H as (k & A & B & _). lia.
  - destruct H as [H|(k & A & B & _)]; [exact H|lia].
Qed.

Lemma retry_held : forall w x s, holdn w x -> heldp (fst (retry key w s)) x.
Proof. intros w x s H. assert (H0 := H). unfold retry, holdn in *. destruct (w_job w) eqn:E; try destruct H; cbn [fst heldp]; unfold holdn; rewrite E; reflexivity. Qed.

Lemma clear_held : forall w k a x s, hold w k x -> heldp (fst (clear key top w k a s)) x.
Proof.
  intros w k a x s H. unfold clear. destruct (match w_job w with JIns n _ | JErase n => k <=? top n | _ => false end) eqn:E; cbn [fst heldp]; [exact H|].
  apply (hold_out w k x E) in H. destruct a; [apply retry_held, H|]. unfold holdn in H. destruct (w_job w) eqn:J; try destruct H. cbn [fst heldp]. unfold holdn. rewrite J. reflexivity.
Qed.

Lemma hold_set : forall w l c y x, hold w (l + 1) x -> hold (set_next (set_prev w l c) l y) (l + 1) x.
Proof.
  intros w l c y x H. unfold hold in *. cbn [set_next set_prev w_job w_prev]. destruct (w_job w) as [n d|n|q m|n]; try exact H.
  - destruct H as (k & A & B & C). exists k. rewrite upd_ne by lia. auto.
  - destruct H as [H|(k & A & B & C)]; [left; exact H|right]. exists k. rewrite upd_ne by lia. auto.
Qed.

Lemma decide_held : forall w l cur y f x s, hold w (l + 1) x -> heldp (fst (decide key top w l cur y f s)) x.
Proof.
  intros w l cur y f x s H. unfold decide. destruct (w_job w) as [n d|n|q m|n] eqn:J.
  - destruct (key y <? key n)%N; [exact H|]. destruct (d && (key y =? key n)%N); [apply clear_held, H|]. destruct (l <=? top n); cbn [fst heldp]; [apply hold_set, H|].
    apply (hold_le w (l + 1)); [lia|exact H].
  - destruct ((key y <? key n)%N || (l <=? top n) && negb f); [destruct (y =? tail); [exact Logic.I|exact H]|]. destruct (l <=? top n); cbn [fst heldp]; [apply hold_set, H|].
    apply (hold_le w (l + 1)); [lia|exact H].
  - unfold hold in H. rewrite J in H. destruct H.
  - unfold hold in H. rewrite J in H. destruct H.
Qed.

(** Every flag that is set belongs to a call that holds it. *)
Definition OI (s : st) : Prop := forall x T, s_own s x = Some T -> heldp (s_th s T) x.

Lemma clear_own : forall w k a s, s_own (snd (clear key top w k a s)) = s_own s.
Proof.
  intros w k a s. unfold clear. destruct (match w_job w with JIns n _ | JErase n => k <=? top n | _ => false end); [reflexivity|].
  destruct a; [|destruct (w_job w), r; reflexivity]. unfold retry. destruct (w_job w); try reflexivity. destruct (n =? head); reflexivity.
Qed.

Lemma dropc_own : forall w x s, s_own (dropc w x s) = s_own s.
Proof. intros w x s. unfold dropc. destruct (w_job w); reflexivity. Qed.

Lemma decide_own : forall w l cur y f s, s_own (snd (decide key top w l cur y f s)) = s_own s.
Proof.
  intros w l cur y f s. unfold decide. destruct (w_job w).
  - destruct (key y <? key n)%N; [reflexivity|]. destruct (nodup && (key y =? key n)%N); [rewrite clear_own; reflexivity|]. destruct (l <=? top n); reflexivity.
  - destruct ((key y <? key n)%N || (l <=? top n) && negb f); [destruct (y =? tail); reflexivity|]. destruct (l <=? top n); reflexivity.
  - destruct (key y <? q)%N; [reflexivity|]. destruct (match m with SMEQ | EQ | GTEQ => (key y =? q)%N | _ => false end); [reflexivity|]. destruct (0 <? l); [reflexivity|].
    destruct m, (cur =? head), (y =? tail); reflexivity.
  - reflexivity.
Qed.

(** A step that keeps the flags. *)
Lemma keep : forall (x : pc * st) T p s p' s1, Some x = Some (p', s1) -> s_own (snd x) = s_own s -> s_th s T = p -> OI s ->
  (forall z, heldp p z -> heldp (fst x) z) ->
  (forall z U, s_own s1 z = Some U -> if U =? T then heldp p' z else s_own s z = Some U).
Proof.
  intros x T p s p' s1 E Ho Ht HO H z U X. injection E as ->. cbn [fst snd] in *. rewrite Ho in X. destruct (Nat.eqb_spec U T) as [-> | ]; [|exact X].
  apply H. rewrite <- Ht. apply HO, X.
Qed.

Lemma own_step : forall T spur s p s1, Inv key top s -> OI s -> step1 key top maxl false T spur (s_th s T) s = Some (p, s1) ->
  forall z U, s_own s1 z = Some U -> if U =? T then heldp p z else s_own s z = Some U.
Proof.
  intros T spur s p s1 [_ IT] HO H. specialize (IT T). remember (s_th s T) as p0 eqn:Ht. symmetry in Ht.
  assert (Kp : forall x : pc * st, Some x = Some (p, s1) -> s_own (snd x) = s_own s -> (forall z, heldp p0 z -> heldp (fst x) z) ->
     forall z U, s_own s1 z = Some U -> if U =? T then heldp p z else s_own s z = Some U).
  { intros x E1 E2 E3. apply (keep x T p0 s p s1 E1 E2 Ht HO E3). }
  destruct p0; unfold step1 in H; cbn [negb andb] in H; try discriminate H; cbv zeta in H.
  - (* Top *)
    destruct (w_job w) as [n d|n|q m|n] eqn:J.
    + apply (Kp _ H); [reflexivity|]. cbn [fst heldp]. intros z Hz. apply hold_n, Hz.
    + destruct (s_tl s <? top n); (apply (Kp _ H); [reflexivity|]); cbn [fst heldp]; intros z Hz; solve [exact Logic.I|apply hold_n, Hz].
    + apply (Kp _ H); [reflexivity|]. cbn [fst heldp]. intros z Hz. apply hold_n, Hz.
    + apply (Kp _ H); [reflexivity|]. cbn [fst heldp]. intros z Hz. apply hold_n, Hz.
  - destruct (s_wl s cur); [discriminate|]. destruct (fl s cur).
    + destruct (cur =? tail); apply (Kp _ H); try reflexivity; cbn [fst heldp]; auto.
    + apply (Kp _ H); [rewrite clear_own, ?dropc_own; reflexivity|]. intros z Hz. apply clear_held, Hz.
  - destruct (fl s y && negb (wanted w y)); apply (Kp _ H).
    + rewrite decide_own; reflexivity.
    + intros z Hz. apply decide_held, Hz.
    + reflexivity.
    + auto.
  - destruct (s_wl s y); [discriminate|]. destruct (fl s y).
    + destruct (y =? tail); apply (Kp _ H); try reflexivity; cbn [fst heldp]; auto.
    + apply (Kp _ H); [rewrite clear_own, ?dropc_own; reflexivity|]. intros z Hz. apply clear_held, Hz.
  - (* SLock *)
    destruct ((l <? w_top top w) && (w_prev w (l + 1) =? cur)); [apply (Kp _ H); [reflexivity|]; cbn [fst heldp]; auto|].
    destruct (s_own s cur) eqn:O; [apply (Kp _ H); [rewrite clear_own, ?dropc_own; reflexivity|]; intros z Hz; apply clear_held, Hz|].
    injection H as <- <-. cbn. intros z U X. destruct (Nat.eq_dec z cur) as [-> |N].
    + rewrite upd_eq in X. injection X as <-. rewrite Nat.eqb_refl. split; [|left; reflexivity]. cbn [TI] in IT.
      destruct (lck_job _ _ _ _ _ _ _ _ IT) as (n & EJ & _ & Ln & Pl & _). unfold hold. destruct EJ as [E|[d E]]; rewrite E; [right|]; exists l; repeat split; auto.
    + rewrite upd_ne in X by exact N. destruct (Nat.eqb_spec U T) as [-> | ]; [|exact X]. split; [|left; reflexivity]. apply (hold_le w (l + 1)); [lia|].
      specialize (HO z T X). rewrite Ht in HO. exact HO.
  - (* SVal1 *) destruct (fl s cur); apply (Kp _ H); try (rewrite ?clear_own, ?dropc_own; reflexivity); intros z Hz; [exact Hz|apply clear_held, Hz].
  - destruct (fl s y); [|apply (Kp _ H); [rewrite clear_own, ?dropc_own; reflexivity|]; intros z Hz; apply clear_held, Hz].
    assert (X : forall z, heldp (SVal2 w l cur y ll) z -> hold w l z) by (cbn [heldp]; intros z [Hz [-> | ->]]; [exact Hz|apply (hold_le w (l + 1)); [lia|exact Hz]]).
    destruct (w_job w); apply (Kp _ H); try reflexivity; exact X.
  - apply (Kp _ H); [reflexivity|auto].
  - destruct (s_wl s cur); [discriminate|]. destruct (fl s cur); apply (Kp _ H); try reflexivity; cbn [fst heldp]; auto.
  - destruct (fl s z && negb (wanted w z)); [destruct (z =? y)|]; apply (Kp _ H).
    + unfold agreed. destruct (0 <? l); [reflexivity|]. destruct (w_job w); reflexivity.
    + intros x Hx. cbn [heldp] in Hx. unfold agreed. destruct (Nat.ltb_spec 0 l); cbn [fst heldp].
      * replace (l - 1 + 1) with l by lia. exact Hx.
      * assert (l = 0) by lia. subst l. destruct (w_job w); exact Hx.
    + rewrite clear_own, ?dropc_own; reflexivity.
    + intros x Hx. apply clear_held, Hx.
    + reflexivity.
    + auto.
  - destruct (s_wl s z); [discriminate|]. destruct (fl s z); [destruct (z =? tail)|]; apply (Kp _ H); try reflexivity; cbn [fst heldp]; auto.
  - (* Clr *)
    rewrite andb_true_r in H. destruct ((k =? w_top top w) || negb (w_prev w k =? w_prev w (k + 1))) eqn:D.
    + assert (E := H). apply some_inj in E. intros z U X.
      assert (Xo : s_own s1 = upd (s_own s) (w_prev w k) None) by (replace s1 with (snd (p, s1)) by reflexivity; rewrite <- E, clear_own; reflexivity).
      rewrite Xo in X. destruct (Nat.eq_dec z (w_prev w k)) as [-> |N]; [rewrite upd_eq in X; discriminate|]. rewrite upd_ne in X by exact N.
      destruct (Nat.eqb_spec U T) as [-> | ]; [|exact X]. specialize (HO z T X). rewrite Ht in HO. cbn [heldp] in HO.
      replace p with (fst (p, s1)) by reflexivity. rewrite <- E. apply clear_held. unfold hold in *. destruct (w_job w) as [n d|n|q m|n]; try destruct HO.
      * destruct H0 as (A & B & C). exists x. repeat split; auto. assert (x <> k) by congruence. lia.
      * left. assumption.
      * right. destruct H0 as (j & A & B & C). exists j. repeat split; auto. assert (j <> k) by congruence. lia.
    + apply orb_false_elim in D. destruct D as [D1 D2]. apply Nat.eqb_neq in D1. apply negb_false_iff, Nat.eqb_eq in D2.
      apply (Kp _ H); [rewrite clear_own, ?dropc_own; reflexivity|]. intros z Hz. apply clear_held. cbn [heldp] in Hz. unfold hold, w_top, w_node in *.
      destruct (w_job w) as [n d|n|q m|n]; try exact Hz.
      * destruct Hz as (j & A & B & C). destruct (Nat.eq_dec j k) as [-> | ]; [exists (k + 1)|exists j]; repeat split; auto; lia || congruence.
      * destruct Hz as [Hz|(j & A & B & C)]; [left; exact Hz|right]. destruct (Nat.eq_dec j k) as [-> | ]; [exists (k + 1)|exists j]; repeat split; auto; lia || congruence.
  - destruct (s_wl s (w_prev w k)); [discriminate|]. apply (Kp _ H); destruct (s_nx s (w_prev w k) k =? w_next w k), (k <? top (w_node w)); try reflexivity; cbn [fst heldp]; auto.
  - apply (Kp _ H); [reflexivity|auto].
  - apply (Kp _ H); [reflexivity|auto].
  - apply (Kp _ H); [reflexivity|auto].
  - destruct ii as [|i]; [apply (Kp _ H); [rewrite clear_own, ?dropc_own; reflexivity|]; intros z Hz; apply clear_held, Hz|].
    destruct (0 <? s_cnt s i); apply (Kp _ H); try (rewrite ?clear_own, ?dropc_own; reflexivity); intros z Hz; [apply clear_held, Hz|exact Hz].
  - destruct (s_rm s (w_node w)); apply (Kp _ H); try reflexivity; cbn [fst heldp finish]; auto.
  - destruct (s_own s (w_node w)) eqn:O; [apply (Kp _ H); [reflexivity|auto]|]. injection H as <- <-. cbn. intros z U X. destruct (Nat.eq_dec z (w_node w)) as [-> |N].
    + rewrite upd_eq in X. injection X as <-. rewrite Nat.eqb_refl. cbn [TI] in IT. destruct IT as [_ IT]. unfold holdn, w_node. destruct (w_job w); try destruct IT. reflexivity.
    + rewrite upd_ne in X by exact N. destruct (Nat.eqb_spec U T) as [-> | ]; [|exact X]. specialize (HO z T X). rewrite Ht in HO. destruct HO.
  - apply (Kp _ H); [reflexivity|auto].
  - destruct (fl s (w_node w)); apply (Kp _ H); try reflexivity; auto.
  - unfold finish in H. apply some_inj in H. injection H as <- <-. cbn. intros z U X. destruct (Nat.eq_dec z (w_node w)) as [-> |N]; [rewrite upd_eq in X; discriminate|]. rewrite upd_ne in X by exact N.
    destruct (Nat.eqb_spec U T) as [-> | ]; [|exact X]. specialize (HO z T X). rewrite Ht in HO. cbn [heldp] in HO. unfold holdn, w_node in *. destruct (w_job w); try destruct HO. congruence.
  - destruct (s_wl s (w_node w)); [discriminate|]. apply (Kp _ H); [reflexivity|auto].
  - destruct (s_wl s (w_prev w k)); [discriminate|]. destruct (s_nx s (w_prev w k) k =? w_node w), (k <? top (w_node w)); apply (Kp _ H); try reflexivity; auto.
  - unfold finish in H. apply some_inj in H. injection H as <- <-. cbn. intros z U X. destruct (Nat.eq_dec z (w_node w)) as [-> |N]; [rewrite upd_eq in X; discriminate|]. rewrite upd_ne in X by exact N.
    destruct (Nat.eqb_spec U T) as [-> | ]; [|exact X]. specialize (HO z T X). rewrite Ht in HO. cbn [heldp] in HO. unfold holdn, w_node in *. destruct (w_job w); try destruct HO. congruence.
Qed.

Lemma start_own : forall T j s p s1, start T j s = Some (p, s1) -> s_own s1 = s_own s /\ idle (s_th s T) = true.
Proof.
  intros T j s p s1 H. unfold start in H. destruct (idle (s_th s T)); [|discriminate]. split; [|reflexivity]. destruct j.
  - destruct (s_ph s n); try discriminate. injection H as <- <-. reflexivity.
  - destruct (s_born s n); [|discriminate]. injection H as <- <-. reflexivity.
  - injection H as <- <-. reflexivity.
  - destruct (s_born s n); [injection H as <- <-; reflexivity|]. destruct (n =? head); [injection H as <- <-; reflexivity|discriminate].
Qed.

Lemma OI_step : forall e s s', Inv key top s -> OI s -> step key top maxl false e s = Some s' -> OI s'.
Proof.
  intros e s s' HI HO H. destruct e as [T j|T spur|n up|n]; cbn [step] in H.
  - destruct (start T j s) as [[p s1]|] eqn:E; [|discriminate]. cbn [put] in H. injection H as <-. destruct (start_own _ _ _ _ _ E) as [E1 E2].
    intros x U X. cbn in X |- *. rewrite E1 in X. rewrite (start_th _ _ _ _ _ E). specialize (HO x U X). destruct (Nat.eq_dec U T) as [-> |N]; [|rewrite upd_ne by exact N; exact HO].
    destruct (s_th s T); try discriminate; destruct HO.
  - destruct (step1 key top maxl false T spur (s_th s T) s) as [[p s1]|] eqn:E; [|discriminate]. cbn [put] in H. injection H as <-.
    assert (Et := step1_th _ _ _ _ _ _ _ _ _ E). intros x U X. cbn in X |- *. rewrite Et. assert (Y := own_step T spur s p s1 HI HO E x U X). destruct (Nat.eqb_spec U T) as [-> |N].
    + rewrite upd_eq. exact Y.
    + rewrite upd_ne by exact N. apply HO, Y.
  - injection H as <-. destruct up; exact HO.
  - unfold free_node in H. destruct (s_own s n); [discriminate|]. destruct (s_rm s n && negb (s_wl s n) && (s_rc s n =? 0)); [|discriminate]. injection H as <-. exact HO.
Qed.

Hypothesis ord : ordered key.

Lemma reach_inv2 : forall s, reach key top maxl s -> Inv key top s.
Proof. intros s H. destruct ord as (A & B & C). apply (reach_inv key top maxl A C s B H). Qed.

Lemma reach_OI : forall s, reach key top maxl s -> OI s.
Proof. intros s H. induction H; [intros x T X; discriminate X|]. apply (OI_step e s); [apply reach_inv2, H|exact IHreach|exact H1]. Qed.

Lemma all_released : forall s, reach key top maxl s -> (forall T, idle (s_th s T) = true) -> forall x, s_own s x = None.
Proof.
  intros s H Hi x. destruct (s_own s x) as [T|] eqn:E; [|reflexivity]. exfalso. specialize (reach_OI s H x T E) as X. specialize (Hi T). destruct (s_th s T); try discriminate; exact X.
Qed.

(** ** The bottom layer *)

Lemma walk_at : forall s l k, SI key top s -> walk s l k = tail \/ (at_ top s l (walk s l k) /\ forall i, i < k -> walk s l i <> tail) \/ exists i, i < k /\ walk s l i = tail.
Proof.
  intros s l k I. induction k as [|k IH]; [right; left; split; [left; reflexivity|intros; lia]|]. cbn [walk].
  destruct IH as [IH|[[IH IH2]|(i & A & B)]].
  - right. right. exists k. split; [lia|exact IH].
  - destruct (si_nx _ _ _ I l _ IH) as (A & _). destruct A as [A|A]; [left; exact A|right; left]. split; [right; exact A|]. intros i Hi. destruct (Nat.eq_dec i k) as [-> | ].
    + destruct IH as [-> |(U & _)]; [unfold head, tail; lia|unfold user, tail in *; lia].
    + apply IH2. lia.
  - right. right. exists i. split; [lia|exact B].
Qed.

(** Every linked node is met on the walk. *)
Lemma walk_meets : forall s l z, SI key top s -> linked top s z l -> exists k, walk s l k = z /\ forall i, i < k -> walk s l i <> tail /\ (key (walk s l i) < key (walk s l (S i)))%N.
Proof.
  intros s l z I Hz. assert (G : forall n k, (N.to_nat (key z - key (walk s l k)) <= n)%nat -> at_ top s l (walk s l k) -> (key (walk s l k) <= key z)%N ->
    (forall i, i < k -> walk s l i <> tail /\ (key (walk s l i) < key (walk s l (S i)))%N) ->
    exists k, walk s l k = z /\ forall i, i < k -> walk s l i <> tail /\ (key (walk s l i) < key (walk s l (S i)))%N).
  { induction n as [|n IH]; intros k Hn A K P.
    - exists k. split; [|exact P]. destruct ord as (O1 & O2 & O3). apply (key_inj0 key top O1 O3 s l); [exact I|exact A|right; exact Hz|lia].
    - destruct (N.eq_dec (key (walk s l k)) (key z)) as [E|E].
      + exists k. split; [|exact P]. destruct ord as (O1 & O2 & O3). apply (key_inj0 key top O1 O3 s l); [exact I|exact A|right; exact Hz|exact E].
      + destruct (si_nx _ _ _ I l _ A) as (B & C & D). specialize (D z Hz ltac:(lia)). apply (IH (S k)); cbn [walk].
        * lia.
        * destruct B as [B|B]; [|right; exact B]. exfalso. rewrite B in D. destruct ord as (O1 & O2 & O3). destruct (O3 z (proj1 Hz)). lia.
        * exact D.
        * intros i Hi. destruct (Nat.eq_dec i k) as [-> | ]; [|apply P; lia]. cbn [walk]. split; [|exact C].
          destruct A as [-> |(U & _)]; [unfold head, tail; lia|unfold user, tail in *; lia]. }
  destruct ord as (O1 & O2 & O3). apply (G (N.to_nat (key z - key (walk s l 0))) 0); cbn [walk].
  - lia.
  - left. reflexivity.
  - rewrite O1. lia.
  - intros i Hi. lia.
Qed.
End Proofs.
