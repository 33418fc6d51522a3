(** Calls that do not overlap: no use of what was never set, and erased entries can be freed. *)
From Coq Require Import NArith Arith List Bool Lia.
From Verif Require Import Base SkipModel SkipSpec SkipProofs SkipProofs2 SkipProofs3.
Import ListNotations.
Local Open Scope nat_scope.

Section Proofs.
Variable key : nat -> N.
Variable top : nat -> nat.
Variable maxl : nat.
Hypothesis ord : ordered key.
Hypothesis top_max : forall x, top x < maxl.

Lemma reach1_reach : forall s, reach1 key top maxl s -> reach key top maxl s.
Proof. intros s H. induction H as [|e s s' H IH G _ E]; [apply reach_new|apply (reach_step key top maxl e s); assumption]. Qed.

Definition count (l : nat) (L : list nat) : nat := length (filter (fun x => top x =? l) L).

(** The entries that layer_entries counts. *)
Definition aset (s : st) (p : pc) (x : nat) : Prop :=
  match p with
  | IUnl w | Cnt w true => user x /\ s_ph s x = Live /\ x <> w_node w
  | EUnl w _ | Cnt w false => user x /\ (s_ph s x = Live \/ x = w_node w)
  | _ => user x /\ s_ph s x = Live
  end.

Definition tlok (s : st) (p : pc) (L : list nat) : Prop :=
  match p with Scan _ ii => forall x, In x L -> top x < ii | _ => forall x, In x L -> top x <= s_tl s end.

(** What is known of the one call under way. *)
Definition one (s : st) (p : pc) : Prop :=
  match p with
  | IUnl w | Cnt w true => user (w_node w) /\ s_ph s (w_node w) = Live
  | Cnt w false => user (w_node w) /\ s_ph s (w_node w) = Dead
  | ERm w => forall x d, s_died s x = Some d -> d < w_t0 w
  | ECas w | ESet w | ECheck w => s_ph s (w_node w) = Live
  | EBack w => False
  | Crash _ => False
  | Done t0 t1 (JErase n) RGone => exists d, s_died s n = Some d /\ d < t0
  | _ => True
  end.

Definition erasing (p : pc) (x : nat) : Prop :=
  match p with
  | ERm _ | ECas _ | ESet _ => False
  | _ => match work_of p with Some w => w_job w = JErase x | None => False end
  end.

Record CI (s : st) (T : nat) (L : list nat) : Prop := {
  ci_idle : forall U, U <> T -> idle (s_th s U) = true;
  ci_nd : NoDup L;
  ci_L : forall x, In x L <-> aset s (s_th s T) x;
  ci_cnt : forall l, s_cnt s l = count l L;
  ci_tl : tlok s (s_th s T) L;
  ci_one : one s (s_th s T);
  ci_rm1 : forall x d, s_died s x = Some d -> s_rm s x = true;
  ci_rm2 : forall x, s_rm s x = true -> (exists d, s_died s x = Some d) \/ erasing (s_th s T) x;
  ci_rm3 : forall x, erasing (s_th s T) x -> s_rm s x = true;
  ci_wl : forall x, s_wl s x = true -> (exists U k, s_ph s x = Ins U k) \/ exists w, s_th s T = IUnl w /\ x = w_node w
}.

Definition opc (p : pc) : Prop := match p with IUnl _ | Cnt _ _ | EUnl _ _ | Scan _ _ => False | _ => True end.
Definition same (s s' : st) : Prop := sameph s s' /\ s_cnt s' = s_cnt s /\ s_tl s' = s_tl s /\ s_rm s' = s_rm s.

Lemma clear_same4 : forall w k a s, same s (snd (clear key top w k a s)).
Proof.
  intros w k a s. split; [apply clear_same|]. unfold clear. destruct (match w_job w with JIns n _ | JErase n => k <=? top n | _ => false end); [repeat split|].
  destruct a; [|destruct (w_job w), r; repeat split]. unfold retry. destruct (w_job w); [repeat split|repeat split|repeat split|]. destruct (n =? head); repeat split.
Qed.

Lemma decide_same4 : forall w l cur y f s, same s (snd (decide key top w l cur y f s)).
Proof.
  intros w l cur y f s. split; [apply decide_same|]. unfold decide. destruct (w_job w).
  - destruct (key y <? key n)%N; [repeat split|]. destruct (nodup && (key y =? key n)%N); [exact (proj2 (clear_same4 w (l + 1) (Fin RDup) (drop cur (drop y s))))|]. destruct (l <=? top n); repeat split.
  - destruct ((key y <? key n)%N || (l <=? top n) && negb f); [destruct (y =? tail); repeat split|]. destruct (l <=? top n); repeat split.
  - destruct (key y <? q)%N; [repeat split|]. destruct (match m with SMEQ | EQ | GTEQ => (key y =? q)%N | _ => false end); [repeat split|]. destruct (0 <? l); [repeat split|].
    destruct m, (cur =? head), (y =? tail); repeat split.
  - repeat split.
Qed.

Lemma same_tr : forall s0 s1 s2, same s0 s1 -> same s1 s2 -> same s0 s2.
Proof. intros s0 s1 s2 ((A1 & A2 & A3 & A4) & A5 & A6 & A7) ((B1 & B2 & B3 & B4) & B5 & B6 & B7). repeat split; congruence. Qed.

Lemma clear_opc : forall w k a s s0, (a = Retry -> forall n, w_job w = JErase n -> s_ph s n = Live) -> a <> Fin RGone ->
  opc (fst (clear key top w k a s0)) /\ one s (fst (clear key top w k a s0)) /\ forall x, w_job w = JErase x <-> erasing (fst (clear key top w k a s0)) x.
Proof.
  intros w k a s s0 H N. unfold clear. destruct (match w_job w with JIns n _ | JErase n => k <=? top n | _ => false end) eqn:Em.
  { split; [exact Logic.I|]. split; [exact Logic.I|]. cbn [fst erasing work_of]. tauto. }
  destruct a as [|r].
  - unfold retry. destruct (w_job w) as [n d|n|q m|n] eqn:E; cbn [fst].
    + split; [exact Logic.I|]. split; [exact Logic.I|]. intros x; cbn; try (rewrite E); (split; [discriminate|discriminate || (intros [])]).
    + split; [exact Logic.I|]. split; [cbn [one]; unfold w_node; rewrite E; apply (H eq_refl); reflexivity|]. intros x. cbn [erasing work_of]. rewrite E. tauto.
    + split; [exact Logic.I|]. split; [exact Logic.I|]. intros x; cbn; try (rewrite E); (split; [discriminate|discriminate || (intros [])]).
    + destruct (n =? head); (split; [exact Logic.I|]; split; [exact Logic.I|]; intros x; cbn; try (rewrite E); (split; [discriminate|discriminate || (intros [])])).
  - destruct (w_job w) as [n d|n|q m|n] eqn:E; cbn [fst finish].
    + split; [exact Logic.I|]. split; [rewrite E; exact Logic.I|intros x; cbn; try (rewrite E); (split; [discriminate|discriminate || (intros [])])].
    + split; [exact Logic.I|]. split; [exact Logic.I|]. intros x. cbn [erasing work_of]. rewrite E. tauto.
    + split; [exact Logic.I|]. split; [rewrite E; exact Logic.I|intros x; cbn; try (rewrite E); (split; [discriminate|discriminate || (intros [])])].
    + split; [exact Logic.I|]. split; [rewrite E; exact Logic.I|intros x; cbn; try (rewrite E); (split; [discriminate|discriminate || (intros [])])].
Qed.

Lemma decide_opc : forall w l cur y f s s0, (forall n, w_job w = JErase n -> s_ph s n = Live) -> fst (decide key top w l cur y f s0) <> Crash CNull ->
  opc (fst (decide key top w l cur y f s0)) /\ one s (fst (decide key top w l cur y f s0)) /\ forall x, w_job w = JErase x <-> erasing (fst (decide key top w l cur y f s0)) x.
Proof.
  intros w l cur y f s s0 H. unfold decide. destruct (w_job w) as [n d|n|q m|n] eqn:E.
  - intros _. destruct (key y <? key n)%N; [split; [exact Logic.I|split; [exact Logic.I|intros x; cbn; try (rewrite E); (split; [discriminate|discriminate || (intros [])])]]|].
    destruct (d && (key y =? key n)%N).
    + destruct (clear_opc w (l + 1) (Fin RDup) s (drop cur (drop y s0))) as (A & B & C); [discriminate|discriminate|]. split; [exact A|]. split; [exact B|]. intros x. rewrite <- C, E. tauto.
    + destruct (l <=? top n); (split; [exact Logic.I|split; [exact Logic.I|intros x; cbn; try (rewrite E); (split; [discriminate|discriminate || (intros [])])]]).
  - destruct ((key y <? key n)%N || (l <=? top n) && negb f); [destruct (y =? tail); [intros X; exfalso; apply X; reflexivity|]|destruct (l <=? top n)]; intros _;
      (split; [exact Logic.I|split; [exact Logic.I|intros x; cbn [fst erasing work_of set_next set_prev w_job]; rewrite E; tauto]]).
  - intros _. assert (X : forall r s1, opc (fst (finish w r s1)) /\ one s (fst (finish w r s1)) /\ forall x, JFind q m = JErase x <-> erasing (fst (finish w r s1)) x)
      by (intros r s1; split; [exact Logic.I|split; [cbn [finish fst one]; rewrite E; exact Logic.I|intros x; cbn; try (rewrite E); (split; [discriminate|discriminate || (intros [])])]]).
    destruct (key y <? q)%N; [split; [exact Logic.I|split; [exact Logic.I|intros x; cbn; try (rewrite E); (split; [discriminate|discriminate || (intros [])])]]|].
    destruct (match m with SMEQ | EQ | GTEQ => (key y =? q)%N | _ => false end); [apply X|]. destruct (0 <? l); [split; [exact Logic.I|split; [exact Logic.I|intros x; cbn; try (rewrite E); (split; [discriminate|discriminate || (intros [])])]]|].
    destruct m, (cur =? head), (y =? tail); apply X.
  - intros _. split; [exact Logic.I|]. split; [cbn [finish fst one]; rewrite E; exact Logic.I|intros x; cbn; try (rewrite E); (split; [discriminate|discriminate || (intros [])])].
Qed.

Lemma one_same : forall s s' p, s_ph s' = s_ph s -> s_died s' = s_died s -> one s p -> one s' p.
Proof.
  intros s s' p A B H. destruct p; cbn [one] in *; try exact H; try (rewrite A; exact H).
  - destruct j, r; try exact H. rewrite B. exact H.
  - rewrite B. exact H.
Qed.

Lemma aset_opc : forall s p x, opc p -> (aset s p x <-> user x /\ s_ph s x = Live).
Proof. intros s p x H. destruct p; cbn [aset]; try tauto; destruct H. Qed.

Lemma tlok_opc : forall s p L, opc p -> (tlok s p L <-> forall x, In x L -> top x <= s_tl s).
Proof. intros s p L H. destruct p; cbn [tlok]; try tauto; destruct H. Qed.

Lemma CI_opc : forall s T L p s1, CI s T L -> opc (s_th s T) -> opc p -> same s s1 -> s_th s1 = s_th s -> one s p ->
  (forall x, erasing (s_th s T) x -> (exists d, s_died s x = Some d) \/ erasing p x) -> (forall x, erasing p x -> erasing (s_th s T) x) -> CI (after_ T p s1) T L.
Proof.
  intros s T L p s1 C O1 O2 ((A1 & A2 & A3 & A4) & A5 & A6 & A7) Et Ho He He2.
  assert (Th : s_th (after_ T p s1) T = p) by (cbn; rewrite upd_eq; reflexivity).
  constructor; rewrite ?Th; cbn [after_ set_clk set_th s_cnt s_rm s_wl s_died s_ph]; rewrite ?A1, ?A2, ?A3, ?A5, ?A7.
  - intros U N. cbn. rewrite upd_ne by exact N. rewrite Et. apply (ci_idle _ _ _ C U N).
  - apply (ci_nd _ _ _ C).
  - intros x. rewrite (ci_L _ _ _ C x), (aset_opc s _ x O1), (aset_opc _ p x O2). cbn. rewrite A1. tauto.
  - apply (ci_cnt _ _ _ C).
  - apply (proj2 (tlok_opc _ p L O2)). assert (X := proj1 (tlok_opc s _ L O1) (ci_tl _ _ _ C)). cbn. rewrite A6. exact X.
  - apply (one_same s); [cbn; exact A1|cbn; exact A3|exact Ho].
  - apply (ci_rm1 _ _ _ C).
  - intros x X. destruct (ci_rm2 _ _ _ C x X) as [Y|Y]; [left; exact Y|]. apply He, Y.
  - intros x X. apply (ci_rm3 _ _ _ C x), He2, X.
  - intros x X. destruct (ci_wl _ _ _ C x X) as [Y|(w & Y & _)]; [left; exact Y|]. rewrite Y in O1. destruct O1.
Qed.

Lemma count_cons : forall l n L, count l (n :: L) = (if l =? top n then count l L + 1 else count l L).
Proof. intros l n L. unfold count. cbn [filter]. rewrite (Nat.eqb_sym l). destruct (top n =? l); cbn [length]; lia. Qed.

Lemma count_app : forall l A B, count l (A ++ B) = count l A + count l B.
Proof. intros l A B. unfold count. rewrite filter_app, app_length. reflexivity. Qed.

Lemma count_0 : forall l L, count l L = 0 -> forall x, In x L -> top x <> l.
Proof.
  intros l L H x X E. unfold count in H. apply length_zero_iff_nil in H. assert (Y : In x (filter (fun x => top x =? l) L)) by (apply filter_In; split; [exact X|apply Nat.eqb_eq, E]).
  rewrite H in Y. destruct Y.
Qed.

Lemma step_CI : forall T spur s L p s1, Inv key top s -> OI top s -> WI s -> CI s T L -> step1 key top maxl false T spur (s_th s T) s = Some (p, s1) -> exists L', CI (after_ T p s1) T L'.
Proof.
  intros T spur s L p s1 HI HO HW C H. assert (Hth := step1_th _ _ _ _ _ _ _ _ _ H).
  assert (G : Good key top T s p s1) by (destruct ord as (A & _ & B); apply (step1_good key top maxl A B T spur s p s1 HI H)).
  assert (Nc : p <> Crash CNull) by (intros ->; destruct G as (_ & G & _); exact G).
  destruct HI as [I IT]. specialize (IT T).
  assert (Kp : forall x : pc * st, Some x = Some (p, s1) -> opc (s_th s T) -> same s (snd x) -> (fst x <> Crash CNull ->
     opc (fst x) /\ one s (fst x) /\ (forall z, erasing (s_th s T) z -> (exists d, s_died s z = Some d) \/ erasing (fst x) z) /\ forall z, erasing (fst x) z -> erasing (s_th s T) z) -> exists L', CI (after_ T p s1) T L').
  { intros x E1 E2 E3 E4. injection E1 as ->. cbn [fst snd] in *. destruct (E4 Nc) as (E5 & E6 & E7 & E8). exists L. apply (CI_opc s T L p s1 C E2 E5 E3 Hth E6 E7 E8). }
  assert (Kc : forall w k a s0, Some (clear key top w k a s0) = Some (p, s1) -> opc (s_th s T) -> same s s0 -> (a = Retry -> forall n, w_job w = JErase n -> s_ph s n = Live) -> a <> Fin RGone ->
     (forall z, erasing (s_th s T) z <-> w_job w = JErase z) -> exists L', CI (after_ T p s1) T L').
  { intros w k a s0 E1 E2 E3 E4 E5 E6. apply (Kp _ E1 E2); [apply (same_tr s s0); [exact E3|apply clear_same4]|]. intros _. destruct (clear_opc w k a s s0 E4 E5) as (A1 & A2 & A3).
    split; [exact A1|]. split; [exact A2|]. split; intros z Z; [right; apply A3, E6, Z|apply E6, A3, Z]. }
  assert (Jl : forall w, jobok key T s w -> forall n, w_job w = JErase n -> s_ph s n = Live).
  { intros w [_ J] n E. rewrite E in J. apply fl_live, J. }
  destruct (s_th s T) eqn:Ht; assert (H0 := H); unfold step1 in H; cbn [negb andb] in H; try discriminate H; cbv zeta in H.
  - (* Top *)
    destruct (w_job w) as [n d|n|q m|n] eqn:J.
    + apply (Kp _ H); [exact Logic.I|repeat split|]. intros _. split; [exact Logic.I|]. split; [exact Logic.I|]. split; intros z Z; [right; exact Z|exact Z].
    + destruct (Nat.ltb_spec (s_tl s) (top n)) as [Lt|Lt].
      * exfalso. cbn [TI] in IT. destruct IT as [IT _]. assert (Pn := Jl w IT n J). assert (X : In n L). { apply (ci_L _ _ _ C). rewrite Ht. cbn [aset]. split; [|exact Pn]. destruct IT as [_ IT]. rewrite J in IT. apply IT. }
        assert (Y := ci_tl _ _ _ C). rewrite Ht in Y. cbn [tlok] in Y. specialize (Y n X). lia.
      * apply (Kp _ H); [exact Logic.I|repeat split|]. intros _. split; [exact Logic.I|]. split; [exact Logic.I|]. split; intros z Z; [right; exact Z|exact Z].
    + apply (Kp _ H); [exact Logic.I|repeat split|]. intros _. split; [exact Logic.I|]. split; [exact Logic.I|]. split; intros z Z; [right; exact Z|exact Z].
    + apply (Kp _ H); [exact Logic.I|repeat split|]. intros _. split; [exact Logic.I|]. split; [exact Logic.I|]. split; intros z Z; [right; exact Z|exact Z].
  - cbn [TI] in IT. destruct IT as (J & _). destruct (s_wl s cur); [discriminate|]. destruct (fl s cur).
    + destruct (cur =? tail); (apply (Kp _ H); [exact Logic.I|repeat split|]); intros X; [exfalso; apply X; reflexivity|]. split; [exact Logic.I|]. split; [exact Logic.I|]. split; intros z Z; [right; exact Z|exact Z].
    + apply (Kc _ _ _ _ H); [exact Logic.I|unfold dropc; destruct (w_job w); repeat split|intros _; apply (Jl w J)|discriminate|intros z0; cbn [erasing work_of]; tauto].
  - cbn [TI] in IT. destruct IT as ((J & _) & _). destruct (fl s y && negb (wanted w y)); (apply (Kp _ H); [exact Logic.I| |]).
    + apply (same_tr s (touch y s)); [repeat split|apply decide_same4].
    + intros X. destruct (decide_opc w l cur y f s (touch y s) (Jl w J) X) as (A1 & A2 & A3). split; [exact A1|]. split; [exact A2|]. split; intros z Z; [right; apply A3, Z|apply A3, Z].
    + repeat split.
    + intros _. split; [exact Logic.I|]. split; [exact Logic.I|]. split; intros z Z; [right; exact Z|exact Z].
  - cbn [TI] in IT. destruct IT as ((J & _) & _). destruct (s_wl s y); [discriminate|]. destruct (fl s y).
    + destruct (y =? tail); (apply (Kp _ H); [exact Logic.I|repeat split|]); intros X; [exfalso; apply X; reflexivity|]. split; [exact Logic.I|]. split; [exact Logic.I|]. split; intros z Z; [right; exact Z|exact Z].
    + apply (Kc _ _ _ _ H); [exact Logic.I|unfold dropc; destruct (w_job w); repeat split|intros _; apply (Jl w J)|discriminate|intros z0; cbn [erasing work_of]; tauto].
  - cbn [TI] in IT. destruct IT as ((J & _) & _). destruct ((l <? w_top top w) && (w_prev w (l + 1) =? cur)).
    + apply (Kp _ H); [exact Logic.I|repeat split|]. intros _. split; [exact Logic.I|]. split; [exact Logic.I|]. split; intros z Z; [right; exact Z|exact Z].
    + destruct (s_own s cur); [apply (Kc _ _ _ _ H); [exact Logic.I|unfold dropc; destruct (w_job w); repeat split|intros _; apply (Jl w J)|discriminate|intros z0; cbn [erasing work_of]; tauto]|].
      apply (Kp _ H); [exact Logic.I|repeat split|]. intros _. split; [exact Logic.I|]. split; [exact Logic.I|]. split; intros z Z; [right; exact Z|exact Z].
  - cbn [TI] in IT. destruct IT as ((((J & _) & _) & _) & _). destruct (fl s cur); [|apply (Kc _ _ _ _ H); [exact Logic.I|repeat split|intros _; apply (Jl w J)|discriminate|intros z0; cbn [erasing work_of]; tauto]].
    apply (Kp _ H); [exact Logic.I|repeat split|]. intros _. split; [exact Logic.I|]. split; [exact Logic.I|]. split; intros z Z; [right; exact Z|exact Z].
  - cbn [TI] in IT. destruct IT as ((((J & _) & _) & _) & _). destruct (fl s y); [|apply (Kc _ _ _ _ H); [exact Logic.I|repeat split|intros _; apply (Jl w J)|discriminate|intros z0; cbn [erasing work_of]; tauto]].
    destruct (w_job w) eqn:E; (apply (Kp _ H); [exact Logic.I|repeat split|]); intros _; (split; [exact Logic.I|]); (split; [exact Logic.I|]); (split; intros z0 Z; [right; exact Z|exact Z]).
  - apply (Kp _ H); [exact Logic.I|repeat split|]. intros _. split; [exact Logic.I|]. split; [exact Logic.I|]. split; intros z Z; [right; exact Z|exact Z].
  - destruct (s_wl s cur); [discriminate|]. destruct (fl s cur); (apply (Kp _ H); [exact Logic.I|repeat split|]); intros X; [|exfalso; apply X; reflexivity].
    split; [exact Logic.I|]. split; [exact Logic.I|]. split; intros z Z; [right; exact Z|exact Z].
  - cbn [TI] in IT. destruct IT as ((((J & _) & _) & _) & _). destruct (fl s z && negb (wanted w z)); [destruct (z =? y)|].
    + apply (Kp _ H); [exact Logic.I| |]; unfold agreed.
      * destruct (0 <? l); [|destruct (w_job w)]; repeat split.
      * intros _. destruct (0 <? l); [|destruct (w_job w) eqn:E]; (split; [exact Logic.I|]); (split; [exact Logic.I|]); (split; intros x Z; [right; exact Z|exact Z]).
    + apply (Kc _ _ _ _ H); [exact Logic.I|repeat split|intros _; apply (Jl w J)|discriminate|intros z0; cbn [erasing work_of]; tauto].
    + apply (Kp _ H); [exact Logic.I|repeat split|]. intros _. split; [exact Logic.I|]. split; [exact Logic.I|]. split; intros x Z; [right; exact Z|exact Z].
  - destruct (s_wl s z); [discriminate|]. destruct (fl s z); [destruct (z =? tail)|]; (apply (Kp _ H); [exact Logic.I|repeat split|]); intros X; try (exfalso; apply X; reflexivity).
    split; [exact Logic.I|]. split; [exact Logic.I|]. split; intros x Z; [right; exact Z|exact Z].
  - (* Clr *)
    cbn [TI] in IT. destruct IT as [(_ & K) IT]. apply (Kc _ _ _ _ H); [exact Logic.I| | | |intros z0; cbn [erasing work_of]; tauto].
    + destruct (((k =? w_top top w) || negb (w_prev w k =? w_prev w (k + 1))) && true); repeat split.
    + intros -> n E. rewrite E in K. apply fl_live, K.
    + intros ->. destruct (w_job w); [destruct K as (_ & _ & [])|destruct K as (_ & _ & _ & _ & [])|destruct IT..].
  - (* ILink *)
    cbn [TI] in IT. destruct IT as [Lk _]. assert (Pn : s_ph s (w_node w) = Ins T k) by (unfold linkok, w_node in *; destruct (w_job w); [apply Lk|destruct Lk..]).
    assert (Jw : exists n d, w_job w = JIns n d) by (unfold linkok in Lk; destruct (w_job w) as [n d| | |]; [exists n, d; reflexivity|destruct Lk..]). destruct Jw as (n & d & Jw).
    destruct (s_wl s (w_prev w k)); [discriminate|].
    assert (E : s_ph s1 = upd (s_ph s) (w_node w) (Ins T (k + 1)) /\ s_wl s1 = s_wl s /\ s_cnt s1 = s_cnt s /\ s_tl s1 = s_tl s /\ s_rm s1 = s_rm s /\ s_died s1 = s_died s /\ opc p /\ one (after_ T p s1) p /\ forall x, ~ erasing p x)
      by (destruct (s_nx s (w_prev w k) k =? w_next w k), (k <? top (w_node w)); injection H as <- <-; repeat split; intros x; cbn [erasing work_of]; congruence).
    destruct E as (E1 & E2 & E3 & E4 & E5 & E6 & E7 & E8 & E9). exists L.
    assert (Th : s_th (after_ T p s1) T = p) by (cbn; rewrite upd_eq; reflexivity).
    constructor; rewrite ?Th.
    + intros U N. cbn. rewrite upd_ne by exact N. rewrite Hth. apply (ci_idle _ _ _ C U N).
    + apply (ci_nd _ _ _ C).
    + intros x. rewrite (ci_L _ _ _ C x), Ht, (aset_opc s (ILink w k) x Logic.I), (aset_opc _ p x E7). cbn. rewrite E1.
      destruct (Nat.eq_dec x (w_node w)) as [->|N]; [rewrite upd_eq, Pn; split; intros [_ X]; discriminate|rewrite upd_ne by exact N; tauto].
    + cbn. rewrite E3. apply (ci_cnt _ _ _ C).
    + apply (proj2 (tlok_opc _ p L E7)). assert (X := ci_tl _ _ _ C). rewrite Ht in X. cbn [tlok] in X. cbn. rewrite E4. exact X.
    + exact E8.
    + cbn. rewrite E5, E6. apply (ci_rm1 _ _ _ C).
    + cbn. rewrite E5, E6. intros x X. destruct (ci_rm2 _ _ _ C x X) as [Y|Y]; [left; exact Y|]. rewrite Ht in Y. cbn [erasing work_of] in Y. congruence.
    + intros x X. destruct (E9 x X).
    + cbn. rewrite E1, E2. intros x X. left. destruct (Nat.eq_dec x (w_node w)) as [->|N]; [rewrite upd_eq; exists T, (k + 1); reflexivity|rewrite upd_ne by exact N].
      destruct (ci_wl _ _ _ C x X) as [Y|(w2 & Y & _)]; [exact Y|congruence].
  - (* IFull *)
    cbn [TI] in IT. assert (Pn : s_ph s (w_node w) = Ins T (top (w_node w) + 1)) by (unfold linkok, w_node in *; destruct (w_job w); [apply IT|destruct IT..]).
    assert (Un : user (w_node w)) by (unfold linkok, w_node in *; destruct (w_job w); [apply IT|destruct IT..]).
    assert (Jw : exists n d, w_job w = JIns n d) by (unfold linkok in IT; destruct (w_job w) as [n d| | |]; [exists n, d; reflexivity|destruct IT..]). destruct Jw as (n & d & Jw).
    injection H as <- <-. exists L. constructor; cbn [after_ set_clk set_th set_born set_ph s_th s_cnt s_rm s_wl s_died s_ph]; rewrite ?upd_eq.
    + intros U N. rewrite upd_ne by exact N. apply (ci_idle _ _ _ C U N).
    + apply (ci_nd _ _ _ C).
    + intros x. rewrite (ci_L _ _ _ C x), Ht. cbn. destruct (Nat.eq_dec x (w_node w)) as [->|N]; [rewrite Pn; split; [intros [_ X]; discriminate|intros (_ & _ & X); contradiction]|rewrite upd_ne by exact N; tauto].
    + apply (ci_cnt _ _ _ C).
    + assert (X := ci_tl _ _ _ C). rewrite Ht in X. exact X.
    + cbn. rewrite upd_eq. split; [exact Un|reflexivity].
    + apply (ci_rm1 _ _ _ C).
    + intros x X. destruct (ci_rm2 _ _ _ C x X) as [Y|Y]; [left; exact Y|]. rewrite Ht in Y. cbn [erasing work_of] in Y. congruence.
    + intros x X. cbn [erasing work_of] in X. congruence.
    + intros x X. destruct (Nat.eq_dec x (w_node w)) as [->|N]; [right; exists w; split; reflexivity|left; rewrite upd_ne by exact N].
      destruct (ci_wl _ _ _ C x X) as [Y|(w2 & Y & _)]; [exact Y|congruence].
  - (* IUnl *)
    assert (O := ci_one _ _ _ C). rewrite Ht in O. cbn [one] in O.
    injection H as <- <-. exists L. constructor; cbn [after_ set_clk set_th set_wl s_th s_cnt s_rm s_wl s_died s_ph]; rewrite ?upd_eq.
    + intros U N. rewrite upd_ne by exact N. apply (ci_idle _ _ _ C U N).
    + apply (ci_nd _ _ _ C).
    + intros x. rewrite (ci_L _ _ _ C x), Ht. cbn. tauto.
    + apply (ci_cnt _ _ _ C).
    + assert (X := ci_tl _ _ _ C). rewrite Ht in X. exact X.
    + exact O.
    + apply (ci_rm1 _ _ _ C).
    + intros x X. destruct (ci_rm2 _ _ _ C x X) as [Y|Y]; [left; exact Y|right]. rewrite Ht in Y. exact Y.
    + intros x X. apply (ci_rm3 _ _ _ C). rewrite Ht. exact X.
    + intros x X. destruct (Nat.eq_dec x (w_node w)) as [->|N]; [rewrite upd_eq in X; discriminate|]. rewrite upd_ne in X by exact N.
      destruct (ci_wl _ _ _ C x X) as [Y|(w2 & Y & Z)]; [left; exact Y|]. rewrite Ht in Y. injection Y as <-. contradiction.
  - (* Cnt *)
    assert (O := ci_one _ _ _ C). rewrite Ht in O. assert (CL := ci_L _ _ _ C). rewrite Ht in CL. assert (CR := ci_rm2 _ _ _ C). rewrite Ht in CR.
    injection H as <- <-. unfold w_top in *. set (n := w_node w) in *. assert (B : forall x, user x /\ s_ph s x = Live <-> aset s (Scan w maxl) x) by (intros; cbn; tauto).
    assert (Fin : forall L', NoDup L' -> (forall x, In x L' <-> user x /\ s_ph s x = Live) ->
       (forall l, upd (s_cnt s) (top n) (if add then s_cnt s (top n) + 1 else s_cnt s (top n) - 1) l = count l L') ->
       CI (after_ T (Scan w maxl) (set_cnt (upd (s_cnt s) (top n) (if add then s_cnt s (top n) + 1 else s_cnt s (top n) - 1)) s)) T L').
    { intros L' ND HL HC. constructor; cbn [after_ set_clk set_th set_cnt s_th s_cnt s_rm s_wl s_died s_ph]; rewrite ?upd_eq.
      + intros U N. rewrite upd_ne by exact N. apply (ci_idle _ _ _ C U N).
      + exact ND.
      + exact HL.
      + exact HC.
      + intros x _. apply top_max.
      + exact Logic.I.
      + apply (ci_rm1 _ _ _ C).
      + exact CR.
      + intros x X. apply (ci_rm3 _ _ _ C). rewrite Ht. exact X.
      + intros x X. destruct (ci_wl _ _ _ C x X) as [Y|(w2 & Y & _)]; [left; exact Y|congruence]. }
    destruct add; cbn [one] in O; cbn [aset] in CL; fold n in O, CL.
    + exists (n :: L). apply Fin.
      * constructor; [|apply (ci_nd _ _ _ C)]. intros X. apply CL in X. apply (proj2 (proj2 X)). reflexivity.
      * intros x. cbn [In]. rewrite CL. destruct (Nat.eq_dec x n) as [->|N]; [split; [intros _; exact O|intros _; left; reflexivity]|].
        split; [intros [X|X]; [congruence|tauto]|intros X; right; tauto].
      * intros l. rewrite count_cons. destruct (Nat.eqb_spec l (top n)) as [->|N]; [rewrite upd_eq, (ci_cnt _ _ _ C); reflexivity|rewrite upd_ne by exact N; apply (ci_cnt _ _ _ C)].
    + assert (X : In n L) by (apply CL; split; [apply O|right; reflexivity]). destruct (in_split _ _ X) as (A & D & ->).
      assert (Nn : ~ In n (A ++ D)) by (apply NoDup_remove_2, (ci_nd _ _ _ C)). exists (A ++ D). apply Fin.
      * apply NoDup_remove_1 with n. apply (ci_nd _ _ _ C).
      * intros x. destruct (Nat.eq_dec x n) as [->|N]; [split; [intros Y; contradiction|intros [_ Y]; destruct O; congruence]|].
        assert (Y := CL x). rewrite !in_app_iff in *. cbn [In] in Y. split; [intros Z; assert (W : In x A \/ n = x \/ In x D) by tauto; apply Y in W; destruct W as (W1 & [W2|W2]); [split; assumption|contradiction]|].
        intros [Z1 Z2]. assert (W : In x A \/ n = x \/ In x D) by (apply Y; split; [exact Z1|left; exact Z2]). destruct W as [W|[W|W]]; [left; exact W|congruence|right; exact W].
      * intros l. assert (Y := ci_cnt _ _ _ C l). rewrite count_app, count_cons in Y. rewrite count_app. destruct (Nat.eqb_spec l (top n)) as [El|N]; [rewrite El in Y |- *; rewrite upd_eq|rewrite upd_ne by exact N]; lia.
  - (* Scan *)
    assert (CL := ci_L _ _ _ C). rewrite Ht in CL. cbn [aset] in CL. assert (CT := ci_tl _ _ _ C). rewrite Ht in CT. cbn [tlok] in CT. assert (CR := ci_rm2 _ _ _ C). rewrite Ht in CR.
    cbn [TI] in IT.
    assert (Fin : forall s0, sameph s s0 -> s_cnt s0 = s_cnt s -> s_rm s0 = s_rm s -> (forall x, In x L -> top x <= s_tl s0) -> Some (clear key top w 0 (Fin ROk) s0) = Some (p, s1) -> exists L', CI (after_ T p s1) T L').
    { intros s0 (B1 & B2 & B3 & B4) B5 B6 B7 E. destruct (clear_opc w 0 (Fin ROk) s s0) as (A1 & A2 & A3); [discriminate|discriminate|].
      destruct (clear_same4 w 0 (Fin ROk) s0) as ((D1 & D2 & D3 & D4) & D5 & D6 & D7). apply some_inj in E. rewrite E in A1, A2, A3, D1, D2, D3, D4, D5, D6, D7. cbn [fst snd] in *.
      assert (Th : s_th (after_ T p s1) T = p) by (cbn; rewrite upd_eq; reflexivity).
      exists L. constructor; rewrite ?Th.
      + intros U N. cbn. rewrite upd_ne by exact N. rewrite Hth. apply (ci_idle _ _ _ C U N).
      + apply (ci_nd _ _ _ C).
      + intros x. rewrite CL, (aset_opc _ p x A1). cbn. rewrite D1, B1. tauto.
      + cbn. rewrite D5, B5. apply (ci_cnt _ _ _ C).
      + apply (proj2 (tlok_opc _ p L A1)). cbn. rewrite D6. exact B7.
      + apply (one_same s); [cbn; congruence|cbn; congruence|exact A2].
      + cbn. rewrite D3, D7, B3, B6. apply (ci_rm1 _ _ _ C).
      + cbn. rewrite D3, D7, B3, B6. intros x X. destruct (CR x X) as [Y|Y]; [left; exact Y|right]. apply A3. exact Y.
      + cbn. rewrite D7, B6. intros x X. apply (ci_rm3 _ _ _ C). rewrite Ht. cbn [erasing work_of]. apply A3, X.
      + cbn. rewrite D2, B2, D1, B1. intros x X. destruct (ci_wl _ _ _ C x X) as [Y|(w2 & Y & _)]; [left; exact Y|congruence]. }
    destruct ii as [|i]; [apply (Fin s); [repeat split|reflexivity|reflexivity|intros x X; specialize (CT x X); lia|exact H]|].
    destruct (Nat.ltb_spec 0 (s_cnt s i)) as [Lt|Lt].
    + apply (Fin (set_tl i s)); [repeat split|reflexivity|reflexivity|intros x X; specialize (CT x X); cbn; lia|exact H].
    + injection H as <- <-. assert (Z : count i L = 0) by (rewrite <- (ci_cnt _ _ _ C); lia). assert (Z2 := count_0 i L Z).
      exists L. constructor; cbn [after_ set_clk set_th s_th s_cnt s_rm s_wl s_died s_ph]; rewrite ?upd_eq.
      * intros U N. rewrite upd_ne by exact N. apply (ci_idle _ _ _ C U N).
      * apply (ci_nd _ _ _ C).
      * exact CL.
      * apply (ci_cnt _ _ _ C).
      * intros x X. specialize (CT x X). specialize (Z2 x X). lia.
      * exact Logic.I.
      * apply (ci_rm1 _ _ _ C).
      * exact CR.
      * intros x X. apply (ci_rm3 _ _ _ C). rewrite Ht. exact X.
      * intros x X. destruct (ci_wl _ _ _ C x X) as [Y|(w2 & Y & _)]; [left; exact Y|congruence].
  - (* ERm *)
    cbn [TI] in IT. destruct IT as (L0 & IT). destruct (w_job w) as [|n| |] eqn:J; try destruct IT. assert (W : w_node w = n) by (unfold w_node; rewrite J; reflexivity). rewrite W in H.
    destruct (s_rm s n) eqn:R; (apply (Kp _ H); [exact Logic.I|repeat split|]); intros _; (split; [exact Logic.I|]); (split; [|split; intros z Z; destruct Z]); cbn [finish fst one].
    + rewrite J. destruct (ci_rm2 _ _ _ C n R) as [[d D]|Y]; [|rewrite Ht in Y; destruct Y]. exists d. split; [exact D|]. assert (X := ci_one _ _ _ C). rewrite Ht in X. apply (X n d D).
    + rewrite W. destruct H2 as [H2 _]. destruct (s_ph s n) eqn:P; try destruct H2; [reflexivity| |]; (destruct (si_dead _ _ _ I n H1) as [d D]; [rewrite P; exact Logic.I|rewrite P; discriminate|]); rewrite (ci_rm1 _ _ _ C n d D) in R; discriminate.
  - (* ECas *)
    assert (O := ci_one _ _ _ C). rewrite Ht in O. destruct (s_own s (w_node w)) as [U|] eqn:Ow.
    + exfalso. assert (X := HO _ _ Ow). destruct (Nat.eq_dec U T) as [->|N]; [rewrite Ht in X; exact X|]. assert (Y := ci_idle _ _ _ C U N). destruct (s_th s U); try discriminate; exact X.
    + apply (Kp _ H); [exact Logic.I|repeat split|]. intros _. split; [exact Logic.I|]. split; [exact O|split; intros z Z; destruct Z].
  - (* ESet *)
    assert (O := ci_one _ _ _ C). rewrite Ht in O. cbn [TI] in IT. destruct IT as (_ & IT). destruct (w_job w) as [|n| |] eqn:J; try destruct IT. assert (W : w_node w = n) by (unfold w_node; rewrite J; reflexivity).
    injection H as <- <-. exists L. constructor; cbn [after_ set_clk set_th set_rm s_th s_cnt s_rm s_wl s_died s_ph]; rewrite ?upd_eq.
    + intros U N. rewrite upd_ne by exact N. apply (ci_idle _ _ _ C U N).
    + apply (ci_nd _ _ _ C).
    + intros x. rewrite (ci_L _ _ _ C x), Ht. cbn. tauto.
    + apply (ci_cnt _ _ _ C).
    + assert (X := ci_tl _ _ _ C). rewrite Ht in X. exact X.
    + exact O.
    + intros x d D. destruct (Nat.eq_dec x (w_node w)) as [->|N]; [apply upd_eq|rewrite upd_ne by exact N]. apply (ci_rm1 _ _ _ C x d D).
    + intros x X. destruct (Nat.eq_dec x (w_node w)) as [->|N]; [right; cbn [erasing work_of]; congruence|rewrite upd_ne in X by exact N].
      destruct (ci_rm2 _ _ _ C x X) as [Y|Y]; [left; exact Y|]. rewrite Ht in Y. destruct Y.
    + intros x X. cbn [erasing work_of] in X. assert (x = w_node w) as -> by congruence. apply upd_eq.
    + intros x X. destruct (ci_wl _ _ _ C x X) as [Y|(w2 & Y & _)]; [left; exact Y|congruence].
  - (* ECheck *)
    assert (O := ci_one _ _ _ C). rewrite Ht in O. cbn [one] in O. unfold fl in H. rewrite O in H. apply (Kp _ H); [exact Logic.I|repeat split|]. intros _. split; [exact Logic.I|]. split; [exact Logic.I|].
    split; intros z Z; [right; exact Z|exact Z].
  - exfalso. assert (O := ci_one _ _ _ C). rewrite Ht in O. exact O.
  - (* EMark *)
    cbn [TI] in IT. destruct (w_job w) as [|n| |] eqn:J; try destruct IT as []. assert (W : w_node w = n) by (unfold w_node; rewrite J; reflexivity). rewrite W in H.
    destruct H1 as (_ & Jb). rewrite J in Jb. destruct Jb as (Un & _ & Fn). apply fl_live in Fn.
    destruct (s_wl s n); [discriminate|]. injection H as <- <-. exists L. constructor; cbn [after_ set_clk set_th set_died set_ph s_th s_cnt s_rm s_wl s_died s_ph]; rewrite ?upd_eq.
    + intros U N. rewrite upd_ne by exact N. apply (ci_idle _ _ _ C U N).
    + apply (ci_nd _ _ _ C).
    + intros x. rewrite (ci_L _ _ _ C x), Ht. cbn. rewrite W. destruct (Nat.eq_dec x n) as [->|N]; [rewrite Fn; tauto|rewrite upd_ne by exact N; tauto].
    + apply (ci_cnt _ _ _ C).
    + assert (X := ci_tl _ _ _ C). rewrite Ht in X. exact X.
    + exact Logic.I.
    + intros x d D. destruct (Nat.eq_dec x n) as [->|N]; [|rewrite upd_ne in D by exact N; apply (ci_rm1 _ _ _ C x d D)]. apply (ci_rm3 _ _ _ C). rewrite Ht. exact J.
    + intros x X. destruct (Nat.eq_dec x n) as [->|N]; [right; exact J|rewrite upd_ne by exact N].
      destruct (ci_rm2 _ _ _ C x X) as [Y|Y]; [left; exact Y|]. rewrite Ht in Y. right. exact Y.
    + intros x X. apply (ci_rm3 _ _ _ C). rewrite Ht. exact X.
    + intros x X. destruct (ci_wl _ _ _ C x X) as [(U & k & Y)|(w2 & Y & _)]; [left|congruence]. exists U, k. rewrite upd_ne; [exact Y|]. congruence.
  - (* EUnl *)
    cbn [TI] in IT. unfold unlok in IT. destruct (w_job w) as [|n| |] eqn:J; try destruct IT as []. assert (W : w_node w = n) by (unfold w_node; rewrite J; reflexivity). rewrite W in H.
    destruct H2 as (Un & On & Pn & _ & _ & (d0 & D0 & _) & _).
    destruct (s_wl s (w_prev w k)); [discriminate|].
    assert (E : s_wl s1 = s_wl s /\ s_cnt s1 = s_cnt s /\ s_tl s1 = s_tl s /\ s_rm s1 = s_rm s /\ s_died s1 = s_died s /\
      exists v, s_ph s1 = upd (s_ph s) n v /\ (v = Dead /\ p = Cnt w false \/ v = Del T (k + 1) /\ p = EUnl w (k + 1))).
    { destruct (s_nx s (w_prev w k) k =? n), (k <? top n); injection H as <- <-; repeat (split; [reflexivity|]);
        ((exists Dead; split; [reflexivity|left; split; reflexivity]) || (exists (Del T (k + 1)); split; [reflexivity|right; split; reflexivity])). }
    destruct E as (E2 & E3 & E4 & E5 & E6 & v & E1 & Ev).
    assert (Ep : forall x, aset (after_ T p s1) p x <-> user x /\ (s_ph s1 x = Live \/ x = n)) by (intros x; destruct Ev as [[_ ->]|[_ ->]]; cbn; rewrite W; tauto).
    assert (Er : forall x, erasing p x <-> x = n) by (intros x; destruct Ev as [[_ ->]|[_ ->]]; cbn; rewrite J; split; congruence).
    assert (Th : s_th (after_ T p s1) T = p) by (cbn; rewrite upd_eq; reflexivity).
    exists L. constructor; rewrite ?Th.
    + intros U N. cbn. rewrite upd_ne by exact N. rewrite Hth. apply (ci_idle _ _ _ C U N).
    + apply (ci_nd _ _ _ C).
    + intros x. rewrite (ci_L _ _ _ C x), Ht, Ep, E1. cbn [aset]. rewrite W. destruct (Nat.eq_dec x n) as [->|N]; [tauto|rewrite upd_ne by exact N; tauto].
    + cbn. rewrite E3. apply (ci_cnt _ _ _ C).
    + assert (X := ci_tl _ _ _ C). rewrite Ht in X. cbn [tlok] in X. destruct Ev as [[_ ->]|[_ ->]]; cbn; rewrite E4; exact X.
    + destruct Ev as [[-> ->]|[_ ->]]; [|exact Logic.I]. cbn. rewrite W, E1, upd_eq. split; [exact Un|reflexivity].
    + cbn. rewrite E5, E6. apply (ci_rm1 _ _ _ C).
    + cbn. rewrite E5, E6. intros x X. destruct (ci_rm2 _ _ _ C x X) as [Y|Y]; [left; exact Y|right]. rewrite Ht in Y. apply Er. cbn [erasing work_of] in Y. congruence.
    + cbn. rewrite E5. intros x X. apply Er in X. subst x. apply (ci_rm1 _ _ _ C n d0 D0).
    + cbn. rewrite E1, E2. intros x X. left. destruct (ci_wl _ _ _ C x X) as [(U & j & Y)|(w2 & Y & _)]; [|congruence]. exists U, j. rewrite upd_ne; [exact Y|]. congruence.
  - (* EFin *)
    cbn [TI] in IT. destruct (w_job w) as [|n| |] eqn:J; try destruct IT as []. apply (Kp _ H); [exact Logic.I|repeat split|]. intros _. split; [exact Logic.I|]. split; [cbn [finish fst one]; rewrite J; exact Logic.I|].
    split; intros z Z; [|destruct Z]. left. cbn [erasing work_of] in Z. rewrite J in Z. injection Z as <-. destruct H2 as (_ & d & D & _). exists d. exact D.
Qed.

Lemma start_CI : forall T0 T j s L p s1, SI key top s -> CI s T0 L -> (forall U, idle (s_th s U) = true) -> start T j s = Some (p, s1) -> CI (after_ T p s1) T L.
Proof.
  intros T0 T j s L p s1 I C Hi H. assert (Hth := start_th _ _ _ _ _ H).
  assert (Io : forall U, opc (s_th s U) /\ forall x, ~ erasing (s_th s U) x) by (intros U; specialize (Hi U); destruct (s_th s U); try discriminate; split; try exact Logic.I; intros x []).
  assert (E : s_cnt s1 = s_cnt s /\ s_tl s1 = s_tl s /\ s_rm s1 = s_rm s /\ s_died s1 = s_died s /\ opc p /\ (forall x, ~ erasing p x) /\ one (after_ T p s1) p /\
     (forall x, s_ph s1 x = Live <-> s_ph s x = Live) /\ (forall x, s_wl s1 x = true -> s_wl s x = true \/ exists U k, s_ph s1 x = Ins U k) /\ forall x U k, s_ph s x = Ins U k -> s_ph s1 x = Ins U k).
  { unfold start in H. rewrite (Hi T) in H. destruct j as [n d|n|q m|n].
    - destruct (s_ph s n) eqn:P; try discriminate. injection H as <- <-. do 4 (split; [reflexivity|]). split; [exact Logic.I|]. split; [intros x X; discriminate X|]. split; [exact Logic.I|]. cbn. split; [|split].
      + intros x. destruct (Nat.eq_dec x n) as [->|N]; [rewrite upd_eq, P; split; discriminate|rewrite upd_ne by exact N; tauto].
      + intros x X. destruct (Nat.eq_dec x n) as [->|N]; [right; exists T, 0; apply upd_eq|left; rewrite upd_ne in X by exact N; exact X].
      + intros x U k X. rewrite upd_ne; [exact X|congruence].
    - destruct (s_born s n); [|discriminate]. injection H as <- <-. do 4 (split; [reflexivity|]). split; [exact Logic.I|]. split; [intros x X; exact X|].
      split; [cbn; intros x d D; apply (si_died _ _ _ I x d D)|]. split; [tauto|]. split; [auto|auto].
    - injection H as <- <-. do 4 (split; [reflexivity|]). split; [exact Logic.I|]. split; [intros x X; discriminate X|]. split; [exact Logic.I|]. split; [tauto|]. split; [auto|auto].
    - destruct (s_born s n); [|destruct (n =? head); [|discriminate]]; injection H as <- <-; do 4 (split; [reflexivity|]); (split; [exact Logic.I|]); (split; [intros x X; discriminate X|]); (split; [exact Logic.I|]); (split; [tauto|]); (split; [auto|auto]). }
  destruct E as (E1 & E2 & E3 & E4 & E5 & E6 & E7 & E8 & E9 & E10).
  assert (Th : s_th (after_ T p s1) T = p) by (cbn; rewrite upd_eq; reflexivity).
  constructor; rewrite ?Th.
  - intros U N. cbn. rewrite upd_ne by exact N. rewrite Hth. apply Hi.
  - apply (ci_nd _ _ _ C).
  - intros x. rewrite (ci_L _ _ _ C x), (aset_opc s _ x (proj1 (Io T0))), (aset_opc _ p x E5). cbn. rewrite E8. tauto.
  - cbn. rewrite E1. apply (ci_cnt _ _ _ C).
  - apply (proj2 (tlok_opc _ p L E5)). assert (X := proj1 (tlok_opc s _ L (proj1 (Io T0))) (ci_tl _ _ _ C)). cbn. rewrite E2. exact X.
  - exact E7.
  - cbn. rewrite E3, E4. apply (ci_rm1 _ _ _ C).
  - cbn. rewrite E3, E4. intros x X. destruct (ci_rm2 _ _ _ C x X) as [Y|Y]; [left; exact Y|]. destruct (proj2 (Io T0) x Y).
  - intros x X. destruct (E6 x X).
  - cbn. intros x X. left. destruct (E9 x X) as [Y|Y]; [|exact Y]. destruct (ci_wl _ _ _ C x Y) as [(U & k & Z)|(w & Z & _)]; [exists U, k; apply E10, Z|]. exfalso. assert (Q := proj1 (Io T0)). rewrite Z in Q. exact Q.
Qed.

Lemma reach1_CI : forall s, reach1 key top maxl s -> exists T L, CI s T L.
Proof.
  intros s H. induction H as [|e s s' H IH G Hs E].
  - exists 0, []. constructor; cbn.
    + reflexivity.
    + constructor.
    + intros x. split; [intros []|]. intros [U X]. unfold user in U. destruct (Nat.leb_spec x 1); [lia|discriminate].
    + reflexivity.
    + intros x [].
    + exact Logic.I.
    + discriminate.
    + discriminate.
    + intros x [].
    + discriminate.
  - assert (R := reach1_reach s H). assert (HI := reach_inv2 key top maxl ord s R). assert (HO := reach_OI key top maxl ord s R). assert (HA := reach_AI key top maxl ord s R).
    destruct IH as (T0 & L & C). destruct e as [T j|T spur|n up|n]; cbn [step] in E.
    + destruct (start T j s) as [[p s1]|] eqn:E1; [|discriminate]. cbn [put] in E. injection E as <-. exists T, L. apply (start_CI T0 T j s L p s1 (proj1 HI) C (Hs T j eq_refl) E1).
    + destruct (step1 key top maxl false T spur (s_th s T) s) as [[p s1]|] eqn:E1; [|discriminate]. cbn [put] in E. injection E as <-.
      destruct (Nat.eq_dec T T0) as [->|N].
      * destruct (step_CI T0 spur s L p s1 HI HO (proj1 HA) C E1) as [L' C']. exists T0, L'. exact C'.
      * exfalso. assert (X := ci_idle _ _ _ C T N). destruct (s_th s T); discriminate.
    + injection E as <-. exists T0, L. destruct C. destruct up; constructor; assumption.
    + unfold free_node in E. destruct (s_own s n); [discriminate|]. destruct (s_rm s n && negb (s_wl s n) && (s_rc s n =? 0)); [|discriminate]. injection E as <-. exists T0, L. destruct C. constructor; assumption.
Qed.

Lemma serial_no_crash : forall s T c, reach1 key top maxl s -> s_th s T <> Crash c.
Proof.
  intros s T c H X. destruct (reach1_CI s H) as (T0 & L & C). destruct (Nat.eq_dec T T0) as [->|N].
  - assert (O := ci_one _ _ _ C). rewrite X in O. exact O.
  - assert (O := ci_idle _ _ _ C T N). rewrite X in O. discriminate.
Qed.

Lemma serial_gone : forall s, reach1 key top maxl s -> forall T t0 t1 n, s_th s T = Done t0 t1 (JErase n) RGone -> exists d, s_died s n = Some d /\ d < t0.
Proof.
  intros s H. induction H as [|e s s' H IH G Hs E]; [discriminate|].
  assert (R := reach1_reach s H). assert (HI := reach_inv2 key top maxl ord s R). destruct ord as (O1 & O2 & O3).
  assert (H' : reach1 key top maxl s') by (apply (reach1_step key top maxl e s); assumption).
  assert (K : forall T p s1, Good key top T s p s1 -> s_th s1 = s_th s -> s' = after_ T p s1 -> (forall t0 t1 n, p = Done t0 t1 (JErase n) RGone -> exists d, s_died s' n = Some d /\ d < t0) ->
     forall U t0 t1 n, s_th s' U = Done t0 t1 (JErase n) RGone -> exists d, s_died s' n = Some d /\ d < t0).
  { intros T p s1 (_ & _ & F) Et -> X U t0 t1 n Y. destruct (Nat.eq_dec U T) as [->|N]; [change (s_th (after_ T p s1)) with (upd (s_th s1) T p) in Y; rewrite upd_eq in Y; apply (X _ _ _ Y)|].
    change (s_th (after_ T p s1)) with (upd (s_th s1) T p) in Y. rewrite upd_ne, Et in Y by exact N. destruct (IH U t0 t1 n Y) as (d & D & L). exists d. split; [apply (fr_d1 _ _ _ F), D|exact L]. }
  destruct e as [T j|T spur|n up|n]; cbn [step] in E.
  - destruct (start T j s) as [[p s1]|] eqn:E1; [|discriminate]. cbn [put] in E. injection E as E. symmetry in E. apply (K T p s1 (start_good key top O1 O3 T j s p s1 (proj1 HI) G E1) (start_th _ _ _ _ _ E1) E).
    intros t0 t1 n ->. exfalso. unfold start in E1. destruct (idle (s_th s T)); [|discriminate]. destruct j; [destruct (s_ph s n0)|destruct (s_born s n0)| |destruct (s_born s n0); [|destruct (n0 =? head)]]; discriminate.
  - destruct (step1 key top maxl false T spur (s_th s T) s) as [[p s1]|] eqn:E1; [|discriminate]. cbn [put] in E. injection E as E. symmetry in E.
    apply (K T p s1 (step1_good key top maxl O1 O3 T spur s p s1 HI E1) (step1_th _ _ _ _ _ _ _ _ _ E1) E). intros t0 t1 n ->.
    destruct (reach1_CI s H) as (T0 & L & C). destruct (Nat.eq_dec T T0) as [->|N]; [|exfalso; assert (X := ci_idle _ _ _ C T N); destruct (s_th s T); discriminate].
    destruct (step_CI T0 spur s L _ s1 HI (reach_OI key top maxl ord s R) (proj1 (reach_AI key top maxl ord s R)) C E1) as [L' C']. assert (X := ci_one _ _ _ C'). rewrite E.
    replace (s_th (after_ T0 (Done t0 t1 (JErase n) RGone) s1) T0) with (Done t0 t1 (JErase n) RGone) in X by (cbn; rewrite upd_eq; reflexivity). exact X.
  - injection E as <-. destruct up; exact IH.
  - unfold free_node in E. destruct (s_own s n); [discriminate|]. destruct (s_rm s n && negb (s_wl s n) && (s_rc s n =? 0)); [|discriminate]. injection E as <-. exact IH.
Qed.

Lemma serial_freeable : forall s n d, reach1 key top maxl s -> (forall T, idle (s_th s T) = true) -> s_died s n = Some d ->
  s_rc s n = 0 -> exists s', free_node n s = Some s'.
Proof.
  intros s n d H Hi D R. destruct (reach1_CI s H) as (T0 & L & C). assert (Rr := reach1_reach s H). unfold free_node. rewrite (all_released key top maxl ord s Rr Hi n), (ci_rm1 _ _ _ C n d D), R.
  destruct (s_wl s n) eqn:W; [|eexists; reflexivity]. exfalso. destruct (ci_wl _ _ _ C n W) as [(U & k & P)|(w & P & _)].
  - destruct (si_died _ _ _ (proj1 (reach_inv2 key top maxl ord s Rr)) n d D) as (_ & Q & _). rewrite P in Q. exact Q.
  - specialize (Hi T0). rewrite P in Hi. discriminate.
Qed.
End Proofs.
