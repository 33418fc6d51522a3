(** Proofs about the visibility of a global batch (GlobalBatchModel.v, part 3). *)
From Verif Require Import Base GlobalBatchModel.
From Coq Require Import Lia ZifyBool Arith.

Section Vis.
Variable n : nat.
Variables base cnt : nat -> nat.
Hypothesis base_pos : forall d, d < n -> 1 <= base d.

Record VI (s : gst) : Prop := mkVI {
  vi_bar : forall d, d < n -> g_set s d = true -> g_bar s d = base d \/ g_clr s d = true;
  vi_clr : forall d, g_clr s d = true -> g_vis s = true /\ g_bar s d = 0 /\ d < n;
  vi_fwd : forall d, g_fwd s d <> 0 -> g_fwd s d = base d + cnt d /\ g_done s d = cnt d /\ d < n;
  vi_stat : forall d, g_stat s d = true -> g_done s d = cnt d /\ d < n;
  vi_sset : forall d, g_stat s d = true \/ g_fwd s d <> 0 -> g_set s d = true;
  vi_all : g_vis s = true -> forall d, d < n -> g_done s d = cnt d /\ g_set s d = true;
  vi_open : g_vis s = true -> forall d, d < n -> g_clr s d = false -> g_fwd s d <> 0;
  vi_both : forall d, g_fwd s d <> 0 -> g_clr s d = false -> g_stat s d = true;
  vi_wrote : forall d, g_done s d <= cnt d }.

Lemma all_dbs_true : forall p, all_dbs n p = true -> forall d, d < n -> p d = true.
Proof. intros p H d Hd. unfold all_dbs in H. rewrite forallb_forall in H. apply H. apply in_seq. lia. Qed.
Lemma fset_same : forall {A} (f : nat -> A) k x, fset f k x k = x.
Proof. intros A f k x. unfold fset. rewrite Nat.eqb_refl. reflexivity. Qed.
Lemma fset_other : forall {A} (f : nat -> A) k x i, i <> k -> fset f k x i = f i.
Proof. intros A f k x i H. unfold fset. apply Nat.eqb_neq in H. rewrite H. reflexivity. Qed.

Lemma new_VI : VI g_new.
Proof. constructor; cbn; try discriminate; try lia; intros; try discriminate; lia. Qed.

Lemma VI_rd : forall s r, VI s -> VI (mkGst (g_bar s) (g_set s) (g_done s) (g_stat s) (g_fwd s) (g_vis s) (g_clr s) r).
Proof. intros s r [H1 H2 H3 H4 H9 H5 H6 H7 H8]. constructor; assumption. Qed.

Ltac pick x d := destruct (Nat.eq_dec x d) as [->|?Hne]; [rewrite ?fset_same in *|rewrite ?fset_other in * by assumption].
Lemma gstep_VI : forall e s s', VI s -> gstep n base cnt e s = Some s' -> VI s'.
Proof.
  intros e s s' H E. pose proof H as [H1 H2 H3 H4 H9 H5 H6 H7 H8].
  destruct e as [d|d|d|d| |d|d|d|t d|t|t]; cbn [gstep] in E.
  - destruct (Nat.ltb d n && negb (g_set s d)) eqn:G; [|discriminate E]. injection E as <-. apply andb_true_iff in G. destruct G as [G1 G2]. apply Nat.ltb_lt in G1. apply negb_true_iff in G2.
    constructor; cbn [g_bar g_set g_done g_stat g_fwd g_vis g_clr]; try assumption.
    + intros x Hx Hs. pick x d; [left; reflexivity|apply H1; assumption].
    + intros x Hx. destruct (H2 x Hx) as (V & B & L). pick x d; [|auto]. exfalso. destruct (H5 V d L). congruence.
    + intros x Hx. specialize (H9 x Hx). pick x d; [reflexivity|exact H9].
    + intros V x Hx. destruct (H5 V x Hx) as [A B]. split; [exact A|]. pick x d; [reflexivity|exact B].
  - destruct (Nat.ltb d n && all_dbs n (g_set s) && Nat.ltb (g_done s d) (cnt d)) eqn:G; [|discriminate E]. injection E as <-.
    apply andb_true_iff in G. destruct G as [G G3]. apply andb_true_iff in G. destruct G as [G1 G2]. apply Nat.ltb_lt in G1, G3.
    constructor; cbn [g_bar g_set g_done g_stat g_fwd g_vis g_clr]; try assumption.
    + intros x Hx. destruct (H3 x Hx) as (A & B & L). pick x d; [lia|auto].
    + intros x Hx. destruct (H4 x Hx) as [A B]. pick x d; [lia|auto].
    + intros V x Hx. destruct (H5 V x Hx) as [A B]. pick x d; [lia|auto].
    + intros x. pick x d; [lia|apply H8].
  - destruct (Nat.ltb d n && all_dbs n (g_set s) && Nat.eqb (g_done s d) (cnt d) && negb (g_vis s)) eqn:G; [|discriminate E]. injection E as <-.
    apply andb_true_iff in G. destruct G as [G _]. apply andb_true_iff in G. destruct G as [G G3]. apply andb_true_iff in G. destruct G as [G1 G2]. apply Nat.ltb_lt in G1. apply Nat.eqb_eq in G3.
    constructor; cbn [g_bar g_set g_done g_stat g_fwd g_vis g_clr]; try assumption.
    + intros x Hx. pick x d; [auto|apply H4; exact Hx].
    + intros x Hx. pick x d; [apply (all_dbs_true _ G2 d G1)|apply H9; exact Hx].
    + intros x Hx Hc. pick x d; [reflexivity|apply H7; assumption].
  - destruct (Nat.ltb d n && g_stat s d && negb (g_vis s)) eqn:G; [|discriminate E]. injection E as <-.
    apply andb_true_iff in G. destruct G as [G G3]. apply andb_true_iff in G. destruct G as [G1 G2]. apply Nat.ltb_lt in G1. apply negb_true_iff in G3. destruct (H4 d G2) as [D _].
    constructor; cbn [g_bar g_set g_done g_stat g_fwd g_vis g_clr]; try assumption.
    + intros x Hx. pick x d; [auto|apply H3; exact Hx].
    + intros x Hx. pick x d; [apply H9; left; exact G2|apply H9; exact Hx].
    + intros V. congruence.
    + intros x Hx Hc. pick x d; [exact G2|apply H7; assumption].
  - destruct (all_dbs n (fun d => negb (Nat.eqb (g_fwd s d) 0)) && negb (g_vis s)) eqn:G; [|discriminate E]. injection E as <-.
    apply andb_true_iff in G. destruct G as [G1 G2]. apply negb_true_iff in G2.
    assert (F : forall x, x < n -> g_fwd s x <> 0) by (intros x Hx; pose proof (all_dbs_true _ G1 x Hx) as Q; cbn beta in Q; apply negb_true_iff, Nat.eqb_neq in Q; exact Q).
    constructor; cbn [g_bar g_set g_done g_stat g_fwd g_vis g_clr]; try assumption.
    + intros x Hx. destruct (H2 x Hx) as (V & _). congruence.
    + intros _ x Hx. destruct (H3 x (F x Hx)) as (_ & D & _). split; [exact D|].
      apply H9. right. apply F. exact Hx.
    + intros _ x Hx _. apply F. exact Hx.
  - destruct (Nat.ltb d n && g_vis s) eqn:G; [|discriminate E]. injection E as <-. apply andb_true_iff in G. destruct G as [G1 G2]. apply Nat.ltb_lt in G1.
    constructor; cbn [g_bar g_set g_done g_stat g_fwd g_vis g_clr]; try assumption.
    + intros x Hx Hs. pick x d; [right; reflexivity|apply H1; assumption].
    + intros x Hx. pick x d; [auto|apply H2; exact Hx].
    + intros V x Hx Hc. pick x d; [discriminate Hc|apply H6; assumption].
    + intros x Hx Hc. pick x d; [discriminate Hc|apply H7; assumption].
  - destruct (g_clr s d) eqn:G; [|discriminate E]. injection E as <-.
    constructor; cbn [g_bar g_set g_done g_stat g_fwd g_vis g_clr]; try assumption.
    + intros x Hx. pick x d; [discriminate Hx|apply H4; exact Hx].
    + intros x Hx. pick x d; [apply H9; right; destruct Hx as [Q|Q]; [discriminate Q|exact Q]|apply H9; exact Hx].
    + intros x Hx Hc. pick x d; [congruence|apply H7; assumption].
  - destruct (g_clr s d && negb (g_stat s d)) eqn:G; [|discriminate E]. injection E as <-. apply andb_true_iff in G. destruct G as [G1 G2].
    constructor; cbn [g_bar g_set g_done g_stat g_fwd g_vis g_clr]; try assumption.
    + intros x Hx. pick x d; [lia|apply H3; exact Hx].
    + intros x Hx. pick x d; [apply H9; left; destruct Hx as [Q|Q]; [exact Q|lia]|apply H9; exact Hx].
    + intros V x Hx Hc. pick x d; [congruence|apply H6; assumption].
    + intros x Hx Hc. pick x d; [lia|apply H7; assumption].
  - destruct (g_rd s t); try discriminate E. injection E as <-. apply VI_rd. exact H.
  - destruct (g_rd s t); try discriminate E; injection E as <-; apply VI_rd; exact H.
  - destruct (g_rd s t); try discriminate E. injection E as <-. apply VI_rd. exact H.
Qed.

Lemma gruns_VI : forall es s s', VI s -> gruns n base cnt es s = Some s' -> VI s'.
Proof.
  induction es as [|e es IH]; cbn [gruns]; intros s s' H E; [injection E as <-; exact H|].
  destruct (gstep n base cnt e s) as [s1|] eqn:E1; [|discriminate E]. apply (IH s1 s'); [apply (gstep_VI e s); assumption|exact E].
Qed.
Lemma gruns_app : forall a b s, gruns n base cnt (a ++ b) s = match gruns n base cnt a s with Some s' => gruns n base cnt b s' | None => None end.
Proof. induction a as [|e a IH]; intros b s; cbn [app gruns]; [reflexivity|]. destruct (gstep n base cnt e s); [apply IH|reflexivity]. Qed.

(** Flags only go up. *)
Lemma gstep_up : forall e s s', gstep n base cnt e s = Some s' ->
  (g_vis s = true -> g_vis s' = true) /\ (forall d, g_set s d = true -> g_set s' d = true) /\ (forall d, g_clr s d = true -> g_clr s' d = true).
Proof.
  intros e s s' E. destruct e as [d|d|d|d| |d|d|d|t d|t|t]; cbn [gstep] in E;
    repeat match type of E with context [if ?c then _ else _] => destruct c | context [match g_rd s t with _ => _ end] => destruct (g_rd s t) end;
    try discriminate E; injection E as <-; cbn [g_vis g_set g_clr]; repeat split; try tauto; intros x Hx; pick x d; auto.
Qed.

(** A reader that started after the batch became visible. *)
Definition late (s : gst) (r : gread) : Prop :=
  match r with
  | GIdle => True
  | GFwd d f => d < n /\ f = base d + cnt d /\ (g_stat s d = true \/ g_clr s d = true)
  | GStat d f => d < n /\ f = base d + cnt d
  | GBar d => d < n /\ g_clr s d = true
  | GGot d lim => d < n /\ (lim = 0 \/ lim = base d + cnt d)
  | GSaw d k => d < n /\ k = cnt d
  end.
(** A reader that started after the barrier of its database was set. *)
Definition guarded (s : gst) (r : gread) : Prop :=
  match r with
  | GIdle => True
  | GFwd d _ | GStat d _ | GBar d => d < n /\ g_set s d = true
  | GGot d lim => d < n /\ (lim = base d \/ g_vis s = true)
  | GSaw d k => d < n /\ (k = 0 \/ g_vis s = true)
  end.

Lemma step_late : forall e s s' t, VI s -> g_vis s = true -> gstep n base cnt e s = Some s' ->
  (forall d, e = GLoad t d -> d < n) -> late s (g_rd s t) -> late s' (g_rd s' t).
Proof.
  intros e s s' t H V E Hl L. destruct e as [d|d|d|d| |d|d|d|u d|u|u]; cbn [gstep] in E.
  - destruct (Nat.ltb d n && _); [|discriminate E]. injection E as <-. exact L.
  - destruct (Nat.ltb d n && all_dbs n (g_set s) && _); [|discriminate E]. injection E as <-. exact L.
  - rewrite V in E. rewrite andb_false_r in E. discriminate E.
  - rewrite V in E. rewrite andb_false_r in E. discriminate E.
  - rewrite V in E. rewrite andb_false_r in E. discriminate E.
  - destruct (Nat.ltb d n && g_vis s); [|discriminate E]. injection E as <-. cbn [g_rd]. unfold late in *. cbn [g_stat g_clr]. destruct (g_rd s t) as [|x f|x f|x|x k|x k]; auto.
    + destruct L as (A & B & C). repeat split; auto. pick x d; tauto.
    + destruct L as (A & B). split; auto. pick x d; auto.
  - destruct (g_clr s d) eqn:G; [|discriminate E]. injection E as <-. cbn [g_rd]. unfold late in *. cbn [g_stat g_clr]. destruct (g_rd s t) as [|x f|x f|x|x k|x k]; auto.
    destruct L as (A & B & C). repeat split; auto. pick x d; tauto.
  - destruct (g_clr s d && _); [|discriminate E]. injection E as <-. exact L.
  - destruct (g_rd s u) eqn:Eu; try discriminate E. injection E as <-. cbn [g_rd]. pick t u; [|exact L]. specialize (Hl d eq_refl).
    destruct (Nat.eqb_spec (g_fwd s d) 0) as [Z|Z]; cbn [late].
    + split; [exact Hl|]. cbn [g_clr]. destruct (g_clr s d) eqn:C; [reflexivity|]. exfalso. apply (vi_open s H V d Hl C Z).
    + split; [exact Hl|]. split; [apply (vi_fwd s H d Z)|]. cbn [g_stat g_clr]. destruct (g_clr s d) eqn:C; [right; reflexivity|left; apply (vi_both s H d Z C)].
  - destruct (g_rd s u) as [|x f|x f|x|x k|x k] eqn:Eu; try discriminate E; injection E as <-; cbn [g_rd]; (pick t u; [|exact L]); rewrite Eu in L; cbn [late] in L |- *.
    + destruct L as (A & B & C). destruct (g_stat s x) eqn:S; cbn [late g_clr]; [auto|]. destruct C as [C|C]; [discriminate C|auto].
    + rewrite V. destruct L as (A & B). cbn [late]. auto.
    + destruct L as (A & B). destruct (vi_clr s H x B) as (_ & C & _). rewrite C. auto.
    + destruct L as (A & B). destruct (vi_all s H V x A) as [C _]. rewrite C. unfold shows. destruct (Nat.eqb_spec k 0) as [Z|Z]; [auto|]. destruct B as [B|B]; [lia|]. subst k. split; [exact A|]. lia.
  - destruct (g_rd s u) eqn:Eu; try discriminate E. injection E as <-. cbn [g_rd]. pick t u; [exact I|exact L].
Qed.

Lemma step_guarded : forall e s s' t, VI s -> gstep n base cnt e s = Some s' ->
  (forall d, e = GLoad t d -> d < n /\ g_set s d = true) -> guarded s (g_rd s t) -> guarded s' (g_rd s' t).
Proof.
  intros e s s' t H E Hl L.
  assert (K : forall r, guarded s r -> guarded s' r).
  { intros r. destruct (gstep_up e s s' E) as (U1 & U2 & _). destruct r; cbn [guarded]; try tauto; intros [A B]; split; auto; destruct B; auto. }
  destruct e as [d|d|d|d| |d|d|d|u d|u|u]; try (assert (Er : g_rd s' t = g_rd s t) by (cbn [gstep] in E; match type of E with (if ?c then _ else _) = _ => destruct c end; [injection E as <-; reflexivity|discriminate E]); rewrite Er; apply K; exact L).
  - cbn [gstep] in E. destruct (g_rd s u) eqn:Eu; try discriminate E. injection E as <-. cbn [g_rd]. pick t u; [|exact L]. destruct (Hl d eq_refl) as [A B].
    destruct (Nat.eqb _ _); cbn [guarded g_set]; auto.
  - cbn [gstep] in E. destruct (g_rd s u) as [|x f|x f|x|x k|x k] eqn:Eu; try discriminate E; injection E as <-; cbn [g_rd]; (pick t u; [|exact L]); rewrite Eu in L; cbn [guarded] in L |- *; destruct L as [A B].
    + destruct (g_stat s x); cbn [guarded g_set]; auto.
    + destruct (g_vis s) eqn:V; cbn [guarded g_set g_vis]; auto.
    + split; [exact A|]. cbn [g_vis]. destruct (vi_bar s H x A B) as [Q|Q]; [left; exact Q|right]. apply (vi_clr s H x Q).
    + split; [exact A|]. cbn [g_vis]. destruct B as [B|B]; [left|right; exact B]. subst k. unfold shows. pose proof (base_pos x A). destruct (Nat.eqb_spec (base x) 0); lia.
  - cbn [gstep] in E. destruct (g_rd s u) eqn:Eu; try discriminate E. injection E as <-. cbn [g_rd]. pick t u; [exact I|exact L].
Qed.

Lemma gruns_late : forall es s s' t, VI s -> g_vis s = true -> gruns n base cnt es s = Some s' ->
  (forall d, In (GLoad t d) es -> d < n) -> late s (g_rd s t) -> late s' (g_rd s' t).
Proof.
  induction es as [|e es IH]; cbn [gruns]; intros s s' t H V E Hl L; [injection E as <-; exact L|].
  destruct (gstep n base cnt e s) as [s1|] eqn:E1; [|discriminate E]. destruct (gstep_up e s s1 E1) as (U1 & _).
  apply (IH s1 s' t); [apply (gstep_VI e s s1 H E1)|apply U1; exact V|exact E|intros d Hd; apply Hl; right; exact Hd|].
  apply (step_late e s s1 t H V E1); [intros d ->; apply Hl; left; reflexivity|exact L].
Qed.
Lemma gruns_guarded : forall es s s' t, VI s -> gruns n base cnt es s = Some s' ->
  (forall d, In (GLoad t d) es -> d < n /\ g_set s d = true) -> guarded s (g_rd s t) -> guarded s' (g_rd s' t).
Proof.
  induction es as [|e es IH]; cbn [gruns]; intros s s' t H E Hl L; [injection E as <-; exact L|].
  destruct (gstep n base cnt e s) as [s1|] eqn:E1; [|discriminate E]. destruct (gstep_up e s s1 E1) as (_ & U2 & _).
  apply (IH s1 s' t); [apply (gstep_VI e s s1 H E1)|exact E|intros d Hd; destruct (Hl d (or_intror Hd)); auto|].
  apply (step_guarded e s s1 t H E1); [intros d ->; apply Hl; left; reflexivity|exact L].
Qed.

(** Reader [t1], of database [d1], started when the barrier of [d1] was set, and saw something of the
    batch; reader [t2] started later: it sees all of the batch in its database. *)
Theorem seen_means_all : forall es1 s1 es2 s2 es3 s t1 d1 k1 t2 d2 k2,
  gruns n base cnt es1 g_new = Some s1 -> g_rd s1 t1 = GIdle -> d1 < n -> g_set s1 d1 = true ->
  gruns n base cnt (GLoad t1 d1 :: es2) s1 = Some s2 -> (forall d, ~ In (GLoad t1 d) es2) -> g_rd s2 t1 = GSaw d1 k1 -> 1 <= k1 ->
  g_rd s2 t2 = GIdle -> d2 < n -> gruns n base cnt (GLoad t2 d2 :: es3) s2 = Some s -> (forall d, ~ In (GLoad t2 d) es3) -> g_rd s t2 = GSaw d2 k2 ->
  k2 = cnt d2.
Proof.
  intros es1 s1 es2 s2 es3 s t1 d1 k1 t2 d2 k2 R1 I1 L1 B1 R2 N2 S1 K1 I2 L2 R3 N3 S2.
  pose proof (gruns_VI _ _ _ new_VI R1) as V1. pose proof (gruns_VI _ _ _ V1 R2) as V2.
  assert (G : guarded s2 (g_rd s2 t1)).
  { apply (gruns_guarded _ s1 s2 t1 V1 R2); [|rewrite I1; exact I]. intros d [Q|Q]; [injection Q as <-; auto|destruct (N2 d Q)]. }
  rewrite S1 in G. cbn [guarded] in G. destruct G as [_ [Z|V]]; [lia|].
  assert (L : late s (g_rd s t2)).
  { apply (gruns_late _ s2 s t2 V2 V R3); [|rewrite I2; exact I]. intros d [Q|Q]; [injection Q as <-; exact L2|destruct (N3 d Q)]. }
  rewrite S2 in L. apply L.
Qed.
End Vis.
