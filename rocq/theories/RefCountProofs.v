(** Proofs about the reference counts of a log file (RefCountModel.v). *)
From Verif Require Import Base RefCountModel.
From Coq Require Import Lia ZifyBool Arith.

Definition b2n (b : bool) : nat := if b then 1 else 0.
Definition count (f : rpc -> bool) (l : list rpc) : nat := length (filter f l).
Lemma count_cons : forall f x l, count f (x :: l) = b2n (f x) + count f l.
Proof. intros f x l. unfold count. cbn [filter]. destruct (f x); reflexivity. Qed.
Lemma count_upd : forall f l t p, t < length l -> count f (upd t p l) + b2n (f (nth t l PIdle)) = count f l + b2n (f p).
Proof.
  intros f. induction l as [|x l IH]; intros [|t] p H; cbn [length] in H; try lia; cbn [upd nth]; rewrite !count_cons; [lia|].
  specialize (IH t p ltac:(lia)). lia.
Qed.
Lemma count_pos : forall f l t, t < length l -> f (nth t l PIdle) = true -> 1 <= count f l.
Proof.
  intros f. induction l as [|x l IH]; intros [|t] H E; cbn [length] in H; try lia; cbn [nth] in E; rewrite count_cons.
  - rewrite E. cbn. lia.
  - specialize (IH t ltac:(lia) E). lia.
Qed.
Lemma count_two : forall f l t u, t < length l -> u < length l -> t <> u -> f (nth t l PIdle) = true -> f (nth u l PIdle) = true -> 2 <= count f l.
Proof.
  intros f. induction l as [|x l IH]; intros [|t] [|u] Ht Hu Hne Et Eu; cbn [length] in Ht, Hu; try lia; cbn [nth] in Et, Eu; rewrite count_cons.
  - rewrite Et. pose proof (count_pos f l u ltac:(lia) Eu). cbn. lia.
  - rewrite Eu. pose proof (count_pos f l t ltac:(lia) Et). cbn. lia.
  - specialize (IH t u ltac:(lia) ltac:(lia) ltac:(congruence) Et Eu). lia.
Qed.
Lemma count_le : forall (f g : rpc -> bool) l, (forall p, f p = true -> g p = true) -> count f l <= count g l.
Proof.
  intros f g l H. induction l as [|x l IH]; [apply Nat.le_refl|]. rewrite !count_cons. specialize (H x).
  destruct (f x); [rewrite (H eq_refl)|]; cbn; lia.
Qed.
Lemma count_zero : forall f l, (forall t, t < length l -> f (nth t l PIdle) = false) -> count f l = 0.
Proof.
  intros f. induction l as [|x l IH]; intros H; [reflexivity|]. rewrite count_cons.
  pose proof (H 0 ltac:(cbn; lia)) as H0. cbn [nth] in H0. rewrite H0. cbn.
  apply IH. intros t Ht. apply (H (S t)). cbn. lia.
Qed.
Lemma upd_length : forall l t p, length (upd t p l) = length l.
Proof. induction l as [|x l IH]; intros [|t] p; cbn [upd length]; [reflexivity|reflexivity|reflexivity|rewrite IH; reflexivity]. Qed.
Lemma at_bound : forall t s, at_pc t s <> PIdle -> t < length (r_pcs s).
Proof.
  intros t s H. destruct (Nat.lt_ge_cases t (length (r_pcs s))) as [L|L]; [exact L|]. contradiction H.
  unfold at_pc. apply nth_overflow. exact L.
Qed.

Definition holds (p : rpc) : bool :=
  match p with PLock _ | PNode | PHold | PRm1 | PRm2 | PDone1 | PDone2 _ | PChk | PDec => true | _ => false end.
Definition noded (p : rpc) : bool := match p with PFound | PNode | PLock true => true | _ => false end.
Definition rming (p : rpc) : bool := match p with PRm1 | PRm2 => true | _ => false end.
Definition unlinking (p : rpc) : bool := match p with PRm1 => true | _ => false end.
Definition unlinked (p : rpc) : bool := match p with PRm2 => true | _ => false end.
Definition dying (p : rpc) : bool := match p with PDestroy => true | _ => false end.
Definition knows (p : rpc) : bool := match p with PRm1 | PRm2 | PDone1 | PDone2 _ | PDestroy => true | _ => false end.
Definition snappy (p : rpc) : bool :=
  match p with PSNode | PSHold | PSDone1 | PSDone2 _ | PSDec | PEv | PDecE | PPurge | PUnlock => true | PDone2 (S _) => true | _ => false end.

(** No snapshot of log store mode, no eviction. *)
Definition plain (e : rev_) : Prop := match e with ESnap _ | EEvChk _ | EEvict _ => False | _ => True end.

Record RI (s : rst) : Prop := mkRI {
  ri_ref : r_ref s = count holds (r_pcs s);
  ri_nodes : r_nodes s = count noded (r_pcs s);
  ri_snap : r_snap s = 0;
  ri_ev : r_evicted s = false;
  ri_no : count snappy (r_pcs s) = 0;
  ri_link : r_linked s = false -> count unlinking (r_pcs s) = 0 /\ r_removed s = true;
  ri_un : 1 <= count unlinked (r_pcs s) -> r_linked s = false;
  ri_quiet : r_removed s = true -> count rming (r_pcs s) = 0 -> r_linked s = false /\ r_nodes s = 0;
  ri_once : count rming (r_pcs s) <= 1;
  ri_know : r_removed s = false -> count knows (r_pcs s) = 0 /\ r_freed s = 0;
  ri_free : r_freed s + count dying (r_pcs s) <= 1;
  ri_dead : 1 <= r_freed s + count dying (r_pcs s) -> r_ref s = 0 /\ r_nodes s = 0 /\ r_linked s = false /\ r_removed s = true;
  ri_ok : r_bad s = false }.

Lemma new_RI : forall n, RI (r_new n).
Proof.
  intros n.
  assert (C : forall f, f PIdle = false -> count f (repeat PIdle n) = 0).
  { intros f H. induction n as [|n IH]; [reflexivity|]. cbn [repeat]. rewrite count_cons, H, IH. reflexivity. }
  constructor; cbn [r_new r_ref r_nodes r_snap r_evicted r_pcs r_linked r_removed r_freed r_bad]; rewrite ?C by reflexivity; try reflexivity; try lia; try discriminate.
Qed.

(** A step by [t], which is at [p], to [q]. *)
Lemma counts : forall s t p q, at_pc t s = p -> t < length (r_pcs s) -> forall f, count f (upd t q (r_pcs s)) + b2n (f p) = count f (r_pcs s) + b2n (f q).
Proof. intros s t p q Hp Ht f. unfold at_pc in Hp. rewrite <- Hp. apply count_upd. exact Ht. Qed.

Ltac use_counts s t p q Hp Ht :=
  let C := fresh "C" in pose proof (counts s t p q Hp Ht) as C;
  pose proof (C holds); pose proof (C noded); pose proof (C snappy); pose proof (C unlinking); pose proof (C unlinked); pose proof (C rming); pose proof (C knows); pose proof (C dying);
  pose proof (count_le unlinking rming (r_pcs s) ltac:(intros []; cbn; congruence));
  pose proof (count_le unlinked rming (r_pcs s) ltac:(intros []; cbn; congruence));
  pose proof (count_le rming holds (r_pcs s) ltac:(intros []; cbn; congruence));
  pose proof (count_le rming knows (r_pcs s) ltac:(intros []; cbn; congruence));
  pose proof (count_le dying knows (r_pcs s) ltac:(intros []; cbn; congruence));
  clear C; cbn [b2n holds noded snappy unlinking unlinked rming knows dying] in *.
Ltac open_ri H := pose proof (ri_ref _ H) as Hri_ref; pose proof (ri_nodes _ H) as Hri_nodes; pose proof (ri_snap _ H) as Hri_snap; pose proof (ri_ev _ H) as Hri_ev; pose proof (ri_no _ H) as Hri_no; pose proof (ri_link _ H) as Hri_link; pose proof (ri_un _ H) as Hri_un; pose proof (ri_quiet _ H) as Hri_quiet; pose proof (ri_once _ H) as Hri_once; pose proof (ri_know _ H) as Hri_know; pose proof (ri_free _ H) as Hri_free; pose proof (ri_dead _ H) as Hri_dead; pose proof (ri_ok _ H) as Hri_ok.
Ltac close_ri :=
  constructor; cbn [go set_ref set_snap set_nodes set_flags r_ref r_nodes r_snap r_evicted r_pcs r_linked r_removed r_freed r_bad r_purged touch] in *;
  try assumption; lia.

Lemma not_freed : forall s t, RI s -> t < length (r_pcs s) -> (holds (at_pc t s) = true \/ noded (at_pc t s) = true \/ dying (at_pc t s) = true) -> r_freed s = 0.
Proof.
  intros s t H Ht Hp. open_ri H. unfold at_pc in Hp. destruct Hp as [Hp|[Hp|Hp]].
  - pose proof (count_pos holds (r_pcs s) t Ht Hp). destruct (r_freed s); [reflexivity|]. destruct Hri_dead as (? & _); lia.
  - pose proof (count_pos noded (r_pcs s) t Ht Hp). destruct (r_freed s); [reflexivity|]. destruct Hri_dead as (_ & ? & _); lia.
  - pose proof (count_pos dying (r_pcs s) t Ht Hp). lia.
Qed.

Lemma touch_ok : forall s, r_freed s = 0 -> r_bad s = false -> r_bad s || negb (Nat.eqb (r_freed s) 0) = false.
Proof. intros s -> ->. reflexivity. Qed.

Lemma snappy_none : forall s t, RI s -> snappy (at_pc t s) = false.
Proof.
  intros s t H. destruct (snappy (at_pc t s)) eqn:E; [|reflexivity].
  assert (Ht : t < length (r_pcs s)) by (apply at_bound; intros Q; rewrite Q in E; discriminate E).
  pose proof (count_pos snappy (r_pcs s) t Ht E). pose proof (ri_no _ H). lia.
Qed.

Lemma rstep_RI : forall e s s', RI s -> plain e -> rstep e s = Some s' -> RI s'.
Proof.
  intros e s s' H He Hs.
  assert (Hnf : forall t, at_pc t s <> PIdle -> r_bad s || negb (Nat.eqb (r_freed s) 0) = false).
  { intros t Hp. pose proof (at_bound t s Hp) as Ht. apply touch_ok; [|apply (ri_ok _ H)].
    apply (not_freed s t H Ht). pose proof (snappy_none s t H) as Q. destruct (at_pc t s); cbn in Q |- *; try discriminate Q; try (contradiction Hp; reflexivity); auto. }
  destruct e as [t|t|t|t|t|t u|t|t|t|t|t|t|t]; cbn [plain] in He; try contradiction He; cbn [rstep] in Hs.
  - destruct (at_pc t s) eqn:Ep; try discriminate Hs. destruct (r_linked s) eqn:El; cbn [andb] in Hs; [|discriminate Hs].
    destruct (Nat.ltb_spec t (length (r_pcs s))) as [Ht|Ht]; [|discriminate Hs]. injection Hs as <-.
    use_counts s t PIdle PFound Ep Ht. open_ri H. close_ri.
  - destruct (at_pc t s) eqn:Ep; try discriminate Hs. injection Hs as <-.
    assert (Hb : at_pc t s <> PIdle) by congruence. pose proof (at_bound t s Hb) as Ht. pose proof (Hnf t Hb) as Hn.
    pose proof (not_freed s t H Ht ltac:(rewrite Ep; cbn; auto)) as Hf.
    pose proof (count_pos noded (r_pcs s) t Ht ltac:(unfold at_pc in Ep; rewrite Ep; reflexivity)) as Hc.
    use_counts s t PFound (PLock true) Ep Ht. open_ri H. close_ri.
  - destruct (at_pc t s) as [| |b| | | | | | | | |c| | | | | | |c| |] eqn:Ep; try discriminate Hs. destruct (locked s); [discriminate Hs|]. injection Hs as <-.
    assert (Hb : at_pc t s <> PIdle) by congruence. pose proof (at_bound t s Hb) as Ht. pose proof (Hnf t Hb) as Hn.
    pose proof (count_pos holds (r_pcs s) t Ht ltac:(unfold at_pc in Ep; rewrite Ep; reflexivity)) as Hc.
    destruct b.
    + use_counts s t (PLock true) PNode Ep Ht. open_ri H. close_ri.
    + use_counts s t (PLock false) PHold Ep Ht. open_ri H. close_ri.
  - destruct (at_pc t s) eqn:Ep; try discriminate Hs.
    + injection Hs as <-. assert (Hb : at_pc t s <> PIdle) by congruence. pose proof (at_bound t s Hb) as Ht. pose proof (Hnf t Hb) as Hn.
      pose proof (count_pos noded (r_pcs s) t Ht ltac:(unfold at_pc in Ep; rewrite Ep; reflexivity)) as Hc.
      use_counts s t PNode PHold Ep Ht. open_ri H. close_ri.
    + pose proof (snappy_none s t H) as Q. rewrite Ep in Q. discriminate Q.
  - destruct (at_pc t s) eqn:Ep; try discriminate Hs. destruct (at_pc u s) eqn:Eu; try discriminate Hs.
    destruct (Nat.ltb_spec u (length (r_pcs s))) as [Hu|Hu]; [|discriminate Hs]. injection Hs as <-.
    assert (Hb : at_pc t s <> PIdle) by congruence. pose proof (at_bound t s Hb) as Ht. pose proof (Hnf t Hb) as Hn.
    pose proof (count_pos holds (r_pcs s) t Ht ltac:(unfold at_pc in Ep; rewrite Ep; reflexivity)) as Hc.
    use_counts s u PIdle (PLock false) Eu Hu. open_ri H. close_ri.
  - destruct (at_pc t s) eqn:Ep; try discriminate Hs. destruct (r_removed s) eqn:Er; [discriminate Hs|]. injection Hs as <-.
    assert (Hb : at_pc t s <> PIdle) by congruence. pose proof (at_bound t s Hb) as Ht. pose proof (Hnf t Hb) as Hn.
    use_counts s t PHold PRm1 Ep Ht. open_ri H. close_ri.
  - destruct (at_pc t s) eqn:Ep; try discriminate Hs. injection Hs as <-.
    assert (Hb : at_pc t s <> PIdle) by congruence. pose proof (at_bound t s Hb) as Ht. pose proof (Hnf t Hb) as Hn.
    pose proof (count_pos rming (r_pcs s) t Ht ltac:(unfold at_pc in Ep; rewrite Ep; reflexivity)) as Hc.
    use_counts s t PRm1 PRm2 Ep Ht. open_ri H.
    assert (Er : r_removed s = true) by (destruct (r_removed s) eqn:Er; [reflexivity|]; destruct (Hri_know eq_refl); lia).
    close_ri.
  - destruct (at_pc t s) eqn:Ep; try discriminate Hs. destruct (Nat.eqb_spec (r_nodes s) 0) as [En|En]; [|discriminate Hs]. injection Hs as <-.
    assert (Hb : at_pc t s <> PIdle) by congruence. pose proof (at_bound t s Hb) as Ht. pose proof (Hnf t Hb) as Hn.
    pose proof (count_pos rming (r_pcs s) t Ht ltac:(unfold at_pc in Ep; rewrite Ep; reflexivity)) as Hc.
    pose proof (ri_un _ H (count_pos unlinked (r_pcs s) t Ht ltac:(unfold at_pc in Ep; rewrite Ep; reflexivity))) as El.
    use_counts s t PRm2 PHold Ep Ht. open_ri H. close_ri.
  - assert (Hb : at_pc t s <> PIdle) by (intros Q; rewrite Q in Hs; discriminate Hs).
    pose proof (at_bound t s Hb) as Ht. pose proof (Hnf t Hb) as Hn. pose proof (snappy_none s t H) as Q.
    destruct (at_pc t s) as [| |b| | | | | | | | |c| | | | | | |c| |] eqn:Ep; try discriminate Hs; try discriminate Q; injection Hs as <-.
    + pose proof (count_pos holds (r_pcs s) t Ht ltac:(unfold at_pc in Ep; rewrite Ep; reflexivity)) as Hc.
      destruct (r_removed s) eqn:Er.
      * use_counts s t PHold PDone1 Ep Ht. open_ri H. close_ri.
      * use_counts s t PHold PChk Ep Ht. open_ri H. close_ri.
    + pose proof (count_pos holds (r_pcs s) t Ht ltac:(unfold at_pc in Ep; rewrite Ep; reflexivity)) as Hc.
      rewrite (ri_snap _ H). use_counts s t PDone1 (PDone2 0) Ep Ht. open_ri H. close_ri.
    + destruct c as [|c]; [|discriminate Q].
      pose proof (count_pos holds (r_pcs s) t Ht ltac:(unfold at_pc in Ep; rewrite Ep; reflexivity)) as Hc.
      pose proof (count_pos knows (r_pcs s) t Ht ltac:(unfold at_pc in Ep; rewrite Ep; reflexivity)) as Hk.
      assert (Er : r_removed s = true) by (destruct (r_removed s) eqn:Er; [reflexivity|]; destruct (ri_know _ H Er); lia).
      change (Nat.eqb 0 0) with true. cbn [andb]. destruct (Nat.eqb_spec (r_ref s) 1) as [E1|E1].
      * assert (Erm : count rming (r_pcs s) = 0).
        { use_counts s t (PDone2 0) PDestroy Ep Ht. open_ri H.
          destruct (count rming (r_pcs s)) eqn:E; [reflexivity|]. exfalso.
          assert (count rming (upd t PDestroy (r_pcs s)) <= count holds (upd t PDestroy (r_pcs s))) by (apply count_le; intros []; cbn; congruence).
          lia. }
        destruct (ri_quiet _ H Er Erm) as [El En].
        use_counts s t (PDone2 0) PDestroy Ep Ht. open_ri H. close_ri.
      * use_counts s t (PDone2 0) PIdle Ep Ht. open_ri H. close_ri.
    + pose proof (count_pos holds (r_pcs s) t Ht ltac:(unfold at_pc in Ep; rewrite Ep; reflexivity)) as Hc.
      rewrite (ri_ev _ H). use_counts s t PChk PDec Ep Ht. open_ri H. close_ri.
    + pose proof (count_pos holds (r_pcs s) t Ht ltac:(unfold at_pc in Ep; rewrite Ep; reflexivity)) as Hc.
      use_counts s t PDec PIdle Ep Ht. open_ri H. close_ri.
  - destruct (at_pc t s) eqn:Ep; try discriminate Hs. rewrite (ri_ev _ H) in Hs. cbn [andb] in Hs. injection Hs as <-.
    assert (Hb : at_pc t s <> PIdle) by congruence. pose proof (at_bound t s Hb) as Ht. pose proof (Hnf t Hb) as Hn.
    pose proof (count_pos dying (r_pcs s) t Ht ltac:(unfold at_pc in Ep; rewrite Ep; reflexivity)) as Hc.
    use_counts s t PDestroy PIdle Ep Ht. open_ri H. close_ri.
Qed.

Lemma rruns_RI : forall es s s', RI s -> (forall e, In e es -> plain e) -> rruns es s = Some s' -> RI s'.
Proof.
  induction es as [|e es IH]; cbn [rruns]; intros s s' H Hp Hr; [injection Hr as <-; exact H|].
  destruct (rstep e s) as [s1|] eqn:E; [|discriminate Hr].
  apply (IH s1 s'); [apply (rstep_RI e s); [exact H|apply Hp; left; reflexivity|exact E]|intros e' He'; apply Hp; right; exact He'|exact Hr].
Qed.
Lemma rruns_app : forall a b s, rruns (a ++ b) s = match rruns a s with Some s' => rruns b s' | None => None end.
Proof. induction a as [|e a IH]; intros b s; cbn [app rruns]; [reflexivity|]. destruct (rstep e s); [apply IH|reflexivity]. Qed.

(** Never used after it was deleted, deleted at most once, and not while in use. *)
Theorem plain_safe : forall n es s, (forall e, In e es -> plain e) -> rruns es (r_new n) = Some s ->
  r_bad s = false /\ r_freed s <= 1 /\ forall t, in_use (at_pc t s) = true -> r_freed s = 0.
Proof.
  intros n es s Hp Hr. pose proof (rruns_RI es _ _ (new_RI n) Hp Hr) as H. split; [apply (ri_ok _ H)|]. split; [pose proof (ri_free _ H); lia|].
  intros t Hu. pose proof (snappy_none s t H) as Q.
  apply (not_freed s t H); [apply at_bound; intros E; rewrite E in Hu; discriminate Hu|].
  destruct (at_pc t s); cbn in Hu, Q |- *; try discriminate Hu; try discriminate Q; auto.
Qed.

(** Releasing it the other way. *)
Definition before (p : rpc) : bool := match p with PChk | PDec | PDecE | PPurge | PUnlock => true | _ => false end.
Record RL (s : rst) : Prop := mkRL {
  rl_rm : r_removed s = true;
  rl_before : count before (r_pcs s) = 0;
  rl_some : 1 <= r_freed s + count dying (r_pcs s) + r_ref s }.

Lemma rstep_RL : forall e s s', RI s -> RL s -> plain e -> rstep e s = Some s' -> RL s'.
Proof.
  intros e s s' H [Hr Hb Hs] He Est.
  assert (step : forall t p q f, at_pc t s = p -> t < length (r_pcs s) -> count f (upd t q (r_pcs s)) + b2n (f p) = count f (r_pcs s) + b2n (f q)).
  { intros t p q f Hp Ht. apply (counts s t p q Hp Ht). }
  assert (nb : forall t, before (at_pc t s) = false).
  { intros t. destruct (before (at_pc t s)) eqn:E; [|reflexivity].
    assert (Ht : t < length (r_pcs s)) by (apply at_bound; intros Q; rewrite Q in E; discriminate E).
    pose proof (count_pos before (r_pcs s) t Ht E). lia. }
  destruct e as [t|t|t|t|t|t u|t|t|t|t|t|t|t]; cbn [plain] in He; try contradiction He; cbn [rstep] in Est.
  - destruct (at_pc t s) eqn:Ep; try discriminate Est. destruct (r_linked s && _) eqn:El; [|discriminate Est]. injection Est as <-.
    apply andb_true_iff in El. destruct El as [_ El]. apply Nat.ltb_lt in El.
    pose proof (step t _ PFound before Ep El). pose proof (step t _ PFound dying Ep El). cbn [b2n before dying] in *.
    constructor; cbn [r_removed r_pcs r_freed r_ref]; [exact Hr|lia|lia].
  - destruct (at_pc t s) eqn:Ep; try discriminate Est. injection Est as <-.
    pose proof (at_bound t s ltac:(congruence)) as Ht.
    pose proof (step t _ (PLock true) before Ep Ht). pose proof (step t _ (PLock true) dying Ep Ht). cbn [b2n before dying] in *.
    constructor; cbn [go set_ref r_removed r_pcs r_freed r_ref]; [exact Hr|lia|lia].
  - destruct (at_pc t s) as [| |b| | | | | | | | |c| | | | | | |c| |] eqn:Ep; try discriminate Est. destruct (locked s); [discriminate Est|]. injection Est as <-.
    pose proof (at_bound t s ltac:(congruence)) as Ht.
    pose proof (step t _ (if b then PNode else PHold) before Ep Ht). pose proof (step t _ (if b then PNode else PHold) dying Ep Ht).
    constructor; cbn [go r_removed r_pcs r_freed r_ref]; [exact Hr|destruct b; cbn [b2n before dying] in *; lia|destruct b; cbn [b2n before dying] in *; lia].
  - pose proof (snappy_none s t H) as Q. destruct (at_pc t s) eqn:Ep; try discriminate Est; try discriminate Q. injection Est as <-.
    pose proof (at_bound t s ltac:(congruence)) as Ht.
    pose proof (step t _ PHold before Ep Ht). pose proof (step t _ PHold dying Ep Ht). cbn [b2n before dying] in *.
    constructor; cbn [go set_nodes r_removed r_pcs r_freed r_ref]; [exact Hr|lia|lia].
  - destruct (at_pc t s) eqn:Ep; try discriminate Est. destruct (at_pc u s) eqn:Eu; try discriminate Est.
    destruct (Nat.ltb_spec u (length (r_pcs s))) as [Hu|Hu]; [|discriminate Est]. injection Est as <-.
    pose proof (step u _ (PLock false) before Eu Hu). pose proof (step u _ (PLock false) dying Eu Hu). cbn [b2n before dying] in *.
    constructor; cbn [go set_ref r_removed r_pcs r_freed r_ref]; [exact Hr|lia|lia].
  - rewrite Hr in Est. destruct (at_pc t s); discriminate Est.
  - destruct (at_pc t s) eqn:Ep; try discriminate Est. injection Est as <-.
    pose proof (at_bound t s ltac:(congruence)) as Ht.
    pose proof (step t _ PRm2 before Ep Ht). pose proof (step t _ PRm2 dying Ep Ht). cbn [b2n before dying] in *.
    constructor; cbn [go set_flags r_removed r_pcs r_freed r_ref]; [exact Hr|lia|lia].
  - destruct (at_pc t s) eqn:Ep; try discriminate Est. destruct (Nat.eqb _ _); [|discriminate Est]. injection Est as <-.
    pose proof (at_bound t s ltac:(congruence)) as Ht.
    pose proof (step t _ PHold before Ep Ht). pose proof (step t _ PHold dying Ep Ht). cbn [b2n before dying] in *.
    constructor; cbn [go r_removed r_pcs r_freed r_ref]; [exact Hr|lia|lia].
  - pose proof (nb t) as Q. pose proof (snappy_none s t H) as Q2.
    destruct (at_pc t s) as [| |b| | | | | | | | |c| | | | | | |c| |] eqn:Ep; try discriminate Est; try discriminate Q; try discriminate Q2; injection Est as <-; pose proof (at_bound t s ltac:(congruence)) as Ht.
    + rewrite Hr. pose proof (step t _ PDone1 before Ep Ht). pose proof (step t _ PDone1 dying Ep Ht). cbn [b2n before dying] in *.
      constructor; cbn [go r_removed r_pcs r_freed r_ref]; [exact Hr|lia|lia].
    + pose proof (step t _ (PDone2 (r_snap s)) before Ep Ht). pose proof (step t _ (PDone2 (r_snap s)) dying Ep Ht). cbn [b2n before dying] in *.
      constructor; cbn [go r_removed r_pcs r_freed r_ref]; [exact Hr|lia|lia].
    + destruct c as [|c]; [|discriminate Q2]. change (Nat.eqb 0 0) with true. cbn [andb].
      pose proof (count_pos holds (r_pcs s) t Ht ltac:(unfold at_pc in Ep; rewrite Ep; reflexivity)) as Hc. pose proof (ri_ref _ H) as Hf.
      destruct (Nat.eqb_spec (r_ref s) 1) as [E1|E1].
      * pose proof (step t _ PDestroy before Ep Ht). pose proof (step t _ PDestroy dying Ep Ht). cbn [b2n before dying] in *.
        constructor; cbn [go set_ref r_removed r_pcs r_freed r_ref]; [exact Hr|lia|lia].
      * pose proof (step t _ PIdle before Ep Ht). pose proof (step t _ PIdle dying Ep Ht). cbn [b2n before dying] in *.
        constructor; cbn [go set_ref r_removed r_pcs r_freed r_ref]; [exact Hr|lia|lia].
  - destruct (at_pc t s) eqn:Ep; try discriminate Est. destruct (_ && _); [discriminate Est|]. injection Est as <-.
    pose proof (at_bound t s ltac:(congruence)) as Ht.
    pose proof (step t _ PIdle before Ep Ht). pose proof (step t _ PIdle dying Ep Ht). cbn [b2n before dying] in *.
    constructor; cbn [r_removed r_pcs r_freed r_ref]; [exact Hr|lia|lia].
Qed.

(** If no release had read "not removed" without having decremented, when the file was marked as
    removed, then the last release deletes it. *)
Theorem plain_freed : forall n es1 t es2 s1 s,
  (forall e, In e (es1 ++ ERm t :: es2) -> plain e) ->
  rruns es1 (r_new n) = Some s1 -> (forall u, before (at_pc u s1) = false) ->
  rruns (ERm t :: es2) s1 = Some s -> (forall u, at_pc u s = PIdle) -> r_freed s = 1.
Proof.
  intros n es1 t es2 s1 s Hp H1 Hb H2 Hi.
  pose proof (rruns_RI es1 _ _ (new_RI n) (fun e He => Hp e (in_or_app _ _ _ (or_introl He))) H1) as I1.
  cbn [rruns] in H2. destruct (rstep (ERm t) s1) as [s2|] eqn:E; [|discriminate H2].
  assert (I2 : RI s2) by (apply (rstep_RI (ERm t) s1 s2 I1); [exact I|exact E]).
  assert (L2 : RL s2).
  { cbn [rstep] in E. destruct (at_pc t s1) eqn:Ep; try discriminate E. destruct (r_removed s1); [discriminate E|]. injection E as <-.
    pose proof (at_bound t s1 ltac:(congruence)) as Ht. pose proof (counts s1 t _ PRm1 Ep Ht before) as C. cbn [b2n before] in C.
    pose proof (count_pos holds (r_pcs s1) t Ht ltac:(unfold at_pc in Ep; rewrite Ep; reflexivity)) as Hc. pose proof (ri_ref _ I1) as Hf.
    constructor; cbn [go set_flags r_removed r_pcs r_freed r_ref]; [reflexivity| |lia].
    assert (Hz : count before (r_pcs s1) = 0) by (apply count_zero; intros u _; apply Hb). lia. }
  assert (P2 : forall e, In e es2 -> plain e) by (intros e He; apply Hp; apply in_or_app; right; right; exact He).
  clear I1 E H1 Hb Hp. revert s2 H2 I2 L2. induction es2 as [|e es2 IH]; cbn [rruns]; intros s2 H2 I2 L2.
  - injection H2 as <-. pose proof (ri_ref _ I2) as Hr. pose proof (ri_free _ I2) as Hf. destruct L2 as [_ _ Hs].
    assert (Z1 : count holds (r_pcs s2) = 0) by (apply count_zero; intros u _; specialize (Hi u); unfold at_pc in Hi; rewrite Hi; reflexivity).
    assert (Z2 : count dying (r_pcs s2) = 0) by (apply count_zero; intros u _; specialize (Hi u); unfold at_pc in Hi; rewrite Hi; reflexivity).
    lia.
  - destruct (rstep e s2) as [s3|] eqn:E3; [|discriminate H2].
    apply (IH ltac:(intros e' He'; apply P2; right; exact He') s3 H2).
    + apply (rstep_RI e s2 s3 I2); [apply P2; left; reflexivity|exact E3].
    + apply (rstep_RL e s2 s3 I2 L2); [apply P2; left; reflexivity|exact E3].
Qed.
