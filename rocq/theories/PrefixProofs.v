(** Prefix search (proofs; statements in PrefixProps.v). *)
From Verif Require Import Base KeyModel KeyProofs LogFormatModel BloomModel MemTableModel MemTableProofs
  LogMgrModel LogMgrProofs LogMgrProofs2 DbModel DbProofs LsmModel LsmProofs LsmProofs2 LsmProofs5 FullModel FullProofs
  IterModel IterSpec IterProofs LeafIterModel LeafIterProofs DbIterModel DbIterProofs DbIterProofs3 DbIterProofs4 DbIterProofs5 NearestProofs PrefixModel PrefixSpec.
From Coq Require Import Sorted Lia.
Local Open Scope N_scope.

Lemma starts_ge : forall p k, starts p k = true -> kle p k.
Proof.
  induction p as [|a p IH]; intros k H; [apply kle_nil|]. destruct k as [|b k]; [discriminate|]. cbn [starts] in H. apply andb_true_iff in H as [E H]. apply N.eqb_eq in E. subst b.
  unfold kle. cbn [kcmp]. rewrite N.compare_refl. exact (IH k H).
Qed.
Lemma starts_between : forall p k k', kle p k -> kle k k' -> starts p k' = true -> starts p k = true.
Proof.
  induction p as [|a p IH]; intros k k' H1 H2 H; [reflexivity|]. destruct k' as [|b k']; [discriminate|]. cbn [starts] in H. apply andb_true_iff in H as [E H]. apply N.eqb_eq in E. subst b.
  destruct k as [|c k]; [unfold kle in H1; cbn in H1; congruence|]. unfold kle in H1, H2. cbn [kcmp] in H1, H2. cbn [starts].
  destruct (N.compare_spec a c) as [->|L|L]; [|rewrite (proj2 (N.compare_gt_iff _ _) L) in H2; congruence|congruence]. rewrite N.compare_refl in H2. rewrite N.eqb_refl. cbn [andb]. exact (IH k k' H1 H2 H).
Qed.

(** The prefix keys of a sorted list are those passed before the first other key. *)
Lemma while_spec : forall p l, StronglySorted klt_rec l -> (forall r, In r l -> kle p (r_key r)) -> forall r, In r (while_prefix p l) <-> In r l /\ starts p (r_key r) = true.
Proof.
  intros p. induction l as [|x l IH]; intros Hs Hp r; [cbn; tauto|]. cbn [while_prefix]. destruct (starts p (r_key x)) eqn:E.
  - pose proof Hs as Hs'. apply StronglySorted_inv in Hs' as [Hs' _]. specialize (IH Hs' (fun r Hr => Hp r (or_intror Hr)) r). cbn [In]. rewrite IH. split; [intros [->|[A B]]; auto|intros [[->|A] B]; auto].
  - split; [intros []|]. intros [[->|A] B]; [congruence|]. exfalso. enough (Q : starts p (r_key x) = true) by congruence. apply (starts_between p _ (r_key r)); [apply Hp; now left| |exact B]. apply klt_kle. exact (ss_in _ _ _ _ Hs r A).
Qed.
Lemma drop_less_spec : forall p l, StronglySorted klt_rec l -> StronglySorted klt_rec (drop_less p l) /\ forall r, In r (drop_less p l) <-> In r l /\ kle p (r_key r).
Proof.
  intros p. induction l as [|x l IH]; intros Hs; [split; [exact Hs|cbn; tauto]|]. cbn [drop_less]. destruct (kltb (r_key x) p) eqn:E.
  - apply kltb_true in E. pose proof Hs as Hs'. apply StronglySorted_inv in Hs' as [Hs' _]. destruct (IH Hs') as [A B]. split; [exact A|]. intros r. rewrite B. cbn [In]. split; [tauto|]. intros [[->|C] D]; [destruct (proj1 (kle_not_lt _ _) D E)|auto].
  - apply kltb_false in E. split; [exact Hs|]. intros r. split; [|tauto]. intros Hr. split; [exact Hr|]. destruct Hr as [<-|Hr]; [exact E|]. apply klt_kle. eapply kle_klt_trans; [exact E|]. exact (ss_in _ _ _ _ Hs r Hr).
Qed.
Lemma doc_prefix_spec : forall p l, docs_ok l -> forall r, In r (doc_prefix p l) <-> In r l /\ starts p (r_key r) = true.
Proof.
  intros p l Hs r. destruct (drop_less_spec p l Hs) as [A B]. unfold doc_prefix. rewrite (while_spec p _ A); [|intros x Hx; now apply B]. rewrite B. split; [tauto|]. intros [C D]. split; [split; [exact C|now apply starts_ge]|exact D].
Qed.

(** At most one table of the level other than the one the prefix belongs to has a minimum key with
    the prefix. *)
Definition two_tables (p : key) (ts : list tbl) : Prop :=
  forall t u, In t ts -> In u ts -> starts p (b_min t) = true -> starts p (b_min u) = true -> klt p (b_min t) -> klt p (b_min u) -> b_min t = b_min u.

Lemma tables_prefix_incl : forall p ts t, In t (tables_prefix p ts) -> In t ts.
Proof.
  intros p ts t H. destruct (from_floor_spec p ts) as (pre & E & _). rewrite E. apply in_or_app. right. unfold tables_prefix in H. destruct (from_floor p ts) as [|x rest]; [destruct H|].
  destruct H as [->|H]; [now left|]. right. destruct rest as [|u rest]; [destruct H|]. destruct (starts p (b_min u)); [|destruct H]. destruct H as [->|[]]. now left.
Qed.
Lemma level_prefix : forall p ts t d, lvl_ok ts -> two_tables p ts -> In t ts -> In d (b_docs t) -> starts p (r_key d) = true -> In t (tables_prefix p ts).
Proof.
  intros p ts t d Hok H2 Ht Hd Sd. destruct (from_floor_spec p ts) as (pre & E & Hne & Hpre). pose proof (starts_ge _ _ Sd) as Ld.
  assert (Hgt : forall x u rest, from_floor p ts = x :: u :: rest -> klt p (b_min u)).
  { clear -Hok. destruct Hok as [Hs _]. induction ts as [|y ts IH]; [discriminate|]. intros x u rest. cbn [from_floor]. destruct ts as [|z ts]; [discriminate|]. destruct (kleb (b_min z) p) eqn:E; [apply IH; now apply StronglySorted_inv in Hs|].
    intros Q. injection Q as <- <- <-. now apply kleb_false. }
  unfold tables_prefix. destruct (from_floor p ts) as [|x rest] eqn:Ef; [destruct Hne; [intros ->; destruct Ht|reflexivity]|].
  destruct (min_gap ts pre x rest Hok E) as (G1 & G2 & G3).
  assert (Ht' := Ht). rewrite E in Ht'. apply in_app_iff in Ht' as [Hp|[->|Hr]]; [|now left|].
  - exfalso. destruct Hpre as [->|(a & b & Q & La)]; [destruct Hp|]. injection Q as <- <-. specialize (G1 t d Hp Hd). apply (proj1 (kle_not_lt _ _) Ld). eapply klt_kle_trans; eauto.
  - right. destruct rest as [|u rest]; [destruct Hr|]. specialize (Hgt x u rest eq_refl).
    assert (Iu : In u ts) by (rewrite E; apply in_or_app; right; right; now left).
    destruct (proj2 Hok t Ht) as [_ Rt]. destruct (Rt d Hd) as [R1 _].
    assert (Lut : kle (b_min u) (b_min t)). { destruct Hr as [<-|Hr]; [apply kle_refl|]. destruct Hok as [Hs _]. rewrite E in Hs. apply ss_app in Hs as (_ & Hs & _). apply StronglySorted_inv in Hs as [Hs _]. apply klt_kle. exact (ss_in _ _ _ _ Hs t Hr). }
    assert (Lt : klt p (b_min t)) by (eapply klt_kle_trans; eauto).
    assert (Su : starts p (b_min u) = true). { apply (starts_between p _ (r_key d)); [now apply klt_kle|eapply kle_trans; eauto|exact Sd]. }
    assert (St : starts p (b_min t) = true). { apply (starts_between p _ (r_key d)); [now apply klt_kle|exact R1|exact Sd]. }
    rewrite Su. left. pose proof (H2 u t Iu Ht Su St Hgt Lt) as Em. destruct Hr as [Hr|Hr]; [exact Hr|]. exfalso. destruct Hok as [Hs _]. rewrite E in Hs. apply ss_app in Hs as (_ & Hs & _). apply StronglySorted_inv in Hs as [Hs _].
    pose proof (ss_in _ _ _ _ Hs t Hr) as Q. unfold min_lt in Q. rewrite Em in Q. exact (klt_irrefl _ Q).
Qed.

Section Hash.
Variable hash : key -> N * N.
Variable part : key -> N.

Lemma tab_prefix_spec : forall c R s p, LI hash part c R s -> (forall ts, In ts (l_up s) -> two_tables p ts) ->
  forall r, In r (tab_prefix p s) <-> in_tabs s r /\ starts p (r_key r) = true.
Proof.
  intros c R s p HI H2 r. unfold tab_prefix. rewrite in_flat_map. split.
  - intros (t & Ht & Hr). apply in_app_iff in Ht as [Ht|Ht].
    + apply doc_prefix_spec in Hr; [|apply (z_mem _ _ _ (li_zero _ _ _ _ _ HI) t Ht)]. split; [|tauto]. left. exists t. tauto.
    + apply in_flat_map in Ht as (ts & Hts & Ht). apply tables_prefix_incl in Ht. apply doc_prefix_spec in Hr; [|apply (proj2 (li_up _ _ _ _ _ HI ts Hts) t Ht)]. split; [|tauto]. right. exists ts. split; [exact Hts|]. exists t. tauto.
  - intros [[(t & Ht & Hr)|(ts & Hts & t & Ht & Hr)] Sr].
    + exists t. split; [apply in_or_app; now left|]. apply doc_prefix_spec; [apply (z_mem _ _ _ (li_zero _ _ _ _ _ HI) t Ht)|now split].
    + exists t. split; [apply in_or_app; right; apply in_flat_map; exists ts; split; [exact Hts|]; exact (level_prefix p ts t r (li_up _ _ _ _ _ HI ts Hts) (H2 ts Hts) Ht Hr Sr)|].
      apply doc_prefix_spec; [apply (proj2 (li_up _ _ _ _ _ HI ts Hts) t Ht)|now split].
Qed.

(** The loop over the log iterator. *)
Lemma log_walk_spec : forall p M (Ls : nat -> list rec) fuel m i, Inv mki x_get ByKey true false RX Ls m M i -> (length M < fuel + i)%nat -> log_walk fuel p m = Some (while_prefix p (skipn i M)).
Proof.
  intros p M Ls. induction fuel as [|fuel IH]; intros m i HI Hf.
  - pose proof (inv_get _ _ _ _ _ _ _ _ _ _ HI) as G. assert (i < length M)%nat by (apply nth_error_Some; rewrite G; discriminate). lia.
  - pose proof (inv_get _ _ _ _ _ _ _ _ _ _ HI) as G. cbn [log_walk]. cbv zeta. rewrite (skipn_nth M i _ G). cbn [while_prefix]. destruct (starts p (r_key (m_get mki x_get m))); [|reflexivity].
    destruct (m_next_spec mki x_get x_next x_prev x_seek x_to_end ByKey true false RX rx_get (fun _ => rx_next) (fun H => False_rect _ (diff_false_true H)) Ls eq_refl m M i HI) as (m' & -> & HI' & _).
    destruct (Nat.ltb_spec (S i) (length M)) as [L|L].
    + rewrite (IH m' (S i) HI') by lia. reflexivity.
    + now rewrite skipn_all2.
Qed.

Lemma log_prefix_spec : forall n0 pre h pt F g p, GI hash n0 pre (h ++ pt) F g -> lastseq (h ++ pt) + 1 < NIL -> F <= lastseq h ->
  (pt = [] /\ g_bar g = 0) \/ (h <> [] /\ g_bar g = lastseq h) ->
  exists n a, (forall fuel, (n <= fuel)%nat -> log_prefix fuel p g = Some a) /\
    (forall r, In r a -> In r h /\ is_cmd r = false /\ F < r_seq r /\ starts p (r_key r) = true) /\
    (forall r, last_write h (r_key r) = Some r -> F < r_seq r -> starts p (r_key r) = true -> In r a).
Proof.
  intros n0 pre h pt F g p HG Hl HF HB.
  destruct (log_leaves_spec hash n0 pre h pt F g p [] HG Hl HF HB) as (ls & El & Q1 & Q2 & Q3).
  assert (Hs : sorted_seq h). { pose proof (gi_asc _ _ _ _ _ _ HG) as S0. unfold sorted_seq in *. rewrite map_app in S0. apply SS_app_inv in S0. tauto. }
  assert (Rg : forall k, in_range p [] k = true <-> kle p k) by (intros k; unfold in_range; cbn [is_nil orb]; rewrite andb_true_r; apply kleb_true).
  set (al := flat_map x_list ls). set (M := newest_of ByKey al).
  assert (U : uniq ByKey al).
  { intros x y Hx Hy _ _ E. apply in_flat_map in Hx as (a & A1 & A2). apply in_flat_map in Hy as (b & B1 & B2). apply (sorted_seq_inj h); [exact Hs|apply (Q2 a x A1 A2)|apply (Q2 b y B1 B2)|exact E]. }
  destruct (newest_merged ByKey al U) as [Mc Mm]. fold M in Mc, Mm.
  exists (S (length M)), (while_prefix p M).
  assert (Ms : StronglySorted klt_rec M) by (exact (proj1 (csorted_ss ByKey M) Mc)).
  assert (Mp : forall r, In r M -> kle p (r_key r)). { intros r Hr. apply Mm in Hr as [Hr _]. apply in_flat_map in Hr as (x & X1 & X2). apply Rg. apply (Q2 x r X1 X2). }
  split; [|split].
  - intros fuel Hf. unfold log_prefix, log_itr. rewrite El. assert (C : ls = [] \/ ls <> []) by (destruct ls; [now left|right; discriminate]). destruct C as [C|C]; [unfold M, al; rewrite C; reflexivity|].
    destruct (inner_init mki x_get x_seek ByKey true false RX rx_get x_list ls) as (m & -> & HI).
    + exact C.
    + intros x Hx. split; [apply (Q1 x Hx)|]. intros _ E. discriminate.
    + exact U.
    + rewrite (log_walk_spec p M (nth_list x_list ls) fuel m 0 HI) by lia. reflexivity.
  - intros r Hr. apply (while_spec p M Ms Mp) in Hr as [Hr Sr]. apply Mm in Hr as [Hr _]. apply in_flat_map in Hr as (x & X1 & X2). destruct (Q2 x r X1 X2) as (A & B & C & _). auto.
  - intros r R1 R2 R3. apply (while_spec p M Ms Mp). split; [|exact R3]. apply Mm. destruct (Q3 r R1 R2 ltac:(apply Rg; now apply starts_ge)) as (x & X1 & X2). split; [apply in_flat_map; eauto|].
    intros y Hy L1 L2 _. apply in_flat_map in Hy as (z & Z1 & Z2). destruct (Q2 z y Z1 Z2) as (Y1 & Y2 & _). rewrite <- newest_last_write in R1. apply (newest_le hash h NIL (r_key r) r Hs R1); [|reflexivity].
    apply filter_In. split; [exact Y1|]. assert (Ek : r_key y = r_key r) by (apply kle_antisym; [exact L1|exact L2]). now rewrite Ek, keqb_refl, Y2.
Qed.

Lemma feed_all : forall cb l seen, (forall x, cb x = false) -> feed cb seen l = (seen ++ l, false).
Proof.
  intros cb. induction l as [|r l IH]; intros seen H; cbn [feed]; [now rewrite app_nil_r|]. rewrite H. rewrite IH by exact H. now rewrite <- app_assoc.
Qed.

Theorem prefix_spec : forall c tc h f p, cfg_ok c -> tcfg_ok part tc -> freach hash part c tc h f -> (forall ts, In ts (l_up (fd_lsm f)) -> two_tables p ts) ->
  exists n L, (forall fuel cb, (n <= fuel)%nat -> (forall x, cb x = false) -> f_prefix fuel cb p f = Some (match L with [] => Fail KEY_NOT_FOUND | _ => Ok tt end, L)) /\
    (forall r, In r L -> In r h /\ is_cmd r = false /\ starts p (r_key r) = true /\ exists y, last_write h (r_key r) = Some y /\ In y L) /\
    (forall a y, last_write h a = Some y -> is_ins y = true -> starts p a = true -> In y L).
Proof.
  intros c tc h f p Cok Tok H H2. destruct (freach_both _ _ _ _ _ _ H) as [R1 R2].
  destruct (reach_inv hash c h _ Cok R1) as [(n0 & pre & F & pt & HG & Et & Hl & _ & HF & _ & HB)].
  destruct (lreach_inv hash part tc _ _ Tok R2) as [HI HV].
  assert (HB' : (pt = [] /\ g_bar (d_log (fd_db f)) = 0) \/ (h <> [] /\ g_bar (d_log (fd_db f)) = lastseq h)).
  { destruct (d_bat (fd_db f)) as [[todo done]|]; [right; destruct HB as [_ HB]; split; apply HB|left; exact HB]. }
  assert (Hs : sorted_seq h). { pose proof (gi_asc _ _ _ _ _ _ HG) as S0. unfold sorted_seq in *. rewrite map_app in S0. apply SS_app_inv in S0. tauto. }
  destruct (log_prefix_spec n0 pre h pt F _ p HG Hl HF HB') as (n & a & A0 & A1 & A2).
  set (R := d_tab (fd_db f)) in *. set (s := fd_lsm f) in *. set (b := tab_prefix p s).
  pose proof (tab_prefix_spec tc R s p HI H2) as B. fold b in B.
  assert (InR : forall d, in_tabs s d -> In d R /\ is_cmd d = false).
  { intros d [(t & Ht & Hd)|(ts & Hts & t & Ht & Hd)]; [exact (gd_docs _ _ _ _ (li_good0 _ _ _ _ _ HI t Ht) d Hd)|exact (gd_docs _ _ _ _ (li_good _ _ _ _ _ HI ts t Hts Ht) d Hd)]. }
  assert (Rin : forall r, In r R <-> In r h /\ r_seq r <= F) by (intros r; rewrite Et, filter_In; split; intros [X Y]; split; auto; lia).
  assert (HsR : sorted_seq R) by (rewrite Et; now apply sorted_seq_filter).
  assert (LW : forall k y, last_write h k = Some y -> In y h /\ r_key y = k /\ is_cmd y = false).
  { intros k y E. rewrite <- newest_last_write in E. apply newest_in in E. tauto. }
  assert (NW : forall k y, last_write h k = Some y -> r_seq y <= F -> newest_write R k = Some y).
  { intros k y E Ly. destruct (LW k y E) as (Y1 & Y2 & Y3). subst k. change (newest_write R (r_key y)) with (last_write R (r_key y)). apply (last_write_sorted hash); [exact HsR|now apply Rin|exact Y3|].
    intros z Hz Cz Kz. apply Rin in Hz as [Hz _]. rewrite <- newest_last_write in E. apply (newest_le hash h NIL (r_key y) y Hs E); [|reflexivity]. apply filter_In. split; [exact Hz|]. now rewrite Kz, keqb_refl, Cz. }
  (* the last write of a key is seen if it is live, or if some record of the key is in the tables *)
  assert (Seen : forall k y, last_write h k = Some y -> starts p k = true -> is_ins y = true \/ (exists d, in_tabs s d /\ r_key d = k) -> In y (a ++ b)).
  { intros k y E Sk Hy. destruct (LW k y E) as (Y1 & Y2 & Y3). subst k. apply in_or_app. destruct (N.le_gt_cases (r_seq y) F) as [Ly|Ly]; [right|left; now apply A2].
    apply B. split; [|exact Sk]. pose proof (NW _ _ E Ly) as Nw. destruct (HV (r_key y)) as [Q|[Q (z & Qz & Dz)]].
    - rewrite Nw in Q. exact (proj2 (view_some hash part tc R s _ y HI Q)).
    - exfalso. rewrite Nw in Qz. injection Qz as <-. destruct Hy as [Iy|(d & D1 & D2)].
      + unfold is_ins, is_del in *. apply N.eqb_eq in Iy, Dz. rewrite Iy in Dz. discriminate.
      + exact (view_none hash part tc R s _ HI (proj2 (proj2 Tok) _) Q d D1 D2). }
  exists n, (a ++ b). split; [|split].
  - intros fuel cb Hf Hcb. unfold f_prefix. rewrite (A0 fuel Hf). fold s. fold b. unfold prefix_end. rewrite (feed_all cb a [] Hcb). cbn [app]. rewrite (feed_all cb b a Hcb). destruct (a ++ b); reflexivity.
  - intros r Hr. assert (Hr' := Hr). assert (Q : In r h /\ is_cmd r = false /\ starts p (r_key r) = true).
    { apply in_app_iff in Hr as [Hr|Hr]; [destruct (A1 r Hr) as (X1 & X2 & _ & X3); auto|]. apply B in Hr as [X1 X2]. destruct (InR r X1) as [X3 X4]. apply Rin in X3. tauto. }
    destruct Q as (X1 & X2 & X3). repeat (split; [assumption|]). destruct (last_write h (r_key r)) as [y|] eqn:E.
    + exists y. split; [reflexivity|]. apply in_app_iff in Hr as [Hr|Hr]; [|apply (Seen _ y E X3); right; exists r; split; [now apply B in Hr|reflexivity]].
      destruct (A1 r Hr) as (_ & _ & Fr & _). destruct (LW _ _ E) as (Y1 & Y2 & Y3). assert (Ly : F < r_seq y).
      { enough (r_seq r <= r_seq y) by lia. rewrite <- newest_last_write in E. apply (newest_le hash h NIL (r_key r) y Hs E); [|reflexivity]. apply filter_In. split; [exact X1|]. now rewrite keqb_refl, X2. }
      apply in_or_app. left. apply A2; rewrite ?Y2; auto.
    + exfalso. unfold last_write in E. assert (Q := find_none _ _ E r). cbn beta in Q. rewrite keqb_refl, X2 in Q. cbn [negb andb] in Q. discriminate Q. now apply in_rev in X1.
  - intros k y E Iy Sk. apply (Seen k y E Sk). now left.
Qed.

(** A callback that stops: it has seen the records of the complete list up to the first one at
    which it stops, and the call succeeds. *)
Lemma feed_spec : forall cb l seen,
  (feed cb seen l = (seen ++ l, false) /\ forall x y, l = x ++ y -> x <> [] -> cb (seen ++ x) = false) \/
  exists x y, l = x ++ y /\ x <> [] /\ feed cb seen l = (seen ++ x, true) /\ cb (seen ++ x) = true /\ forall x' y', x = x' ++ y' -> x' <> [] -> y' <> [] -> cb (seen ++ x') = false.
Proof.
  intros cb. induction l as [|r l IH]; intros seen; cbn [feed].
  - left. rewrite app_nil_r. split; [reflexivity|]. intros x y E N. symmetry in E. apply app_eq_nil in E as [-> _]. congruence.
  - destruct (cb (seen ++ [r])) eqn:E.
    + right. exists [r], l. split; [reflexivity|]. split; [discriminate|]. split; [reflexivity|]. split; [exact E|]. intros x' y' Q N1 N2. destruct x' as [|u x']; [congruence|]. injection Q as -> Q. symmetry in Q. apply app_eq_nil in Q as [-> ->]. congruence.
    + destruct (IH (seen ++ [r])) as [[A B]|(x & y & A & N & B & C & D)].
      * left. rewrite A, <- app_assoc. split; [reflexivity|]. intros x y Q N. destruct x as [|u x]; [congruence|]. injection Q as <- Q. destruct x as [|v x]; [exact E|].
        specialize (B (v :: x) y Q ltac:(discriminate)). rewrite <- app_assoc in B. exact B.
      * right. exists (r :: x), y. rewrite A. split; [reflexivity|]. split; [discriminate|]. rewrite <- A. rewrite <- app_assoc in B, C. split; [exact B|]. split; [exact C|].
        intros x' y' Q N1 N2. destruct x' as [|u x']; [congruence|]. injection Q as <- Q. destruct x' as [|v x']; [exact E|]. specialize (D (v :: x') y' Q ltac:(discriminate) N2). rewrite <- app_assoc in D. exact D.
Qed.
Lemma feed_app : forall cb a b seen, feed cb seen (a ++ b) = (let '(s1, st) := feed cb seen a in if st then (s1, true) else feed cb s1 b).
Proof. intros cb. induction a as [|r a IH]; intros b seen; cbn [feed app]; [reflexivity|]. destruct (cb (seen ++ [r])); [reflexivity|apply IH]. Qed.
Theorem prefix_stop : forall fuel p f cb x L, f_prefix fuel (fun _ => false) p f = Some (x, L) ->
  exists y A, f_prefix fuel cb p f = Some (y, A) /\
   ((A = L /\ y = x /\ forall s t, L = s ++ t -> t <> [] -> s <> [] -> cb s = false) \/
    (exists B, L = A ++ B /\ y = Ok tt /\ cb A = true /\ forall s t, A = s ++ t -> s <> [] -> t <> [] -> cb s = false)).
Proof.
  intros fuel p f cb x L E. unfold f_prefix in *. destruct (log_prefix fuel p (d_log (fd_db f))) as [log|]; [|discriminate]. set (tab := tab_prefix p (fd_lsm f)) in *. clearbody tab.
  assert (EL : L = log ++ tab /\ x = match log ++ tab with [] => Fail KEY_NOT_FOUND | _ => Ok tt end).
  { unfold prefix_end in E. rewrite (feed_all _ log [] ltac:(reflexivity)) in E. cbn [app] in E. rewrite (feed_all _ tab log ltac:(reflexivity)) in E. split; congruence. }
  destruct EL as [-> ->]. clear E.
  assert (P : exists st, feed cb [] (log ++ tab) = (snd (prefix_end cb log tab), st) /\ fst (prefix_end cb log tab) = match snd (prefix_end cb log tab) with [] => Fail KEY_NOT_FOUND | _ => Ok tt end).
  { rewrite feed_app. unfold prefix_end. destruct (feed cb [] log) as [s1 [|]] eqn:E1.
    - exists true. split; [reflexivity|]. cbn [fst snd]. destruct (feed_spec cb log []) as [[Q _]|(u & v & _ & N & Q & _)]; rewrite Q in E1; [discriminate|]. injection E1 as <-. cbn [app]. destruct u; [congruence|reflexivity].
    - destruct (feed cb s1 tab) as [s2 st]. exists st. split; reflexivity. }
  destruct P as (st & P1 & P2). exists (fst (prefix_end cb log tab)), (snd (prefix_end cb log tab)). split; [now destruct (prefix_end cb log tab)|].
  destruct (feed_spec cb (log ++ tab) []) as [[Q1 Q2]|(u & v & Q1 & N & Q2 & Q3 & Q4)].
  - rewrite Q1 in P1. injection P1 as P1 _. cbn [app] in P1. left. rewrite P2, <- P1. split; [reflexivity|]. split; [reflexivity|]. intros s t Q _ Ns. exact (Q2 s t Q Ns).
  - rewrite Q2 in P1. injection P1 as P1 _. cbn [app] in P1, Q3, Q4. right. exists v. rewrite P2, <- P1. split; [exact Q1|]. split; [destruct u; [congruence|reflexivity]|]. split; [exact Q3|]. exact Q4.
Qed.
End Hash.

Lemma starts_iff : forall p k, starts p k = true <-> prefix_of p k.
Proof.
  induction p as [|a p IH]; intros k; [split; [intros _; now exists k|reflexivity]|]. destruct k as [|b k]; [split; [discriminate|intros [t E]; discriminate]|]. cbn [starts]. rewrite andb_true_iff, N.eqb_eq, IH. split.
  - intros [-> [t ->]]. now exists t.
  - intros [t E]. injection E as -> ->. split; [reflexivity|now exists t].
Qed.
Lemma two_hold : forall p ts, two_tables_hold p ts -> two_tables p ts.
Proof.
  intros p ts H t u Ht Hu St Su Lt Lu. apply starts_iff in St, Su. apply (H t u Ht Hu St Su); intros E; [rewrite E in Lt; exact (klt_irrefl _ Lt)|rewrite E in Lu; exact (klt_irrefl _ Lu)].
Qed.
Theorem prefix_search : forall hash part c tc h f p, cfg_ok c -> tcfg_ok part tc -> freach hash part c tc h f -> (forall ts, In ts (l_up (fd_lsm f)) -> two_tables_hold p ts) ->
  exists n L, (forall fuel cb, (n <= fuel)%nat -> (forall x, cb x = false) -> f_prefix fuel cb p f = Some (match L with [] => Fail KEY_NOT_FOUND | _ => Ok tt end, L)) /\
    (forall r, In r L -> In r h /\ is_cmd r = false /\ prefix_of p (r_key r) /\ exists y, last_write h (r_key r) = Some y /\ In y L) /\
    (forall a y, last_write h a = Some y -> is_ins y = true -> prefix_of p a -> In y L).
Proof.
  intros hash part c tc h f p Cok Tok H H2. destruct (prefix_spec hash part c tc h f p Cok Tok H (fun ts Hts => two_hold p ts (H2 ts Hts))) as (n & L & A & B & C).
  exists n, L. split; [exact A|]. split.
  - intros r Hr. destruct (B r Hr) as (X1 & X2 & X3 & X4). apply starts_iff in X3. auto.
  - intros a y E Iy Pa. apply (C a y E Iy). now apply starts_iff.
Qed.
