(** Proofs about the repair of overlapping tables: executions and opening. *)
From Coq Require Import List NArith Bool Lia Arith Sorted.
From Verif Require Import Base LogFormatModel KeyModel KeyProofs BloomModel BloomProofs MemTableModel LsmModel LsmProofs LsmProofs2 RepairModel RepairSpec RepairProofs RepairProofs2.
Import ListNotations.
Local Open Scope N_scope.

Lemma keeps_refl : forall purge l, keeps purge l l.
Proof. intros purge l k o H. now left. Qed.
Lemma keeps_trans : forall purge a b d, keeps purge a b -> keeps purge b d -> keeps purge a d.
Proof.
  intros purge a b d H1 H2 k o H. destruct (H2 k o H) as [Q|(P & -> & r & D & Q)]; [exact (H1 k o Q)|].
  destruct (H1 k (Some r) Q) as [W|(_ & W & _)]; [|discriminate]. right. split; [exact P|split; [reflexivity|]]. now exists r.
Qed.

Section Hash.
Variable hash : key -> N * N.
Variable c : tcfg.
Variable purge : bool.
Local Notation pstep := (pstep hash c purge).
Local Notation psteps := (psteps hash c purge).

(** [rs]: what is left to move from [t] to [v]. *)
Definition left_to (t v : tbl) (rs : list rec) : Prop :=
  docs_ok rs /\ (forall x, In x rs -> In x (b_docs t) /\ kle (b_min v) (r_key x)) /\
  forall x, In x (b_docs t) -> kle (b_min v) (r_key x) -> In x rs.
Record PI (l : list tbl) (p : prep) : Prop := {
  pi_ov : overlaps_next hash c (p_mem p);
  pi_se : moves_seen c (p_mem p);
  pi_mk : marked (p_fl p) (p_mem p);
  pi_kp : keeps purge l (p_mem p);
  pi_nf : newer_first l -> newer_first (p_mem p);
  pi_tv : exists t v, In t (p_mem p) /\ In v (p_mem p) /\ b_num t = p_tn p /\ b_num v = p_vn p /\ klt (b_min t) (b_min v) /\
          (forall u, In u (p_mem p) -> klt (b_min t) (b_min u) -> klt (b_min u) (b_min v) -> False) /\
          left_to t v (match p_pc p with PMove rs => rs | _ => [] end);
  pi_map : exists h, p_mem p = map h l /\ (forall u, b_num (h u) = b_num u) /\ forall u, b_num u <> p_tn p -> b_num u <> p_vn p -> h u = u;
  pi_disk : match p_pc p with
            | PMove _ | PSyncTarget => p_disk p = l
            | PSyncVictim => p_disk p = commit (p_tn p) (p_mem p) l
            | PClear | PDone => p_disk p = p_mem p
            end }.

Lemma both_commits : forall l h tn vn t v, NoDup (map b_num l) -> tn <> vn -> (forall u, b_num (h u) = b_num u) ->
  (forall u, b_num u <> tn -> b_num u <> vn -> h u = u) -> In t (map h l) -> In v (map h l) -> b_num t = tn -> b_num v = vn ->
  commit vn (map h l) (commit tn (map h l) l) = map h l.
Proof.
  intros l h tn vn t v Hn D Hb Hs Ht Hv Et Ev. assert (Hn2 : NoDup (map b_num (map h l))). { rewrite map_map. erewrite map_ext; [exact Hn|exact Hb]. }
  subst tn vn. unfold commit. rewrite (tbl_at_num _ t Hn2 Ht), (tbl_at_num _ v Hn2 Hv).
  unfold upd_tbl. rewrite map_map. apply map_ext_in. intros u Hu.
  assert (Hhu : In (h u) (map h l)) by now apply in_map.
  destruct (N.eqb_spec (b_num u) (b_num t)) as [E|E].
  - destruct (N.eqb_spec (b_num t) (b_num v)) as [F|F]; [congruence|]. apply (num_inj _ _ _ Hn2 Ht Hhu). rewrite Hb. congruence.
  - destruct (N.eqb_spec (b_num u) (b_num v)) as [F|F].
    + apply (num_inj _ _ _ Hn2 Hv Hhu). rewrite Hb. congruence.
    + symmetry. now apply Hs.
Qed.

Lemma pstep_inv : forall l p, NoDup (map b_num l) -> PI l p -> PI l (pstep p).
Proof.
  intros l p Hn H. pose proof (pi_tv l p H) as (t & v & Ht & Hv & Et & Ev & Htv & Hadj & R1 & R2 & R3). pose proof (pi_disk l p H) as Hd.
  pose proof (pi_map l p H) as (h & Hm & Hb & Hh). unfold RepairModel.pstep.
  destruct (p_pc p) as [[|r rs]| | | |] eqn:Epc.
  - constructor; cbn [p_mem p_disk p_fl p_tn p_vn p_pc]; try apply H.
    + exists t, v. do 6 (split; [assumption|]). split; [exact R1|split; assumption].
    + exact Hd.
  - destruct (R2 r (or_introl eq_refl)) as [Hr Hrv]. pose proof (pi_ov l p H) as Hov. pose proof (pi_se l p H) as Hse.
    assert (E : move_one hash c purge (p_tn p) (p_vn p) r (p_mem p) = map (mv hash purge (match tf_get hash c (r_key r) v with Ok rv => r_seq rv <? r_seq r | _ => true end) (b_num t) (b_num v) r) (p_mem p)).
    { rewrite <- Et, <- Ev. now apply move_is. }
    set (g := mv hash purge (match tf_get hash c (r_key r) v with Ok rv => r_seq rv <? r_seq r | _ => true end) (b_num t) (b_num v) r) in *.
    constructor; cbn [p_mem p_disk p_fl p_tn p_vn p_pc]; rewrite ?E.
    + now apply move_over.
    + now apply move_seen.
    + now apply move_marked; [..|apply H].
    + eapply keeps_trans; [apply H|]. now apply move_keeps.
    + intros Nf. apply move_newer; auto. now apply H.
    + exists (g t), (g v). split; [now apply in_map|]. split; [now apply in_map|]. unfold g. rewrite !mv_num, !mv_min. do 3 (split; [assumption|]). split.
      * intros u' Hu. apply in_map_iff in Hu as (u & <- & Hu). rewrite mv_min. now apply Hadj.
      * split; [now apply ss_tail in R1|split].
        -- intros x Hx. destruct (R2 x (or_intror Hx)) as [X1 X2]. rewrite mv_min. split; [|exact X2].
           apply docs_t with (l := p_mem p); auto. split; [exact X1|]. pose proof (ss_in _ _ _ _ R1 x Hx) as Q. unfold klt_rec in Q. intros W. rewrite W in Q. destruct (klt_irrefl _ Q).
        -- intros x Hx Hk. rewrite mv_min in Hk. apply docs_t with (l := p_mem p) in Hx as [X1 X2]; auto. destruct (R3 x X1 Hk) as [<-|Q]; [congruence|exact Q].
    + exists (fun u => g (h u)). split; [rewrite Hm; now rewrite map_map|]. split; [intros u; unfold g; rewrite mv_num; apply Hb|].
      intros u U1 U2. rewrite (Hh u U1 U2). unfold g, mv. rewrite Et, Ev. apply N.eqb_neq in U1, U2. now rewrite U2, andb_false_r, U1.
    + exact Hd.
  - constructor; cbn [p_mem p_disk p_fl p_tn p_vn p_pc]; try apply H.
    + exists t, v. do 6 (split; [assumption|]). split; [exact R1|split; assumption].
    + now rewrite Hd.
  - constructor; cbn [p_mem p_disk p_fl p_tn p_vn p_pc]; try apply H.
    + exists t, v. do 6 (split; [assumption|]). split; [exact R1|split; assumption].
    + rewrite Hd, Hm. apply (both_commits l h (p_tn p) (p_vn p) t v); auto; try (rewrite <- Hm; assumption).
      intros Q. assert (t = v). { apply (num_inj (p_mem p)); auto; [apply (pi_ov l p H)|congruence]. } subst v. destruct (klt_irrefl _ Htv).
  - constructor; cbn [p_mem p_disk p_fl p_tn p_vn p_pc]; try apply H.
    + intros x y q Hx Hy L Hq K. rewrite flagged_unflag. rewrite (pi_mk l p H x y q Hx Hy L Hq K). cbn [andb].
      destruct (N.eqb_spec (b_num y) (p_vn p)) as [Q|Q]; [exfalso|reflexivity].
      pose proof (pi_ov l p H) as (Hs & Hnn & _ & Hf). assert (y = v) by (apply (num_inj (p_mem p)); auto; congruence). subst y.
      destruct (ktrichotomy (b_min x) (b_min t)) as [W|[W|W]].
      * pose proof (Hf x t v q Hx Ht Hv W Htv Hq) as F. apply kle_not_lt in K. contradiction.
      * assert (x = t) by now apply (min_inj (p_mem p)). subst x. exact (R3 q Hq K).
      * exact (Hadj x Hx W L).
    + exists t, v. do 6 (split; [assumption|]). split; [exact R1|split; assumption].
    + exact Hd.
  - exact H.
Qed.
Lemma psteps_inv : forall l n p, NoDup (map b_num l) -> PI l p -> PI l (psteps n p).
Proof. intros l n. induction n as [|n IH]; intros p Hn H; [exact H|]. cbn [RepairModel.psteps]. apply IH; [exact Hn|]. now apply pstep_inv. Qed.

Lemma pbegin_inv : forall n fl l p, overlaps_next hash c l -> moves_seen c l -> marked fl l -> pbegin n fl l = Some p -> PI l p.
Proof.
  intros n fl l p Hov Hse Hm H. unfold pbegin in H. destruct (flagged fl n); [|discriminate]. destruct (tbl_at n l) as [v|] eqn:Ev; [|discriminate].
  apply tbl_at_in in Ev as [Hv Ev]. pose proof Hov as (Hs & Hn & Hk & _).
  destruct (before_spec n l None Hn v Hv Ev) as [(pre & t & post & El & B)|(post & El & B)]; rewrite B in H; [|discriminate]. injection H as <-.
  assert (Ht : In t l) by (rewrite El; apply in_app_iff; right; now left). pose proof Hs as Hs'. rewrite El in Hs. apply ss_app in Hs as (_ & S2 & S3).
  assert (Htv : klt (b_min t) (b_min v)) by (apply (ss_in _ _ _ _ S2); now left).
  constructor; cbn [p_mem p_disk p_fl p_tn p_vn p_pc]; auto.
  - apply keeps_refl.
  - exists t, v. do 2 (split; [assumption|]). split; [reflexivity|]. split; [exact Ev|]. split; [exact Htv|]. split.
    + intros u Hu L1 L2. rewrite El in Hu. apply in_app_iff in Hu as [Hu|[<-|[<-|Hu]]].
      * specialize (S3 u t Hu (or_introl eq_refl)). exact (klt_asym _ _ L1 S3).
      * exact (klt_irrefl _ L1).
      * exact (klt_irrefl _ L2).
      * apply ss_tail in S2. pose proof (ss_in _ _ _ _ S2 u Hu) as Q. exact (klt_asym _ _ L2 Q).
    + split; [apply ss_filter; apply (Hk t Ht)|]. split.
      * intros x Hx. apply filter_In in Hx as [X1 X2]. apply kleb_true in X2. now split.
      * intros x X1 X2. apply filter_In. split; [exact X1|]. now apply kleb_true.
  - exists (fun u => u). rewrite map_id. split; [reflexivity|]. split; reflexivity.
Qed.

(** ** Opening *)

Lemma add_tbl_last : forall t acc, (forall u, In u acc -> klt (b_min u) (b_min t)) -> add_tbl t acc = acc ++ [t].
Proof.
  intros t. induction acc as [|a acc IH]; intros H; cbn [add_tbl app]; [reflexivity|].
  assert (Q : kltb (b_min a) (b_min t) = true) by (apply kltb_true; apply H; now left). rewrite Q. f_equal. apply IH. intros u Hu. apply H. now right.
Qed.
Lemma open_tabs_spec : forall ts last acc fl, StronglySorted min_lt (acc ++ map with_min ts) ->
  fst (open_tabs last ts acc fl) = acc ++ map with_min ts /\
  (forall n, flagged fl n = true -> flagged (snd (open_tabs last ts acc fl)) n = true) /\
  (forall t ts', ts = t :: ts' -> real_min t <> [] -> kle (real_min t) last -> flagged (snd (open_tabs last ts acc fl)) (b_num t) = true) /\
  (forall pre x y post, ts = pre ++ x :: y :: post -> real_min y <> [] -> kle (real_min y) (max_key x) -> flagged (snd (open_tabs last ts acc fl)) (b_num y) = true).
Proof.
  induction ts as [|t ts IH]; intros last acc fl Hs; cbn [open_tabs map].
  - split; [now rewrite app_nil_r|]. split; [auto|]. split; [discriminate|]. intros pre x y post E. destruct pre; discriminate.
  - assert (A : add_tbl (with_min t) acc = acc ++ [with_min t]).
    { apply add_tbl_last. intros u Hu. apply ss_app in Hs as (_ & _ & Hs). apply (Hs u (with_min t) Hu). now left. }
    rewrite A. cbn [map] in Hs. assert (Hs' : StronglySorted min_lt ((acc ++ [with_min t]) ++ map with_min ts)) by (rewrite <- app_assoc; exact Hs).
    set (fl1 := if negb (is_nil (real_min t)) && kleb (real_min t) last then b_num t :: fl else fl).
    destruct (IH (max_key t) (acc ++ [with_min t]) fl1 Hs') as (I1 & I2 & I3 & I4).
    split; [rewrite I1, <- app_assoc; reflexivity|]. split; [|split].
    + intros n Hf. apply I2. unfold fl1. destruct (negb _ && _); [|exact Hf]. unfold flagged in *. cbn [existsb]. rewrite Hf. apply orb_true_r.
    + intros t' ts' E N K. injection E as <- <-. apply I2. unfold fl1. assert (Q : is_nil (real_min t) = false) by (destruct (real_min t); [congruence|reflexivity]).
      apply kleb_true in K. rewrite Q, K. cbn [negb andb]. unfold flagged. cbn [existsb]. now rewrite N.eqb_refl.
    + intros pre x y post E N K. destruct pre as [|a pre]; injection E as <- ->.
      * exact (I3 y post eq_refl N K).
      * exact (I4 pre x y post eq_refl N K).
Qed.
Lemma max_key_ge : forall t r, docs_ok (b_docs t) -> In r (b_docs t) -> kle (r_key r) (max_key t).
Proof.
  intros t r Hd Hr. unfold max_key. destruct (rev (b_docs t)) as [|m q] eqn:E.
  - apply (f_equal (@rev rec)) in E. rewrite rev_involutive in E. rewrite E in Hr. destruct Hr.
  - apply (f_equal (@rev rec)) in E. rewrite rev_involutive in E. cbn [rev] in E. rewrite E in Hr, Hd. apply in_app_iff in Hr as [Hr|[<-|[]]]; [|apply kle_refl].
    apply ss_app in Hd as (_ & _ & Hd). apply klt_kle. apply (Hd r m Hr). now left.
Qed.
Lemma open_marked : forall ts, overlaps_next hash c (map with_min ts) ->
  fst (open_level ts) = map with_min ts /\ marked (snd (open_level ts)) (map with_min ts).
Proof.
  intros ts (Hs & Hn & Hk & Hf). destruct (open_tabs_spec ts [] [] [] Hs) as (O1 & _ & _ & O4). split; [exact O1|].
  intros x' y' r Hx Hy L Hr K. apply in_map_iff in Hy as (y & Ey & Hy). pose proof Hy as Hy2. apply in_split in Hy2 as (l1 & l2 & El).
  assert (Hx2 := Hx). rewrite El, map_app in Hx2. cbn [map] in Hx2. assert (Hs2 := Hs). rewrite El, map_app in Hs2. cbn [map] in Hs2. apply ss_app in Hs2 as (_ & S2 & S3).
  apply in_app_iff in Hx2 as [Hx2|[Hx2|Hx2]].
  - destruct l1 as [|a l1] using rev_ind; [destruct Hx2|clear IHl1]. rewrite map_app in Hx2. cbn [map] in Hx2. apply in_app_iff in Hx2 as [Hx2|[Hx2|[]]].
    + exfalso. assert (Ha : In (with_min a) (map with_min ts)). { apply in_map. rewrite El. apply in_app_iff. left. apply in_app_iff. right. now left. }
      assert (Hy' : In y' (map with_min ts)). { rewrite <- Ey. now apply in_map. }
      assert (L1 : klt (b_min x') (b_min (with_min a))).
      { rewrite El, map_app, map_app in Hs. cbn [map] in Hs. apply ss_app in Hs as (Hs & _ & _). apply ss_app in Hs as (_ & _ & Hs). apply (Hs x' (with_min a) Hx2). now left. }
      assert (L2 : klt (b_min (with_min a)) (b_min y')). { rewrite <- Ey. apply (S3 (with_min a) (with_min y)); [rewrite map_app; apply in_app_iff; right; now left|now left]. }
      pose proof (Hf x' (with_min a) y' r Hx Ha Hy' L1 L2 Hr) as F. apply kle_not_lt in K. contradiction.
    + rewrite <- Ey. cbn [with_min b_num]. subst x' y'. cbn [with_min b_min b_docs] in *. apply (O4 l1 a y l2).
      * rewrite El, <- app_assoc. reflexivity.
      * intros Q. rewrite Q in L. destruct (real_min a); cbn in L; discriminate.
      * eapply kle_trans; [exact K|]. apply max_key_ge; [|exact Hr]. apply (Hk (with_min a) Hx).
  - subst x' y'. destruct (klt_irrefl _ L).
  - subst y'. pose proof (ss_in _ _ _ _ S2 x' Hx2) as Q. destruct (klt_asym _ _ L Q).
Qed.

Lemma with_min_version : forall k ts r, version k (map with_min ts) r <-> version k ts r.
Proof.
  intros k ts r. unfold version. split; intros (E & t & Ht & Hr); (split; [exact E|]).
  - apply in_map_iff in Ht as (u & <- & Hu). now exists u.
  - exists (with_min t). split; [now apply in_map|exact Hr].
Qed.
Lemma with_min_newest : forall k ts o, newest k (map with_min ts) o -> newest k ts o.
Proof.
  intros k ts [r|] H.
  - destruct H as [H1 H2]. split; [now apply with_min_version|]. intros r' Hr. apply H2. now apply with_min_version.
  - intros r Hr. apply (H r). now apply with_min_version.
Qed.

Lemma mended_inv : forall ts fl l, overlaps_next hash c (map with_min ts) -> moves_seen c (map with_min ts) -> mended hash c purge ts fl l ->
  overlaps_next hash c l /\ moves_seen c l /\ marked fl l /\ keeps purge ts l /\ (newer_first (map with_min ts) -> newer_first l).
Proof.
  intros ts fl l Ho Hse H. induction H as [|fl l n p i H IH Hp].
  - destruct (open_marked ts Ho) as [E M]. rewrite E. do 3 (split; [assumption|]). split; [|auto]. intros k o Q. left. now apply with_min_newest.
  - destruct IH as (I1 & I2 & I3 & I4 & I5). pose proof (pbegin_inv n fl l p I1 I2 I3 Hp) as J. apply (psteps_inv l i) in J; [|apply I1].
    split; [apply J|]. split; [apply J|]. split; [apply J|]. split; [eapply keeps_trans; [exact I4|apply J]|]. intros Q. apply (pi_nf l _ J). auto.
Qed.

Lemma mended_lookup : forall ts fl l k, overlaps_next hash c (map with_min ts) -> moves_seen c (map with_min ts) -> newer_first (map with_min ts) ->
  mended hash c purge ts fl l -> k <> [] ->
  exists o, lookup hash c fl k l = inl o /\ (newest k ts o \/ (purge = true /\ o = None /\ exists r, is_del r = true /\ newest k ts (Some r))).
Proof.
  intros ts fl l k Ho Hse Hnf H Hk. destruct (mended_inv ts fl l Ho Hse H) as (I1 & I2 & I3 & I4 & I5).
  destruct (lookup_newest hash c fl l k I1 I3 (I5 Hnf) Hk) as (o & O1 & O2). exists o. split; [exact O2|]. exact (I4 k o O1).
Qed.

(** Crash: the files are on disk as they were before the repair, or as they are after it. *)
Lemma crash_keeps : forall fl l n p i, overlaps_next hash c l -> moves_seen c l -> marked fl l -> pbegin n fl l = Some p ->
  p_pc (psteps i p) <> PSyncVictim ->
  overlaps_next hash c (p_disk (psteps i p)) /\ moves_seen c (p_disk (psteps i p)) /\ keeps purge l (p_disk (psteps i p)) /\
  (newer_first l -> newer_first (p_disk (psteps i p))).
Proof.
  intros fl l n p i Ho Hse Hm Hp Hpc. pose proof (pbegin_inv n fl l p Ho Hse Hm Hp) as J. apply (psteps_inv l i) in J; [|apply Ho].
  pose proof (pi_disk l _ J) as D. destruct (p_pc (psteps i p)); try congruence; rewrite D; try (split; [assumption|split; [assumption|split; [apply keeps_refl|auto]]]);
    (split; [apply J|split; [apply J|split; [apply J|apply J]]]).
Qed.

Lemma with_min_id : forall l, overlaps_next hash c l -> map with_min l = l.
Proof.
  intros l (_ & _ & H & _). rewrite <- (map_id l) at 2. apply map_ext_in. intros t Ht. destruct (H t Ht) as [_ G]. unfold with_min, real_min.
  destruct t as [n sr h m [|r d] b]; cbn [b_num b_src b_hash b_min b_docs b_bf] in *; [reflexivity|].
  destruct (G r (or_introl eq_refl)) as [G1 _]. apply kltb_false in G1. now rewrite G1, andb_false_r.
Qed.
Lemma crash_lookup : forall ts fl l n p i fl2 l2 k, overlaps_next hash c (map with_min ts) -> moves_seen c (map with_min ts) -> newer_first (map with_min ts) ->
  mended hash c purge ts fl l -> pbegin n fl l = Some p -> p_pc (psteps i p) <> PSyncVictim ->
  mended hash c purge (p_disk (psteps i p)) fl2 l2 -> k <> [] ->
  exists o, lookup hash c fl2 k l2 = inl o /\ (newest k ts o \/ (purge = true /\ o = None /\ exists r, is_del r = true /\ newest k ts (Some r))).
Proof.
  intros ts fl l n p i fl2 l2 k Ho Hse Hnf H Hp Hpc H2 Hk. destruct (mended_inv ts fl l Ho Hse H) as (I1 & I2 & I3 & I4 & I5).
  destruct (crash_keeps fl l n p i I1 I2 I3 Hp Hpc) as (C1 & C2 & C3 & C4). pose proof (with_min_id _ C1) as W.
  destruct (mended_lookup (p_disk (psteps i p)) fl2 l2 k) as (o & O1 & O2); auto; try (rewrite W; auto).
  exists o. split; [exact O1|]. pose proof (keeps_trans _ _ _ _ I4 C3) as K. destruct O2 as [O2|(P & -> & r & D & O2)]; [exact (K k o O2)|].
  destruct (K k (Some r) O2) as [Q|(_ & Q & _)]; [|discriminate]. right. split; [exact P|split; [reflexivity|now exists r]].
Qed.

(** A finished repair: the victim is no longer flagged, and no key of the table before it is in
    its range. *)
Lemma repair_done : forall fl l n p i, overlaps_next hash c l -> moves_seen c l -> marked fl l -> pbegin n fl l = Some p ->
  p_pc (psteps i p) = PDone -> forall x v r, In x (p_mem (psteps i p)) -> In v (p_mem (psteps i p)) -> b_num v = n ->
  klt (b_min x) (b_min v) -> In r (b_docs x) -> klt (r_key r) (b_min v).
Proof.
  intros fl l n p i Ho Hse Hm Hp Hpc x v r Hx Hv Ev L Hr. pose proof (pbegin_inv n fl l p Ho Hse Hm Hp) as J. apply (psteps_inv l i) in J; [|apply Ho].
  assert (En : p_vn (psteps i p) = n).
  { assert (E0 : p_vn p = n). { unfold pbegin in Hp. destruct (flagged fl n); [|discriminate]. destruct (tbl_at n l); [|discriminate]. destruct (before n None l); [|discriminate]. now injection Hp as <-. }
    rewrite <- E0. clear. revert p. induction i as [|i IH]; intros p; [reflexivity|]. cbn [RepairModel.psteps]. rewrite IH. unfold RepairModel.pstep. now destruct (p_pc p) as [[|]| | | |]. }
  destruct (pi_tv l _ J) as (t & v' & Ht & Hv' & Et & Ev' & Htv & Hadj & _ & _ & R3). rewrite Hpc in R3. rewrite En in Ev'.
  pose proof (pi_ov l _ J) as (Hs & Hn & _ & Hf). assert (v' = v) by (apply (num_inj _ _ _ Hn Hv' Hv); congruence). subst v'.
  destruct (kleb_spec (b_min v) (r_key r)) as [K|K]; [|destruct (ktrichotomy (r_key r) (b_min v)) as [W|[W|W]]; [exact W|destruct K; rewrite W; apply kle_refl|destruct K; now apply klt_kle]].
  exfalso. destruct (ktrichotomy (b_min x) (b_min t)) as [W|[W|W]].
  - pose proof (Hf x t v r Hx Ht Hv W Htv Hr) as F. apply kle_not_lt in K. contradiction.
  - assert (x = t) by now apply (min_inj (p_mem (psteps i p))). subst x. exact (R3 r Hr K).
  - exact (Hadj x Hx W L).
Qed.

End Hash.
