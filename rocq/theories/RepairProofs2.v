(** Proofs about the repair of overlapping tables: one moved record; executions; opening. *)
From Coq Require Import List NArith Bool Lia Arith Sorted.
From Verif Require Import Base LogFormatModel KeyModel KeyProofs BloomModel BloomProofs MemTableModel LsmModel LsmProofs LsmProofs2 RepairModel RepairSpec RepairProofs.
Import ListNotations.
Local Open Scope N_scope.

Lemma min_inj : forall l x y, StronglySorted min_lt l -> In x l -> In y l -> b_min x = b_min y -> x = y.
Proof.
  induction l as [|a l IH]; intros x y Hs Hx Hy E; [destruct Hx|]. pose proof (ss_in _ _ _ _ Hs) as Ha. apply ss_tail in Hs.
  destruct Hx as [<-|Hx], Hy as [<-|Hy]; auto.
  - specialize (Ha y Hy). unfold min_lt in Ha. rewrite E in Ha. destruct (klt_irrefl _ Ha).
  - specialize (Ha x Hx). unfold min_lt in Ha. rewrite E in Ha. destruct (klt_irrefl _ Ha).
Qed.
Lemma num_inj : forall (l : list tbl) x y, NoDup (map b_num l) -> In x l -> In y l -> b_num x = b_num y -> x = y.
Proof.
  induction l as [|a l IH]; intros x y Hn Hx Hy E; [destruct Hx|]. cbn [map] in Hn. apply NoDup_cons_iff in Hn as [Hn1 Hn2].
  destruct Hx as [<-|Hx], Hy as [<-|Hy]; auto.
  - destruct Hn1. rewrite E. now apply in_map.
  - destruct Hn1. rewrite <- E. now apply in_map.
Qed.
Lemma tbl_at_num : forall l t, NoDup (map b_num l) -> In t l -> tbl_at (b_num t) l = Some t.
Proof.
  intros l t Hn Ht. destruct (tbl_at (b_num t) l) as [u|] eqn:E.
  - apply tbl_at_in in E as [E1 E2]. f_equal. now apply (num_inj l).
  - pose proof (find_none _ _ E t Ht) as Q. cbn in Q. rewrite N.eqb_refl in Q. discriminate.
Qed.

Section Hash.
Variable hash : key -> N * N.
Variable c : tcfg.
Variable purge : bool.

(** The effect of [move_one] on one table. *)
Definition mv (put : bool) (tn vn : N) (r : rec) (u : tbl) : tbl :=
  let u1 := if put && (b_num u =? vn) then tf_set hash false purge r u else u in
  if b_num u1 =? tn then tf_remove hash r u1 else u1.
Lemma mv_num : forall put tn vn r u, b_num (mv put tn vn r u) = b_num u.
Proof. intros put tn vn r u. unfold mv. destruct (put && (b_num u =? vn)); cbn [tf_set b_num]; destruct (b_num u =? tn); reflexivity. Qed.
Lemma mv_min : forall put tn vn r u, b_min (mv put tn vn r u) = b_min u.
Proof. intros put tn vn r u. unfold mv. destruct (put && (b_num u =? vn)); cbn [tf_set b_num]; destruct (b_num u =? tn); reflexivity. Qed.
Lemma move_map : forall tn vn r l v, tbl_at vn l = Some v ->
  move_one hash c purge tn vn r l = map (mv (match tf_get hash c (r_key r) v with Ok rv => r_seq rv <? r_seq r | _ => true end) tn vn r) l.
Proof.
  intros tn vn r l v E. unfold move_one. rewrite E. set (put := match tf_get hash c (r_key r) v with Ok rv => r_seq rv <? r_seq r | _ => true end). clearbody put.
  unfold upd_tbl, mv. destruct put; cbn [andb].
  - rewrite map_map. apply map_ext. intros u. destruct (b_num u =? vn); reflexivity.
  - apply map_ext. intros u. reflexivity.
Qed.

Section Move.
Variables (l : list tbl) (t v : tbl) (r : rec) (fl : list N).
Hypothesis Hov : overlaps_next hash c l.
Hypothesis Hse : moves_seen c l.
Hypothesis Ht : In t l.
Hypothesis Hv : In v l.
Hypothesis Htv : klt (b_min t) (b_min v).
Hypothesis Hr : In r (b_docs t).
Hypothesis Hrv : kle (b_min v) (r_key r).

Let put := match tf_get hash c (r_key r) v with Ok rv => r_seq rv <? r_seq r | _ => true end.
Let g := mv put (b_num t) (b_num v) r.
Local Notation l' := (map g l).

Lemma ntv : b_num t <> b_num v.
Proof.
  destruct Hov as (Hs & Hn & _). intros E. assert (t = v) by now apply (num_inj l). subst v. destruct (klt_irrefl _ Htv).
Qed.
Lemma g_num : forall u, b_num (g u) = b_num u. Proof. intros u. apply mv_num. Qed.
Lemma g_min : forall u, b_min (g u) = b_min u. Proof. intros u. apply mv_min. Qed.
Lemma g_t : g t = tf_remove hash r t.
Proof.
  unfold g, mv. pose proof ntv as Q. apply N.eqb_neq in Q. rewrite Q, andb_false_r, N.eqb_refl. reflexivity.
Qed.
Lemma g_v : g v = if put then tf_set hash false purge r v else v.
Proof.
  unfold g, mv. pose proof ntv as Q. rewrite N.eqb_refl, andb_true_r. destruct put; cbn [tf_set b_num].
  - destruct (N.eqb_spec (b_num v) (b_num t)) as [E|E]; [congruence|reflexivity].
  - destruct (N.eqb_spec (b_num v) (b_num t)) as [E|E]; [congruence|reflexivity].
Qed.
Lemma g_u : forall u, In u l -> u = t \/ u = v \/ g u = u.
Proof.
  intros u Hu. destruct Hov as (Hs & Hn & _). destruct (N.eqb_spec (b_num u) (b_num t)) as [E|E]; [left; now apply (num_inj l)|].
  destruct (N.eqb_spec (b_num u) (b_num v)) as [F|F]; [right; left; now apply (num_inj l)|]. right. right.
  unfold g, mv. apply N.eqb_neq in E, F. rewrite F, andb_false_r, E. reflexivity.
Qed.
Lemma docs_t : forall x, In x (b_docs (g t)) <-> In x (b_docs t) /\ r_key x <> r_key r.
Proof. intros x. rewrite g_t. cbn [tf_remove b_docs]. destruct Hov as (_ & _ & H & _). apply (fd_del_spec (r_key r) (b_docs t)). apply (H t Ht). Qed.
Lemma v_get : tf_get hash c (r_key r) v = match fd_get (r_key r) (b_docs v) with Some x => Ok x | None => Fail KEY_NOT_FOUND end.
Proof. apply table_get. destruct Hov as (_ & _ & H & _). auto. Qed.
(** Records of the victim afterwards. *)
Lemma docs_v_other : forall x, r_key x <> r_key r -> In x (b_docs (g v)) <-> In x (b_docs v).
Proof.
  intros x E. rewrite g_v. destruct put; [|tauto]. cbn [tf_set b_docs]. destruct Hov as (_ & _ & H & _). destruct (H v Hv) as [Hd _].
  destruct (purge && is_del r); [rewrite (proj2 (fd_del_spec (r_key r) _ Hd)); tauto|rewrite (proj2 (fd_set_spec r _ Hd))]. intuition congruence.
Qed.
Lemma docs_v_same : forall x, r_key x = r_key r ->
  In x (b_docs (g v)) <-> (if put then x = r /\ purge && is_del r = false else In x (b_docs v)).
Proof.
  intros x E. rewrite g_v. destruct put; [|tauto]. cbn [tf_set b_docs]. destruct Hov as (_ & _ & H & _). destruct (H v Hv) as [Hd _].
  destruct (purge && is_del r); [rewrite (proj2 (fd_del_spec (r_key r) _ Hd)); intuition congruence|rewrite (proj2 (fd_set_spec r _ Hd))]. intuition congruence.
Qed.
Lemma docs_from : forall u x, In u l -> In x (b_docs (g u)) -> In x (b_docs u) \/ (u = v /\ x = r).
Proof.
  intros u x Hu Hx. destruct (g_u u Hu) as [-> |[-> |E]].
  - left. now apply docs_t.
  - destruct (key_eq_dec (r_key x) (r_key r)) as [E|E]; [|left; now apply docs_v_other].
    apply docs_v_same in Hx; [|exact E]. destruct put; [right; split; [reflexivity|apply Hx]|now left].
  - left. now rewrite E in Hx.
Qed.
(** The key of the moved record is only in the two tables. *)
Lemma only_tv : forall u x, In u l -> In x (b_docs u) -> r_key x = r_key r -> u = t \/ u = v \/ klt (b_min t) (b_min u) /\ klt (b_min u) (b_min v).
Proof.
  intros u x Hu Hx E. destruct Hov as (Hs & Hn & Hk & Hf).
  destruct (ktrichotomy (b_min u) (b_min t)) as [Q|[Q|Q]].
  - pose proof (Hf u t v x Hu Ht Hv Q Htv Hx) as F. rewrite E in F. apply kle_not_lt in Hrv. contradiction.
  - left. now apply (min_inj l).
  - destruct (ktrichotomy (b_min u) (b_min v)) as [P|[P|P]].
    + right. right. now split.
    + right. left. now apply (min_inj l).
    + pose proof (Hf t v u r Ht Hv Hu Htv P Hr) as F. destruct (Hk u Hu) as [_ G]. destruct (G x Hx) as [G1 _]. rewrite E in G1. apply kle_not_lt in G1. contradiction.
Qed.
Hypothesis Hadj : forall u, In u l -> klt (b_min t) (b_min u) -> klt (b_min u) (b_min v) -> False.

Lemma version_other : forall k x, k <> r_key r -> (version k l' x <-> version k l x).
Proof.
  intros k x Hk. split.
  - intros (E & u' & Hu & Hx). apply in_map_iff in Hu as (u & <- & Hu). split; [exact E|]. exists u. split; [exact Hu|].
    destruct (docs_from u x Hu Hx) as [Q|[-> ->]]; [exact Q|congruence].
  - intros (E & u & Hu & Hx). split; [exact E|]. exists (g u). split; [now apply in_map|]. destruct (g_u u Hu) as [-> |[-> |Q]].
    + apply docs_t. split; [exact Hx|congruence].
    + apply docs_v_other; [congruence|exact Hx].
    + now rewrite Q.
Qed.
Lemma version_same : forall x, version (r_key r) l' x <-> r_key x = r_key r /\ In x (b_docs (g v)).
Proof.
  intros x. split.
  - intros (E & u' & Hu & Hx). apply in_map_iff in Hu as (u & <- & Hu). split; [exact E|]. destruct (g_u u Hu) as [-> |[-> |Q]].
    + apply docs_t in Hx as [_ Hx]. congruence.
    + exact Hx.
    + rewrite Q in Hx. destruct (only_tv u x Hu Hx E) as [-> |[-> |[P1 P2]]]; [|now rewrite Q|destruct (Hadj u Hu P1 P2)].
      rewrite <- Q in Hx. apply docs_t in Hx as [_ Hx]. congruence.
  - intros [E Hx]. split; [exact E|]. exists (g v). split; [now apply in_map|exact Hx].
Qed.

Lemma move_keeps : keeps purge l l'.
Proof.
  intros k o H. destruct (key_eq_dec k (r_key r)) as [-> |Hk].
  - assert (Vr : version (r_key r) l r) by (split; [reflexivity|exists t; now split]).
    assert (Vl : forall x, version (r_key r) l x -> x = r \/ In x (b_docs v)).
    { intros x (E & u & Hu & Hx). destruct (only_tv u x Hu Hx E) as [-> |[-> |[P1 P2]]]; [left|now right|destruct (Hadj u Hu P1 P2)].
      apply (docs_key_inj (b_docs t)); auto. destruct Hov as (_ & _ & G & _). apply (G t Ht). }
    pose proof v_get as Gv. assert (Ov : docs_ok (b_docs v)) by (destruct Hov as (_ & _ & G & _); apply (G v Hv)).
    destruct o as [x|].
    + left. destruct H as [Hx Hm]. apply version_same in Hx as [E Hx]. apply docs_v_same in Hx; [|exact E]. unfold put in Hx. rewrite Gv in Hx.
      destruct (fd_get (r_key r) (b_docs v)) as [rv|] eqn:F.
      * apply fd_get_in in F as [F1 F2]. destruct (N.ltb_spec (r_seq rv) (r_seq r)) as [L|L].
        -- destruct Hx as [-> _]. split; [exact Vr|]. intros y Hy. destruct (Vl y Hy) as [-> |Hy2]; [lia|].
           assert (y = rv) by (apply (docs_key_inj (b_docs v)); auto; destruct Hy; congruence). subst y. lia.
        -- assert (x = rv) by (apply (docs_key_inj (b_docs v)); auto; congruence). subst x. split; [split; [exact F2|exists v; now split]|].
           intros y Hy. destruct (Vl y Hy) as [-> |Hy2]; [lia|]. assert (y = rv) by (apply (docs_key_inj (b_docs v)); auto; destruct Hy; congruence). subst y. lia.
      * destruct Hx as [-> _]. split; [exact Vr|]. intros y Hy. destruct (Vl y Hy) as [-> |Hy2]; [lia|]. rewrite fd_get_none in F. destruct (F y Hy2). apply Hy.
    + right. destruct (fd_get (r_key r) (b_docs v)) as [rv|] eqn:F.
      * apply fd_get_in in F as [F1 F2]. destruct (Bool.bool_dec put true) as [P|P]; [|apply Bool.not_true_is_false in P].
        -- unfold put in P. rewrite Gv in P. apply N.ltb_lt in P. destruct (purge && is_del r) eqn:D.
           ++ apply andb_true_iff in D as [-> D]. split; [reflexivity|split; [reflexivity|]]. exists r. split; [exact D|]. split; [exact Vr|].
              intros y Hy. destruct (Vl y Hy) as [-> |Hy2]; [lia|]. assert (y = rv) by (apply (docs_key_inj (b_docs v)); auto; destruct Hy; congruence). subst y. lia.
           ++ exfalso. apply (H r). apply version_same. split; [reflexivity|]. apply docs_v_same; [reflexivity|]. unfold put. rewrite Gv.
              assert (Q : r_seq rv <? r_seq r = true) by now apply N.ltb_lt. rewrite Q. now split.
        -- exfalso. apply (H rv). apply version_same. split; [exact F2|]. apply docs_v_same; [exact F2|]. rewrite P. exact F1.
      * assert (P : put = true) by (unfold put; now rewrite Gv). destruct (purge && is_del r) eqn:D.
        -- apply andb_true_iff in D as [-> D]. split; [reflexivity|split; [reflexivity|]]. exists r. split; [exact D|]. split; [exact Vr|].
           intros y Hy. destruct (Vl y Hy) as [-> |Hy2]; [lia|]. rewrite fd_get_none in F. destruct (F y Hy2). apply Hy.
        -- exfalso. apply (H r). apply version_same. split; [reflexivity|]. apply docs_v_same; [reflexivity|]. rewrite P. now split.
  - left. destruct o as [x|].
    + destruct H as [Hx Hm]. split; [now apply version_other|]. intros y Hy. apply Hm. now apply version_other.
    + intros y Hy. apply (H y). now apply version_other.
Qed.

Lemma bf_of : forall u, In u l -> bf_wf (b_bf u).
Proof. intros u Hu f E. destruct Hse as [H _]. exact (H u f Hu E). Qed.
Lemma g_bf_none : forall u, b_bf u = None -> b_bf (g u) = None.
Proof.
  intros u E. unfold g, mv. destruct (put && (b_num u =? b_num v)); cbn [tf_set b_num orb]; destruct (b_num u =? b_num t); cbn [tf_remove tf_set b_bf orb]; rewrite ?E; cbn [bf_add]; try reflexivity; now destruct (is_ins r).
Qed.
Lemma g_bf_wf : forall u, In u l -> bf_wf (b_bf (g u)).
Proof.
  intros u Hu. pose proof (bf_of u Hu) as W. destruct (g_u u Hu) as [-> |[-> |E]].
  - rewrite g_t. cbn [tf_remove b_bf]. destruct (is_ins r); [now apply bf_add_wf|exact W].
  - rewrite g_v. destruct put; [|exact W]. cbn [tf_set b_bf orb]. destruct (is_ins r); [now apply bf_add_wf|exact W].
  - now rewrite E.
Qed.
Lemma move_seen : moves_seen c l'.
Proof.
  destruct Hse as [H1 H2]. split.
  - intros u' f Hu E. apply in_map_iff in Hu as (u & <- & Hu). exact (g_bf_wf u Hu f E).
  - destruct H2 as [H2|[H2|H2]]; [now left|right; left|right; right].
    + intros u' Hu. apply in_map_iff in Hu as (u & <- & Hu). apply g_bf_none. auto.
    + intros u' x Hu Hx. apply in_map_iff in Hu as (u & <- & Hu). destruct (docs_from u x Hu Hx) as [Q|[-> ->]]; [exact (H2 u x Hu Q)|exact (H2 t r Ht Hr)].
Qed.

Lemma g_ok : forall u, In u l -> table_ok hash c (g u).
Proof.
  intros u Hu. destruct Hov as (_ & _ & H & _). pose proof (H u Hu) as [Hd Hx]. pose proof (bf_of u Hu) as W. destruct (g_u u Hu) as [-> |[-> |E]].
  - assert (D : docs_ok (b_docs (g t))). { rewrite g_t. cbn [tf_remove b_docs]. now apply fd_del_spec. } split; [exact D|].
    intros x Hy. pose proof Hy as Hy2. apply docs_t in Hy as [Hy N]. destruct (Hx x Hy) as (A1 & A2 & A3). rewrite g_min. split; [exact A1|split; [exact A2|]].
    rewrite tf_get_miss in A3. rewrite tf_get_miss. destruct (miss hash c (b_bf t) (r_key x)) eqn:M; [discriminate|].
    assert (M2 : miss hash c (b_bf (g t)) (r_key x) = false). { rewrite g_t. cbn [tf_remove b_bf]. destruct (is_ins r); [now apply bf_add_miss|exact M]. }
    rewrite M2. assert (G : fd_get (r_key x) (b_docs (g t)) = Some x) by (apply fd_get_some; auto). now rewrite G.
  - assert (D : docs_ok (b_docs (g v))). { rewrite g_v. destruct put; [|exact Hd]. cbn [tf_set b_docs]. destruct (purge && is_del r); [now apply fd_del_spec|now apply fd_set_spec]. }
    split; [exact D|]. intros x Hy. rewrite g_min. rewrite tf_get_miss. assert (G : fd_get (r_key x) (b_docs (g v)) = Some x) by (apply fd_get_some; auto). rewrite G.
    destruct (docs_from v x Hv Hy) as [Q|[_ ->]].
    + destruct (Hx x Q) as (A1 & A2 & A3). split; [exact A1|split; [exact A2|]].
      rewrite tf_get_miss in A3. destruct (miss hash c (b_bf v) (r_key x)) eqn:M; [discriminate|].
      assert (M2 : miss hash c (b_bf (g v)) (r_key x) = false). { rewrite g_v. destruct put; [|exact M]. cbn [tf_set b_bf orb]. destruct (is_ins r); [now apply bf_add_miss|exact M]. }
      now rewrite M2.
    + destruct (H t Ht) as [_ Ht2]. destruct (Ht2 r Hr) as (_ & A2 & _). split; [exact Hrv|split; [exact A2|]].
      assert (M2 : miss hash c (b_bf (g v)) (r_key r) = false); [|now rewrite M2].
      destruct Hse as [_ S]. destruct S as [S|[S|S]].
      * unfold miss. destruct (b_bf (g v)); [|reflexivity]. now rewrite S.
      * rewrite (g_bf_none v (S v Hv)). reflexivity.
      * destruct (Bool.bool_dec put true) as [P|P]; [|apply Bool.not_true_is_false in P].
        -- rewrite g_v, P. cbn [tf_set b_bf orb]. rewrite (S t r Ht Hr). now apply bf_add_hit.
        -- apply docs_v_same in Hy; [|reflexivity]. rewrite P in Hy. rewrite g_v, P. destruct (Hx r Hy) as (_ & _ & A3). rewrite tf_get_miss in A3. now destruct (miss hash c (b_bf v) (r_key r)).
  - rewrite E. apply H; exact Hu.
Qed.

Lemma sorted_map_min : forall h ls, (forall u, b_min (h u) = b_min u) -> StronglySorted min_lt ls -> StronglySorted min_lt (map h ls).
Proof.
  intros h ls E. induction ls as [|a ls IH]; intros H; [constructor|]. cbn [map]. constructor; [apply IH; now apply ss_tail in H|].
  apply Forall_forall. intros x Hx. apply in_map_iff in Hx as (y & <- & Hy). unfold min_lt. rewrite !E. exact (ss_in _ _ _ _ H y Hy).
Qed.
Lemma move_over : overlaps_next hash c l'.
Proof.
  pose proof Hov as (Hs & Hn & Hk & Hf). split; [apply sorted_map_min; [exact g_min|exact Hs]|]. split.
  { rewrite map_map. erewrite map_ext; [exact Hn|]. exact g_num. }
  split; [intros u' Hu; apply in_map_iff in Hu as (u & <- & Hu); now apply g_ok|].
  intros x' y' z' q Hx Hy Hz L1 L2 Hq. apply in_map_iff in Hx as (x & <- & Hx). apply in_map_iff in Hy as (y & <- & Hy). apply in_map_iff in Hz as (z & <- & Hz).
  rewrite !g_min in *. destruct (docs_from x q Hx Hq) as [Q|[-> ->]]; [exact (Hf x y z q Hx Hy Hz L1 L2 Q)|].
  eapply klt_trans; [exact (Hf t v y r Ht Hv Hy Htv L1 Hr)|exact L2].
Qed.
Lemma move_marked : marked fl l -> marked fl l'.
Proof.
  intros M x' y' q Hx Hy L Hq K. pose proof Hov as (_ & _ & _ & Hf). apply in_map_iff in Hx as (x & <- & Hx). apply in_map_iff in Hy as (y & <- & Hy).
  rewrite !g_min in *. rewrite g_num. destruct (docs_from x q Hx Hq) as [Q|[-> ->]]; [exact (M x y q Hx Hy L Q K)|].
  pose proof (Hf t v y r Ht Hv Hy Htv L Hr) as F. apply kle_not_lt in K. contradiction.
Qed.
Lemma move_newer : newer_first l -> newer_first l'.
Proof.
  intros D x' y' a b Hx Hy L Ha Hb E. apply in_map_iff in Hx as (x & <- & Hx). apply in_map_iff in Hy as (y & <- & Hy). rewrite !g_min in L.
  destruct (key_eq_dec (r_key a) (r_key r)) as [Q|Q].
  - exfalso. assert (N : forall u w, In u l -> In w (b_docs (g u)) -> r_key w = r_key r -> u = v).
    { intros u w Hu Hw Ew. destruct (docs_from u w Hu Hw) as [P|[-> _]]; [|reflexivity]. destruct (only_tv u w Hu P Ew) as [-> |[-> |[P1 P2]]]; [|reflexivity|destruct (Hadj u Hu P1 P2)].
      apply docs_t in Hw as [_ Hw]. congruence. }
    rewrite (N x a Hx Ha Q) in L. rewrite (N y b Hy Hb) in L by congruence. destruct (klt_irrefl _ L).
  - destruct (docs_from x a Hx Ha) as [P|[-> ->]]; [|congruence]. destruct (docs_from y b Hy Hb) as [P2|[-> ->]]; [|congruence]. exact (D x y a b Hx Hy L P P2 E).
Qed.
Lemma move_is : move_one hash c purge (b_num t) (b_num v) r l = l'.
Proof. destruct Hov as (_ & Hn & _). rewrite (move_map _ _ _ _ v); [reflexivity|]. now apply tbl_at_num. Qed.

End Move.
End Hash.
