(** Proofs about the table section: every operation keeps the invariant and what lookups find. *)
From Coq Require Import List NArith Bool Lia Arith Sorted Permutation.
From Verif Require Import Base LogFormatModel KeyModel KeyProofs BloomModel BloomProofs MemTableModel LsmModel LsmProofs LsmProofs2.
Import ListNotations.
Local Open Scope N_scope.

(** ** Lists of levels *)

Lemma set_nth_len : forall A i (x : A) l, length (set_nth i x l) = length l.
Proof. intros A i x l. revert i. induction l as [|a l IH]; intros [|i]; cbn [set_nth length]; auto. Qed.
Lemma set_nth_same : forall A i (x : A) l d, (i < length l)%nat -> nth i (set_nth i x l) d = x.
Proof. intros A i x l d. revert i. induction l as [|a l IH]; intros [|i] H; cbn [set_nth length nth] in *; try lia; auto. apply IH. lia. Qed.
Lemma set_nth_other : forall A i j (x : A) l d, i <> j -> nth i (set_nth j x l) d = nth i l d.
Proof. intros A i j x l d. revert i j. induction l as [|a l IH]; intros [|i] [|j] H; cbn [set_nth nth]; auto; lia. Qed.
Lemma set_nth_twice : forall A i (x y : A) l, set_nth i x (set_nth i y l) = set_nth i x l.
Proof. intros A i x y l. revert i. induction l as [|a l IH]; intros [|i]; cbn [set_nth]; auto. now rewrite IH. Qed.
Lemma set_nth_in : forall A i (x : A) l y, In y (set_nth i x l) -> y = x \/ In y l.
Proof.
  intros A i x l. revert i. induction l as [|a l IH]; intros [|i] y H; cbn [set_nth] in H; [destruct H|destruct H| |].
  - destruct H as [<-|H]; [now left|right; now right].
  - destruct H as [<-|H]; [right; now left|]. apply IH in H as [H|H]; [now left|right; now right].
Qed.
Lemma nth_in_some : forall (l : list (list tbl)) i t, In t (nth i l []) -> (i < length l)%nat /\ In (nth i l []) l.
Proof.
  intros l i t H. assert (L : (i < length l)%nat).
  { destruct (Nat.lt_ge_cases i (length l)) as [L|L]; [exact L|]. rewrite nth_overflow in H by exact L. destruct H. }
  split; [exact L|now apply nth_In].
Qed.

Lemma ups_app : forall k a b, ups k (a ++ b) = orr (ups k a) (ups k b).
Proof.
  intros k a b. induction a as [|x a IH]; [reflexivity|]. cbn [app ups]. rewrite IH. now destruct (lv_get k x).
Qed.

Lemma ups_one : forall k l i u', (i < length l)%nat ->
  lv_get k u' = lv_get k (nth i l []) \/ (S i = length l /\ vle (lv_get k u') (lv_get k (nth i l []))) ->
  vle (ups k (set_nth i u' l)) (ups k l).
Proof.
  intros k l. induction l as [|a l IH]; intros [|i] u' Hi H; cbn [length set_nth nth ups] in *; try lia.
  - destruct H as [-> |[H1 H2]]; [apply vle_refl|]. assert (l = []) by (destruct l; [reflexivity|cbn in H1; lia]). subst l. cbn [ups].
    destruct H2 as [-> |[-> (r & -> & D)]]; [apply vle_refl|]. cbn [orr]. right. split; [reflexivity|exists r; now split].
  - apply vle_orr. apply IH; [lia|]. destruct H as [H|[H1 H2]]; [now left|right; split; [lia|exact H2]].
Qed.

Lemma ups_two : forall k l i u' d', (S i < length l)%nat ->
  let old := orr (lv_get k (nth i l [])) (lv_get k (nth (S i) l [])) in
  orr (lv_get k u') (lv_get k d') = old \/ (S (S i) = length l /\ vle (orr (lv_get k u') (lv_get k d')) old) ->
  vle (ups k (set_nth i u' (set_nth (S i) d' l))) (ups k l).
Proof.
  intros k l. induction l as [|a l IH]; intros i u' d' Hi old H; [cbn in Hi; lia|]. destruct i as [|i].
  - destruct l as [|b l]; [cbn in Hi; lia|]. cbn [set_nth ups nth] in *. unfold old in *. clear IH old.
    assert (A : forall x y z : option rec, orr x (orr y z) = orr (orr x y) z) by (intros [x|] y z; reflexivity).
    rewrite !A. destruct H as [-> |[H1 H2]]; [apply vle_refl|].
    assert (l = []) by (destruct l; [reflexivity|cbn in H1; lia]). subst l. cbn [ups].
    assert (B : forall x : option rec, orr x None = x) by (intros [x|]; reflexivity). now rewrite !B.
  - cbn [set_nth ups]. apply vle_orr. apply IH; [cbn in Hi; lia|]. cbn [nth] in old. fold old.
    destruct H as [H|[H1 H2]]; [now left|right; split; [cbn in H1; lia|exact H2]].
Qed.

Section Hash.
Variable hash : key -> N * N.
Variable part : key -> N.

Local Notation tf_set := (tf_set hash).
Local Notation tf_sets := (tf_sets hash).
Local Notation tf_get := (tf_get hash).
Local Notation installed := (installed hash).
Local Notation good := (good hash).
Local Notation LI := (LI hash part).
Local Notation view := (view part).
Local Notation zview := (zview part).
Local Notation zero_ok := (zero_ok part).

Lemma lv_get_nil : forall k, lv_get k [] = None.
Proof. reflexivity. Qed.

Lemma lvl_ok_nil : lvl_ok [].
Proof. split; [constructor|intros t []]. Qed.
Lemma nums_ok_nil : forall n, nums_ok n [].
Proof. intros n. split; [constructor|intros t []]. Qed.

(** ** Removing a table from a level *)

Lemma rm_ok : forall n l, lvl_ok l -> lvl_ok (rm_tbl n l).
Proof.
  intros n l [H1 H2]. split; [now apply ss_filter|]. intros t Ht. apply rm_tbl_in in Ht as [Ht _].
  destruct (H2 t Ht) as [D1 D2]. split; [exact D1|]. intros d Hd. destruct (D2 d Hd) as [E1 E2]. split; [exact E1|].
  intros u Hu. apply rm_tbl_in in Hu as [Hu _]. exact (E2 u Hu).
Qed.

Lemma rm_get : forall n l v k, lvl_ok l -> NoDup (map b_num l) -> In v l -> b_num v = n ->
  (forall r, fd_get k (b_docs v) = Some r -> lv_get k l = Some r /\ lv_get k (rm_tbl n l) = None) /\
  (fd_get k (b_docs v) = None -> lv_get k (rm_tbl n l) = lv_get k l).
Proof.
  intros n l v k Hok Hn Hv En. pose proof Hok as [Hs Hd]. destruct (Hd v Hv) as [V1 V2]. split.
  - intros r Hr. apply fd_get_in in Hr as [R1 R2]. split.
    + apply lv_get_some; [exact Hok|]. split; [exists v; now split|exact R2].
    + apply lv_get_none; [now apply rm_ok|]. intros x (t & Ht & Hx) Ex. apply rm_tbl_in in Ht as [Ht Nt].
      apply Nt. rewrite <- En. f_equal. apply (floor_range l t v r Hs Ht Hv).
      * destruct (Hd t Ht) as [_ T2]. pose proof (T2 x Hx) as Q. unfold in_range in *. now rewrite R2, <- Ex.
      * exact (V2 r R1).
  - intros Hno. apply lv_get_ext; [now apply rm_ok|exact Hok|]. intros r Er. split.
    + intros (t & Ht & Hr). apply rm_tbl_in in Ht as [Ht _]. exists t. now split.
    + intros (t & Ht & Hr). exists t. split; [|exact Hr]. apply rm_tbl_in. split; [exact Ht|]. intros E.
      assert (t = v) by (apply (num_inj l); auto; congruence). subst t.
      apply (proj1 (fd_get_none _ _) Hno r Hr Er).
Qed.

Definition min_le (a b : tbl) : Prop := kle (b_min a) (b_min b).
Lemma lt_le_sorted : forall l, StronglySorted min_lt l -> StronglySorted min_le l.
Proof.
  induction l as [|a l IH]; intros H; [constructor|]. constructor; [exact (IH (ss_tail _ _ _ _ H))|].
  apply Forall_forall. intros y Hy. apply klt_kle. exact (ss_in _ _ _ _ H y Hy).
Qed.
Lemma add_tbl_le_sorted : forall t l, StronglySorted min_le l -> StronglySorted min_le (add_tbl t l).
Proof.
  intros t. induction l as [|u l IH]; intros H; cbn [add_tbl]; [repeat constructor|].
  pose proof (ss_in _ _ _ _ H) as Hu. destruct (kltb_spec (b_min u) (b_min t)) as [C|C].
  - constructor; [exact (IH (ss_tail _ _ _ _ H))|]. apply Forall_forall. intros w Hw. apply add_tbl_in in Hw as [-> |Hw]; [now apply klt_kle|auto].
  - assert (L : min_le t u) by (apply kle_not_lt; exact C). constructor; [exact H|]. apply Forall_forall. intros w [<-|Hw]; [exact L|].
    unfold min_le in *. eapply kle_trans; [exact L|exact (Hu w Hw)].
Qed.
Lemma add_all_le_sorted : forall ts l, StronglySorted min_le l -> StronglySorted min_le (add_all ts l).
Proof. intros ts l H. induction ts as [|t ts IH]; [exact H|]. cbn [add_all fold_right]. now apply add_tbl_le_sorted. Qed.

Lemma add_tbl_front : forall t l, (forall u, In u l -> min_le t u) -> add_tbl t l = t :: l.
Proof.
  intros t [|u l] H; [reflexivity|]. cbn [add_tbl]. specialize (H u (or_introl eq_refl)).
  unfold min_le in H. apply kltb_false in H. now rewrite H.
Qed.

Lemma rm_add_tbl : forall n t l, StronglySorted min_le l -> b_num t <> n -> rm_tbl n (add_tbl t l) = add_tbl t (rm_tbl n l).
Proof.
  intros n t l Hs Hn. apply N.eqb_neq in Hn. induction l as [|u l IH]; cbn [add_tbl rm_tbl filter].
  - now rewrite Hn.
  - pose proof (ss_in _ _ _ _ Hs) as Hu. specialize (IH (ss_tail _ _ _ _ Hs)).
    destruct (kltb (b_min u) (b_min t)) eqn:C; cbn [filter].
    + destruct (b_num u =? n); cbn [negb]; [exact IH|]. cbn [add_tbl]. rewrite C. f_equal. exact IH.
    + rewrite Hn. cbn [negb]. destruct (b_num u =? n) eqn:E; cbn [negb].
      * symmetry. apply add_tbl_front. intros w Hw. apply filter_In in Hw as [Hw _]. unfold min_le. apply kltb_false in C.
        eapply kle_trans; [exact C|exact (Hu w Hw)].
      * cbn [add_tbl]. now rewrite C.
Qed.

Lemma rm_add_all : forall n ts l, StronglySorted min_le l -> (forall t, In t ts -> b_num t <> n) ->
  rm_tbl n (add_all ts l) = add_all ts (rm_tbl n l).
Proof.
  intros n ts l Hs. induction ts as [|t ts IH]; intros H; [reflexivity|]. cbn [add_all fold_right].
  fold (add_all ts l). fold (add_all ts (rm_tbl n l)).
  rewrite rm_add_tbl; [|now apply add_all_le_sorted|apply H; now left]. f_equal. apply IH. intros u Hu. apply H. now right.
Qed.

Lemma write_old_none : forall raw purge sel gs l, (forall g, In g gs -> g_tab g = None) -> write_old hash raw purge sel gs l = l.
Proof.
  intros raw purge sel gs l. unfold write_old. revert l. induction gs as [|g gs IH]; intros l H; [reflexivity|]. cbn [fold_left].
  rewrite (H g (or_introl eq_refl)). apply IH. intros x Hx. apply H. now right.
Qed.

Lemma new_tbls_mk : forall c mk j n gs, (forall i, mk i = true) -> new_tbls hash c mk j n gs = new_tbls hash c all_true j n gs.
Proof.
  intros c mk j n gs H. revert j n. induction gs as [|g gs IH]; intros j n; [reflexivity|]. cbn [new_tbls].
  destruct (g_tab g); [apply IH|]. rewrite H. unfold all_true at 1. f_equal. apply IH.
Qed.

(** ** Splitting *)

Lemma cuts_spec : forall cut docs i cur, docs_ok (g_recs cur ++ docs) -> (i <> 0%nat -> g_recs cur <> []) -> g_tab cur = None ->
  (forall r, In r (g_recs cur ++ docs) -> kle (g_min cur) (r_key r)) ->
  let gs := cuts cut i docs cur in
  concat (map g_recs gs) = g_recs cur ++ docs /\
  (forall g, In g gs -> g_tab g = None) /\
  StronglySorted g_lt gs /\
  (forall g r, In g gs -> In r (g_recs g) -> kle (g_min g) (r_key r)) /\
  (forall g, In g gs -> g_min g = g_min cur \/ exists r, In r docs /\ r_key r = g_min g) /\
  (forall g, In g gs -> kle (g_min cur) (g_min g)).
Proof.
  intros cut docs. induction docs as [|r docs IH]; intros i cur Hd Hi Ht Hlow gs; unfold gs; cbn [cuts].
  - rewrite app_nil_r in *. split; [cbn [map concat]; now rewrite app_nil_r|]. repeat split.
    + intros g [<-|[]]. exact Ht.
    + repeat constructor.
    + intros g r [<-|[]]. apply Hlow.
    + intros g [<-|[]]. now left.
    + intros g [<-|[]]. apply kle_refl.
  - assert (Hgo : forall j, j <> 0%nat -> let gs := cuts cut j docs (mkG (g_min cur) None (g_recs cur ++ [r])) in
      concat (map g_recs gs) = g_recs cur ++ r :: docs /\
      (forall g, In g gs -> g_tab g = None) /\
      StronglySorted g_lt gs /\
      (forall g r, In g gs -> In r (g_recs g) -> kle (g_min g) (r_key r)) /\
      (forall g, In g gs -> g_min g = g_min cur \/ exists x, In x (r :: docs) /\ r_key x = g_min g) /\
      (forall g, In g gs -> kle (g_min cur) (g_min g))).
    { intros j Hj. specialize (IH j (mkG (g_min cur) None (g_recs cur ++ [r]))). cbn [g_recs g_min g_tab] in IH.
      rewrite <- app_assoc in IH. cbn [app] in IH. specialize (IH Hd). destruct IH as (I1 & I2 & I3 & I4 & I5 & I6).
      - intros _. destruct (g_recs cur); discriminate.
      - reflexivity.
      - exact Hlow.
      - repeat split; auto. intros g Hg. destruct (I5 g Hg) as [H|(x & H1 & H2)]; [now left|right; exists x; split; [now right|exact H2]]. }
    destruct i as [|i]; [apply Hgo; discriminate|]. destruct (cut i); [|apply Hgo; discriminate]. clear Hgo.
    assert (Hcr : forall x, In x (g_recs cur) -> klt (r_key x) (r_key r)).
    { intros x Hx. apply ss_app in Hd as (_ & _ & H). apply (H x r Hx). now left. }
    assert (Hrd : docs_ok (r :: docs)) by (apply ss_app in Hd as (_ & H & _); exact H).
    assert (Hl : klt (g_min cur) (r_key r)).
    { assert (Hx : exists x, In x (g_recs cur)) by (destruct (g_recs cur) as [|x l]; [now destruct Hi|exists x; now left]).
      destruct Hx as (x & Hx). refine (kle_klt_trans _ _ _ (Hlow x _) (Hcr x Hx)). apply in_app_iff. now left. }
    specialize (IH (S (S i)) (mkG (r_key r) None [r])). cbn [g_recs g_min g_tab app] in IH.
    destruct IH as (I1 & I2 & I3 & I4 & I5 & I6); auto.
    + discriminate.
    + intros x [<-|Hx]; [apply kle_refl|]. apply klt_kle. exact (ss_in _ _ _ _ Hrd x Hx).
    + split; [cbn [map concat]; now rewrite I1|]. repeat split.
      * intros g [<-|Hg]; auto.
      * constructor; [exact I3|]. apply Forall_forall. intros g Hg. specialize (I6 g Hg). unfold g_lt, glo. rewrite Ht, (I2 g Hg).
        split; [eapply klt_kle_trans; [exact Hl|exact I6]|]. intros x Hx. eapply klt_kle_trans; [exact (Hcr x Hx)|exact I6].
      * intros g x [<-|Hg] Hx; [apply Hlow, in_app_iff; now left|exact (I4 g x Hg Hx)].
      * intros g [<-|Hg]; [now left|]. right. destruct (I5 g Hg) as [H|(x & H1 & H2)]; [exists r; split; [now left|now symmetry]|].
        exists x. split; [now right|exact H2].
      * intros g [<-|Hg]; [apply kle_refl|]. apply klt_kle. eapply klt_kle_trans; [exact Hl|exact (I6 g Hg)].
Qed.

(** Groups that are parts of a table [v] of the level, the table being removed, fit the rest. *)
Lemma parts_fit : forall l v gs, lvl_ok l -> NoDup (map b_num l) -> In v l ->
  (forall g, In g gs -> g_tab g = None) -> StronglySorted g_lt gs -> docs_ok (concat (map g_recs gs)) ->
  (forall g r, In g gs -> In r (g_recs g) -> kle (g_min g) (r_key r) /\ In r (b_docs v)) ->
  (forall g, In g gs -> g_min g = b_min v \/ exists r, In r (b_docs v) /\ r_key r = g_min g) ->
  fits gs (rm_tbl (b_num v) l).
Proof.
  intros l v gs Hok Hn Hv Hnone Hord Hsrt Hr Hmin. pose proof Hok as [Hs Hd]. destruct (Hd v Hv) as [V1 V2].
  assert (Hge : forall g, In g gs -> kle (b_min v) (g_min g)).
  { intros g Hg. destruct (Hmin g Hg) as [-> |(r & R1 & <-)]; [apply kle_refl|]. apply (V2 r R1). }
  assert (Hother : forall t, In t (rm_tbl (b_num v) l) -> In t l /\ (klt (b_min t) (b_min v) \/ klt (b_min v) (b_min t))).
  { intros t Ht. apply rm_tbl_in in Ht as [Ht Nt]. split; [exact Ht|].
    destruct (ss_pair _ _ _ _ _ Hs Ht Hv) as [-> |H]; [congruence|exact H]. }
  assert (Hup : forall g t, In g gs -> In t l -> klt (b_min v) (b_min t) -> klt (g_min g) (b_min t)).
  { intros g t Hg Ht L. destruct (Hmin g Hg) as [-> |(r & R1 & <-)]; [exact L|]. exact (proj2 (V2 r R1) t Ht L). }
  constructor.
  - intros g t Hg E. rewrite (Hnone g Hg) in E. discriminate.
  - exact Hord.
  - intros g r Hg Hin. destruct (Hr g r Hg Hin) as [L In2]. unfold glo. rewrite (Hnone g Hg). split; [exact L|].
    intros u Hu Lu. destruct (Hother u Hu) as [Hu' [C|C]].
    + exfalso. apply (klt_irrefl (b_min u)). eapply klt_trans; [exact C|]. eapply kle_klt_trans; [exact (Hge g Hg)|exact Lu].
    + exact (proj2 (V2 r In2) u Hu' C).
  - exact Hsrt.
  - intros g t Hg _ Ht. destruct (Hother t Ht) as [Ht' [C|C]].
    + split.
      * intros E. apply (klt_irrefl (b_min t)). eapply klt_kle_trans; [exact C|]. rewrite E. exact (Hge g Hg).
      * intros d Hdd _. destruct (Hd t Ht') as [_ T2]. eapply klt_kle_trans; [exact (proj2 (T2 d Hdd) v Hv C)|exact (Hge g Hg)].
    + specialize (Hup g t Hg Ht' C). split.
      * intros E. rewrite E in Hup. destruct (klt_irrefl _ Hup).
      * intros d _ L. destruct (klt_asym _ _ L Hup).
Qed.

(** ** Operations within one level *)

Lemma level_repl : forall c R s i l' n', LI c R s -> (i < length (l_up s))%nat -> l_next s <= n' -> n' <= NIL ->
  lvl_ok l' -> nums_ok n' l' -> (forall t, In t l' -> good c R t) ->
  LI c R (mkL n' (l_zero s) (set_nth i l' (l_up s))).
Proof.
  intros c R s i l' n' HI Hi Hn Hn' Hok Hnum Hg. constructor; cbn [l_next l_zero l_up].
  - apply (li_zero _ _ _ _ _ HI).
  - intros ts Hts. apply set_nth_in in Hts as [-> |Hts]; [exact Hok|exact (li_up _ _ _ _ _ HI ts Hts)].
  - eapply nums_le; [apply (li_num0 _ _ _ _ _ HI)|exact Hn].
  - intros ts Hts. apply set_nth_in in Hts as [-> |Hts]; [exact Hnum|]. eapply nums_le; [exact (li_num _ _ _ _ _ HI ts Hts)|exact Hn].
  - apply (li_good0 _ _ _ _ _ HI).
  - intros ts t Hts Ht. apply set_nth_in in Hts as [-> |Hts]; [auto|exact (li_good _ _ _ _ _ HI ts t Hts Ht)].
  - exact Hn'.
Qed.

Lemma repl_view : forall s i l' n' k, (i < length (l_up s))%nat ->
  lv_get k l' = lv_get k (nth i (l_up s) []) \/ (is_last (S i) s = true /\ vle (lv_get k l') (lv_get k (nth i (l_up s) []))) ->
  vle (view (mkL n' (l_zero s) (set_nth i l' (l_up s))) k) (view s k).
Proof.
  intros s i l' n' k Hi H. unfold LsmProofs2.view. cbn [l_zero l_up]. apply vle_orr. apply ups_one; [exact Hi|].
  destruct H as [H|[H1 H2]]; [now left|right]. split; [|exact H2]. unfold is_last, num_levels in H1. apply Nat.eqb_eq in H1. lia.
Qed.


Lemma lvl_docs : forall c R ts, lvl_ok ts -> (forall t, In t ts -> good c R t) -> forall t, In t ts -> docs_ok (b_docs t) /\ good c R t.
Proof. intros c R ts [_ H] G t Ht. split; [now destruct (H t Ht)|auto]. Qed.

(** Replacing a table [v] by tables with parts of its records. *)
Lemma replace_step : forall c R s i v gs, LI c R s -> In v (nth i (l_up s) []) ->
  fits gs (rm_tbl (b_num v) (nth i (l_up s) [])) -> (forall g, In g gs -> g_tab g = None) ->
  (forall g r, In g gs -> In r (g_recs g) -> In r (b_docs v)) ->
  (forall r, In r (b_docs v) -> In r (concat (map g_recs gs)) \/ (is_last (S i) s = true /\ is_del r = true)) ->
  l_next s + cnt_new gs <= NIL ->
  let s' := mkL (l_next s + cnt_new gs) (l_zero s)
                (set_nth i (rm_tbl (b_num v) (add_all (new_tbls hash c all_true 0 (l_next s) gs) (nth i (l_up s) []))) (l_up s)) in
  LI c R s' /\ forall k, vle (view s' k) (view s k).
Proof.
  intros c R s i v gs HI Hv F Hnone Hin Hall Hnil s'. set (l := nth i (l_up s) []) in *.
  destruct (nth_in_some _ _ _ Hv) as [Hi Hl].
  assert (Hok : lvl_ok l) by exact (li_up _ _ _ _ _ HI l Hl).
  assert (Hnum : nums_ok (l_next s) l) by exact (li_num _ _ _ _ _ HI l Hl).
  assert (E : rm_tbl (b_num v) (add_all (new_tbls hash c all_true 0 (l_next s) gs) l)
              = installed c true false (fun _ => true) (l_next s) gs (rm_tbl (b_num v) l) true).
  { unfold LsmProofs.installed. rewrite write_old_none by exact Hnone. apply rm_add_all; [apply lt_le_sorted, Hok|].
    intros t Ht. destruct (new_tbls_nums hash c 0 (l_next s) gs) as [_ H]. apply H in Ht. destruct Hnum as [_ H2]. specialize (H2 v Hv). lia. }
  unfold s'. rewrite E. assert (Hn2 : NoDup (map b_num (rm_tbl (b_num v) l))) by (apply (nums_filter (l_next s)); exact Hnum).
  split.
  - apply level_repl; auto; try lia.
    + apply install_ok; [now apply rm_ok|exact Hn2|exact F].
    + apply nums_installed. now apply nums_filter.
    + apply (good_installed hash part c R).
      * apply (lvl_docs c R); [now apply rm_ok|]. intros t Ht. apply rm_tbl_in in Ht as [Ht _]. exact (li_good _ _ _ _ _ HI l t Hl Ht).
      * intros g r Hg Hr. apply (gd_docs _ _ _ _ (li_good _ _ _ _ _ HI l v Hl Hv)). exact (Hin g r Hg Hr).
  - intros k. apply repl_view; [exact Hi|]. fold l.
    destruct (rm_get (b_num v) l v k Hok (proj1 Hnum) Hv eq_refl) as [RM1 RM2].
    destruct (fd_get k (b_docs v)) as [r|] eqn:G.
    + destruct (RM1 r eq_refl) as [E1 E2]. destruct (fd_get k (concat (map g_recs gs))) as [x|] eqn:G2.
      * destruct (install_these hash c true false (l_next s) gs (rm_tbl (b_num v) l) k x) as [X|(_ & X & _)]; auto; [now apply rm_ok| |discriminate].
        left. rewrite X, E1. f_equal. apply fd_get_in in G as [A1 A2]. apply fd_get_in in G2 as [B1 B2].
        apply in_concat_grp in B1 as (g & Hg & B1). destruct Hok as [_ Hd]. destruct (Hd v Hv) as [V1 _].
        apply (docs_key_inj (b_docs v)); auto; [exact (Hin g x Hg B1)|congruence].
      * rewrite (install_other hash) by (auto; now apply rm_ok). rewrite E2, E1. right.
        apply fd_get_in in G as [A1 A2]. destruct (Hall r A1) as [C|[C1 C2]].
        -- destruct (proj1 (fd_get_none _ _) G2 r C A2).
        -- split; [exact C1|right]. split; [reflexivity|exists r; now split].
    + left. rewrite <- (RM2 eq_refl). apply install_other; auto; [now apply rm_ok|]. apply fd_get_none. intros r Hr.
      apply in_concat_grp in Hr as (g & Hg & Hr). exact (proj1 (fd_get_none _ _) G r (Hin g r Hg Hr)).
Qed.

Lemma in_place_keeps : forall c R s p lv num s', LI c R s -> tc_ext c = true ->
  in_place hash c p lv num s = Some s' -> l_next s' <= NIL -> LI c R s' /\ forall k, vle (view s' k) (view s k).
Proof.
  intros c R s p lv num s' HI Hx H Hnil. unfold in_place in H. destruct lv as [|i]; [discriminate|].
  destruct (tbl_at num (level (S i) s)) as [v|] eqn:T; [|discriminate]. apply tbl_at_in in T as [Hv <-]. cbn [level] in Hv.
  set (keep := p || (tc_ext c && negb (is_last (S i) s))) in *. injection H as <-.
  destruct (nth_in_some _ _ _ Hv) as [Hi Hl].
  assert (Hok : lvl_ok (nth i (l_up s) [])) by exact (li_up _ _ _ _ _ HI _ Hl).
  destruct (proj2 Hok v Hv) as [V1 V2].
  set (gs := [mkG (b_min v) None (filter (fun r => keep || negb (is_del r)) (b_docs v))]).
  apply (replace_step c R s i v gs HI Hv); unfold gs.
  - apply parts_fit; auto.
    + apply (li_num _ _ _ _ _ HI _ Hl).
    + intros g [<-|[]]. reflexivity.
    + repeat constructor.
    + cbn [map concat g_recs]. rewrite app_nil_r. now apply ss_filter.
    + intros g r [<-|[]] Hr. cbn [g_recs g_min] in *. apply filter_In in Hr as [Hr _]. split; [apply (V2 r Hr)|exact Hr].
    + intros g [<-|[]]. now left.
  - intros g [<-|[]]. reflexivity.
  - intros g r [<-|[]] Hr. cbn [g_recs] in Hr. apply filter_In in Hr. tauto.
  - intros r Hr. cbn [map concat g_recs]. rewrite app_nil_r. destruct (keep || negb (is_del r)) eqn:K.
    + left. apply filter_In. now split.
    + right. apply orb_false_iff in K as [K1 K2]. apply negb_false_iff in K2. split; [|exact K2].
      unfold keep in K1. apply orb_false_iff in K1 as [_ K1]. rewrite Hx in K1. cbn [andb] in K1. now apply negb_false_iff in K1.
  - exact Hnil.
Qed.

Lemma split_keeps : forall c R s cut mk lv num s', LI c R s -> (forall j, mk j = true) ->
  split hash c cut mk lv num s = Some s' -> l_next s' <= NIL -> LI c R s' /\ forall k, vle (view s' k) (view s k).
Proof.
  intros c R s cut mk lv num s' HI Hmk H Hnil. unfold split in H. destruct lv as [|i]; [discriminate|].
  destruct (tbl_at num (level (S i) s)) as [v|] eqn:T; [|discriminate]. apply tbl_at_in in T as [Hv <-]. cbn [level] in Hv.
  set (gs := cuts cut 0 (b_docs v) (mkG (b_min v) None [])) in *.
  destruct (Nat.ltb 1 (length gs)); [|discriminate]. injection H as <-.
  destruct (nth_in_some _ _ _ Hv) as [Hi Hl].
  assert (Hok : lvl_ok (nth i (l_up s) [])) by exact (li_up _ _ _ _ _ HI _ Hl).
  destruct (proj2 Hok v Hv) as [V1 V2].
  destruct (cuts_spec cut (b_docs v) 0 (mkG (b_min v) None [])) as (C1 & C2 & C3 & C4 & C5 & C6); cbn [g_recs g_min app] in *; auto.
  { intros r Hr. apply (V2 r Hr). }
  fold gs in C1, C2, C3, C4, C5, C6.
  assert (Hcnt : cnt_new gs = N.of_nat (length gs)).
  { unfold cnt_new. f_equal. f_equal. clear -C2. induction gs as [|g gs IH]; [reflexivity|]. cbn [filter].
    rewrite (C2 g (or_introl eq_refl)). f_equal. apply IH. intros x Hx. apply C2. now right. }
  rewrite (new_tbls_mk c mk) by exact Hmk. unfold with_next, set_level in *. cbn [l_next l_zero l_up level] in *. rewrite <- Hcnt in *.
  apply (replace_step c R s i v gs HI Hv); auto.
  - apply parts_fit; auto.
    + apply (li_num _ _ _ _ _ HI _ Hl).
    + rewrite C1. exact V1.
    + intros g r Hg Hr. split; [exact (C4 g r Hg Hr)|]. rewrite <- C1. apply in_concat_grp. exists g. now split.
  - intros g r Hg Hr. rewrite <- C1. apply in_concat_grp. exists g. now split.
  - intros r Hr. left. now rewrite C1.
Qed.

Lemma before_spec : forall num l prev d v, tbl_at num l = Some v -> before num prev l = Some d ->
  (exists a b, l = a ++ d :: v :: b) \/ (prev = Some d /\ exists b, l = v :: b).
Proof.
  intros num. induction l as [|t l IH]; intros prev d v T H; [discriminate|]. unfold tbl_at in T. cbn [find before] in *.
  destruct (b_num t =? num) eqn:E.
  - injection T as <-. right. split; [exact H|now exists l].
  - fold (tbl_at num l) in T. destruct (IH (Some t) d v T H) as [(a & b & ->)|(P & b & ->)].
    + left. exists (t :: a), b. reflexivity.
    + injection P as <-. left. exists [], b. reflexivity.
Qed.

Lemma merge_keeps : forall c R s lv num s', LI c R s ->
  merge hash c lv num s = Some s' -> LI c R s' /\ forall k, vle (view s' k) (view s k).
Proof.
  intros c R s lv num s' HI H. unfold merge in H. destruct lv as [|i]; [discriminate|].
  destruct (tbl_at num (level (S i) s)) as [v|] eqn:T; [|discriminate].
  destruct (before num None (level (S i) s)) as [d|] eqn:B; [|discriminate].
  destruct (before_spec _ _ _ _ _ T B) as [(a & b & El)|(E & _)]; [|discriminate].
  apply tbl_at_in in T as [Hv <-]. cbn [level] in *. set (l := nth i (l_up s) []) in *.
  set (purge := tc_purge c && is_last (S i) s) in *. injection H as <-.
  destruct (nth_in_some _ _ _ Hv) as [Hi Hl]. fold l in Hl.
  assert (Hok : lvl_ok l) by exact (li_up _ _ _ _ _ HI l Hl).
  assert (Hnum : nums_ok (l_next s) l) by exact (li_num _ _ _ _ _ HI l Hl).
  pose proof Hok as [Hs Hd]. destruct (Hd v Hv) as [V1 V2].
  assert (Hdl : In d l) by (rewrite El; apply in_app_iff; right; now left).
  assert (Hdv : klt (b_min d) (b_min v)).
  { rewrite El in Hs. apply ss_app in Hs as (_ & Hs & _). exact (ss_in _ _ _ _ Hs v (or_introl eq_refl)). }
  assert (Nd : b_num d <> b_num v).
  { intros E. assert (d = v) by (apply (num_inj l); auto; apply Hnum). subst d. destruct (klt_irrefl _ Hdv). }
  set (dst := rm_tbl (b_num v) l).
  assert (Hdd : In d dst) by (apply rm_tbl_in; now split).
  set (gs := [mkG (b_min d) (Some d) (b_docs v)]).
  assert (F : fits gs dst).
  { unfold gs. constructor.
    - intros g t [<-|[]] E. injection E as <-. exact Hdd.
    - repeat constructor.
    - intros g r [<-|[]] Hr. unfold glo. cbn [g_tab g_recs] in *. destruct (V2 r Hr) as [R1 R2]. split.
      + eapply kle_trans; [apply klt_kle; exact Hdv|exact R1].
      + intros u Hu L. apply rm_tbl_in in Hu as [Hu Nu]. apply R2; [exact Hu|].
        rewrite El in Hu, Hs. apply ss_app in Hs as (_ & Hs & Hab). apply in_app_iff in Hu as [Hu|[<-|[<-|Hu]]].
        * exfalso. apply (klt_asym _ _ L). exact (Hab u d Hu (or_introl eq_refl)).
        * destruct (klt_irrefl _ L).
        * congruence.
        * exact (ss_in _ _ _ _ (ss_tail _ _ _ _ Hs) u Hu).
    - cbn [map concat g_recs]. now rewrite app_nil_r.
    - intros g t [<-|[]] E. discriminate. }
  assert (E : rm_tbl (b_num v) (upd_tbl (b_num d) (tf_sets false purge (b_docs v)) l)
              = installed c false purge (fun _ => true) (l_next s) gs dst true).
  { unfold LsmProofs.installed, gs, write_old. cbn [new_tbls g_tab add_all fold_right fold_left g_recs].
    assert (Ef : filter (fun _ : rec => true) (b_docs v) = b_docs v) by (clear; induction (b_docs v) as [|x q IH]; [reflexivity|cbn [filter]; now rewrite IH]).
    rewrite Ef. unfold dst, rm_tbl, upd_tbl. clear -Nd. induction l as [|t l IH]; [reflexivity|]. cbn [map filter].
    destruct (N.eqb_spec (b_num t) (b_num d)) as [E1|E1].
    - rewrite fnum. destruct (N.eqb_spec (b_num t) (b_num v)) as [E2|E2]; cbn [negb]; [congruence|]. cbn [map].
      apply N.eqb_eq in E1. rewrite E1. f_equal. exact IH.
    - destruct (N.eqb_spec (b_num t) (b_num v)) as [E2|E2]; cbn [negb]; [exact IH|]. cbn [map].
      apply N.eqb_neq in E1. rewrite E1. f_equal. exact IH. }
  unfold set_level. rewrite E.
  assert (Hn2 : NoDup (map b_num dst)) by (apply (nums_filter (l_next s)); exact Hnum).
  assert (Hokd : lvl_ok dst) by (now apply rm_ok).
  assert (Hc0 : l_next s + cnt_new gs = l_next s) by (unfold cnt_new, gs; cbn; lia).
  assert (Ecc : concat (map g_recs gs) = b_docs v) by (cbn [gs map concat g_recs]; apply app_nil_r).
  split.
  - apply level_repl; auto; try lia.
    + apply (li_nil _ _ _ _ _ HI).
    + now apply install_ok.
    + pose proof (nums_installed hash c false purge (fun _ => true) (l_next s) gs dst true) as Q. rewrite Hc0 in Q. apply Q. now apply nums_filter.
    + apply (good_installed hash part c R).
      * apply (lvl_docs c R); [exact Hokd|]. intros t Ht. apply rm_tbl_in in Ht as [Ht _]. exact (li_good _ _ _ _ _ HI l t Hl Ht).
      * intros g r [<-|[]] Hr. apply (gd_docs _ _ _ _ (li_good _ _ _ _ _ HI l v Hl Hv)). exact Hr.
  - intros k. apply repl_view; [exact Hi|]. fold l.
    destruct (rm_get (b_num v) l v k Hok (proj1 Hnum) Hv eq_refl) as [RM1 RM2].
    destruct (fd_get k (b_docs v)) as [r|] eqn:G.
    + destruct (RM1 r eq_refl) as [E1 E2].
      destruct (install_these hash c false purge (l_next s) gs dst k r Hokd Hn2 F) as [X|(X1 & X2 & X3)]; [now rewrite Ecc| |].
      * left. now rewrite X, E1.
      * right. unfold purge in X2. apply andb_true_iff in X2 as [_ X2]. split; [exact X2|]. right. split; [exact X1|]. exists r. now rewrite E1.
    + left. rewrite <- (RM2 eq_refl). apply install_other; auto. now rewrite Ecc.
Qed.
End Hash.
