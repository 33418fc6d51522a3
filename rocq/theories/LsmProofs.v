(** Proofs about the table section: the lookup through the levels finds the last write, whatever
    flushes, compactions, splits, merges and migrations took place. *)
From Coq Require Import List NArith Bool Lia Arith Sorted.
From Verif Require Import Base LogFormatModel KeyModel KeyProofs BloomModel BloomProofs MemTableModel LsmModel.
Import ListNotations.
Local Open Scope N_scope.

(** ** ForestDB *)

Definition klt_rec (a b : rec) : Prop := klt (r_key a) (r_key b).
Definition docs_ok (l : list rec) : Prop := StronglySorted klt_rec l.

Lemma ss_in : forall A (R : A -> A -> Prop) x l, StronglySorted R (x :: l) -> forall y, In y l -> R x y.
Proof. intros A R x l H y Hy. apply StronglySorted_inv in H as [_ H]. rewrite Forall_forall in H. auto. Qed.

Lemma ss_tail : forall A (R : A -> A -> Prop) x l, StronglySorted R (x :: l) -> StronglySorted R l.
Proof. intros A R x l H. apply StronglySorted_inv in H as [H _]. exact H. Qed.

Lemma ss_app : forall A (R : A -> A -> Prop) l1 l2, StronglySorted R (l1 ++ l2) <->
  StronglySorted R l1 /\ StronglySorted R l2 /\ (forall x y, In x l1 -> In y l2 -> R x y).
Proof.
  intros A R l1 l2. induction l1 as [|a l1 IH]; cbn [app].
  - split; [intros H; split; [constructor|split; [exact H|intros x y []]]|intros (_ & H & _); exact H].
  - split.
    + intros H. pose proof (ss_in _ _ _ _ H) as Ha. apply ss_tail in H. apply IH in H as (H1 & H2 & H3).
      split; [|split; [exact H2|]].
      * constructor; [exact H1|]. apply Forall_forall. intros y Hy. apply Ha. apply in_app_iff. now left.
      * intros x y [<-|Hx] Hy; [apply Ha; apply in_app_iff; now right|exact (H3 x y Hx Hy)].
    + intros (H1 & H2 & H3). constructor.
      * apply IH. split; [exact (ss_tail _ _ _ _ H1)|split; [exact H2|intros x y Hx; apply H3; now right]].
      * apply Forall_forall. intros y Hy. apply in_app_iff in Hy as [Hy|Hy];
          [exact (ss_in _ _ _ _ H1 y Hy)|apply H3; [now left|exact Hy]].
Qed.

Lemma ss_filter : forall A (R : A -> A -> Prop) f l, StronglySorted R l -> StronglySorted R (filter f l).
Proof.
  intros A R f l. induction l as [|a l IH]; intros H; [constructor|]. cbn [filter].
  pose proof (ss_in _ _ _ _ H) as Ha. specialize (IH (ss_tail _ _ _ _ H)). destruct (f a); [|exact IH].
  constructor; [exact IH|]. apply Forall_forall. intros y Hy. apply filter_In in Hy. now apply Ha.
Qed.

Lemma docs_key_inj : forall l a b, docs_ok l -> In a l -> In b l -> r_key a = r_key b -> a = b.
Proof.
  induction l as [|x l IH]; intros a b Hs Ha Hb E; [destruct Ha|].
  pose proof (ss_in _ _ _ _ Hs) as Hx. pose proof (ss_tail _ _ _ _ Hs) as Hl.
  destruct Ha as [<-|Ha], Hb as [<-|Hb]; auto.
  - specialize (Hx b Hb). unfold klt_rec in Hx. rewrite E in Hx. destruct (klt_irrefl _ Hx).
  - specialize (Hx a Ha). unfold klt_rec in Hx. rewrite E in Hx. destruct (klt_irrefl _ Hx).
Qed.

Lemma fd_get_in : forall k l r, fd_get k l = Some r -> In r l /\ r_key r = k.
Proof.
  intros k l r H. unfold fd_get in H. apply find_some in H as [H1 H2]. apply keqb_true in H2. now split.
Qed.

Lemma fd_get_some : forall k l r, docs_ok l -> (fd_get k l = Some r <-> In r l /\ r_key r = k).
Proof.
  intros k l r Hs. split; [apply fd_get_in|]. intros [H1 H2]. destruct (fd_get k l) as [x|] eqn:E.
  - apply fd_get_in in E as [E1 E2]. f_equal. apply (docs_key_inj l); auto. congruence.
  - unfold fd_get in E. pose proof (find_none _ _ E r H1) as H. apply keqb_false in H. contradiction.
Qed.

Lemma fd_get_none : forall k l, fd_get k l = None <-> forall r, In r l -> r_key r <> k.
Proof.
  intros k l. unfold fd_get. split.
  - intros E r Hr. pose proof (find_none _ _ E r Hr) as H. now apply keqb_false in H.
  - intros H. destruct (find _ l) as [r|] eqn:E; [|reflexivity]. apply find_some in E as [E1 E2].
    apply keqb_true in E2. destruct (H r E1 E2).
Qed.

Lemma fd_set_spec : forall r l, docs_ok l ->
  docs_ok (fd_set r l) /\ (forall x, In x (fd_set r l) <-> x = r \/ (In x l /\ r_key x <> r_key r)).
Proof.
  intros r. induction l as [|y l IH]; intros Hs; cbn [fd_set].
  - split; [repeat constructor|]. intros x. cbn [In]. intuition congruence.
  - pose proof (ss_in _ _ _ _ Hs) as Hy. pose proof (ss_tail _ _ _ _ Hs) as Hl.
    specialize (IH Hl) as [IH1 IH2].
    destruct (kcmp (r_key r) (r_key y)) eqn:C.
    + apply kcmp_eq in C. split.
      * constructor; [exact Hl|]. apply Forall_forall. intros z Hz. unfold klt_rec. rewrite C. exact (Hy z Hz).
      * intros x. cbn [In]. split.
        -- intros [<-|Hx]; [now left|]. right. split; [now right|]. intros E. specialize (Hy x Hx).
           unfold klt_rec in Hy. rewrite <- C, E in Hy. destruct (klt_irrefl _ Hy).
        -- intros [-> |[[<-|Hx] N]]; [now left|congruence|now right].
    + split.
      * constructor; [exact Hs|]. apply Forall_forall. intros z [<-|Hz]; [exact C|].
        unfold klt_rec. eapply klt_trans; [exact C|exact (Hy z Hz)].
      * intros x. cbn [In]. split.
        -- intros [<-|[<-|Hx]]; [now left| |].
           ++ right. split; [now left|]. intros E. rewrite E in C. change (klt (r_key r) (r_key r)) in C. destruct (klt_irrefl _ C).
           ++ right. split; [now right|]. intros E. specialize (Hy x Hx). unfold klt_rec in Hy. rewrite E in Hy.
              destruct (klt_asym _ _ Hy C).
        -- intros [-> |[H _]]; [now left|now right].
    + apply kcmp_gt in C. split.
      * constructor; [exact IH1|]. apply Forall_forall. intros z Hz. apply IH2 in Hz as [-> |[Hz _]]; [exact C|exact (Hy z Hz)].
      * intros x. cbn [In]. rewrite IH2. split.
        -- intros [<-|[-> |[Hx N]]]; [|now left|right; now split; [right|]].
           right. split; [now left|]. intros E. rewrite E in C. destruct (klt_irrefl _ C).
        -- intros [-> |[[<-|Hx] N]]; [right; now left|now left|right; right; now split].
Qed.

Lemma fd_del_spec : forall k l, docs_ok l ->
  docs_ok (fd_del k l) /\ (forall x, In x (fd_del k l) <-> In x l /\ r_key x <> k).
Proof.
  intros k l Hs. unfold fd_del. split; [now apply ss_filter|]. intros x. rewrite filter_In, negb_true_iff, keqb_false. tauto.
Qed.

Section Hash.
Variable hash : key -> N * N.
Variable part : key -> N.

Local Notation tf_set := (tf_set hash).
Local Notation tf_sets := (tf_sets hash).
Local Notation tf_get := (tf_get hash).

(** ** Tables *)

Lemma tf_sets_fields : forall raw purge rs t,
  b_num (tf_sets raw purge rs t) = b_num t /\ b_src (tf_sets raw purge rs t) = b_src t /\
  b_hash (tf_sets raw purge rs t) = b_hash t /\ b_min (tf_sets raw purge rs t) = b_min t.
Proof.
  intros raw purge rs. unfold LsmModel.tf_sets. induction rs as [|r rs IH]; intros t; cbn [fold_left]; [now repeat split|].
  specialize (IH (tf_set raw purge r t)). exact IH.
Qed.

(** Records with distinct keys written to a table. *)
Lemma tf_sets_docs : forall raw purge rs t, docs_ok rs -> docs_ok (b_docs t) ->
  docs_ok (b_docs (tf_sets raw purge rs t)) /\
  (forall x, In x (b_docs (tf_sets raw purge rs t)) <->
     (In x rs /\ purge && is_del x = false) \/ (In x (b_docs t) /\ forall y, In y rs -> r_key y <> r_key x)).
Proof.
  intros raw purge rs. unfold LsmModel.tf_sets. induction rs as [|r rs IH]; intros t Hr Ht; cbn [fold_left].
  - split; [exact Ht|]. intros x. cbn [In]. split; [intros H; right; split; [exact H|intros y []]|intros [[[] _]|[H _]]; exact H].
  - pose proof (ss_in _ _ _ _ Hr) as Hx. pose proof (ss_tail _ _ _ _ Hr) as Hrs.
    assert (Hd : docs_ok (b_docs (tf_set raw purge r t)) /\
                 forall x, In x (b_docs (tf_set raw purge r t)) <->
                   (x = r /\ purge && is_del r = false) \/ (In x (b_docs t) /\ r_key x <> r_key r)).
    { unfold LsmModel.tf_set. cbn [b_docs]. destruct (purge && is_del r) eqn:P.
      - destruct (fd_del_spec (r_key r) _ Ht) as [H1 H2]. split; [exact H1|]. intros x. rewrite H2. intuition congruence.
      - destruct (fd_set_spec r _ Ht) as [H1 H2]. split; [exact H1|]. intros x. rewrite H2. intuition congruence. }
    destruct Hd as [Hd1 Hd2]. specialize (IH (tf_set raw purge r t) Hrs Hd1) as [I1 I2].
    split; [exact I1|]. intros x. rewrite I2, Hd2. cbn [In]. split.
    + intros [[H1 H2]|[[[-> P]|[H N]] H']].
      * left. split; [now right|exact H2].
      * left. split; [now left|exact P].
      * right. split; [exact H|]. intros y [<-|Hy]; [congruence|now apply H'].
    + intros [[[<-|H1] H2]|[H H']].
      * right. split; [left; now split|]. intros y Hy E. specialize (Hx y Hy). unfold klt_rec in Hx. rewrite E in Hx.
        destruct (klt_irrefl _ Hx).
      * left. now split.
      * right. split; [|intros y Hy; apply H'; now right]. right. split; [exact H|]. intros E. apply (H' r); [now left|now symmetry].
Qed.

(** ** Levels above level 0 *)

Definition min_lt (a b : tbl) : Prop := klt (b_min a) (b_min b).
Definition in_range (ts : list tbl) (lo : key) (d : rec) : Prop :=
  kle lo (r_key d) /\ forall u, In u ts -> klt lo (b_min u) -> klt (r_key d) (b_min u).
Definition lvl_ok (ts : list tbl) : Prop :=
  StronglySorted min_lt ts /\
  forall t, In t ts -> docs_ok (b_docs t) /\ forall d, In d (b_docs t) -> in_range ts (b_min t) d.
Definition recs (ts : list tbl) (r : rec) : Prop := exists t, In t ts /\ In r (b_docs t).
Definition lv_get (k : key) (ts : list tbl) : option rec :=
  match floor k ts with Some t => fd_get k (b_docs t) | None => None end.

Lemma floor_spec : forall k ts t, StronglySorted min_lt ts ->
  (floor k ts = Some t <-> In t ts /\ kle (b_min t) k /\ forall u, In u ts -> klt (b_min t) (b_min u) -> klt k (b_min u)).
Proof.
  intros k. induction ts as [|a ts IH]; intros t Hs; cbn [floor].
  - split; [discriminate|intros [[] _]].
  - pose proof (ss_in _ _ _ _ Hs) as Ha. pose proof (ss_tail _ _ _ _ Hs) as Hl.
    destruct (kleb_spec (b_min a) k) as [Hk|Hk].
    + destruct (floor k ts) as [u|] eqn:F.
      * pose proof (proj1 (IH u Hl) eq_refl) as (U1 & U2 & U3). specialize (IH t Hl). split.
        -- intros E. injection E as <-. split; [now right|split; [exact U2|]].
           intros w [<-|Hw]; [|exact (U3 w Hw)]. intros Hw. destruct (klt_asym _ _ Hw (Ha _ U1)).
        -- intros ([<-|T1] & T2 & T3).
           ++ specialize (T3 u (or_intror U1) (Ha _ U1)). apply kle_not_lt in U2. contradiction.
           ++ apply IH. split; [exact T1|split; [exact T2|]]. intros w Hw. apply T3. now right.
      * split.
        -- intros E. injection E as <-. split; [now left|split; [exact Hk|]].
           intros w [<-|Hw] H; [destruct (klt_irrefl _ H)|]. destruct (kleb_spec (b_min w) k) as [C|C]; [|now apply kle_not_lt in C || (destruct (ktrichotomy k (b_min w)) as [?|[E|G]]; [assumption|exfalso; apply C; rewrite E; apply kle_refl|exfalso; apply C; now apply klt_kle])].
           exfalso. clear -F Hw C Hl. induction ts as [|b ts IHt]; [destruct Hw|]. cbn [floor] in F.
           destruct (kleb_spec (b_min b) k) as [D|D]; [destruct (floor k ts); discriminate|].
           destruct Hw as [<-|Hw]; [contradiction|]. apply D. pose proof (ss_in _ _ _ _ Hl w Hw) as L.
           apply klt_kle. eapply klt_kle_trans; [exact L|exact C].
        -- intros ([<-|T1] & T2 & T3); [reflexivity|]. exfalso.
           assert (X : None = Some t); [|discriminate]. apply IH; [exact Hl|].
           split; [exact T1|split; [exact T2|intros w Hw; apply T3; now right]].
    + split; [discriminate|]. intros ([<-|T1] & T2 & T3); [contradiction|]. exfalso. apply Hk.
      apply klt_kle. eapply klt_kle_trans; [exact (Ha _ T1)|exact T2].
Qed.

Lemma lv_get_some : forall k ts r, lvl_ok ts -> (lv_get k ts = Some r <-> recs ts r /\ r_key r = k).
Proof.
  intros k ts r [Hs Hd]. unfold lv_get. split.
  - destruct (floor k ts) as [t|] eqn:F; [|discriminate]. apply floor_spec in F as (F1 & F2 & F3); [|exact Hs].
    intros E. apply fd_get_in in E as [E1 E2]. split; [exists t; now split|exact E2].
  - intros [(t & T1 & T2) E]. destruct (Hd t T1) as [D1 D2]. destruct (D2 r T2) as [D3 D4].
    assert (F : floor k ts = Some t).
    { apply floor_spec; [exact Hs|]. rewrite E in D3, D4. split; [exact T1|split; [exact D3|exact D4]]. }
    rewrite F. apply fd_get_some; [exact D1|]. now split.
Qed.

Lemma lv_get_none : forall k ts, lvl_ok ts -> (lv_get k ts = None <-> forall r, recs ts r -> r_key r <> k).
Proof.
  intros k ts H. split.
  - intros E r Hr K. assert (X : lv_get k ts = Some r) by (apply lv_get_some; [exact H|now split]). congruence.
  - intros N. destruct (lv_get k ts) as [r|] eqn:E; [|reflexivity]. apply lv_get_some in E as [E1 E2]; [|exact H]. destruct (N r E1 E2).
Qed.

Lemma add_tbl_in : forall t l x, In x (add_tbl t l) <-> x = t \/ In x l.
Proof.
  intros t. induction l as [|u l IH]; intros x; cbn [add_tbl]; [cbn [In]; intuition congruence|].
  destruct (kltb (b_min u) (b_min t)); cbn [In]; [rewrite IH|]; intuition congruence.
Qed.

Lemma add_tbl_sorted : forall t l, StronglySorted min_lt l -> (forall u, In u l -> b_min u <> b_min t) ->
  StronglySorted min_lt (add_tbl t l).
Proof.
  intros t. induction l as [|u l IH]; intros Hs N; cbn [add_tbl]; [repeat constructor|].
  pose proof (ss_in _ _ _ _ Hs) as Hu. pose proof (ss_tail _ _ _ _ Hs) as Hl.
  destruct (kltb_spec (b_min u) (b_min t)) as [C|C].
  - constructor; [apply IH; [exact Hl|intros w Hw; apply N; now right]|]. apply Forall_forall. intros w Hw.
    apply add_tbl_in in Hw as [-> |Hw]; [exact C|exact (Hu w Hw)].
  - constructor; [exact Hs|]. assert (L : klt (b_min t) (b_min u)).
    { destruct (ktrichotomy (b_min t) (b_min u)) as [L|[E|G]]; [exact L| |contradiction].
      destruct (N u (or_introl eq_refl)). now symmetry. }
    apply Forall_forall. intros w [<-|Hw]; [exact L|]. eapply klt_trans; [exact L|exact (Hu w Hw)].
Qed.

Lemma add_all_in : forall ts l x, In x (add_all ts l) <-> In x ts \/ In x l.
Proof.
  intros ts l x. induction ts as [|t ts IH]; cbn [add_all fold_right In]; [tauto|].
  fold (add_all ts l). rewrite add_tbl_in, IH. intuition congruence.
Qed.

Lemma add_all_sorted : forall ts l, StronglySorted min_lt l -> StronglySorted min_lt ts ->
  (forall t u, In t ts -> In u l -> b_min u <> b_min t) -> StronglySorted min_lt (add_all ts l).
Proof.
  intros ts l Hl. induction ts as [|t ts IH]; intros Hs N; [exact Hl|]. cbn [add_all fold_right]. fold (add_all ts l).
  pose proof (ss_in _ _ _ _ Hs) as Ht.
  apply add_tbl_sorted; [apply IH; [exact (ss_tail _ _ _ _ Hs)|intros a u Ha; apply N; now right]|].
  intros u Hu. apply add_all_in in Hu as [Hu|Hu].
  - specialize (Ht u Hu). intros E. unfold min_lt in Ht. rewrite E in Ht. destruct (klt_irrefl _ Ht).
  - apply N; [now left|exact Hu].
Qed.

Lemma rm_tbl_in : forall n l t, In t (rm_tbl n l) <-> In t l /\ b_num t <> n.
Proof. intros n l t. unfold rm_tbl. rewrite filter_In, negb_true_iff, N.eqb_neq. tauto. Qed.

Lemma tbl_at_in : forall n l t, tbl_at n l = Some t -> In t l /\ b_num t = n.
Proof. intros n l t H. apply find_some in H as [H1 H2]. apply N.eqb_eq in H2. now split. Qed.

Lemma upd_tbl_in : forall n f l x, In x (upd_tbl n f l) <-> exists t, In t l /\ x = (if b_num t =? n then f t else t).
Proof.
  intros n f l x. unfold upd_tbl. rewrite in_map_iff. split; intros (t & H1 & H2); exists t; split; auto.
Qed.

(** ** Groups of records and the tables they go to *)

Definition glo (g : grp) : key := match g_tab g with Some t => b_min t | None => g_min g end.
Definition g_lt (g g' : grp) : Prop := klt (glo g) (glo g') /\ forall r, In r (g_recs g) -> klt (r_key r) (glo g').

(** What makes a list of groups fit a level. *)
Record fits (gs : list grp) (dst : list tbl) : Prop := {
  fit_tab : forall g t, In g gs -> g_tab g = Some t -> In t dst;
  fit_ord : StronglySorted g_lt gs;
  fit_rng : forall g r, In g gs -> In r (g_recs g) -> in_range dst (glo g) r;
  fit_srt : docs_ok (concat (map g_recs gs));
  fit_new : forall g t, In g gs -> g_tab g = None -> In t dst ->
    b_min t <> g_min g /\ forall d, In d (b_docs t) -> klt (b_min t) (g_min g) -> klt (r_key d) (g_min g) }.

(** The records that go to table [n]. *)
Definition to_tab (sel : rec -> bool) (n : N) (gs : list grp) : list rec :=
  concat (map (fun g => match g_tab g with Some t => if b_num t =? n then filter sel (g_recs g) else [] | None => [] end) gs).

Lemma tf_sets_app : forall raw purge a b t, tf_sets raw purge (a ++ b) t = tf_sets raw purge b (tf_sets raw purge a t).
Proof. intros. unfold LsmModel.tf_sets. now rewrite fold_left_app. Qed.

Lemma write_old_map : forall raw purge sel gs l,
  write_old hash raw purge sel gs l = map (fun t => tf_sets raw purge (to_tab sel (b_num t) gs) t) l.
Proof.
  intros raw purge sel gs. unfold write_old. induction gs as [|g gs IH]; intros l; cbn [fold_left].
  - unfold to_tab. cbn [map concat]. unfold LsmModel.tf_sets. cbn [fold_left]. symmetry. apply map_id.
  - rewrite IH. unfold to_tab. cbn [map concat]. destruct (g_tab g) as [d|].
    + unfold upd_tbl. rewrite map_map. apply map_ext. intros t. rewrite (N.eqb_sym (b_num d) (b_num t)).
      destruct (N.eqb_spec (b_num t) (b_num d)) as [E|E].
      * destruct (tf_sets_fields raw purge (filter sel (g_recs g)) t) as (F & _). rewrite F. now rewrite tf_sets_app.
      * reflexivity.
    + apply map_ext. intros t. reflexivity.
Qed.

Lemma to_tab_in : forall sel n gs r, In r (to_tab sel n gs) <->
  exists g t, In g gs /\ g_tab g = Some t /\ b_num t = n /\ In r (g_recs g) /\ sel r = true.
Proof.
  intros sel n gs r. unfold to_tab. rewrite in_concat. split.
  - intros (l & Hl & Hr). apply in_map_iff in Hl as (g & E & Hg). destruct (g_tab g) as [t|] eqn:T; [|subst l; destruct Hr].
    destruct (N.eqb_spec (b_num t) n) as [En|En]; [|subst l; destruct Hr]. subst l. apply filter_In in Hr as [H1 H2].
    exists g, t. auto.
  - intros (g & t & Hg & T & En & Hr & Hs). eexists. split; [apply in_map_iff; exists g; split; [reflexivity|exact Hg]|].
    rewrite T, En, N.eqb_refl. apply filter_In. now split.
Qed.

Lemma concat_in_sorted : forall (gs : list grp), docs_ok (concat (map g_recs gs)) -> forall g, In g gs -> docs_ok (g_recs g).
Proof.
  induction gs as [|a gs IH]; intros H g Hg; [destruct Hg|]. cbn [map concat] in H. apply ss_app in H as (H1 & H2 & _).
  destruct Hg as [<-|Hg]; [exact H1|exact (IH H2 g Hg)].
Qed.

Lemma to_tab_sorted : forall sel n gs, docs_ok (concat (map g_recs gs)) -> docs_ok (to_tab sel n gs).
Proof.
  intros sel n. induction gs as [|g gs IH]; intros H; [constructor|]. unfold to_tab. cbn [map concat] in *. fold (to_tab sel n gs).
  apply ss_app in H as (H1 & H2 & H3). specialize (IH H2).
  assert (X : forall b : bool, docs_ok ((if b then filter sel (g_recs g) else []) ++ to_tab sel n gs)).
  { intros [|]; [|exact IH]. apply ss_app. split; [now apply ss_filter|split; [exact IH|]].
    intros x y Hx Hy. apply filter_In in Hx as [Hx _]. apply to_tab_in in Hy as (g' & t & G1 & _ & _ & G2 & _).
    apply H3; [exact Hx|]. apply in_concat. exists (g_recs g'). split; [now apply in_map|exact G2]. }
  destruct (g_tab g) as [t|]; [apply (X (b_num t =? n))|exact (X false)].
Qed.

Definition all_true (n : nat) : bool := true.

Lemma new_tbls_in : forall c j n gs t, In t (new_tbls hash c all_true j n gs) ->
  exists g m, In g gs /\ g_tab g = None /\ t = tf_sets true false (g_recs g) (new_tbl c m 0 (g_min g)) /\ n <= m.
Proof.
  intros c j n gs. revert j n. induction gs as [|g gs IH]; intros j n t H; [destruct H|]. cbn [new_tbls] in H.
  destruct (g_tab g) as [d|] eqn:T.
  - destruct (IH _ _ _ H) as (g' & m & G1 & G). exists g', m. split; [now right|exact G].
  - unfold all_true in H at 1. destruct H as [<-|H].
    + exists g, n. split; [now left|]. split; [exact T|split; [reflexivity|lia]].
    + destruct (IH _ _ _ H) as (g' & m & G1 & G2 & G3 & G4). exists g', m. split; [now right|]. split; [exact G2|split; [exact G3|lia]].
Qed.

Lemma new_tbls_of : forall c j n gs g, In g gs -> g_tab g = None -> exists m,
  In (tf_sets true false (g_recs g) (new_tbl c m 0 (g_min g))) (new_tbls hash c all_true j n gs).
Proof.
  intros c j n gs. revert j n. induction gs as [|a gs IH]; intros j n g H T; [destruct H|]. cbn [new_tbls].
  destruct H as [<-|H].
  - rewrite T. exists n. now left.
  - destruct (g_tab a); [exact (IH _ _ _ H T)|]. destruct (IH (S j) (n + 1) g H T) as (m & Hm). exists m. now right.
Qed.

Lemma new_tbls_sorted : forall c j n gs, StronglySorted g_lt gs -> StronglySorted min_lt (new_tbls hash c all_true j n gs).
Proof.
  intros c j n gs. revert j n. induction gs as [|a gs IH]; intros j n H; [constructor|]. cbn [new_tbls].
  pose proof (ss_in _ _ _ _ H) as Ha. pose proof (ss_tail _ _ _ _ H) as Hl.
  destruct (g_tab a) as [d|] eqn:T; [now apply IH|]. unfold all_true at 1.
  constructor; [now apply IH|]. apply Forall_forall. intros t Ht. apply new_tbls_in in Ht as (g & m & G1 & G2 & -> & _).
  unfold min_lt. destruct (tf_sets_fields true false (g_recs a) (new_tbl c n 0 (g_min a))) as (_ & _ & _ & ->).
  destruct (tf_sets_fields true false (g_recs g) (new_tbl c m 0 (g_min g))) as (_ & _ & _ & ->). cbn [b_min new_tbl].
  destruct (Ha g G1) as [L _]. unfold glo in L. now rewrite T, G2 in L.
Qed.

(** Writing the groups. [sel] is everything, or a part of the records for existing tables. *)
Definition installed c raw purge sel n gs dst (full : bool) : list tbl :=
  add_all (if full then new_tbls hash c all_true 0 n gs else []) (write_old hash raw purge sel gs dst).

Lemma min_inj : forall l a b, StronglySorted min_lt l -> In a l -> In b l -> b_min a = b_min b -> a = b.
Proof.
  induction l as [|x l IH]; intros a b Hs Ha Hb E; [destruct Ha|].
  pose proof (ss_in _ _ _ _ Hs) as Hx. pose proof (ss_tail _ _ _ _ Hs) as Hl.
  destruct Ha as [<-|Ha], Hb as [<-|Hb]; auto.
  - specialize (Hx b Hb). unfold min_lt in Hx. rewrite E in Hx. destruct (klt_irrefl _ Hx).
  - specialize (Hx a Ha). unfold min_lt in Hx. rewrite E in Hx. destruct (klt_irrefl _ Hx).
Qed.

Lemma num_inj : forall l (a b : tbl), NoDup (map b_num l) -> In a l -> In b l -> b_num a = b_num b -> a = b.
Proof.
  induction l as [|x l IH]; intros a b Hs Ha Hb E; [destruct Ha|]. cbn [map] in Hs. inversion Hs as [|? ? N D]; subst.
  destruct Ha as [<-|Ha], Hb as [<-|Hb]; auto.
  - destruct N. rewrite E. now apply in_map.
  - destruct N. rewrite <- E. now apply in_map.
Qed.

Lemma ss_pair : forall A (R : A -> A -> Prop) l x y, StronglySorted R l -> In x l -> In y l -> x = y \/ R x y \/ R y x.
Proof.
  intros A R. induction l as [|a l IH]; intros x y Hs Hx Hy; [destruct Hx|].
  pose proof (ss_in _ _ _ _ Hs) as Ha. pose proof (ss_tail _ _ _ _ Hs) as Hl.
  destruct Hx as [<-|Hx], Hy as [<-|Hy]; auto.
Qed.

Lemma fits_pair : forall gs dst g g', fits gs dst -> In g gs -> In g' gs -> klt (glo g) (glo g') -> g_lt g g'.
Proof.
  intros gs dst g g' F Hg Hg' L. destruct (ss_pair _ _ _ _ _ (fit_ord _ _ F) Hg Hg') as [<-|[P|[P _]]].
  - destruct (klt_irrefl _ L).
  - exact P.
  - destruct (klt_asym _ _ L P).
Qed.

(** Each record is in one group. *)
Lemma fits_one : forall gs dst g g' r, fits gs dst -> In g gs -> In g' gs -> In r (g_recs g) -> In r (g_recs g') -> g = g'.
Proof.
  intros gs dst g g' r F Hg Hg' R R'. destruct (ss_pair _ _ _ _ _ (fit_ord _ _ F) Hg Hg') as [E|[[_ P]|[_ P]]]; [exact E| |]; exfalso.
  - specialize (P r R). destruct (fit_rng _ _ F g' r Hg' R') as [L _]. apply kle_not_lt in L. contradiction.
  - specialize (P r R'). destruct (fit_rng _ _ F g r Hg R) as [L _]. apply kle_not_lt in L. contradiction.
Qed.

Lemma ss_map_min : forall f l, (forall t, b_min (f t) = b_min t) -> StronglySorted min_lt l -> StronglySorted min_lt (map f l).
Proof.
  intros f l Hf. induction l as [|a l IH]; intros H; [constructor|]. cbn [map].
  pose proof (ss_in _ _ _ _ H) as Ha. constructor; [exact (IH (ss_tail _ _ _ _ H))|].
  apply Forall_forall. intros y Hy. apply in_map_iff in Hy as (u & <- & Hu). unfold min_lt. rewrite !Hf. exact (Ha u Hu).
Qed.

Lemma installed_in : forall c raw purge sel n gs dst full t, In t (installed c raw purge sel n gs dst full) ->
  (exists u, In u dst /\ t = tf_sets raw purge (to_tab sel (b_num u) gs) u) \/
  (full = true /\ exists g m, In g gs /\ g_tab g = None /\ n <= m /\ t = tf_sets true false (g_recs g) (new_tbl c m 0 (g_min g))).
Proof.
  intros c raw purge sel n gs dst full t H. unfold installed in H. apply add_all_in in H as [H|H].
  - right. destruct full; [|destruct H]. split; [reflexivity|]. apply new_tbls_in in H as (g & m & G1 & G2 & G3 & G4). exists g, m. auto.
  - left. rewrite write_old_map in H. apply in_map_iff in H as (u & <- & Hu). exists u. now split.
Qed.

Lemma new_docs : forall c m g, docs_ok (g_recs g) ->
  docs_ok (b_docs (tf_sets true false (g_recs g) (new_tbl c m 0 (g_min g)))) /\
  forall x, In x (b_docs (tf_sets true false (g_recs g) (new_tbl c m 0 (g_min g)))) <-> In x (g_recs g).
Proof.
  intros c m g H. destruct (tf_sets_docs true false (g_recs g) (new_tbl c m 0 (g_min g)) H) as [H1 H2]; [constructor|].
  split; [exact H1|]. intros x. rewrite H2. cbn [andb new_tbl b_docs In]. intuition.
Qed.

Lemma fmin : forall raw purge rs t, b_min (tf_sets raw purge rs t) = b_min t.
Proof. intros. now destruct (tf_sets_fields raw purge rs t) as (_ & _ & _ & ->). Qed.
Lemma fnum : forall raw purge rs t, b_num (tf_sets raw purge rs t) = b_num t.
Proof. intros. now destruct (tf_sets_fields raw purge rs t) as (-> & _). Qed.

Lemma install_ok : forall c raw purge sel n gs dst full, lvl_ok dst -> NoDup (map b_num dst) -> fits gs dst ->
  lvl_ok (installed c raw purge sel n gs dst full).
Proof.
  intros c raw purge sel n gs dst full [Hs Hd] Hn F. split.
  - unfold installed. apply add_all_sorted.
    + rewrite write_old_map. apply ss_map_min; [intros t; apply fmin|exact Hs].
    + destruct full; [apply new_tbls_sorted; exact (fit_ord _ _ F)|constructor].
    + intros t u Ht Hu. destruct full; [|destruct Ht]. apply new_tbls_in in Ht as (g & m & G1 & G2 & -> & _).
      rewrite write_old_map in Hu. apply in_map_iff in Hu as (w & <- & Hw). rewrite !fmin. cbn [new_tbl b_min].
      exact (proj1 (fit_new _ _ F g w G1 G2 Hw)).
  - intros t Ht. apply installed_in in Ht as [(u & Hu & ->)|(-> & g & m & G1 & G2 & _ & ->)].
    + destruct (Hd u Hu) as [D1 D2].
      destruct (tf_sets_docs raw purge (to_tab sel (b_num u) gs) u) as [S1 S2]; [apply to_tab_sorted, (fit_srt _ _ F)|exact D1|].
      split; [exact S1|]. intros d Hdd. rewrite fmin. apply S2 in Hdd.
      assert (X : in_range dst (b_min u) d /\ forall g, In g gs -> g_tab g = None -> klt (b_min u) (g_min g) -> klt (r_key d) (g_min g)).
      { destruct Hdd as [[Hdd _]|[Hdd _]].
        - apply to_tab_in in Hdd as (g & t0 & G1 & G2 & G3 & G4 & _).
          assert (E : t0 = u) by (apply (num_inj dst); auto; exact (fit_tab _ _ F g t0 G1 G2)). subst t0.
          assert (El : glo g = b_min u) by (unfold glo; now rewrite G2).
          split; [rewrite <- El; exact (fit_rng _ _ F g d G1 G4)|].
          intros g2 H2 T2 L. destruct (fits_pair gs dst g g2 F G1 H2) as [_ P].
          + rewrite El. unfold glo. now rewrite T2.
          + specialize (P d G4). unfold glo in P. now rewrite T2 in P.
        - split; [exact (D2 d Hdd)|]. intros g2 H2 T2 L. exact (proj2 (fit_new _ _ F g2 u H2 T2 Hu) d Hdd L). }
      destruct X as [[X1 X2] X3]. split; [exact X1|]. intros w Hw L.
      apply installed_in in Hw as [(w' & Hw' & ->)|(-> & g & m & G1 & G2 & _ & ->)]; rewrite fmin in L |- *.
      * exact (X2 w' Hw' L).
      * exact (X3 g G1 G2 L).
    + destruct (new_docs c m g (concat_in_sorted gs (fit_srt _ _ F) g G1)) as [S1 S2].
      split; [exact S1|]. intros d Hdd. apply S2 in Hdd. rewrite fmin. cbn [new_tbl b_min].
      assert (El : glo g = g_min g) by (unfold glo; now rewrite G2).
      destruct (fit_rng _ _ F g d G1 Hdd) as [X1 X2]. rewrite El in X1, X2. split; [exact X1|]. intros w Hw L.
      apply installed_in in Hw as [(w' & Hw' & ->)|(_ & g2 & m2 & H1 & H2 & _ & ->)]; rewrite fmin in L |- *.
      * exact (X2 w' Hw' L).
      * cbn [new_tbl b_min] in *. destruct (fits_pair gs dst g g2 F G1 H1) as [_ P].
        -- rewrite El. unfold glo. now rewrite H2.
        -- specialize (P d Hdd). unfold glo in P. now rewrite H2 in P.
Qed.

Lemma lv_get_ext : forall k ts ts', lvl_ok ts -> lvl_ok ts' ->
  (forall r, r_key r = k -> (recs ts r <-> recs ts' r)) -> lv_get k ts = lv_get k ts'.
Proof.
  intros k ts ts' H H' E. destruct (lv_get k ts) as [r|] eqn:G.
  - apply lv_get_some in G as [G1 G2]; [|exact H]. symmetry. apply lv_get_some; [exact H'|]. split; [|exact G2]. now apply E.
  - symmetry. apply lv_get_none; [exact H'|]. intros r Hr K. apply (proj1 (lv_get_none k ts H) G r); [|exact K]. now apply E.
Qed.

Lemma in_concat_grp : forall gs r, In r (concat (map g_recs gs)) <-> exists g, In g gs /\ In r (g_recs g).
Proof.
  intros gs r. rewrite in_concat. split.
  - intros (l & Hl & Hr). apply in_map_iff in Hl as (g & <- & Hg). exists g. now split.
  - intros (g & Hg & Hr). exists (g_recs g). split; [now apply in_map|exact Hr].
Qed.

(** Keys without a record in the groups: nothing changes. *)
Lemma install_other : forall c raw purge sel n gs dst full k, lvl_ok dst -> NoDup (map b_num dst) -> fits gs dst ->
  fd_get k (concat (map g_recs gs)) = None -> lv_get k (installed c raw purge sel n gs dst full) = lv_get k dst.
Proof.
  intros c raw purge sel n gs dst full k Hok Hn F Hk. pose proof (proj1 (fd_get_none _ _) Hk) as Hno.
  apply lv_get_ext; [now apply install_ok|exact Hok|]. intros r Er. split.
  - intros (t & Ht & Hr). apply installed_in in Ht as [(u & Hu & ->)|(-> & g & m & G1 & G2 & _ & ->)].
    + destruct Hok as [_ Hd]. destruct (Hd u Hu) as [D1 _].
      destruct (tf_sets_docs raw purge (to_tab sel (b_num u) gs) u) as [_ S2]; [apply to_tab_sorted, (fit_srt _ _ F)|exact D1|].
      apply S2 in Hr as [[Hr _]|[Hr _]]; [|exists u; now split].
      apply to_tab_in in Hr as (g & t0 & G1 & _ & _ & G4 & _). destruct (Hno r); [apply in_concat_grp; exists g; now split|exact Er].
    + destruct (new_docs c m g (concat_in_sorted gs (fit_srt _ _ F) g G1)) as [_ S2]. apply S2 in Hr.
      destruct (Hno r); [apply in_concat_grp; exists g; now split|exact Er].
  - intros (u & Hu & Hr). exists (tf_sets raw purge (to_tab sel (b_num u) gs) u). split.
    + unfold installed. apply add_all_in. right. rewrite write_old_map. apply in_map_iff. exists u. now split.
    + destruct Hok as [_ Hd]. destruct (Hd u Hu) as [D1 _].
      destruct (tf_sets_docs raw purge (to_tab sel (b_num u) gs) u) as [_ S2]; [apply to_tab_sorted, (fit_srt _ _ F)|exact D1|].
      apply S2. right. split; [exact Hr|]. intros y Hy E. apply to_tab_in in Hy as (g & t0 & G1 & _ & _ & G4 & _).
      apply (Hno y); [apply in_concat_grp; exists g; now split|congruence].
Qed.

Lemma floor_range : forall ts a b d, StronglySorted min_lt ts -> In a ts -> In b ts ->
  in_range ts (b_min a) d -> in_range ts (b_min b) d -> a = b.
Proof.
  intros ts a b d Hs Ha Hb [A1 A2] [B1 B2].
  assert (Fa : floor (r_key d) ts = Some a) by (apply floor_spec; auto).
  assert (Fb : floor (r_key d) ts = Some b) by (apply floor_spec; auto). congruence.
Qed.

(** Keys with a record in the groups: that record, or nothing if it is a tombstone that is purged. *)
Lemma install_these : forall c raw purge n gs dst k r, lvl_ok dst -> NoDup (map b_num dst) -> fits gs dst ->
  fd_get k (concat (map g_recs gs)) = Some r ->
  let l := installed c raw purge (fun _ => true) n gs dst true in
  lv_get k l = Some r \/ (lv_get k l = None /\ purge = true /\ is_del r = true).
Proof.
  intros c raw purge n gs dst k r Hok Hn F Hk l. apply fd_get_in in Hk as [Hin Ek]. apply in_concat_grp in Hin as (g & G1 & G2).
  assert (Hl : lvl_ok l) by (now apply install_ok).
  destruct (g_tab g) as [t|] eqn:T.
  - assert (Ht : In t dst) by exact (fit_tab _ _ F g t G1 T).
    destruct Hok as [Hs Hd]. destruct (Hd t Ht) as [D1 D2].
    assert (Hto : In r (to_tab (fun _ => true) (b_num t) gs)) by (apply to_tab_in; exists g, t; auto).
    destruct (purge && is_del r) eqn:P.
    + right. apply andb_true_iff in P as [P1 P2]. split; [|now split]. apply lv_get_none; [exact Hl|].
      intros x (w & Hw & Hx) Ex. subst l. apply installed_in in Hw as [(u & Hu & ->)|(_ & g2 & m & H1 & H2 & _ & ->)].
      * destruct (Hd u Hu) as [U1 U2].
        destruct (tf_sets_docs raw purge (to_tab (fun _ => true) (b_num u) gs) u) as [_ S2]; [apply to_tab_sorted, (fit_srt _ _ F)|exact U1|].
        apply S2 in Hx as [[Hx Hp]|[Hx Hno]].
        -- apply to_tab_in in Hx as (g' & t' & A1 & _ & _ & A4 & _).
           assert (x = r).
           { apply (docs_key_inj (concat (map g_recs gs))); [exact (fit_srt _ _ F)| | |congruence];
               apply in_concat_grp; [exists g'; now split|exists g; now split]. }
           subst x. rewrite P1, P2 in Hp. discriminate.
        -- assert (Eu : u = t).
           { apply (floor_range dst u t r Hs Hu Ht).
             - pose proof (U2 x Hx) as Q. unfold in_range in *. now rewrite Ek, <- Ex.
             - pose proof (fit_rng _ _ F g r G1 G2) as Q. unfold glo in Q. now rewrite T in Q. }
           subst u. apply (Hno r Hto). congruence.
      * destruct (new_docs c m g2 (concat_in_sorted gs (fit_srt _ _ F) g2 H1)) as [_ S2]. apply S2 in Hx.
        assert (x = r).
        { apply (docs_key_inj (concat (map g_recs gs))); [exact (fit_srt _ _ F)| | |congruence];
            apply in_concat_grp; [exists g2; now split|exists g; now split]. }
        subst x. assert (g = g2) by exact (fits_one gs dst g g2 r F G1 H1 G2 Hx). congruence.
    + left. apply lv_get_some; [exact Hl|]. split; [|exact Ek].
      exists (tf_sets raw purge (to_tab (fun _ => true) (b_num t) gs) t). split.
      * unfold l, installed. apply add_all_in. right. rewrite write_old_map. apply in_map_iff. exists t. now split.
      * destruct (tf_sets_docs raw purge (to_tab (fun _ => true) (b_num t) gs) t) as [_ S2]; [apply to_tab_sorted, (fit_srt _ _ F)|exact D1|].
        apply S2. left. now split.
  - left. apply lv_get_some; [exact Hl|]. split; [|exact Ek].
    destruct (new_tbls_of c 0 n gs g G1 T) as (m & Hm). eexists. split; [unfold l, installed; apply add_all_in; left; exact Hm|].
    destruct (new_docs c m g (concat_in_sorted gs (fit_srt _ _ F) g G1)) as [_ S2]. now apply S2.
Qed.

(** ** The groups of a compaction fit the next level *)

Lemma advance_spec : forall k rest cur d rest2, advance k cur rest = (d, rest2) ->
  StronglySorted min_lt (cur :: rest) -> kle (b_min cur) k ->
  exists skipped, cur :: rest = skipped ++ d :: rest2 /\ kle (b_min d) k /\ (forall u, In u rest2 -> klt k (b_min u)).
Proof.
  intros k. induction rest as [|t rest IH]; intros cur d rest2 H Hs Hc; cbn [advance] in H.
  - injection H as <- <-. exists []. split; [reflexivity|split; [exact Hc|intros u []]].
  - destruct (kleb_spec (b_min t) k) as [C|C].
    + destruct (IH _ _ _ H (ss_tail _ _ _ _ Hs) C) as (sk & E & H1 & H2). exists (cur :: sk). split; [cbn [app]; now rewrite E|now split].
    + injection H as <- <-. exists []. split; [reflexivity|split; [exact Hc|]].
      assert (L : klt k (b_min t)).
      { destruct (ktrichotomy k (b_min t)) as [L|[E|G]]; [exact L| |]; destruct C; [rewrite E; apply kle_refl|now apply klt_kle]. }
      intros u [<-|Hu]; [exact L|]. eapply klt_trans; [exact L|]. exact (ss_in _ _ _ _ (ss_tail _ _ _ _ Hs) u Hu).
Qed.

(** What the scan delivers, relative to the tables it has not passed yet. *)
Record scanned (maxk : key) (docs : list rec) (rest : list tbl) (cur : grp) (gs : list grp) : Prop := {
  sc_recs : concat (map g_recs gs) = g_recs cur ++ docs;
  sc_head : exists g0 gs', gs = g0 :: gs' /\ g_tab g0 = g_tab cur /\ g_min g0 = g_min cur /\
              forall g, In g gs' -> (exists t, g_tab g = Some t /\ In t rest) \/
                                    (g_tab g = None /\ klt maxk (g_min g) /\ exists r, In r docs /\ r_key r = g_min g);
  sc_ord : StronglySorted g_lt gs;
  sc_low : forall g r, In g gs -> In r (g_recs g) -> kle (glo g) (r_key r);
  sc_up : forall g r u, In g gs -> In r (g_recs g) -> In u rest -> klt (glo g) (b_min u) -> klt (r_key r) (b_min u);
  sc_ge : forall g, In g gs -> kle (glo cur) (glo g) }.

Lemma scan_spec : forall over maxk docs i rest cur,
  docs_ok (g_recs cur ++ docs) -> StronglySorted min_lt rest ->
  (forall r, In r (g_recs cur ++ docs) -> kle (glo cur) (r_key r)) ->
  (forall r u, In r (g_recs cur) -> In u rest -> klt (r_key r) (b_min u)) ->
  (forall u, In u rest -> klt (glo cur) (b_min u) /\ kle (b_min u) maxk) ->
  kle (glo cur) maxk \/ (g_recs cur <> []) \/ (g_tab cur = None /\ g_min cur = []) ->
  scanned maxk docs rest cur (scan over maxk i docs rest cur).
Proof.
  intros over maxk. induction docs as [|r docs IH]; intros i rest cur Hd Hs Hlow Hup Hrest Hmax; cbn [scan].
  - constructor.
    + cbn [map concat]. reflexivity.
    + exists cur, []. repeat split; auto. intros g [].
    + repeat constructor.
    + intros g r [<-|[]] Hr. apply Hlow. rewrite app_nil_r. exact Hr.
    + intros g r u [<-|[]] Hr Hu _. exact (Hup r u Hr Hu).
    + intros g [<-|[]]. apply kle_refl.
  - set (other := if over i && kltb maxk (r_key r) then _ else _).
    assert (Hcr : forall x, In x (g_recs cur) -> klt (r_key x) (r_key r)).
    { intros x Hx. apply ss_app in Hd as (_ & _ & H). apply (H x r Hx). now left. }
    assert (Hrd : docs_ok (r :: docs)) by (apply ss_app in Hd as (_ & H & _); exact H).
    assert (Hlr : kle (glo cur) (r_key r)) by (apply Hlow, in_app_iff; right; now left).
    assert (Oth : (forall u, In u rest -> klt (r_key r) (b_min u)) -> scanned maxk (r :: docs) rest cur other).
    { intros Hb. unfold other. destruct (over i && kltb maxk (r_key r)) eqn:O.
      - apply andb_true_iff in O as [_ O]. apply kltb_true in O.
        assert (Hne : rest = []).
        { destruct rest as [|u rest]; [reflexivity|]. exfalso. destruct (Hrest u (or_introl eq_refl)) as [_ H].
          specialize (Hb u (or_introl eq_refl)). apply (klt_irrefl maxk). eapply klt_trans; [exact O|]. exact (klt_kle_trans _ _ _ Hb H). }
        subst rest.
        assert (Hg : klt (glo cur) (r_key r) \/ (g_recs cur = [] /\ g_tab cur = None /\ g_min cur = [] /\ r_key r = [])).
        { destruct Hmax as [H|[H|[H1 H2]]].
          - left. exact (kle_klt_trans _ _ _ H O).
          - left. assert (Hx : exists x, In x (g_recs cur)) by (destruct (g_recs cur) as [|x l]; [congruence|exists x; now left]).
            destruct Hx as (x & Hx). refine (kle_klt_trans _ _ _ (Hlow x _) (Hcr x Hx)). apply in_app_iff. now left.
          - destruct (ktrichotomy (glo cur) (r_key r)) as [L|[E|G]]; [now left| |apply kle_not_lt in Hlr; contradiction].
            unfold glo in E. rewrite H1, H2 in E. assert (Hx : g_recs cur = [] \/ exists x, In x (g_recs cur)).
            { destruct (g_recs cur) as [|x l]; [now left|right; exists x; now left]. }
            destruct Hx as [Ec|(x & Hx)]; [right; auto|].
            exfalso. apply (klt_irrefl (r_key r)). apply (kle_klt_trans _ (r_key x)); [|exact (Hcr x Hx)].
            rewrite <- E. destruct (r_key x); unfold kle, klt; cbn; try discriminate. }
        destruct Hg as [Hg|(_ & _ & _ & Hg)]; [|rewrite Hg in O; destruct maxk; discriminate].
        assert (I : scanned maxk docs [] (mkG (r_key r) None [r]) (scan over maxk (S i) docs [] (mkG (r_key r) None [r]))).
        { apply IH; cbn [g_recs app].
          - exact Hrd.
          - constructor.
          - unfold glo. cbn [g_tab g_min]. intros x [<-|Hx]; [apply kle_refl|]. apply klt_kle. exact (ss_in _ _ _ _ Hrd x Hx).
          - intros x u _ [].
          - intros u [].
          - right. left. discriminate. }
        destruct I as [I1 (g0 & gs' & I2 & I2a & I2b & I2c) I3 I4 I5 I6]. cbn [g_tab g_min] in *. rewrite I2 in *. constructor.
        + cbn [map concat]. cbn [map concat g_recs] in I1. rewrite I1. reflexivity.
        + exists cur, (g0 :: gs'). repeat split; auto. intros g [<-|Hg'].
          * right. rewrite I2a, I2b. split; [reflexivity|split; [exact O|exists r; split; [now left|reflexivity]]].
          * destruct (I2c g Hg') as [(t & _ & [])|(H1 & H2 & x & H3 & H4)]. right. split; [exact H1|split; [exact H2|exists x; split; [now right|exact H4]]].
        + constructor; [exact I3|]. apply Forall_forall. intros g Hgi. specialize (I6 g Hgi). unfold glo in I6 at 1. cbn [g_tab g_min] in I6.
          split; [eapply klt_kle_trans; eauto|]. intros x Hx. eapply klt_kle_trans; [exact (Hcr x Hx)|exact I6].
        + intros g x [<-|Hgi] Hx; [apply Hlow, in_app_iff; now left|exact (I4 g x Hgi Hx)].
        + intros g x u _ _ [].
        + intros g [<-|Hgi]; [apply kle_refl|]. specialize (I6 g Hgi). unfold glo in I6 at 1. cbn [g_tab g_min] in I6.
          apply klt_kle. eapply klt_kle_trans; eauto.
      - clear O other. set (cur' := mkG (g_min cur) (g_tab cur) (g_recs cur ++ [r])).
        assert (El : glo cur' = glo cur) by reflexivity.
        assert (I : scanned maxk docs rest cur' (scan over maxk (S i) docs rest cur')).
        { apply IH; cbn [g_recs cur'].
          - rewrite <- app_assoc. exact Hd.
          - exact Hs.
          - rewrite <- app_assoc, El. exact Hlow.
          - intros x u Hx Hu. apply in_app_iff in Hx as [Hx|[<-|[]]]; [exact (Hup x u Hx Hu)|exact (Hb u Hu)].
          - rewrite El. exact Hrest.
          - right. left. destruct (g_recs cur); discriminate. }
        destruct I as [I1 (g0 & gs' & I2 & I2a & I2b & I2c) I3 I4 I5 I6]. constructor; auto.
        + rewrite I1. cbn [cur' g_recs]. now rewrite <- app_assoc.
        + exists g0, gs'. repeat split; auto. intros g Hg. destruct (I2c g Hg) as [H|(H1 & H2 & x & H3 & H4)]; [now left|].
          right. split; [exact H1|split; [exact H2|exists x; split; [now right|exact H4]]]. }
    destruct rest as [|nt rest']; [apply Oth; intros u []|].
    destruct (kleb_spec (b_min nt) (r_key r)) as [C|C].
    + destruct (advance (r_key r) nt rest') as [d rest2] eqn:A. clear Oth other.
      destruct (advance_spec _ _ _ _ _ A Hs C) as (sk & E & D1 & D2).
      assert (Hdin : In d (nt :: rest')) by (rewrite E; apply in_app_iff; right; now left).
      assert (Hs2 : StronglySorted min_lt (d :: rest2)) by (rewrite E in Hs; apply ss_app in Hs as (_ & H & _); exact H).
      destruct (Hrest d Hdin) as [Hd1 Hd2].
      assert (I : scanned maxk docs rest2 (mkG (b_min nt) (Some d) [r]) (scan over maxk (S i) docs rest2 (mkG (b_min nt) (Some d) [r]))).
      { apply IH; unfold glo; cbn [g_recs g_tab app].
        - exact Hrd.
        - exact (ss_tail _ _ _ _ Hs2).
        - intros x [<-|Hx]; [exact D1|]. eapply kle_trans; [exact D1|]. apply klt_kle. exact (ss_in _ _ _ _ Hrd x Hx).
        - intros x u [<-|[]] Hu. exact (D2 u Hu).
        - intros u Hu. split; [exact (ss_in _ _ _ _ Hs2 u Hu)|]. apply (Hrest u). rewrite E. apply in_app_iff. right. now right.
        - left. exact Hd2. }
      destruct I as [I1 (g0 & gs' & I2 & I2a & I2b & I2c) I3 I4 I5 I6]. cbn [g_tab g_min] in *. rewrite I2 in *.
      assert (Hge : forall g, In g (g0 :: gs') -> kle (b_min d) (glo g)) by exact I6.
      constructor.
      * cbn [map concat]. cbn [map concat g_recs] in I1. rewrite I1. reflexivity.
      * exists cur, (g0 :: gs'). repeat split; auto. intros g [<-|Hg'].
        -- left. exists d. now split.
        -- destruct (I2c g Hg') as [(t & H1 & H2)|(H1 & H2 & x & H3 & H4)].
           ++ left. exists t. split; [exact H1|]. rewrite E. apply in_app_iff. right. now right.
           ++ right. split; [exact H1|split; [exact H2|exists x; split; [now right|exact H4]]].
      * constructor; [exact I3|]. apply Forall_forall. intros g Hgi. specialize (Hge g Hgi).
        split; [eapply klt_kle_trans; eauto|]. intros x Hx. eapply klt_kle_trans; [exact (Hup x d Hx Hdin)|exact Hge].
      * intros g x [<-|Hgi] Hx; [apply Hlow, in_app_iff; now left|exact (I4 g x Hgi Hx)].
      * intros g x u [<-|Hgi] Hx Hu L; [exact (Hup x u Hx Hu)|]. rewrite E in Hu. apply in_app_iff in Hu as [Hu|[<-|Hu]].
        -- exfalso. rewrite E in Hs. apply ss_app in Hs as (_ & _ & H). specialize (H u d Hu (or_introl eq_refl)).
           apply (klt_irrefl (b_min u)). eapply klt_trans; [exact H|]. eapply kle_klt_trans; [exact (Hge g Hgi)|exact L].
        -- exfalso. apply (klt_irrefl (glo g)). eapply klt_kle_trans; [exact L|exact (Hge g Hgi)].
        -- exact (I5 g x u Hgi Hx Hu L).
      * intros g [<-|Hgi]; [apply kle_refl|]. apply klt_kle. eapply klt_kle_trans; [exact Hd1|exact (Hge g Hgi)].
    + apply Oth. intros u Hu. assert (L : klt (r_key r) (b_min nt)).
      { destruct (ktrichotomy (r_key r) (b_min nt)) as [L|[E|G]]; [exact L| |]; destruct C; [rewrite E; apply kle_refl|now apply klt_kle]. }
      destruct Hu as [<-|Hu]; [exact L|]. eapply klt_trans; [exact L|exact (ss_in _ _ _ _ Hs u Hu)].
Qed.

Lemma from_floor_spec : forall k dst, exists pre, dst = pre ++ from_floor k dst /\
  (dst <> [] -> from_floor k dst <> []) /\
  (pre = [] \/ exists h tl, from_floor k dst = h :: tl /\ kle (b_min h) k).
Proof.
  intros k. induction dst as [|t l IH]; [exists []; cbn [from_floor]; auto|]. cbn [from_floor].
  destruct l as [|u l]; [exists []; split; [reflexivity|split; [intros _; discriminate|now left]]|].
  destruct (kleb_spec (b_min u) k) as [C|C].
  - destruct IH as (pre & E & N & H). exists (t :: pre). split; [cbn [app]; now rewrite <- E|]. split; [intros _; apply N; discriminate|].
    right. destruct H as [-> |H]; [|exact H]. cbn [app] in E. exists u, l. rewrite <- E. now split.
  - exists []. split; [reflexivity|split; [intros _; discriminate|now left]].
Qed.

Lemma range_prefix : forall kmax l, StronglySorted min_lt l ->
  exists post, l = filter (fun t => is_nil kmax || kleb (b_min t) kmax) l ++ post /\
    forall t, In t post -> kmax <> [] /\ klt kmax (b_min t).
Proof.
  intros kmax l Hs. set (f := fun t => is_nil kmax || kleb (b_min t) kmax).
  assert (Hf : forall t, f t = false -> kmax <> [] /\ klt kmax (b_min t)).
  { intros t H. unfold f in H. apply orb_false_iff in H as [H1 H2]. apply kleb_false in H2. split; [|exact H2].
    intros ->. discriminate. }
  assert (Hm : forall t u, min_lt t u -> f t = false -> f u = false).
  { intros t u L H. unfold f in *. apply orb_false_iff in H as [H1 H2]. apply kleb_false in H2. apply orb_false_iff.
    split; [exact H1|]. apply kleb_false. eapply klt_trans; [exact H2|exact L]. }
  clearbody f. induction l as [|t l IH]; [exists []; split; [reflexivity|intros t []]|].
  cbn [filter]. destruct (f t) eqn:E.
  - destruct (IH (ss_tail _ _ _ _ Hs)) as (post & E1 & P). exists post. split; [cbn [app]; now rewrite <- E1|exact P].
  - destruct (Hf t E) as [H1 H2]. destruct (IH (ss_tail _ _ _ _ Hs)) as (post & E1 & P).
    destruct (filter f l) as [|u fl] eqn:F.
    + exists (t :: l). split; [reflexivity|]. intros u [<-|Hu]; [now split|]. split; [exact H1|].
      eapply klt_trans; [exact H2|exact (ss_in _ _ _ _ Hs u Hu)].
    + exists (t :: l). exfalso. assert (Hu : In u (filter f l)) by (rewrite F; now left).
      apply filter_In in Hu as [Hu1 Hu2]. pose proof (ss_in _ _ _ _ Hs u Hu1) as L.
      rewrite (Hm t u L E) in Hu2. discriminate.
Qed.

Lemma kle_nil : forall k, kle [] k.
Proof. intros [|b k]; unfold kle; cbn; discriminate. Qed.
Lemma klt_nil_r : forall k, ~ klt k [].
Proof. intros [|b k]; unfold klt; cbn; discriminate. Qed.

Definition last_key (l : list rec) : key := match rev l with r :: _ => r_key r | [] => [] end.

Lemma last_key_ge : forall l r, docs_ok l -> In r l -> kle (r_key r) (last_key l).
Proof.
  intros l r Hs Hr. unfold last_key. destruct (rev l) as [|x l'] eqn:E.
  - apply (f_equal (@rev rec)) in E. rewrite rev_involutive in E. subst l. destruct Hr.
  - apply (f_equal (@rev rec)) in E. rewrite rev_involutive in E. cbn [rev] in E. subst l.
    apply ss_app in Hs as (_ & _ & H). apply in_app_iff in Hr as [Hr|[<-|[]]]; [|apply kle_refl].
    apply klt_kle. apply (H r x Hr). now left.
Qed.

Definition tabs_max (tabs : list tbl) : key :=
  match rev tabs with t :: _ => (match max_key t with [] => b_min t | k => k end) | [] => [] end.

Lemma tabs_max_ge : forall pre tabs post u, lvl_ok (pre ++ tabs ++ post) -> tabs <> [] -> In u (pre ++ tabs) ->
  kle (b_min u) (tabs_max tabs) /\ forall d, In d (b_docs u) -> kle (r_key d) (tabs_max tabs).
Proof.
  intros pre tabs post u [Hs Hd] Ht Hu. unfold tabs_max. destruct (rev tabs) as [|x tl] eqn:E.
  - apply (f_equal (@rev tbl)) in E. rewrite rev_involutive in E. cbn [rev] in E. contradiction.
  - apply (f_equal (@rev tbl)) in E. rewrite rev_involutive in E. cbn [rev] in E.
    set (m := match max_key x with [] => b_min x | _ => _ end).
    assert (Hx : In x (pre ++ tabs ++ post)).
    { rewrite E. apply in_app_iff. right. apply in_app_iff. left. apply in_app_iff. right. now left. }
    destruct (Hd x Hx) as [X1 X2].
    assert (Hm : forall d, In d (b_docs x) -> kle (r_key d) m).
    { intros d Hdd. pose proof (last_key_ge (b_docs x) d X1 Hdd) as L. unfold m, max_key, last_key in *. destruct (rev (b_docs x)) as [|y ys].
      - assert (H0 : r_key d = []) by (apply kle_antisym; [exact L|apply kle_nil]). rewrite H0. apply kle_nil.
      - destruct (r_key y) eqn:Ey; [|exact L]. eapply kle_trans; [exact L|apply kle_nil]. }
    assert (Hmin : kle (b_min x) m).
    { unfold m. destruct (max_key x) eqn:Mx; [apply kle_refl|]. unfold max_key in Mx. destruct (rev (b_docs x)) as [|y ys] eqn:R; [discriminate|].
      rewrite <- Mx. apply X2. apply in_rev. rewrite R. now left. }
    assert (Hc : u = x \/ klt (b_min u) (b_min x)).
    { rewrite E in Hu. rewrite app_assoc in Hu. apply in_app_iff in Hu as [Hu|[<-|[]]]; [|now left]. right.
      rewrite E, app_assoc in Hs. apply ss_app in Hs as (Hs & _ & _). rewrite app_assoc in Hs. apply ss_app in Hs as (_ & _ & Hs).
      exact (Hs u x Hu (or_introl eq_refl)). }
    destruct Hc as [-> |Hc]; [split; assumption|].
    split; [apply klt_kle; eapply klt_kle_trans; [exact Hc|exact Hmin]|].
    intros d Hdd. assert (Hu' : In u (pre ++ tabs ++ post)) by (rewrite app_assoc; apply in_app_iff; now left).
    destruct (Hd u Hu') as [_ U2]. destruct (U2 d Hdd) as [_ U3]. apply klt_kle.
    eapply klt_kle_trans; [exact (U3 x Hx Hc)|exact Hmin].
Qed.

Lemma scanned_fits : forall dst maxk V rest cur gs,
  scanned maxk V rest cur gs -> docs_ok V -> g_recs cur = [] ->
  (forall u, In u rest -> In u dst) ->
  (forall t, g_tab cur = Some t -> In t dst) ->
  (forall u r g, In u dst -> ~ In u rest -> In g gs -> In r V -> klt (glo g) (b_min u) -> klt (r_key r) (b_min u)) ->
  (g_tab cur = None -> g_min cur = [] /\ forall t, In t dst -> b_min t <> []) ->
  (forall t g, In t dst -> klt maxk g -> (exists r, In r V /\ r_key r = g) ->
     b_min t <> g /\ forall d, In d (b_docs t) -> klt (b_min t) g -> klt (r_key d) g) ->
  (forall u, In u dst -> In u rest \/ ~ In u rest) ->
  fits gs dst /\ concat (map g_recs gs) = V.
Proof.
  intros dst maxk V rest cur gs [S1 (g0 & gs' & S2 & S2a & S2b & S2c) S3 S4 S5 S6] HV Hc Hrest Hcur Hup H0 Hnew Hdec.
  assert (EV : concat (map g_recs gs) = V) by (rewrite S1, Hc; reflexivity).
  split; [|exact EV]. constructor.
  - intros g t Hg T. rewrite S2 in Hg. destruct Hg as [<-|Hg]; [apply Hcur; congruence|].
    destruct (S2c g Hg) as [(t' & E & Hin)|(E & _)]; [|congruence]. apply Hrest. congruence.
  - exact S3.
  - intros g r Hg Hr. split; [exact (S4 g r Hg Hr)|]. intros u Hu L. destruct (Hdec u Hu) as [D|D].
    + exact (S5 g r u Hg Hr D L).
    + apply (Hup u r g Hu D Hg); [|exact L]. rewrite <- EV. apply in_concat_grp. exists g. now split.
  - rewrite EV. exact HV.
  - intros g t Hg T Ht. rewrite S2 in Hg. destruct Hg as [<-|Hg].
    + rewrite S2b. rewrite S2a in T. destruct (H0 T) as [E N]. rewrite E. split; [exact (N t Ht)|].
      intros d _ L. destruct (klt_nil_r _ L).
    + destruct (S2c g Hg) as [(t' & E & Hin)|(E & L & Hr)]; [congruence|]. exact (Hnew t (g_min g) Ht L Hr).
Qed.

Lemma groups_fit : forall over vmin V dst, lvl_ok dst -> docs_ok V -> (forall d, In d V -> kle vmin (r_key d)) ->
  let gs := groups over vmin V (tables_range vmin (last_key V) dst) in
  fits gs dst /\ concat (map g_recs gs) = V.
Proof.
  intros over vmin V dst Hok HV Hmin gs. set (vmax := last_key V) in *.
  assert (HVmax : forall d, In d V -> kle (r_key d) vmax) by (intros d; now apply last_key_ge).
  assert (HV0 : vmax <> [] -> exists d, In d V).
  { unfold vmax, last_key. destruct (rev V) as [|x l] eqn:E; [congruence|]. intros _. exists x. apply in_rev. rewrite E. now left. }
  pose proof Hok as [Hs Hd].
  destruct (from_floor_spec vmin dst) as (pre & E & N & P).
  assert (Hsf : StronglySorted min_lt (from_floor vmin dst)) by (rewrite E in Hs; apply ss_app in Hs as (_ & H & _); exact H).
  destruct (range_prefix vmax (from_floor vmin dst) Hsf) as (post & Ef & Hpost).
  change (filter _ (from_floor vmin dst)) with (tables_range vmin vmax dst) in Ef.
  set (tabs := tables_range vmin vmax dst) in *. rewrite Ef in E.
  assert (Hpre : pre = [] \/ exists h tl, tabs = h :: tl /\ kle (b_min h) vmin).
  { destruct P as [P|(h & tl & P1 & P2)]; [now left|]. right. rewrite Ef in P1. destruct tabs as [|h' tl'] eqn:Et.
    - cbn [app] in P1. destruct (Hpost h) as [H1 H2]; [rewrite P1; now left|]. destruct (HV0 H1) as (d & Hdv).
      exfalso. apply (klt_irrefl (b_min h)). eapply kle_klt_trans; [exact P2|]. eapply kle_klt_trans; [exact (Hmin d Hdv)|].
      eapply kle_klt_trans; [exact (HVmax d Hdv)|exact H2].
    - injection P1 as -> _. exists h, tl'. now split. }
  assert (Hokp : lvl_ok (pre ++ tabs ++ post)) by (rewrite <- E; exact Hok).
  assert (Hin : forall u, In u dst <-> In u pre \/ In u tabs \/ In u post) by (intros u; rewrite E, !in_app_iff; tauto).
  assert (Hst : StronglySorted min_lt tabs) by (rewrite E in Hs; apply ss_app in Hs as (_ & H & _); apply ss_app in H as (H & _ & _); exact H).
  assert (Hpt : forall u w, In u pre -> In w tabs -> klt (b_min u) (b_min w)).
  { intros u w Hu Hw. rewrite E in Hs. apply ss_app in Hs as (_ & _ & H). apply (H u w Hu), in_app_iff. now left. }
  assert (Hup_post : forall u r, In u post -> In r V -> klt (r_key r) (b_min u)).
  { intros u r Hu Hr. eapply kle_klt_trans; [exact (HVmax r Hr)|]. exact (proj2 (Hpost u Hu)). }
  assert (Hnew : tabs <> [] -> forall t g, In t dst -> klt (tabs_max tabs) g -> (exists r, In r V /\ r_key r = g) ->
     b_min t <> g /\ forall d, In d (b_docs t) -> klt (b_min t) g -> klt (r_key d) g).
  { intros Nt t g Ht L (r & R1 & R2). apply Hin in Ht. assert (Ht' : In t (pre ++ tabs) \/ In t post) by (rewrite in_app_iff; tauto).
    destruct Ht' as [Ht'|Ht'].
    - destruct (tabs_max_ge pre tabs post t Hokp Nt Ht') as [M1 M2]. split.
      + intros Eg. rewrite <- Eg in L. apply kle_not_lt in M1. contradiction.
      + intros d Hdd _. eapply kle_klt_trans; [exact (M2 d Hdd)|exact L].
    - specialize (Hup_post t r Ht' R1). rewrite R2 in Hup_post. split.
      + intros Eg. rewrite Eg in Hup_post. destruct (klt_irrefl _ Hup_post).
      + intros d _ L2. destruct (klt_asym _ _ L2 Hup_post). }
  assert (Hdup : NoDup dst).
  { clear -Hs. induction dst as [|a l IH]; [constructor|]. constructor; [|exact (IH (ss_tail _ _ _ _ Hs))].
    intros H. exact (klt_irrefl _ (ss_in _ _ _ _ Hs a H)). }
  assert (Hdec : forall u rest, (forall w, In w rest -> In w dst) -> In u dst -> In u rest \/ ~ In u rest).
  { intros u rest Hr Hu. destruct (in_dec key_eq_dec (b_min u) (map b_min rest)) as [I|I].
    - left. apply in_map_iff in I as (w & E1 & E2). rewrite <- (min_inj dst w u Hs (Hr w E2) Hu E1). exact E2.
    - right. intros H. apply I. now apply in_map. }
  unfold gs, groups. fold (tabs_max tabs). destruct tabs as [|t tabs'] eqn:Et.
  - assert (pre = []) by (destruct Hpre as [H|(h & tl & H & _)]; [exact H|discriminate]). subst pre. cbn [app] in *.
    eapply (scanned_fits dst (tabs_max []) V [] (mkG [] None [])).
    + apply scan_spec; cbn [g_recs app].
      * exact HV.
      * constructor.
      * intros r _. unfold glo. cbn [g_tab g_min]. apply kle_nil.
      * intros r u [].
      * intros u [].
      * right. right. now split.
    + exact HV.
    + reflexivity.
    + intros u [].
    + discriminate.
    + intros u r g Hu _ _ Hr _. apply Hin in Hu as [[]|[[]|Hu]]. exact (Hup_post u r Hu Hr).
    + intros _. split; [reflexivity|]. intros u Hu E0. apply Hin in Hu as [[]|[[]|Hu]]. destruct (Hpost u Hu) as [_ H].
      rewrite E0 in H. destruct (klt_nil_r _ H).
    + intros u g Hu _ (r & R1 & R2). apply Hin in Hu as [[]|[[]|Hu]]. specialize (Hup_post u r Hu R1). rewrite R2 in Hup_post. split.
      * intros Eg. rewrite Eg in Hup_post. destruct (klt_irrefl _ Hup_post).
      * intros d _ L2. destruct (klt_asym _ _ L2 Hup_post).
    + intros u _. right. intros [].
  - assert (Nt : t :: tabs' <> []) by discriminate. specialize (Hnew Nt).
    destruct (kltb_spec vmin (b_min t)) as [C|C].
    + assert (pre = []).
      { destruct Hpre as [H|(h & tl & H1 & H2)]; [exact H|]. injection H1 as <- _. apply kle_not_lt in H2. contradiction. }
      subst pre. cbn [app] in Hokp, E.
      assert (Hgt : forall u, In u dst -> klt vmin (b_min u)).
      { intros u Hu. rewrite E in Hu, Hs. destruct Hu as [<-|Hu]; [exact C|]. eapply klt_trans; [exact C|]. exact (ss_in _ _ _ _ Hs u Hu). }
      eapply (scanned_fits dst (tabs_max (t :: tabs')) V (t :: tabs') (mkG [] None [])).
      * apply scan_spec; cbn [g_recs app].
        -- exact HV.
        -- exact Hst.
        -- intros r _. unfold glo. cbn [g_tab g_min]. apply kle_nil.
        -- intros r u [].
        -- intros u Hu. unfold glo. cbn [g_tab g_min]. split.
           ++ eapply kle_klt_trans; [apply kle_nil|]. apply Hgt, Hin. auto.
           ++ apply (tabs_max_ge [] (t :: tabs') post u Hokp Nt Hu).
        -- right. right. now split.
      * exact HV.
      * reflexivity.
      * intros u Hu. apply Hin. auto.
      * discriminate.
      * intros u r g Hu Nu _ Hr _. apply Hin in Hu as [[]|[Hu|Hu]]; [contradiction|]. exact (Hup_post u r Hu Hr).
      * intros _. split; [reflexivity|]. intros u Hu E0. specialize (Hgt u Hu). rewrite E0 in Hgt. destruct (klt_nil_r _ Hgt).
      * exact Hnew.
      * intros u Hu. apply Hdec; [intros w Hw; apply Hin; auto|exact Hu].
    + assert (Ct : kle (b_min t) vmin) by (apply kle_not_lt; exact C).
      destruct (advance vmin t tabs') as [d rest] eqn:A.
      destruct (advance_spec _ _ _ _ _ A Hst Ct) as (sk & Es & D1 & D2).
      assert (Hdt : In d (t :: tabs')) by (rewrite Es; apply in_app_iff; right; now left).
      assert (Hrt : forall u, In u rest -> In u (t :: tabs')) by (intros u Hu; rewrite Es; apply in_app_iff; right; now right).
      assert (Hs2 : StronglySorted min_lt (d :: rest)) by (rewrite Es in Hst; apply ss_app in Hst as (_ & H & _); exact H).
      assert (Hlt : forall u, In u (pre ++ t :: tabs') -> ~ In u rest -> kle (b_min u) (b_min d)).
      { intros u Hu Nu. apply in_app_iff in Hu as [Hu|Hu]; [apply klt_kle; exact (Hpt u d Hu Hdt)|].
        rewrite Es in Hu, Hst. apply ss_app in Hst as (_ & _ & H). apply in_app_iff in Hu as [Hu|[<-|Hu]]; [|apply kle_refl|contradiction].
        apply klt_kle. apply (H u d Hu). now left. }
      assert (Sc : scanned (tabs_max (t :: tabs')) V rest (mkG (b_min t) (Some d) [])
                     (scan over (tabs_max (t :: tabs')) 0 V rest (mkG (b_min t) (Some d) []))).
      { apply scan_spec; unfold glo; cbn [g_recs app g_tab].
        - exact HV.
        - exact (ss_tail _ _ _ _ Hs2).
        - intros r Hr. eapply kle_trans; [exact D1|exact (Hmin r Hr)].
        - intros r u [].
        - intros u Hu. split; [exact (ss_in _ _ _ _ Hs2 u Hu)|].
          apply (tabs_max_ge pre (t :: tabs') post u Hokp Nt). apply in_app_iff. right. exact (Hrt u Hu).
        - left. apply (tabs_max_ge pre (t :: tabs') post d Hokp Nt). apply in_app_iff. now right. }
      eapply (scanned_fits dst _ V rest (mkG (b_min t) (Some d) []) _ Sc).
      * exact HV.
      * reflexivity.
      * intros u Hu. apply Hin. auto.
      * cbn [g_tab]. intros t0 E0. injection E0 as <-. apply Hin. auto.
      * intros u r g Hu Nu Hg Hr L. apply Hin in Hu. assert (Hu' : In u (pre ++ t :: tabs') \/ In u post) by (rewrite in_app_iff; tauto).
        destruct Hu' as [Hu'|Hu']; [|exact (Hup_post u r Hu' Hr)]. exfalso. specialize (Hlt u Hu' Nu).
        pose proof (sc_ge _ _ _ _ _ Sc g Hg) as Hge. unfold glo in Hge at 1. cbn [g_tab] in Hge.
        apply (klt_irrefl (b_min u)). eapply kle_klt_trans; [exact Hlt|]. eapply kle_klt_trans; [exact Hge|exact L].
      * discriminate.
      * exact Hnew.
      * intros u Hu. apply Hdec; [intros w Hw; apply Hin; auto|exact Hu].
Qed.

End Hash.
