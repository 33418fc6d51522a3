(** Proofs about the table section: the invariant of its executions. *)
From Coq Require Import List NArith Bool Lia Arith Sorted Permutation.
From Verif Require Import Base LogFormatModel KeyModel KeyProofs BloomModel BloomProofs MemTableModel LsmModel LsmProofs.
Import ListNotations.
Local Open Scope N_scope.

(** ** Specification *)

(** The newest record of a key in a history of writes. *)
Definition newest_write (h : list rec) (k : key) : option rec :=
  find (fun r => keqb (r_key r) k && negb (is_cmd r)) (rev h).

Lemma newest_write_app : forall a b k, newest_write (a ++ b) k = match newest_write b k with Some r => Some r | None => newest_write a k end.
Proof.
  intros a b k. unfold newest_write. rewrite rev_app_distr. generalize (rev a), (rev b). intros x y.
  induction y as [|r y IH]; cbn [app find]; [reflexivity|]. destruct (keqb (r_key r) k && negb (is_cmd r)); [reflexivity|exact IH].
Qed.

Lemma newest_write_in : forall h k r, newest_write h k = Some r -> In r h /\ r_key r = k /\ is_cmd r = false.
Proof.
  intros h k r H. unfold newest_write in H. apply find_some in H as [H1 H2]. apply andb_true_iff in H2 as [H2 H3].
  apply in_rev in H1. apply keqb_true in H2. apply negb_true_iff in H3. auto.
Qed.

Definition orr {A} (a b : option A) : option A := match a with Some _ => a | None => b end.
(** A tombstone may be forgotten. *)
Definition vle (a b : option rec) : Prop := a = b \/ (a = None /\ exists r, b = Some r /\ is_del r = true).

Lemma vle_refl : forall a, vle a a.
Proof. now left. Qed.
Lemma vle_trans : forall a b c, vle a b -> vle b c -> vle a c.
Proof.
  intros a b c [-> |[-> H]] H2; [exact H2|]. destruct H as (r & -> & D). destruct H2 as [<-|[X _]]; [right|discriminate].
  split; [reflexivity|exists r; now split].
Qed.
Lemma vle_orr : forall a b b', vle b b' -> vle (orr a b) (orr a b').
Proof. intros [a|] b b' H; [now left|exact H]. Qed.

Section Hash.
Variable hash : key -> N * N.
Variable part : key -> N.

Local Notation tf_set := (tf_set hash).
Local Notation tf_sets := (tf_sets hash).
Local Notation tf_get := (tf_get hash).
Local Notation installed := (installed hash).

(** ** Numbers *)

Definition cnt_new (gs : list grp) : N := N.of_nat (length (filter (fun g => match g_tab g with None => true | _ => false end) gs)).

Lemma new_tbls_nums : forall c j n gs,
  NoDup (map b_num (new_tbls hash c all_true j n gs)) /\
  forall t, In t (new_tbls hash c all_true j n gs) -> n <= b_num t < n + cnt_new gs.
Proof.
  intros c j n gs. revert j n. induction gs as [|g gs IH]; intros j n; cbn [new_tbls]; [split; [constructor|intros t []]|].
  unfold cnt_new. cbn [filter]. destruct (g_tab g).
  - apply IH.
  - unfold all_true at 1 3. destruct (IH (S j) (n + 1)) as [I1 I2]. cbn [length]. split.
    + cbn [map]. constructor; [|exact I1]. intros H. apply in_map_iff in H as (t & E & Ht). apply I2 in Ht.
      rewrite fnum in E. cbn [new_tbl b_num] in E. lia.
    + intros t [<-|Ht]; [rewrite fnum; cbn [new_tbl b_num]; lia|]. apply I2 in Ht. unfold cnt_new in Ht. lia.
Qed.

Lemma add_tbl_perm : forall t l, Permutation (add_tbl t l) (t :: l).
Proof.
  intros t. induction l as [|u l IH]; cbn [add_tbl]; [reflexivity|]. destruct (kltb (b_min u) (b_min t)); [|reflexivity].
  rewrite IH. apply perm_swap.
Qed.
Lemma add_all_perm : forall ts l, Permutation (add_all ts l) (ts ++ l).
Proof.
  induction ts as [|t ts IH]; intros l; [reflexivity|]. cbn [add_all fold_right app]. fold (add_all ts l).
  rewrite add_tbl_perm. constructor. apply IH.
Qed.

Definition nums_ok (n : N) (l : list tbl) : Prop := NoDup (map b_num l) /\ forall t, In t l -> b_num t < n.

Lemma nodup_app : forall A (a b : list A), NoDup a -> NoDup b -> (forall x, In x a -> ~ In x b) -> NoDup (a ++ b).
Proof.
  intros A a b Ha Hb H. induction a as [|x a IH]; [exact Hb|]. inversion Ha as [|? ? N D]; subst. cbn [app]. constructor.
  - rewrite in_app_iff. intros [I|I]; [contradiction|]. apply (H x); [now left|exact I].
  - apply IH; [exact D|]. intros y Hy. apply H. now right.
Qed.

Lemma nums_add_all : forall n n' ts l, nums_ok n l -> NoDup (map b_num ts) -> (forall t, In t ts -> n <= b_num t < n') -> n <= n' ->
  nums_ok n' (add_all ts l).
Proof.
  intros n n' ts l [H1 H2] Ht1 Ht2 Hn. split.
  - apply (Permutation_NoDup (l := map b_num (ts ++ l))).
    + apply Permutation_map. symmetry. apply add_all_perm.
    + rewrite map_app. apply nodup_app; [exact Ht1|exact H1|]. intros x Hx Hy. apply in_map_iff in Hx as (a & <- & Ha).
      apply in_map_iff in Hy as (b & E & Hb). specialize (Ht2 a Ha). specialize (H2 b Hb). lia.
  - intros t Ht. apply add_all_in in Ht as [Ht|Ht]; [apply Ht2 in Ht; lia|apply H2 in Ht; lia].
Qed.

Lemma nums_map : forall n f l, (forall t, b_num (f t) = b_num t) -> nums_ok n l -> nums_ok n (map f l).
Proof.
  intros n f l Hf [H1 H2]. split.
  - rewrite map_map. rewrite (map_ext _ b_num) by exact Hf. exact H1.
  - intros t Ht. apply in_map_iff in Ht as (u & <- & Hu). rewrite Hf. auto.
Qed.

Lemma nums_filter : forall n f l, nums_ok n l -> nums_ok n (filter f l).
Proof.
  intros n f l [H1 H2]. split; [|intros t Ht; apply filter_In in Ht; now apply H2].
  clear H2. induction l as [|a l IH]; [constructor|]. cbn [map filter] in *. inversion H1 as [|? ? N D]; subst.
  destruct (f a); [|exact (IH D)]. cbn [map]. constructor; [|exact (IH D)]. intros H. apply N.
  apply in_map_iff in H as (t & E & Ht). apply filter_In in Ht. rewrite <- E. now apply in_map.
Qed.

Lemma nums_le : forall n n' l, nums_ok n l -> n <= n' -> nums_ok n' l.
Proof. intros n n' l [H1 H2] L. split; [exact H1|]. intros t Ht. specialize (H2 t Ht). lia. Qed.

Lemma nums_upd : forall n m f l, (forall t, b_num (f t) = b_num t) -> nums_ok n l -> nums_ok n (upd_tbl m f l).
Proof. intros n m f l Hf H. unfold upd_tbl. apply nums_map; [|exact H]. intros t. destruct (b_num t =? m); auto. Qed.

Lemma nums_installed : forall c raw purge sel n gs dst full, nums_ok n dst -> nums_ok (n + cnt_new gs) (installed c raw purge sel n gs dst full).
Proof.
  intros c raw purge sel n gs dst full H. unfold LsmProofs.installed. destruct (new_tbls_nums c 0 n gs) as [T1 T2].
  apply (nums_add_all n).
  - rewrite write_old_map. apply nums_map; [intros t; apply fnum|exact H].
  - destruct full; [exact T1|constructor].
  - destruct full; [exact T2|intros t []].
  - lia.
Qed.

(** ** Bloom filters and origin of the records *)

Definition only_sets (R : list rec) : Prop := forall r, In r R -> is_ins r = true \/ is_cmd r = true.

Record good (c : tcfg) (R : list rec) (t : tbl) : Prop := {
  gd_docs : forall d, In d (b_docs t) -> In d R /\ is_cmd d = false;
  gd_none : tc_bits c = 0 -> b_bf t = None;
  gd_bf : forall f, b_bf t = Some f -> wf_bl f /\
            (only_sets R -> forall d, In d (b_docs t) -> bl_check (hash (r_key d)) f = Some true) }.

Lemma good_new : forall c R n h m, good c R (new_tbl c n h m).
Proof.
  intros c R n h m. constructor; cbn [new_tbl b_docs b_bf].
  - intros d [].
  - unfold new_bf. intros ->. reflexivity.
  - unfold new_bf. destruct (N.eqb_spec (tc_bits c) 0) as [E|E]; [discriminate|]. intros f H. injection H as <-.
    split; [apply bl_create_wf; lia|intros _ d []].
Qed.

Lemma bl_set_spec : forall hp f, wf_bl f -> exists f', bl_set hp f = Some f' /\ wf_bl f' /\
  bl_check hp f' = Some true /\ forall hp', bl_check hp' f = Some true -> bl_check hp' f' = Some true.
Proof.
  intros hp f Hw. unfold bl_set. destruct (bl_set_loop_spec (N.to_nat (bl_count f)) 0 hp f Hw) as [f' (E & W & (G1 & G2 & G3 & G4) & S)].
  exists f'. split; [exact E|split; [exact W|]]. destruct Hw as [Hw1 Hw2]. split.
  - unfold bl_check. apply bl_check_loop_true; [lia|]. intros k K1 K2. rewrite G2. apply S; lia.
  - intros hp' Hc. unfold bl_check in *. rewrite G1. revert Hc. generalize (N.to_nat (bl_count f)) as n. generalize 0 as ii.
    intros ii n. revert ii. induction n as [|n IH]; intros ii; cbn [bl_check_loop]; [auto|]. unfold bl_index. rewrite G2.
    destruct (N.eqb_spec (bm_bits (bl_map f)) 0) as [Ez|Ez]; [lia|].
    destruct (bm_get (bl_map f) (gen_hash ii hp' mod bm_bits (bl_map f))) as [[|]|] eqn:B; try discriminate.
    rewrite (G4 _ (N.mod_lt _ _ Ez) B). apply IH.
Qed.

Lemma good_set : forall c R raw purge r t, docs_ok (b_docs t) -> good c R t -> In r R -> is_cmd r = false -> good c R (tf_set raw purge r t).
Proof.
  intros c R raw purge r t Hdk [G1 G2 G3] Hr Hc.
  assert (Hd : forall d, In d (b_docs (tf_set raw purge r t)) -> d = r \/ In d (b_docs t)).
  { intros d. unfold LsmModel.tf_set. cbn [b_docs]. destruct (purge && is_del r).
    - intros H. apply (fd_del_spec _ _ Hdk) in H. tauto.
    - intros H. apply (fd_set_spec _ _ Hdk) in H. tauto. }
  constructor.
  - intros d H. destruct (Hd d H) as [-> |H']; [now split|auto].
  - intros H. specialize (G2 H). unfold LsmModel.tf_set. cbn [b_bf]. rewrite G2. now destruct (raw || is_ins r).
  - intros f' Hf. unfold LsmModel.tf_set in Hf. cbn [b_bf] in Hf. destruct (raw || is_ins r) eqn:A.
    + unfold bf_add in Hf. destruct (b_bf t) as [f|] eqn:B; [|discriminate]. destruct (G3 f eq_refl) as [W C].
      destruct (bl_set_spec (hash (r_key r)) f W) as (f2 & E & W2 & C2 & M2). rewrite E in Hf. injection Hf as <-.
      split; [exact W2|]. intros O d H. destruct (Hd d H) as [-> |H']; [exact C2|]. apply M2. exact (C O d H').
    + destruct (G3 f' Hf) as [W C]. split; [exact W|]. intros O d H. destruct (Hd d H) as [-> |H']; [|exact (C O d H')].
      exfalso. apply orb_false_iff in A as [_ A]. destruct (O r Hr); congruence.
Qed.

Lemma good_sets : forall c R raw purge rs t, docs_ok (b_docs t) -> good c R t -> (forall r, In r rs -> In r R /\ is_cmd r = false) ->
  good c R (tf_sets raw purge rs t).
Proof.
  intros c R raw purge rs. unfold LsmModel.tf_sets. induction rs as [|r rs IH]; intros t Hd G H; cbn [fold_left]; [exact G|].
  destruct (H r (or_introl eq_refl)) as [H1 H2]. apply IH; [|now apply good_set|intros x Hx; apply H; now right].
  unfold LsmModel.tf_set. cbn [b_docs]. destruct (purge && is_del r); [apply (fd_del_spec _ _ Hd)|apply (fd_set_spec _ _ Hd)].
Qed.

Lemma good_mono : forall c R R' t, good c R t -> (forall r, In r R -> In r R') -> good c R' t.
Proof.
  intros c R R' t [G1 G2 G3] H. constructor.
  - intros d Hd. destruct (G1 d Hd). auto.
  - exact G2.
  - intros f Hf. destruct (G3 f Hf) as [W C]. split; [exact W|]. intros O. apply C. intros r Hr. apply O. auto.
Qed.

Lemma good_same : forall c R t t', good c R t -> b_docs t' = b_docs t -> b_bf t' = b_bf t -> good c R t'.
Proof.
  intros c R t t' [G1 G2 G3] E1 E2. constructor.
  - rewrite E1. exact G1.
  - rewrite E2. exact G2.
  - rewrite E1, E2. exact G3.
Qed.

Definition bf_safe (c : tcfg) (R : list rec) : Prop := tc_bits c = 0 \/ tc_bfget c = false \/ only_sets R.

Lemma good_get : forall c R k t, good c R t -> bf_safe c R ->
  tf_get c k t = match fd_get k (b_docs t) with Some r => Ok r | None => Fail KEY_NOT_FOUND end.
Proof.
  intros c R k t [G1 G2 G3] S. unfold LsmModel.tf_get. destruct (b_bf t) as [f|] eqn:B; [|reflexivity].
  destruct (G3 f eq_refl) as [W C]. destruct S as [S|[S|S]].
  - specialize (G2 S). congruence.
  - rewrite S. reflexivity.
  - destruct (fd_get k (b_docs t)) as [r|] eqn:E.
    + apply fd_get_in in E as [E1 E2]. specialize (C S r E1). rewrite E2 in C. rewrite C. now rewrite andb_false_r.
    + now destruct (tc_bfget c && _).
Qed.

Lemma good_installed : forall c R raw purge sel n gs dst full,
  (forall t, In t dst -> docs_ok (b_docs t) /\ good c R t) ->
  (forall g r, In g gs -> In r (g_recs g) -> In r R /\ is_cmd r = false) ->
  forall t, In t (installed c raw purge sel n gs dst full) -> good c R t.
Proof.
  intros c R raw purge sel n gs dst full H1 H2 t Ht. apply installed_in in Ht as [(u & Hu & ->)|(_ & g & m & G1 & G2 & _ & ->)].
  - destruct (H1 u Hu) as [D G]. apply good_sets; [exact D|exact G|]. intros r Hr.
    apply to_tab_in in Hr as (g & t0 & G1 & _ & _ & G4 & _). exact (H2 g r G1 G4).
  - apply good_sets; [constructor|apply good_new|]. intros r Hr. exact (H2 g r G1 Hr).
Qed.

(** ** Level 0 *)

Definition nf (h : N) (t : tbl) : bool := (b_hash t =? h) && negb (b_src t).
Definition sf (h : N) (t : tbl) : bool := (b_hash t =? h) && b_src t.
Definition zget (f : tbl -> bool) (k : key) (l : list tbl) : option rec :=
  match filter f l with t :: _ => fd_get k (b_docs t) | [] => None end.
Definition zview (k : key) (l : list tbl) : option rec := orr (zget (nf (part k)) k l) (zget (sf (part k)) k l).

Record zero_ok (c : tcfg) (l : list tbl) : Prop := {
  z_mem : forall t, In t l -> b_hash t < tc_parts c /\ b_min t = [] /\ docs_ok (b_docs t) /\
            forall d, In d (b_docs t) -> part (r_key d) = b_hash t;
  z_norm : forall h, h < tc_parts c -> exists t, filter (nf h) l = [t];
  z_src : forall h, filter (sf h) l = [] \/ exists t, filter (sf h) l = [t] }.

Fixpoint ups (k : key) (l : list (list tbl)) : option rec :=
  match l with [] => None | ts :: l' => orr (lv_get k ts) (ups k l') end.
Definition view (s : lsm) (k : key) : option rec := orr (zview k (l_zero s)) (ups k (l_up s)).

Record LI (c : tcfg) (R : list rec) (s : lsm) : Prop := {
  li_zero : zero_ok c (l_zero s);
  li_up : forall ts, In ts (l_up s) -> lvl_ok ts;
  li_num0 : nums_ok (l_next s) (l_zero s);
  li_num : forall ts, In ts (l_up s) -> nums_ok (l_next s) ts;
  li_good0 : forall t, In t (l_zero s) -> good c R t;
  li_good : forall ts t, In ts (l_up s) -> In t ts -> good c R t;
  li_nil : l_next s <= NIL }.

(** *** The lookup returns the view *)

Lemma smallest_filter : forall l best, smallest l best = smallest (filter (fun t => negb (b_src t)) l) best.
Proof.
  induction l as [|t l IH]; intros best; cbn [smallest filter]; [reflexivity|].
  destruct (b_src t) eqn:E; cbn [negb andb]; [apply IH|]. cbn [smallest]. rewrite E. cbn [negb andb]. apply IH.
Qed.

Lemma filter_filter : forall A (f g : A -> bool) l, filter f (filter g l) = filter (fun x => g x && f x) l.
Proof.
  intros A f g l. induction l as [|a l IH]; [reflexivity|]. cbn [filter]. destruct (g a); cbn [filter andb]; [|exact IH].
  destruct (f a); now rewrite IH.
Qed.

Lemma smallest_one : forall h l t, filter (nf h) l = [t] -> b_num t < NIL -> smallest_normal (by_hash h l) = Some t.
Proof.
  intros h l t H L. unfold smallest_normal, by_hash. rewrite smallest_filter, filter_filter.
  change (fun x => (b_hash x =? h) && negb (b_src x)) with (nf h). rewrite H. cbn [smallest].
  assert (Hs : b_src t = false).
  { assert (I : In t (filter (nf h) l)) by (rewrite H; now left). apply filter_In in I as [_ I]. unfold nf in I.
    apply andb_true_iff in I as [_ I]. now apply negb_true_iff in I. }
  rewrite Hs. apply N.ltb_lt in L. now rewrite L.
Qed.

Lemma search_skip : forall c k n ts latest,
  search hash c k (Some n) ts latest = search hash c k None (filter (fun t => negb (b_num t =? n)) ts) latest.
Proof.
  intros c k n. induction ts as [|t ts IH]; intros latest; [reflexivity|]. cbn [search filter].
  destruct (b_num t =? n); cbn [negb]; [apply IH|]. cbn [search]. destruct (tf_get c k t) as [r|e|]; auto.
  - destruct (rec_empty latest || _); [apply IH|reflexivity].
  - destruct e; auto.
Qed.

Lemma key_not_empty : forall k r, k <> [] -> r_key r = k -> rec_empty (Some r) = false.
Proof. intros k r H E. cbn [rec_empty]. rewrite E. destruct k; [congruence|reflexivity]. Qed.

Lemma get_view0 : forall c R s k n, LI c R s -> bf_safe c R -> part k < tc_parts c -> k <> [] ->
  levels_get hash part c k 0 (S n) s = match zview k (l_zero s) with Some r => Got r | None => levels_get hash part c k 1 n s end.
Proof.
  intros c R s k n HI S Hp Hk. cbn [levels_get]. unfold level_get, tables_point.
  destruct (z_norm _ _ (li_zero _ _ _ HI) _ Hp) as (t & Ht).
  assert (It : In t (l_zero s)) by (assert (I : In t (filter (nf (part k)) (l_zero s))) by (rewrite Ht; now left); apply filter_In in I; tauto).
  assert (Lt : b_num t < NIL) by (destruct (li_num0 _ _ _ HI) as [_ H]; specialize (H t It); pose proof (li_nil _ _ _ HI); lia).
  rewrite (smallest_one _ _ t Ht Lt). rewrite (good_get c R k t (li_good0 _ _ _ HI t It) S).
  unfold zview, zget. rewrite Ht. destruct (fd_get k (b_docs t)) as [r|] eqn:E.
  - cbn [orr]. apply fd_get_in in E as [_ E]. now rewrite (key_not_empty k r Hk E).
  - rewrite search_skip. unfold by_hash. rewrite filter_filter.
    assert (Hf : filter (fun x => (b_hash x =? part k) && negb (b_num x =? b_num t)) (l_zero s) = filter (sf (part k)) (l_zero s)).
    { apply filter_ext_in. intros x Hx. unfold sf. destruct (N.eqb_spec (b_hash x) (part k)) as [Eh|Eh]; cbn [andb]; [|reflexivity].
      destruct (b_src x) eqn:Ex.
      - apply negb_true_iff, N.eqb_neq. intros En. assert (x = t) by (apply (num_inj (l_zero s)); auto; apply (li_num0 _ _ _ HI)). subst x.
        assert (I : In t (filter (nf (part k)) (l_zero s))) by (rewrite Ht; now left). apply filter_In in I as [_ I]. unfold nf in I.
        rewrite Ex, andb_false_r in I. discriminate.
      - apply negb_false_iff, N.eqb_eq. assert (I : In x (filter (nf (part k)) (l_zero s))).
        { apply filter_In. split; [exact Hx|]. unfold nf. rewrite Ex, Eh, N.eqb_refl. reflexivity. }
        rewrite Ht in I. destruct I as [<-|[]]. reflexivity. }
    rewrite Hf. cbn [orr]. destruct (z_src _ _ (li_zero _ _ _ HI) (part k)) as [Hs|(v & Hs)]; rewrite Hs; cbn [search].
    + reflexivity.
    + assert (Iv : In v (l_zero s)) by (assert (I : In v (filter (sf (part k)) (l_zero s))) by (rewrite Hs; now left); apply filter_In in I; tauto).
      rewrite (good_get c R k v (li_good0 _ _ _ HI v Iv) S). destruct (fd_get k (b_docs v)) as [r|] eqn:Ev; [|reflexivity].
      change (rec_empty None) with true. cbn [orb]. apply fd_get_in in Ev as [_ Ev].
      now rewrite !(key_not_empty k r Hk Ev).
Qed.

Lemma get_views : forall c R s k n i, LI c R s -> bf_safe c R -> k <> [] -> (i + n = length (l_up s))%nat ->
  levels_get hash part c k (S i) n s = match ups k (skipn i (l_up s)) with Some r => Got r | None => GotErr KEY_NOT_FOUND end.
Proof.
  intros c R s k n. induction n as [|n IH]; intros i HI S Hk Hn.
  - rewrite skipn_all2 by lia. reflexivity.
  - cbn [levels_get]. unfold level_get, tables_point.
    assert (Hi : In (nth i (l_up s) []) (l_up s)) by (apply nth_In; lia).
    assert (Es : skipn i (l_up s) = nth i (l_up s) [] :: skipn (Datatypes.S i) (l_up s)).
    { clear -Hn. revert i Hn. induction (l_up s) as [|a l IHl]; intros i Hn; [cbn in Hn; lia|]. destruct i as [|i]; [reflexivity|].
      cbn [skipn nth]. apply IHl. cbn [length] in Hn. lia. }
    rewrite Es. cbn [ups]. unfold lv_get. destruct (floor k (nth i (l_up s) [])) as [t|] eqn:F.
    + assert (It : In t (nth i (l_up s) [])) by (apply floor_spec in F; [tauto|apply (li_up _ _ _ HI _ Hi)]).
      cbn [search]. rewrite (good_get c R k t (li_good _ _ _ HI _ t Hi It) S). destruct (fd_get k (b_docs t)) as [r|] eqn:E.
      * change (rec_empty None) with true. cbn [orb orr]. apply fd_get_in in E as [_ E].
        now rewrite !(key_not_empty k r Hk E).
      * cbn [rec_empty orr]. apply IH; auto; lia.
    + cbn [search rec_empty orr]. apply IH; auto; lia.
Qed.

Lemma get_view : forall c R s k, LI c R s -> bf_safe c R -> part k < tc_parts c -> k <> [] ->
  tm_get hash part c k s = match view s k with Some r => Got r | None => GotErr KEY_NOT_FOUND end.
Proof.
  intros c R s k HI S Hp Hk. unfold tm_get, num_levels. rewrite (get_view0 c R) by assumption. unfold view.
  destruct (zview k (l_zero s)) as [r|]; [reflexivity|]. cbn [orr]. now rewrite (get_views c R) by (auto; lia).
Qed.

End Hash.
