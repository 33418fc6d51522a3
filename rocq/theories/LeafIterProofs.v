(** The leaves satisfy the laws of a cursor over a sorted list. *)
From Coq Require Import List NArith Bool Arith Lia Sorted Permutation.
From Verif Require Import Base LogFormatModel KeyModel KeyProofs MemTableModel MemTableProofs IterModel IterProofs LeafIterModel.
Import ListNotations.
Local Open Scope N_scope.

(** ** Lists *)

Lemma filter_comm : forall {A} (p q : A -> bool) l, filter p (filter q l) = filter q (filter p l).
Proof.
  intros A p q l. induction l as [|x l IH]; [reflexivity|]. cbn [filter]. destruct (q x) eqn:Q, (p x) eqn:P; cbn [filter]; rewrite ?P, ?Q; congruence.
Qed.
Lemma filter_all : forall {A} (p : A -> bool) l, (forall x, In x l -> p x = true) -> filter p l = l.
Proof.
  intros A p l H. induction l as [|x l IH]; [reflexivity|]. cbn [filter]. rewrite (H x (or_introl eq_refl)). f_equal. apply IH. intros y Hy. apply H. now right.
Qed.
Lemma filter_no : forall {A} (p : A -> bool) l, (forall x, In x l -> p x = false) -> filter p l = [].
Proof.
  intros A p l H. induction l as [|x l IH]; [reflexivity|]. cbn [filter]. rewrite (H x (or_introl eq_refl)). apply IH. intros y Hy. apply H. now right.
Qed.
Lemma filter_rev_ : forall {A} (p : A -> bool) l, filter p (rev l) = rev (filter p l).
Proof.
  intros A p l. induction l as [|x l IH]; [reflexivity|]. cbn [rev filter]. rewrite filter_app, IH. cbn [filter]. destruct (p x); cbn [rev]; [reflexivity|apply app_nil_r].
Qed.

(** ** Memtables *)

Definition node := (key * list rec)%type.
Definition nsorted (l : list node) : Prop := StronglySorted (fun a b : node => klt (fst a) (fst b)) l.
Definition nwf (l : list node) : Prop := forall n r, In n l -> In r (snd n) -> r_key r = fst n.

Lemma nsorted_keys : forall l, sorted_keys l <-> nsorted l.
Proof.
  intros l. unfold sorted_keys. split; intros H.
  - induction l as [|x l IH]; [constructor|]. cbn [map] in H. inversion H as [|? ? H1 H2]; subst. constructor; [now apply IH|]. rewrite Forall_forall in *. intros y Hy. apply H2. now apply in_map.
  - induction H as [|x l H IH F]; [constructor|]. cbn [map]. constructor; [exact IH|]. rewrite Forall_forall in *. intros y Hy. apply in_map_iff in Hy as (z & <- & Hz). now apply F.
Qed.
Lemma nsorted_filter : forall p l, nsorted l -> nsorted (filter p l).
Proof. intros p l. apply SS_filter. Qed.
Lemma nsorted_split : forall a n b, nsorted (a ++ n :: b) -> (forall x, In x a -> klt (fst x) (fst n)) /\ (forall x, In x b -> klt (fst n) (fst x)).
Proof.
  intros a n b H. induction a as [|y a IH]; cbn [app] in H; inversion H as [|? ? H1 H2]; subst; rewrite Forall_forall in H2.
  - split; [intros x []|exact H2].
  - destruct (IH H1) as [A B]. split; [|exact B]. intros x [<-|Hx]; [|now apply A]. apply H2, in_app_iff. right. now left.
Qed.
Lemma nsorted_inj : forall l a b, nsorted l -> In a l -> In b l -> fst a = fst b -> a = b.
Proof.
  intros l a b H Ha Hb E. apply in_split in Ha as (l1 & l2 & ->). destruct (nsorted_split _ _ _ H) as [A B]. apply in_app_iff in Hb as [Hb|[Hb|Hb]]; [|exact Hb|].
  - apply A in Hb. rewrite E in Hb. now apply klt_irrefl in Hb.
  - apply B in Hb. rewrite E in Hb. now apply klt_irrefl in Hb.
Qed.

Section Mem.
Variable x : mki.
(** The nodes in the range that have a visible record, and those records. *)
Definition x_ok (n : node) : bool := negb (above_end x (fst n)) && negb (below_start x (fst n)) && node_valid (x_from x) (x_upto x) (snd n).
Definition x_vis : list node := filter x_ok (x_nodes x).
Definition x_lat (n : node) : rec := match latest_rec (x_from x) (x_upto x) (snd n) with Some r => r | None => mkRec 0 INS [] [] [] end.

Lemma fwd_valid_spec : forall l, nsorted l -> (forall n, In n l -> below_start x (fst n) = false) ->
  fwd_valid x l = option_map fst (hd_error (filter x_ok l)).
Proof.
  intros l H. induction H as [|[k rs] l H IH F]; intros Hb; [reflexivity|]. cbn [fwd_valid filter]. rewrite Forall_forall in F.
  unfold x_ok at 1. cbn [fst snd]. destruct (above_end x k) eqn:A; cbn [negb andb].
  - rewrite filter_no; [reflexivity|]. intros n Hn. unfold x_ok. assert (above_end x (fst n) = true) as ->; [|reflexivity].
    unfold above_end in *. apply andb_prop in A as [A1 A2]. rewrite A1. cbn [andb]. apply kltb_true in A2. apply kltb_true. eapply klt_trans; [exact A2|]. exact (F n Hn).
  - pose proof (Hb (k, rs) (or_introl eq_refl)) as Hk. cbn [fst] in Hk. rewrite Hk. cbn [negb andb]. destruct (node_valid (x_from x) (x_upto x) rs); [reflexivity|].
    apply IH. intros n Hn. apply Hb. now right.
Qed.
Lemma bwd_valid_spec : forall l, nsorted (rev l) -> (forall n, In n l -> above_end x (fst n) = false) ->
  bwd_valid x l = option_map fst (hd_error (filter x_ok l)).
Proof.
  intros l. induction l as [|[k rs] l IH]; intros H Hb; [reflexivity|]. cbn [bwd_valid filter]. cbn [rev] in H.
  destruct (nsorted_split _ _ _ H) as [F _]. unfold x_ok at 1. cbn [fst snd]. pose proof (Hb (k, rs) (or_introl eq_refl)) as Hk. cbn [fst] in Hk. rewrite Hk. cbn [negb andb].
  destruct (below_start x k) eqn:A; cbn [negb andb].
  - rewrite filter_no; [reflexivity|]. intros n Hn. unfold x_ok. assert (below_start x (fst n) = true) as ->; [|cbn [negb]; now rewrite andb_false_r].
    unfold below_start in *. apply andb_prop in A as [A1 A2]. rewrite A1. cbn [andb]. apply kltb_true in A2. apply kltb_true. eapply klt_trans; [|exact A2]. apply F. now apply -> in_rev.
  - destruct (node_valid (x_from x) (x_upto x) rs); [reflexivity|]. apply IH; [|intros n Hn; apply Hb; now right]. apply SS_app_inv in H. apply H.
Qed.

Hypothesis Hs : nsorted (x_nodes x).
Hypothesis Hw : nwf (x_nodes x).

Lemma vis_in : forall n, In n x_vis -> In n (x_nodes x) /\ above_end x (fst n) = false /\ below_start x (fst n) = false /\
  exists r, latest_rec (x_from x) (x_upto x) (snd n) = Some r /\ x_lat n = r /\ r_key r = fst n.
Proof.
  intros n H. apply filter_In in H as [H1 H2]. unfold x_ok in H2. apply andb_prop in H2 as [H2 H3]. apply andb_prop in H2 as [H2 H4].
  apply negb_true_iff in H2, H4. split; [exact H1|]. split; [exact H2|]. split; [exact H4|]. unfold node_valid in H3. apply andb_prop in H3 as [_ H3].
  destruct (latest_rec (x_from x) (x_upto x) (snd n)) as [r|] eqn:E; [|discriminate]. exists r. split; [reflexivity|]. unfold x_lat. rewrite E. split; [reflexivity|].
  apply (Hw n); [exact H1|]. unfold latest_rec in E. destruct (find _ (rev (snd n))) as [y|] eqn:Ef; [|discriminate].
  destruct (negb (valid_number (x_from x)) || (x_from x <=? r_seq y)); [|discriminate]. injection E as ->. apply find_some in Ef as [Ef _]. now apply in_rev.
Qed.
Lemma vis_sorted : nsorted x_vis.
Proof. apply nsorted_filter, Hs. Qed.
Lemma lat_key : forall n, In n x_vis -> r_key (x_lat n) = fst n.
Proof. intros n H. destruct (vis_in n H) as (_ & _ & _ & r & _ & -> & E). exact E. Qed.
Lemma lats_sorted : csorted ByKey (map x_lat x_vis).
Proof.
  apply csorted_ss. pose proof vis_sorted as H. pose proof lat_key as K. induction H as [|n l H IH F]; [constructor|]. cbn [map]. rewrite Forall_forall in F. constructor.
  - apply IH. intros m Hm. apply K. now right.
  - rewrite Forall_forall. intros r Hr. apply in_map_iff in Hr as (m & <- & Hm). unfold lt, cmpr. rewrite (K n (or_introl eq_refl)), (K m (or_intror Hm)). exact (F m Hm).
Qed.
End Mem.

(** The cursor is at the [p]-th visible record. *)
Definition RX (x : mki) (l : list rec) (p : nat) : Prop :=
  nsorted (x_nodes x) /\ nwf (x_nodes x) /\ l = map (x_lat x) (x_vis x) /\
  exists a n b, x_vis x = a ++ n :: b /\ fst n = x_cur x /\ p = length a.

Lemma x_move_vis : forall x k, x_vis (x_move x k) = x_vis x.
Proof. reflexivity. Qed.

Lemma rx_at : forall x a n b, nsorted (x_nodes x) -> nwf (x_nodes x) -> x_vis x = a ++ n :: b ->
  RX (x_move x (fst n)) (map (x_lat x) (x_vis x)) (length a).
Proof.
  intros x a n b Hs Hw E. split; [exact Hs|]. split; [exact Hw|]. split; [reflexivity|]. exists a, n, b. split; [exact E|]. split; reflexivity.
Qed.

Lemma rx_get : forall x l p, RX x l p -> nth_error l p = Some (x_get x) /\ csorted ByKey l.
Proof.
  intros x l p (Hs & Hw & -> & a & n & b & E & En & ->). split; [|now apply lats_sorted].
  rewrite E, map_app, nth_error_app2; rewrite map_length; [|lia]. rewrite Nat.sub_diag. cbn [map nth_error]. f_equal.
  unfold x_get. assert (Hn : In n (x_nodes x)).
  { assert (In n (x_vis x)) by (rewrite E; apply in_app_iff; right; now left). apply filter_In in H. tauto. }
  assert (Ef : find (fun n0 : key * list rec => keqb (fst n0) (x_cur x)) (x_nodes x) = Some n); [|rewrite Ef; reflexivity].
  apply in_split in Hn as (l1 & l2 & El). rewrite El. destruct (nsorted_split l1 n l2) as [A _]; [now rewrite <- El|].
  clear -A En. induction l1 as [|y l1 IH]; cbn [app find].
  - now rewrite En, keqb_refl.
  - assert (keqb (fst y) (x_cur x) = false) as ->; [|apply IH; intros z Hz; apply A; now right]. apply keqb_false. rewrite <- En. apply klt_not_eq. apply A. now left.
Qed.

Lemma rx_next : forall x l p, RX x l p -> exists x', x_next x = Some (x', Nat.ltb (S p) (length l)) /\ RX x' l (if Nat.ltb (S p) (length l) then S p else p).
Proof.
  intros x l p (Hs & Hw & -> & a & n & b & E & En & ->). unfold x_next. rewrite <- En.
  assert (Hn : In n (x_vis x)) by (rewrite E; apply in_app_iff; right; now left).
  destruct (vis_in x Hw n Hn) as (Hn0 & _ & Hbs & _).
  rewrite fwd_valid_spec.
  - unfold nodes_gt. rewrite filter_comm. fold (x_vis x). rewrite E. rewrite filter_app. cbn [filter].
    assert (nsorted (a ++ n :: b)) by (rewrite <- E; now apply vis_sorted). destruct (nsorted_split _ _ _ H) as [A B].
    rewrite (filter_no _ a), (filter_all _ b).
    2:{ intros y Hy. apply kltb_true. now apply B. }
    2:{ intros y Hy. apply kltb_false. apply klt_kle. now apply A. }
    assert (kltb (fst n) (fst n) = false) as -> by (apply kltb_false, kle_refl). cbn [app]. rewrite map_length, app_length. cbn [length].
    destruct b as [|m b']; cbn [hd_error option_map].
    + cbn [length]. assert (Nat.ltb (S (length a)) (length a + 1) = false) as -> by (apply Nat.ltb_ge; lia). exists x. split; [reflexivity|]. rewrite <- E. repeat split; auto. now exists a, n, [].
    + assert (Nat.ltb (S (length a)) (length a + S (length (m :: b'))) = true) as -> by (apply Nat.ltb_lt; cbn [length]; lia).
      exists (x_move x (fst m)). split; [reflexivity|]. rewrite <- E. assert (E2 : x_vis x = (a ++ [n]) ++ m :: b') by (rewrite E, <- app_assoc; reflexivity).
      pose proof (rx_at x (a ++ [n]) m b' Hs Hw E2) as Q. rewrite app_length in Q. cbn [length] in Q. rewrite Nat.add_1_r in Q. exact Q.
  - now apply nsorted_filter.
  - intros m Hm. apply filter_In in Hm as [_ Hm]. apply kltb_true in Hm. unfold below_start in *. destruct (negb (keqb (x_start x) [])); [|reflexivity]. cbn [andb] in *.
    apply kltb_false in Hbs. apply kltb_false. eapply kle_trans; [exact Hbs|now apply klt_kle].
Qed.

Lemma rx_prev : forall x l p, RX x l p -> exists x', x_prev x = Some (x', Nat.ltb 0 p) /\ RX x' l (pred p).
Proof.
  intros x l p (Hs & Hw & -> & a & n & b & E & En & ->). unfold x_prev. rewrite <- En.
  assert (Hn : In n (x_vis x)) by (rewrite E; apply in_app_iff; right; now left).
  destruct (vis_in x Hw n Hn) as (Hn0 & Hae & _ & _).
  rewrite bwd_valid_spec.
  - unfold nodes_lt. rewrite filter_rev_, filter_comm. fold (x_vis x). rewrite E. rewrite filter_app. cbn [filter].
    assert (nsorted (a ++ n :: b)) by (rewrite <- E; now apply vis_sorted). destruct (nsorted_split _ _ _ H) as [A B].
    rewrite (filter_no _ b), (filter_all _ a).
    2:{ intros y Hy. apply kltb_true. now apply A. }
    2:{ intros y Hy. apply kltb_false. apply klt_kle. now apply B. }
    assert (kltb (fst n) (fst n) = false) as -> by (apply kltb_false, kle_refl). rewrite app_nil_r.
    destruct a as [|m0 a0] eqn:Ea using rev_ind; [|clear IHa0].
    + cbn [rev hd_error option_map length Nat.ltb Nat.leb pred app]. exists x. split; [reflexivity|]. repeat split; auto; [now rewrite E|]. now exists [], n, b.
    + rewrite rev_app_distr. cbn [rev app hd_error option_map]. rewrite app_length. cbn [length]. assert (Nat.ltb 0 (length a0 + 1) = true) as -> by (apply Nat.ltb_lt; lia).
      exists (x_move x (fst m0)). split; [reflexivity|]. rewrite <- E. assert (E2 : x_vis x = a0 ++ m0 :: (n :: b)) by (rewrite E, <- app_assoc; reflexivity).
      rewrite Nat.add_1_r. cbn [pred]. now apply rx_at with (b := n :: b).
  - unfold nodes_lt. rewrite rev_involutive. now apply nsorted_filter.
  - intros m Hm. unfold nodes_lt in Hm. apply in_rev in Hm. apply filter_In in Hm as [_ Hm]. apply kltb_true in Hm. unfold above_end in *. destruct (negb (keqb (x_end x) [])); [|reflexivity].
    cbn [andb] in *. apply kltb_false in Hae. apply kltb_false. eapply kle_trans; [apply klt_kle; exact Hm|exact Hae].
Qed.

Lemma below_ge : forall x k, kle (x_start x) k -> below_start x k = false.
Proof. intros x k H. unfold below_start. apply andb_false_iff. right. now apply kltb_false. Qed.

Lemma rx_init : forall nodes start end_ from upto, nsorted nodes -> nwf nodes ->
  let x0 := mkX nodes [] start end_ from upto in
  match x_init nodes start end_ from upto with
  | Some x => RX x (map (x_lat x0) (x_vis x0)) 0
  | None => x_vis x0 = []
  end.
Proof.
  intros nodes start end_ from upto Hs Hw x0. unfold x_init. fold x0. rewrite fwd_valid_spec.
  - unfold nodes_ge. rewrite filter_comm. change (filter (x_ok x0) nodes) with (x_vis x0). rewrite filter_all.
    2:{ intros n Hn. destruct (vis_in x0 Hw n Hn) as (_ & _ & B & _). unfold below_start in B. cbn [x_start x0] in B. apply andb_false_iff in B as [B|B].
        - apply negb_false_iff, keqb_true in B. rewrite B. apply kleb_true. destruct (fst n); [apply kle_refl|]. unfold kle. cbn. discriminate.
        - apply kltb_false in B. now apply kleb_true. }
    destruct (x_vis x0) as [|n l] eqn:E; cbn [hd_error option_map]; [reflexivity|]. rewrite <- E. exact (rx_at x0 [] n l Hs Hw E).
  - now apply nsorted_filter.
  - intros n Hn. apply filter_In in Hn as [_ Hn]. apply kleb_true in Hn. now apply below_ge.
Qed.

(** ** gotoEnd and seek of the leaf by key *)

Lemma lt_le_no : forall a b, klt a b -> kle b a -> False.
Proof. intros a b H1 H2. exact (proj1 (kle_not_lt _ _) H2 H1). Qed.

Lemma vis_ge_start : forall x n, nwf (x_nodes x) -> In n (x_vis x) -> kle (x_start x) (fst n).
Proof.
  intros x n Hw Hn. destruct (vis_in x Hw n Hn) as (_ & _ & B & _). unfold below_start in B. apply andb_false_iff in B as [B|B].
  - apply negb_false_iff, keqb_true in B. rewrite B. destruct (fst n); [apply kle_refl|]. unfold kle. cbn. discriminate.
  - now apply kltb_false in B.
Qed.
Lemma vis_le_end : forall x n, nwf (x_nodes x) -> x_end x <> [] -> In n (x_vis x) -> kle (fst n) (x_end x).
Proof.
  intros x n Hw He Hn. destruct (vis_in x Hw n Hn) as (_ & B & _). unfold above_end in B. apply andb_false_iff in B as [B|B].
  - apply negb_false_iff, keqb_true in B. congruence.
  - now apply kltb_false in B.
Qed.
Lemma split_at_ : forall q l, nsorted l -> exists a b, l = a ++ b /\ (forall n, In n a -> klt (fst n) q) /\ (forall n, In n b -> kle q (fst n)) /\
  filter (fun n : node => kleb q (fst n)) l = b.
Proof.
  intros q l H. induction H as [|n l H IH F].
  - exists [], []. repeat split; intros n [].
  - rewrite Forall_forall in F. cbn [filter]. destruct (kleb q (fst n)) eqn:E.
    + apply kleb_true in E. exists [], (n :: l). split; [reflexivity|]. split; [intros m []|]. split.
      * intros m [<-|Hm]; [exact E|]. eapply kle_trans; [exact E|]. apply klt_kle. now apply F.
      * f_equal. apply filter_all. intros m Hm. apply kleb_true. eapply kle_trans; [exact E|]. apply klt_kle. now apply F.
    + destruct IH as (a & b & -> & A & B & Eb). exists (n :: a), b. split; [reflexivity|]. split; [|split; [exact B|exact Eb]].
      apply kleb_false in E. intros m [<-|Hm]; auto.
Qed.
Lemma split_at_le : forall q l, nsorted l -> exists a b, l = a ++ b /\ (forall n, In n a -> kle (fst n) q) /\ (forall n, In n b -> klt q (fst n)) /\
  filter (fun n : node => kleb (fst n) q) l = a.
Proof.
  intros q l H. induction H as [|n l H IH F].
  - exists [], []. repeat split; intros n [].
  - rewrite Forall_forall in F. cbn [filter]. destruct (kleb (fst n) q) eqn:E.
    + destruct IH as (a & b & -> & A & B & Eb). exists (n :: a), b. split; [reflexivity|]. split; [|split; [exact B|now rewrite Eb]].
      apply kleb_true in E. intros m [<-|Hm]; auto.
    + apply kleb_false in E. exists [], (n :: l). split; [reflexivity|]. split; [intros m []|]. split.
      * intros m [<-|Hm]; [exact E|]. eapply klt_trans; [exact E|]. now apply F.
      * apply filter_no. intros m Hm. apply kleb_false. eapply klt_trans; [exact E|]. now apply F.
Qed.

Lemma rx_shape : forall x l p, RX x l p -> nsorted (x_nodes x) /\ nwf (x_nodes x) /\ l = map (x_lat x) (x_vis x) /\ x_vis x <> [].
Proof. intros x l p (A & B & C & a & n & b & E & _). repeat (split; [assumption|]). rewrite E. now destruct a. Qed.

(** The backward search from the end of the range finds the last visible node. *)
Lemma back_from_end : forall x a n, nsorted (x_nodes x) -> nwf (x_nodes x) -> x_vis x = a ++ [n] ->
  bwd_valid x (if keqb (x_end x) [] then rev (x_nodes x) else nodes_le (x_end x) (x_nodes x)) = Some (fst n).
Proof.
  intros x a n Hs Hw E. destruct (keqb (x_end x) []) eqn:K.
  - rewrite bwd_valid_spec; [|now rewrite rev_involutive|].
    + rewrite filter_rev_. fold (x_vis x). rewrite E, rev_app_distr. reflexivity.
    + intros m _. unfold above_end. now rewrite K.
  - apply keqb_false in K. rewrite bwd_valid_spec.
    + unfold nodes_le. rewrite filter_rev_, filter_comm. fold (x_vis x). rewrite filter_all, E, rev_app_distr; [reflexivity|].
      intros m Hm. apply kleb_true. now apply (vis_le_end x m Hw K).
    + unfold nodes_le. rewrite rev_involutive. now apply nsorted_filter.
    + intros m Hm. unfold nodes_le in Hm. apply in_rev in Hm. apply filter_In in Hm as [_ Hm]. apply kleb_true in Hm. unfold above_end. apply andb_false_iff. right. now apply kltb_false.
Qed.

Lemma rx_end : forall x l p, RX x l p -> exists x' q, x_to_end x = Some (x', true) /\ RX x' l q /\ S q = length l.
Proof.
  intros x l p H. destruct (rx_shape x l p H) as (Hs & Hw & -> & Hne). destruct (exists_last Hne) as (a & n & E).
  unfold x_to_end. rewrite (back_from_end x a n Hs Hw E). exists (x_move x (fst n)), (length a). split; [reflexivity|]. split.
  - now apply rx_at with (b := []).
  - rewrite map_length, E, app_length. cbn. lia.
Qed.

Lemma rx_cur : forall x l p r, RX x l p -> nth_error l p = Some r -> x_get x = r.
Proof. intros x l p r H N. destruct (rx_get x l p H) as [N2 _]. congruence. Qed.
Lemma in_lats : forall x r, In r (map (x_lat x) (x_vis x)) <-> exists n, In n (x_vis x) /\ r = x_lat x n.
Proof. intros x r. rewrite in_map_iff. split; intros (n & A & B); exists n; auto. Qed.
Lemma nth_lat : forall x a n b, x_vis x = a ++ n :: b -> nth_error (map (x_lat x) (x_vis x)) (length a) = Some (x_lat x n).
Proof. intros x a n b E. rewrite E, map_app, nth_error_app2; rewrite map_length; [|lia]. now rewrite Nat.sub_diag. Qed.

(** seek to the first visible record not below [t]: the query must not be below the start of the
    range, and if no visible record is left in that direction then no record at all may be. *)
Lemma rx_seek_greater : forall x l p t, RX x l p -> (r_key t = [] \/ below_start x (r_key t) = false) ->
  ((exists r, In r l /\ le ByKey t r) \/ (forall n, In n (x_nodes x) -> klt (fst n) (r_key t))) ->
  exists x' q, x_seek true t x = Some (x', true) /\ RX x' l q /\
    ((le ByKey t (x_get x') /\ forall y, In y l -> le ByKey t y -> le ByKey (x_get x') y) \/ (forall y, In y l -> lt ByKey y t /\ le ByKey y (x_get x'))).
Proof.
  intros x l p t H Hb Hc. destruct (rx_shape x l p H) as (Hs & Hw & El & Hne). pose proof (lat_key x Hw) as LK.
  unfold x_seek. cbn [andb]. set (q := if keqb (r_key t) [] && negb (keqb (x_start x) []) then x_start x else r_key t).
  assert (Hq : below_start x q = false).
  { unfold q. destruct (keqb (r_key t) []) eqn:K; cbn [andb].
    - destruct (keqb (x_start x) []) eqn:K2; cbn [negb]; [unfold below_start; now rewrite K2|]. apply below_ge, kle_refl.
    - destruct Hb as [Hb|Hb]; [rewrite Hb in K; discriminate|exact Hb]. }
  assert (Hge : forall n, In n (x_vis x) -> (kle q (fst n) <-> kle (r_key t) (fst n))).
  { intros n Hn. unfold q. destruct (keqb (r_key t) [] && negb (keqb (x_start x) [])) eqn:K; [|reflexivity]. apply andb_prop in K as [K _]. apply keqb_true in K. rewrite K.
    split; intros _; [destruct (fst n); [apply kle_refl|]; unfold kle; cbn; discriminate|now apply vis_ge_start]. }
  assert (Hqt : (forall n, In n (x_nodes x) -> klt (fst n) q) -> forall n, In n (x_vis x) -> klt (fst n) (r_key t)).
  { intros Hall n Hn. pose proof (proj1 (proj1 (filter_In _ _ _) Hn)) as Hn0. specialize (Hall n Hn0). unfold q in Hall.
    destruct (keqb (r_key t) [] && negb (keqb (x_start x) [])); [|exact Hall]. pose proof (vis_ge_start x n Hw Hn) as S1. exfalso. exact (lt_le_no _ _ Hall S1). }
  destruct (split_at_ q (x_vis x) (vis_sorted x Hs)) as (a & b & E & A & B & Ef).
  destruct (nodes_ge q (x_nodes x)) as [|n0 l0] eqn:G.
  - assert (Hall : forall n, In n (x_nodes x) -> klt (fst n) q).
    { intros n Hn. apply kleb_false. destruct (kleb q (fst n)) eqn:K; [|reflexivity]. assert (In n (nodes_ge q (x_nodes x))) as F by (apply filter_In; auto). rewrite G in F. destruct F. }
    destruct (exists_last Hne) as (a' & n & E'). rewrite (back_from_end x a' n Hs Hw E').
    pose proof (rx_at x a' n [] Hs Hw E') as HR. rewrite <- El in HR. exists (x_move x (fst n)), (length a'). split; [reflexivity|]. split; [exact HR|].
    pose proof (nth_lat x a' n [] E') as N. rewrite <- El in N. rewrite (rx_cur _ _ _ _ HR N). right. intros y Hy. rewrite El in Hy. apply in_lats in Hy as (m & Hm & ->).
    split; [unfold lt, cmpr; rewrite (LK m Hm); now apply Hqt|]. assert (In n (x_vis x)) as Hn by (rewrite E'; apply in_app_iff; right; now left).
    unfold le, cmpr. rewrite (LK m Hm), (LK n Hn). pose proof (vis_sorted x Hs) as VS. rewrite E' in Hm, VS. destruct (nsorted_split _ _ _ VS) as [Q _].
    apply in_app_iff in Hm as [Hm|[<-|[]]]; [apply klt_kle; now apply Q|apply kle_refl].
  - rewrite <- G. rewrite fwd_valid_spec.
    + replace (filter (x_ok x) (nodes_ge q (x_nodes x))) with b by (rewrite <- Ef; unfold nodes_ge, x_vis; apply filter_comm). destruct b as [|n b].
      * exfalso. rewrite app_nil_r in E. destruct Hc as [(r & Hr & Lr)|Hc].
        -- rewrite El in Hr. apply in_lats in Hr as (m & Hm & ->). unfold le, cmpr in Lr. rewrite (LK m Hm) in Lr. apply (Hge m Hm) in Lr. rewrite E in Hm. exact (lt_le_no _ _ (A m Hm) Lr).
        -- destruct (x_vis x) as [|m v] eqn:V; [congruence|]. rewrite <- V in *. assert (In m (x_vis x)) as Hm by (rewrite V; now left).
           destruct (keqb (r_key t) []) eqn:K0.
           ++ apply keqb_true in K0. apply filter_In in Hm as [Hm _]. pose proof (Hc m Hm) as F. rewrite K0 in F. destruct (fst m); unfold klt in F; cbn in F; discriminate.
           ++ assert (Q : q = r_key t) by (unfold q; reflexivity).
              assert (In n0 (nodes_ge q (x_nodes x))) as F by (rewrite G; now left). apply filter_In in F as [F1 F2]. apply kleb_true in F2. rewrite Q in F2. exact (lt_le_no _ _ (Hc n0 F1) F2).
      * cbn [hd_error option_map]. pose proof (rx_at x a n b Hs Hw E) as HR. rewrite <- El in HR. exists (x_move x (fst n)), (length a). split; [reflexivity|]. split; [exact HR|].
        pose proof (nth_lat x a n b E) as N. rewrite <- El in N. rewrite (rx_cur _ _ _ _ HR N). left.
        assert (In n (x_vis x)) as Hn by (rewrite E; apply in_app_iff; right; now left). split.
        -- unfold le, cmpr. rewrite (LK n Hn). apply (Hge n Hn). apply B. now left.
        -- intros y Hy Ly. rewrite El in Hy. apply in_lats in Hy as (m & Hm & ->). unfold le, cmpr in *. rewrite (LK m Hm) in *. rewrite (LK n Hn).
           apply (Hge m Hm) in Ly. pose proof (vis_sorted x Hs) as VS. rewrite E in VS, Hm. destruct (nsorted_split _ _ _ VS) as [_ Q].
           apply in_app_iff in Hm as [Hm|[<-|Hm]]; [destruct (lt_le_no _ _ (A m Hm) Ly)|apply kle_refl|apply klt_kle; now apply Q].
    + now apply nsorted_filter.
    + intros m Hm. apply filter_In in Hm as [_ Hm]. apply kleb_true in Hm. unfold below_start in *. destruct (negb (keqb (x_start x) [])); [|reflexivity]. cbn [andb] in *.
      apply kltb_false in Hq. apply kltb_false. eapply kle_trans; eassumption.
Qed.

(** seek to the last visible record not above [t]: there must be one, and the query must not be
    above the end of the range. *)
Lemma rx_seek_smaller : forall x l p t, RX x l p -> above_end x (r_key t) = false -> (exists r, In r l /\ le ByKey r t) ->
  exists x' q, x_seek false t x = Some (x', true) /\ RX x' l q /\ le ByKey (x_get x') t /\ forall y, In y l -> le ByKey y t -> le ByKey y (x_get x').
Proof.
  intros x l p t H Hb (r & Hr & Lr). destruct (rx_shape x l p H) as (Hs & Hw & El & Hne). pose proof (lat_key x Hw) as LK.
  unfold x_seek. cbn [andb]. rewrite El in Hr. apply in_lats in Hr as (k & Hk & ->). unfold le, cmpr in Lr. rewrite (LK k Hk) in Lr.
  destruct (split_at_le (r_key t) (x_vis x) (vis_sorted x Hs)) as (a & b & E & A & B & Ef).
  assert (Ha : a <> []).
  { intros ->. cbn [app] in E. rewrite E in Hk. exact (lt_le_no _ _ (B k Hk) Lr). }
  destruct (nodes_le (r_key t) (x_nodes x)) as [|n0 l0] eqn:G.
  - exfalso. assert (In k (nodes_le (r_key t) (x_nodes x))) as F; [|rewrite G in F; destruct F]. unfold nodes_le. apply -> in_rev. apply filter_In. apply filter_In in Hk as [Hk _]. split; [exact Hk|]. now apply kleb_true.
  - rewrite <- G. rewrite bwd_valid_spec.
    + replace (filter (x_ok x) (nodes_le (r_key t) (x_nodes x))) with (rev a) by (rewrite <- Ef; unfold nodes_le, x_vis; rewrite filter_rev_; f_equal; apply filter_comm). destruct (exists_last Ha) as (a' & n & ->). rewrite rev_app_distr. cbn [rev app hd_error option_map].
      assert (E2 : x_vis x = a' ++ n :: b) by (rewrite E, <- app_assoc; reflexivity).
      pose proof (rx_at x a' n b Hs Hw E2) as HR. rewrite <- El in HR. exists (x_move x (fst n)), (length a'). split; [reflexivity|]. split; [exact HR|].
      pose proof (nth_lat x a' n b E2) as N. rewrite <- El in N. rewrite (rx_cur _ _ _ _ HR N).
      assert (In n (x_vis x)) as Hn by (rewrite E2; apply in_app_iff; right; now left). split.
      * unfold le, cmpr. rewrite (LK n Hn). apply A. apply in_app_iff. right. now left.
      * intros y Hy Ly. rewrite El in Hy. apply in_lats in Hy as (m & Hm & ->). unfold le, cmpr in *. rewrite (LK m Hm) in *. rewrite (LK n Hn).
        pose proof (vis_sorted x Hs) as VS. rewrite E2 in VS, Hm. destruct (nsorted_split _ _ _ VS) as [Q _].
        apply in_app_iff in Hm as [Hm|[<-|Hm]]; [apply klt_kle; now apply Q|apply kle_refl|destruct (lt_le_no _ _ (B m Hm) Ly)].
    + unfold nodes_le. rewrite rev_involutive. now apply nsorted_filter.
    + intros m Hm. unfold nodes_le in Hm. apply in_rev in Hm. apply filter_In in Hm as [_ Hm]. apply kleb_true in Hm. unfold above_end in *. destruct (negb (keqb (x_end x) [])); [|reflexivity].
      cbn [andb] in *. apply kltb_false in Hb. apply kltb_false. eapply kle_trans; eassumption.
Qed.
