(** Proofs about merging two tables. *)
From Coq Require Import List NArith Bool Lia Sorted.
From Verif Require Import Base LogFormatModel KeyModel KeyProofs BloomModel MemTableModel LsmModel LsmProofs LsmProofs5 MergeModel.
Import ListNotations.
Local Open Scope N_scope.

Lemma merge2_nil : forall a, merge2 a [] = a.
Proof. now intros [|m a]. Qed.

Lemma merge2_cons : forall m a o b, merge2 (m :: a) (o :: b) =
  match kcmp (r_key m) (r_key o) with
  | Lt => m :: merge2 a (o :: b)
  | Gt => o :: merge2 (m :: a) b
  | Eq => (if r_seq o <? r_seq m then m else o) :: merge2 a b
  end.
Proof. reflexivity. Qed.

(** What the merge of two sorted lists of documents holds for each key. *)
Definition pick (x y : option rec) : option rec :=
  match x, y with
  | Some m, Some o => Some (if r_seq o <? r_seq m then m else o)
  | Some m, None => Some m
  | None, o => o
  end.

Lemma merge2_in : forall a b r, In r (merge2 a b) -> In r a \/ In r b.
Proof.
  induction a as [|m a IH]; intros b r; [now right|]. induction b as [|o b IHb]; [now left|]. rewrite merge2_cons.
  destruct (kcmp (r_key m) (r_key o)).
  - intros [<-|H]; [destruct (r_seq o <? r_seq m); [left; now left|right; now left]|]. apply IH in H as [H|H]; [left; now right|right; now right].
  - intros [<-|H]; [left; now left|]. apply IH in H as [H|H]; [left; now right|now right].
  - intros [<-|H]; [right; now left|]. apply IHb in H as [H|H]; [now left|right; now right].
Qed.

Lemma klt_kcmp : forall a b, kcmp a b = Lt <-> klt a b.
Proof. intros a b. reflexivity. Qed.

Lemma merge2_sorted : forall a b, docs_ok a -> docs_ok b -> docs_ok (merge2 a b).
Proof.
  induction a as [|m a IH]; intros b Ha Hb; [exact Hb|]. pose proof (ss_in _ _ _ _ Ha) as Hm. pose proof (ss_tail _ _ _ _ Ha) as Ha'.
  induction b as [|o b IHb]; [exact Ha|]. pose proof (ss_in _ _ _ _ Hb) as Ho. pose proof (ss_tail _ _ _ _ Hb) as Hb'. specialize (IHb Hb').
  rewrite merge2_cons. destruct (kcmp (r_key m) (r_key o)) eqn:E.
  - apply kcmp_eq in E. constructor; [now apply IH|]. apply Forall_forall. intros r Hr. unfold klt_rec in *.
    assert (K : r_key (if r_seq o <? r_seq m then m else o) = r_key m) by (destruct (r_seq o <? r_seq m); congruence). rewrite K.
    apply merge2_in in Hr as [Hr|Hr]; [now apply Hm|rewrite E; now apply Ho].
  - constructor; [now apply IH|]. apply Forall_forall. intros r Hr. unfold klt_rec in *. apply merge2_in in Hr as [Hr|[<-|Hr]]; [now apply Hm|exact E|].
    eapply klt_trans; [exact E|now apply Ho].
  - apply kcmp_gt in E. constructor; [exact IHb|]. apply Forall_forall. intros r Hr. unfold klt_rec in *. apply merge2_in in Hr as [[<-|Hr]|Hr]; [exact E| |now apply Ho].
    eapply klt_trans; [exact E|now apply Hm].
Qed.

Lemma fd_get_cons : forall k r l, fd_get k (r :: l) = if keqb (r_key r) k then Some r else fd_get k l.
Proof. reflexivity. Qed.

Lemma fd_get_above : forall k l r, docs_ok (r :: l) -> klt k (r_key r) -> fd_get k (r :: l) = None.
Proof.
  intros k l r H L. apply fd_get_none. intros x [<-|Hx] E.
  - rewrite E in L. exact (klt_irrefl _ L).
  - pose proof (ss_in _ _ _ _ H x Hx) as Q. unfold klt_rec in Q. rewrite E in Q. exact (klt_asym _ _ L Q).
Qed.

Lemma merge2_get : forall a b k, docs_ok a -> docs_ok b -> fd_get k (merge2 a b) = pick (fd_get k a) (fd_get k b).
Proof.
  induction a as [|m a IH]; intros b k Ha Hb; [reflexivity|]. pose proof (ss_tail _ _ _ _ Ha) as Ha'. pose proof (ss_in _ _ _ _ Ha) as Hm.
  induction b as [|o b IHb]; [rewrite merge2_nil; now destruct (fd_get k (m :: a))|].
  pose proof (ss_tail _ _ _ _ Hb) as Hb'. pose proof (ss_in _ _ _ _ Hb) as Ho. specialize (IHb Hb').
  rewrite merge2_cons. destruct (kcmp (r_key m) (r_key o)) eqn:E.
  - apply kcmp_eq in E. rewrite !fd_get_cons, <- E.
    assert (K : r_key (if r_seq o <? r_seq m then m else o) = r_key m) by (destruct (r_seq o <? r_seq m); congruence). rewrite K.
    destruct (keqb (r_key m) k); [reflexivity|]. now apply IH.
  - rewrite fd_get_cons, IH by assumption. rewrite (fd_get_cons k m a). destruct (keqb (r_key m) k) eqn:K; [|reflexivity].
    apply keqb_true in K. rewrite <- K. rewrite (fd_get_above (r_key m) b o Hb E). reflexivity.
  - apply kcmp_gt in E. rewrite fd_get_cons, IHb. rewrite (fd_get_cons k o b). destruct (keqb (r_key o) k) eqn:K; [|reflexivity].
    apply keqb_true in K. rewrite <- K. rewrite (fd_get_above (r_key o) a m Ha E). reflexivity.
Qed.

Lemma merge_spec : forall keep a b, docs_ok a -> docs_ok b ->
  let out := merge_out keep a b in
  docs_ok out /\
  (forall r, In r out -> (In r a \/ In r b) /\ (keep = true \/ is_del r = false) /\
     forall x, In x a \/ In x b -> r_key x = r_key r -> r_seq x <= r_seq r) /\
  (forall x, In x a \/ In x b -> exists r, (In r a \/ In r b) /\ r_key r = r_key x /\ r_seq x <= r_seq r /\
     (In r out \/ (keep = false /\ is_del r = true /\ forall y, In y out -> r_key y <> r_key r))).
Proof.
  intros keep a b Ha Hb out. pose proof (merge2_sorted a b Ha Hb) as Hs.
  assert (Hget : forall r, In r (merge2 a b) -> pick (fd_get (r_key r) a) (fd_get (r_key r) b) = Some r).
  { intros r Hr. rewrite <- merge2_get by assumption. apply fd_get_some; [exact Hs|]. now split. }
  assert (Hmax : forall r x, In r (merge2 a b) -> In x a \/ In x b -> r_key x = r_key r -> r_seq x <= r_seq r).
  { intros r x Hr Hx E. specialize (Hget r Hr). destruct Hx as [Hx|Hx].
    - assert (G : fd_get (r_key r) a = Some x) by (apply fd_get_some; [exact Ha|now split]). rewrite G in Hget.
      destruct (fd_get (r_key r) b) as [o|]; cbn [pick] in Hget; injection Hget as <-; [|lia]. destruct (N.ltb_spec (r_seq o) (r_seq x)); lia.
    - assert (G : fd_get (r_key r) b = Some x) by (apply fd_get_some; [exact Hb|now split]). rewrite G in Hget.
      destruct (fd_get (r_key r) a) as [o|]; cbn [pick] in Hget; injection Hget as <-; [|lia]. destruct (N.ltb_spec (r_seq x) (r_seq o)); lia. }
  split; [now apply ss_filter|]. split.
  - intros r Hr. apply filter_In in Hr as [Hr K]. split; [now apply merge2_in|]. split.
    + apply orb_true_iff in K as [K|K]; [now left|right; now apply negb_true_iff in K].
    + intros x Hx E. now apply Hmax.
  - intros x Hx.
    assert (Hex : exists r, fd_get (r_key x) (merge2 a b) = Some r).
    { rewrite merge2_get by assumption. destruct Hx as [Hx|Hx].
      - assert (G : fd_get (r_key x) a = Some x) by (apply fd_get_some; [exact Ha|now split]). rewrite G. destruct (fd_get (r_key x) b); eexists; reflexivity.
      - assert (G : fd_get (r_key x) b = Some x) by (apply fd_get_some; [exact Hb|now split]). rewrite G. destruct (fd_get (r_key x) a); eexists; reflexivity. }
    destruct Hex as (r & Hr). apply fd_get_in in Hr as [Hr E]. exists r. split; [now apply merge2_in|]. split; [exact E|]. split; [now apply Hmax|].
    destruct (keep || negb (is_del r)) eqn:K; [left; apply filter_In; now split|]. right. apply orb_false_iff in K as [K1 K2].
    split; [exact K1|]. split; [now apply negb_false_iff in K2|]. intros y Hy Ey. apply filter_In in Hy as [Hy Ky].
    assert (y = r) by (apply (docs_key_inj (merge2 a b)); auto). subst y. rewrite K1, K2 in Ky. discriminate.
Qed.

Lemma merge_tie : forall keep a b x y, docs_ok a -> docs_ok b -> In x a -> In y b -> r_key x = r_key y -> r_seq x = r_seq y ->
  is_del y = false -> In y (merge_out keep a b).
Proof.
  intros keep a b x y Ha Hb Hx Hy Ek Es D. apply filter_In. split; [|rewrite D; apply orb_true_r].
  assert (G : fd_get (r_key y) (merge2 a b) = Some y).
  { rewrite merge2_get by assumption. assert (G1 : fd_get (r_key y) a = Some x) by (apply fd_get_some; [exact Ha|now split]).
    assert (G2 : fd_get (r_key y) b = Some y) by (apply fd_get_some; [exact Hb|now split]). rewrite G1, G2. cbn [pick].
    destruct (N.ltb_spec (r_seq y) (r_seq x)); [lia|reflexivity]. }
  apply fd_get_in in G. tauto.
Qed.

Section Hash.
Variable hash : key -> N * N.

Lemma merge_tbl_docs : forall c keep num h a b, docs_ok a -> docs_ok b -> b_docs (merge_tbl hash c keep num h a b) = merge_out keep a b.
Proof.
  intros c keep num h a b Ha Hb. destruct (merge_spec keep a b Ha Hb) as [Hs _]. unfold merge_tbl.
  destruct (tf_sets_docs hash true false (merge_out keep a b) (new_tbl c num h []) Hs) as [H1 H2]; [constructor|].
  apply docs_eq; auto. intros x. rewrite H2. cbn [andb new_tbl b_docs In]. intuition.
Qed.
End Hash.
