(** Nearest-key search (proofs; statements in NearestProps.v). *)
From Verif Require Import Base KeyModel KeyProofs LogFormatModel BloomModel MemTableModel MemTableProofs
  LogMgrModel LogMgrProofs LogMgrProofs2 DbModel DbProofs LsmModel LsmProofs LsmProofs2 LsmProofs5 FullModel FullProofs
  LeafIterModel LeafIterProofs DbIterProofs4 NearestModel NearestSpec.
From Coq Require Import Sorted.
Local Open Scope N_scope.

(** * Order seen from the search key *)

Lemma nearer_trans : forall o a b c, nearer o a b -> nearer o b c -> nearer o a c.
Proof. intros o a b c. unfold nearer. destruct (is_greater o); intros; eauto using klt_trans. Qed.
Lemma nearer_irrefl : forall o a, ~ nearer o a a.
Proof. intros o a. unfold nearer. destruct (is_greater o); apply klt_irrefl. Qed.
Lemma nearer_total : forall o a b, nearer o a b \/ a = b \/ nearer o b a.
Proof. intros o a b. unfold nearer. destruct (ktrichotomy a b) as [H|[H|H]]; destruct (is_greater o); auto. Qed.
Lemma nearer_far : forall o a b c, nearer o a b -> ~ nearer o c b -> nearer o a c.
Proof. intros o a b c H N. destruct (nearer_total o b c) as [Q|[<-|Q]]; [eapply nearer_trans; eauto|exact H|contradiction]. Qed.
Lemma far_nearer : forall o a b c, ~ nearer o b a -> nearer o b c -> nearer o a c.
Proof. intros o a b c N H. destruct (nearer_total o a b) as [Q|[->|Q]]; [eapply nearer_trans; eauto|exact H|contradiction]. Qed.
Lemma nearer_neq : forall o a b, nearer o a b -> a <> b.
Proof. intros o a b H ->. exact (nearer_irrefl _ _ H). Qed.
(** Nothing on the side is closer than the key itself. *)
Lemma side_exact : forall o k a, o <> EQ -> side o k a -> ~ nearer o a k.
Proof.
  intros o k a Ho S H. unfold nearer in H. destruct o; cbn in *; try congruence;
    try (exact (klt_asym _ _ S H)); exact (proj1 (kle_not_lt _ _) S H).
Qed.
Lemma side_other : forall o k a, o <> EQ -> side o k a -> a <> k -> nearer o k a.
Proof.
  intros o k a Ho S H. unfold nearer. destruct o; cbn in *; try congruence; auto;
    apply kle_lt_or_eq in S as [S|S]; congruence.
Qed.

(** * Selection *)

Definition picked (o : sopt) (L : list rec) (r : rec) : Prop :=
  exists a b, L = a ++ r :: b /\ (forall x, In x a -> nearer o (r_key r) (r_key x)) /\ (forall x, In x b -> ~ nearer o (r_key x) (r_key r)).

Lemma picked_one : forall o r, picked o [r] r.
Proof. intros o r. exists [], []. repeat split; intros x []. Qed.

Lemma picked_new : forall o c x L r, picked o (x :: L) r -> nearer o (r_key x) (r_key c) -> picked o (c :: x :: L) r.
Proof.
  intros o c x L r (a & b & E & A & B) H. exists (c :: a), b. split; [now rewrite E|]. split; [|exact B]. intros y [<-|Hy]; [|now apply A].
  destruct a as [|z a]; cbn in E; injection E as -> _; [exact H|]. eapply nearer_trans; [apply A; now left|exact H].
Qed.
Lemma picked_old : forall o c x L r, picked o (c :: L) r -> ~ nearer o (r_key x) (r_key c) -> picked o (c :: x :: L) r.
Proof.
  intros o c x L r (a & b & E & A & B) H. destruct a as [|z a]; cbn in E; injection E as -> ->.
  - exists [], (x :: b). repeat split; [intros y []|]. intros y [<-|Hy]; [exact H|now apply B].
  - exists (z :: x :: a), b. repeat split; [|exact B]. intros y [<-|[<-|Hy]]; [apply A; now left| |apply A; now right].
    eapply nearer_far; [apply A; left; reflexivity|exact H].
Qed.

Definition results (ask : lgf -> res rec) (fs : list lgf) : list rec :=
  flat_map (fun f => match ask f with Ok r => [r] | _ => [] end) fs.

Lemma upd_log : forall o c x, o <> EQ -> r_key c <> [] ->
  (nearer o (r_key x) (r_key c) /\ upd_nearest o (Some c) x = Some x) \/ (~ nearer o (r_key x) (r_key c) /\ upd_nearest o (Some c) x = Some c).
Proof.
  intros o c x Ho Hc. unfold upd_nearest, nearer. destruct (r_key c) as [|b l] eqn:E; [congruence|]. rewrite <- E in *.
  destruct o; cbn [is_greater is_smaller]; try congruence;
  (match goal with |- context [kltb ?a ?b] => destruct (kltb a b) eqn:L end; [left|right]; split; auto; [now apply kltb_true|];
   intros Q; apply kltb_true in Q; congruence).
Qed.

(** Loop of LogMgr::getNearest, latest data. *)
Lemma loop_spec : forall o k ask, o <> EQ -> forall fs cur,
  (forall f, In f fs -> ask f <> Undef) ->
  (forall r, In r (results ask fs) -> r_key r <> [] /\ side o k (r_key r)) ->
  match cur with None => True | Some c => r_key c <> [] /\ side o k (r_key c) /\ (exact_ok o = true -> r_key c <> k) end ->
  match (match cur with Some c => [c] | None => [] end) ++ results ask fs with
  | [] => nearest_end o k (nearest_loop true o k ask cur fs) = Fail KEY_NOT_FOUND
  | L => exists r, nearest_end o k (nearest_loop true o k ask cur fs) = Ok r /\ picked o L r
  end.
Proof.
  intros o k ask Ho. induction fs as [|f fs IH]; intros cur Hu Hr Hc.
  - cbn [results flat_map nearest_loop nearest_end]. rewrite app_nil_r. destruct cur as [c|]; [|reflexivity]. destruct Hc as (C1 & C2 & _). exists c. split; [|apply picked_one].
    destruct (r_key c) as [|b l] eqn:E; [congruence|]. rewrite <- E in *.
    destruct o; cbn [is_greater is_smaller andb side] in *; try congruence;
    (match goal with |- context [kltb ?a ?b] => destruct (kltb a b) eqn:L end; [apply kltb_true in L; exfalso|reflexivity]);
    solve [exact (klt_asym _ _ C2 L)|exact (proj1 (kle_not_lt _ _) C2 L)].
  - assert (Hu' : forall g, In g fs -> ask g <> Undef) by (intros g Hg; apply Hu; now right).
    cbn [nearest_loop results flat_map] in *. fold (results ask fs) in *. destruct (ask f) as [x|e|] eqn:Ef; [|apply IH; auto|destruct (Hu f (or_introl eq_refl) Ef)].
    assert (Hx : r_key x <> [] /\ side o k (r_key x)) by (apply Hr; now left). destruct Hx as [X1 X2].
    assert (Hr' : forall r, In r (results ask fs) -> r_key r <> [] /\ side o k (r_key r)) by (intros r Q; apply Hr; now right).
    cbn [negb orb app]. cbv zeta.
    assert (Hupd : (upd_nearest o cur x = Some x /\ match cur with Some c => nearer o (r_key x) (r_key c) | None => True end) \/
                   exists c, cur = Some c /\ ~ nearer o (r_key x) (r_key c) /\ upd_nearest o cur x = Some c).
    { destruct cur as [c|]; [|left; split; [reflexivity|exact I]]. destruct (upd_log o c x Ho (proj1 Hc)) as [[A B]|[A B]]; [left|right]; [now split|exists c; auto]. }
    destruct Hupd as [[Eu Hn]|(c & -> & Hn & Eu)]; rewrite Eu.
    + destruct (exact_ok o && keqb k (r_key x)) eqn:Ex.
      * apply andb_prop in Ex as [Ex1 Ex2]. apply keqb_true in Ex2.
        assert (P : picked o (x :: results ask fs) x).
        { exists [], (results ask fs). split; [reflexivity|]. split; [intros y []|]. intros y Hy Q. rewrite <- Ex2 in Q. revert Q. apply side_exact; [exact Ho|now apply Hr']. }
        destruct cur as [c|]; cbn [app]; exists x; (split; [reflexivity|]); [|exact P]. now apply picked_new.
      * assert (P := IH (Some x) Hu' Hr'). cbn [app] in P. destruct P as (r & E & P).
        { split; [exact X1|]. split; [exact X2|]. intros Eo Q. rewrite Q, Eo, keqb_refl in Ex. discriminate. }
        destruct cur as [c|]; cbn [app]; exists r; (split; [exact E|]); [|exact P]. now apply picked_new.
    + destruct Hc as (C1 & C2 & C3). destruct (exact_ok o && keqb k (r_key c)) eqn:Ex.
      * apply andb_prop in Ex as [Ex1 Ex2]. apply keqb_true in Ex2. destruct (C3 Ex1). now symmetry.
      * destruct (IH (Some c) Hu' Hr' (conj C1 (conj C2 C3))) as (r & E & P). cbn [app]. exists r. split; [exact E|]. now apply picked_old.
Qed.

(** * One log file *)

Lemma hd_drop : forall A (p : A -> bool) l, hd_error (drop_while p l) = find (fun x => negb (p x)) l.
Proof. intros A p. induction l as [|a l IH]; [reflexivity|]. cbn [drop_while find]. destruct (p a); [exact IH|reflexivity]. Qed.
Lemma find_ext : forall A (p q : A -> bool) l, (forall x, p x = q x) -> find p l = find q l.
Proof. intros A p q l H. induction l as [|a l IH]; [reflexivity|]. cbn [find]. rewrite H, IH. reflexivity. Qed.
Lemma find_all : forall A (p : A -> bool) l, (forall x, In x l -> p x = true) -> find p l = hd_error l.
Proof. intros A p [|a l] H; [reflexivity|]. cbn [find]. now rewrite (H a (or_introl eq_refl)). Qed.

Lemma find_least : forall A (R : A -> A -> Prop) (p : A -> bool) l, StronglySorted R l ->
  match find p l with
  | Some x => In x l /\ p x = true /\ forall y, In y l -> p y = true -> y = x \/ R x y
  | None => forall y, In y l -> p y = false
  end.
Proof.
  intros A R p l H. induction H as [|a l H IH F]; [intros y []|]. cbn [find]. destruct (p a) eqn:E.
  - split; [now left|]. split; [exact E|]. intros y [<-|Hy] _; [now left|right]. rewrite Forall_forall in F. now apply F.
  - destruct (find p l) as [x|].
    + destruct IH as (A1 & A2 & A3). split; [now right|]. split; [exact A2|]. intros y [<-|Hy] Ey; [congruence|now apply A3].
    + intros y [<-|Hy]; [exact E|now apply IH].
Qed.
Lemma ss_rev : forall A (R : A -> A -> Prop) l, StronglySorted R l -> StronglySorted (fun a b => R b a) (rev l).
Proof.
  intros A R l H. induction H as [|a l H IH F]; [constructor|]. cbn [rev]. apply ss_app. split; [exact IH|]. split; [constructor; constructor|].
  intros x y Hx [<-|[]]. rewrite Forall_forall in F. apply F. now apply in_rev.
Qed.

Definition sideb (o : sopt) (k a : key) : bool :=
  match o with GE => kleb k a | G => kltb k a | SE => kleb a k | S_ => kltb a k | EQ => keqb a k end.
Lemma sideb_spec : forall o k a, sideb o k a = true <-> side o k a.
Proof. intros o k a. destruct o; cbn; [apply kleb_true|apply kltb_true|apply kleb_true|apply kltb_true|]. split; [apply keqb_true|intros ->; apply keqb_refl]. Qed.

Lemma negb_kltb : forall a b, negb (kltb a b) = kleb b a.
Proof. exact not_kltb. Qed.

Lemma drop_strict : forall A (key_of : A -> key) k (R : key -> key -> bool) l,
  (forall a b, R a b = true -> keqb a b = false) ->
  (forall a b c, keqb a b = true -> R c a = R c b) ->
  StronglySorted (fun a b => R (key_of a) (key_of b) = true) l ->
  (forall a, R a k = false -> keqb a k = true \/ R k a = true) ->
  (forall a b c, R a b = true -> R b c = true -> R a c = true) ->
  (forall a b, R a b = true -> R b a = false) ->
  hd_error (drop_while (fun n => keqb k (key_of n)) (drop_while (fun n => R (key_of n) k) l)) = find (fun n => R k (key_of n)) l.
Proof.
  intros A key_of k R l H1 H2 Hs H3 H4 H5. induction Hs as [|a l Hs IH F]; [reflexivity|]. cbn [drop_while find]. destruct (R (key_of a) k) eqn:E.
  - rewrite (H5 _ _ E). exact IH.
  - destruct (H3 _ E) as [Q|Q].
    + apply keqb_true in Q. cbn [drop_while]. rewrite <- Q, keqb_refl.
      assert (R (key_of a) (key_of a) = false) as ->. { destruct (R (key_of a) (key_of a)) eqn:X; [|reflexivity]. rewrite (H5 _ _ X) in X. discriminate. }
      rewrite Forall_forall in F. rewrite (find_all _ _ l) by exact F. destruct l as [|b l]; [reflexivity|]. cbn [drop_while hd_error].
      rewrite (H1 _ _ (F b (or_introl eq_refl))). reflexivity.
    + rewrite Q. cbn [drop_while]. rewrite (H1 _ _ Q). reflexivity.
Qed.

Lemma seek_find : forall o k l, o <> EQ -> nsorted l ->
  seek_node o k l = if is_greater o then find (fun n => sideb o k (fst n)) l else find (fun n => sideb o k (fst n)) (rev l).
Proof.
  intros o k l Ho Hs. destruct o; cbn [seek_node is_greater sideb]; try congruence.
  - rewrite hd_drop. apply find_ext. intros x. apply negb_kltb.
  - apply (drop_strict _ fst k kltb).
    + intros a b H. apply keqb_false. apply kltb_true in H. exact (klt_not_eq _ _ H).
    + intros a b c H. apply keqb_true in H. now subst.
    + unfold nsorted in Hs. clear -Hs. induction Hs as [|a l H IH F]; constructor; [exact IH|]. eapply Forall_impl; [|exact F]. intros x Hx. now apply kltb_true.
    + intros a H. apply kltb_false in H. apply kle_lt_or_eq in H as [H|H]; [right; now apply kltb_true|left; subst; apply keqb_refl].
    + intros a b c H1 H2. rewrite kltb_true in *. eapply klt_trans; eauto.
    + intros a b H. apply kltb_true in H. apply kltb_false. now apply klt_kle.
  - rewrite hd_drop. apply find_ext. intros x. apply negb_kltb.
  - apply (drop_strict _ fst k (fun a b => kltb b a)).
    + intros a b H. apply keqb_false. apply kltb_true in H. intros ->. exact (klt_irrefl _ H).
    + intros a b c H. apply keqb_true in H. now subst.
    + unfold nsorted in Hs. apply ss_rev in Hs. clear -Hs. induction Hs as [|a l' H IH F]; constructor; [exact IH|]. eapply Forall_impl; [|exact F]. intros x Hx. now apply kltb_true.
    + intros a H. apply kltb_false in H. apply kle_lt_or_eq in H as [H|H]; [right; now apply kltb_true|left; subst; apply keqb_refl].
    + intros a b c H1 H2. rewrite kltb_true in *. eapply klt_trans; eauto.
    + intros a b H. apply kltb_true in H. apply kltb_false. now apply klt_kle.
Qed.

Lemma seek_spec : forall o k l, o <> EQ -> nsorted l ->
  match seek_node o k l with
  | Some n => In n l /\ side o k (fst n) /\ forall x, In x l -> side o k (fst x) -> ~ nearer o (fst x) (fst n)
  | None => forall x, In x l -> ~ side o k (fst x)
  end.
Proof.
  intros o k l Ho Hs. rewrite (seek_find o k l Ho Hs). unfold nearer. destruct (is_greater o).
  - pose proof (find_least _ _ (fun n => sideb o k (fst n)) l Hs) as H. cbn beta in H. destruct (find (fun n : key * list rec => sideb o k (fst n)) l) as [n|].
    + destruct H as (A & B & C). split; [exact A|]. split; [now apply sideb_spec|]. intros x Hx Sx Q. destruct (C x Hx) as [->|C']; [now apply sideb_spec|exact (klt_irrefl _ Q)|exact (klt_asym _ _ C' Q)].
    + intros x Hx Sx. apply sideb_spec in Sx. rewrite (H x Hx) in Sx. discriminate.
  - pose proof (find_least _ _ (fun n => sideb o k (fst n)) (rev l) (ss_rev _ _ _ Hs)) as H. cbn beta in H. destruct (find (fun n : key * list rec => sideb o k (fst n)) (rev l)) as [n|].
    + destruct H as (A & B & C). split; [now apply in_rev|]. split; [now apply sideb_spec|]. intros x Hx Sx Q. destruct (C x) as [->|C']; [now apply in_rev in Hx|now apply sideb_spec|exact (klt_irrefl _ Q)|exact (klt_asym _ _ C' Q)].
    + intros x Hx Sx. apply sideb_spec in Sx. apply in_rev in Hx. rewrite (H x Hx) in Sx. discriminate.
Qed.

Section Hash.
Variable hash : key -> N * N.
Variable part : key -> N.
Notation FI := (FI hash).
Notation GI := (GI hash).

Definition ask (o : sopt) (k : key) (f : lgf) : res rec := mt_search o (read_limit 0 (f_mt f)) k false true (f_mt f).

(** [r] is the record of its key in file [f] that counts, on the side, with no other key closer. *)
Definition first_in (o : sopt) (k : key) (f : lgf) (r : rec) : Prop :=
  In r (fh f) /\ is_cmd r = false /\ side o k (r_key r) /\
  (forall y, In y (fh f) -> is_cmd y = false -> r_key y = r_key r -> r_seq y <= r_seq r) /\
  (forall y, In y (fh f) -> is_cmd y = false -> side o k (r_key y) -> ~ nearer o (r_key y) (r_key r)).

Lemma ask_spec : forall n0 pre h F g o k f, GI n0 pre h F g -> o <> EQ -> In f (g_files g) ->
  match ask o k f with
  | Ok r => first_in o k f r /\ F < r_seq r
  | Fail _ => (exists r, first_in o k f r /\ r_seq r <= F) \/ (forall y, In y (fh f) -> is_cmd y = false -> ~ side o k (r_key y))
  | Undef => False
  end.
Proof.
  intros n0 pre h F g o k f H Ho Hf. pose proof (gi_fi _ _ _ _ _ _ H f Hf) as Fi. destruct (file_nodes hash f Fi) as [Ns _].
  pose proof (seek_spec o k _ Ho Ns) as S. unfold ask, mt_search. destruct (seek_node o k (m_key (f_mt f))) as [n|].
  - destruct S as (S1 & S2 & S3). rewrite (node_of hash f n Fi S1), latest_rec_newest.
    assert (Q : newest (fh f) (read_limit 0 (f_mt f)) (fst n) = newest (fh f) (limit 0) (fst n)) by (apply (newest_limit hash); [exact Fi|rewrite nil_val; lia]).
    rewrite Q. change (limit 0) with NIL. clear Q.
    pose proof (mr_ne _ _ _ (mw_mr _ _ _ (fi_mw _ _ Fi)) n S1) as Ne. rewrite (node_of hash f n Fi S1) in Ne.
    assert (Vis : forall y, visible NIL y = true) by (intros y; unfold visible; rewrite nil_invalid; reflexivity).
    destruct (newest (fh f) NIL (fst n)) as [r|] eqn:E.
    + pose proof (newest_le hash (fh f) NIL (fst n) r (mw_asc _ _ _ (fi_mw _ _ Fi)) E) as Mx. apply newest_in in E as (E1 & E2 & E3 & _).
      assert (FR : first_in o k f r).
      { split; [exact E1|]. split; [exact E3|]. rewrite E2. split; [exact S2|]. split.
        - intros y Hy Cy Ey. apply Mx; [|apply Vis]. apply filter_In. split; [exact Hy|]. now rewrite Ey, keqb_refl, Cy.
        - intros y Hy Cy Sy. assert (Hk : In y (for_key (r_key y) (fh f))) by (apply filter_In; split; [exact Hy|]; now rewrite keqb_refl, Cy).
          destruct (node_for hash f (r_key y) y Fi Hk) as (m & Hm & Em). rewrite <- Em in Sy |- *. now apply S3. }
      pose proof (gi_flu _ _ _ _ _ _ H f r Hf E1) as U. unfold unflushed in U. cbn [negb andb]. rewrite andb_true_r.
      destruct (valid_number (m_flushed (f_mt f))); cbn [negb orb andb] in *.
      * destruct (r_seq r <=? m_flushed (f_mt f)) eqn:L; [left; exists r|]; (split; [exact FR|]); [replace (m_flushed (f_mt f) <? r_seq r) with false in U by lia|replace (m_flushed (f_mt f) <? r_seq r) with true in U by lia]; lia.
      * split; [exact FR|lia].
    + exfalso. unfold newest in E. destruct (for_key (fst n) (fh f)) as [|y l] eqn:El; [congruence|].
      assert (Q := find_none _ _ E y). rewrite Vis in Q. discriminate Q. apply in_rev. rewrite rev_involutive. now left.
  - right. intros y Hy Cy Sy. assert (Hk : In y (for_key (r_key y) (fh f))) by (apply filter_In; split; [exact Hy|]; now rewrite keqb_refl, Cy).
    destruct (node_for hash f (r_key y) y Fi Hk) as (m & Hm & Em). apply (S m Hm). now rewrite Em.
Qed.

(** * The log section *)

Lemma results_desc : forall (q : lgf -> res rec) fs, (forall f z, In f fs -> q f = Ok z -> In z (fh f)) ->
  (forall u f v, fs = u ++ f :: v -> forall x y, In x (all_h u) -> In y (fh f) -> r_seq x < r_seq y) ->
  StronglySorted (fun x y => r_seq y < r_seq x) (results q (rev fs)).
Proof.
  intros q. induction fs as [|f fs IH]; intros H1 H2; [constructor|]. cbn [rev]. unfold results. rewrite flat_map_app. apply ss_app. split; [|split].
  - apply IH; [intros g z Hg; apply H1; now right|]. intros u g v E x y Hx. apply (H2 (f :: u) g v); [now rewrite E|]. unfold all_h. cbn [flat_map]. apply in_or_app. now right.
  - cbn [flat_map]. destruct (q f); cbn [app]; constructor; constructor.
  - intros x y Hx Hy. cbn [flat_map] in Hy. rewrite app_nil_r in Hy. destruct (q f) as [z|e|] eqn:E; [|destruct Hy|destruct Hy]. destruct Hy as [->|[]].
    apply in_flat_map in Hx as (g & Hg & Hx). apply in_rev in Hg. destruct (q g) as [w|e|] eqn:Eg; [|destruct Hx|destruct Hx]. destruct Hx as [->|[]].
    apply in_split in Hg as (u & v & ->). apply (H2 (f :: u) g v eq_refl).
    + unfold all_h. cbn [flat_map]. apply in_or_app. left. apply H1; [now left|exact E].
    + apply H1; [right; apply in_or_app; right; now left|exact Eg].
Qed.

Lemma last_write_sorted : forall h r, sorted_seq h -> In r h -> is_cmd r = false ->
  (forall y, In y h -> is_cmd y = false -> r_key y = r_key r -> r_seq y <= r_seq r) -> last_write h (r_key r) = Some r.
Proof.
  intros h r Hs Hr Hc Hm. destruct (last_write h (r_key r)) as [y|] eqn:E.
  - rewrite <- newest_last_write in E. assert (L : r_seq r <= r_seq y).
    { apply (newest_le hash h NIL (r_key r) y Hs E); [|reflexivity]. apply filter_In. split; [exact Hr|]. now rewrite keqb_refl, Hc. }
    apply newest_in in E as (E1 & E2 & E3 & _). specialize (Hm y E1 E3 E2). f_equal. apply (sorted_seq_inj h y r Hs E1 Hr). lia.
  - exfalso. unfold last_write in E. assert (Q := find_none _ _ E r). cbn beta in Q. rewrite keqb_refl, Hc in Q. cbn [negb andb] in Q. discriminate Q. now apply in_rev in Hr.
Qed.

(** A flushed record that stops the search in a file, closer than [y]. *)
Definition stops (g : lmgr) (F : N) (o : sopt) (k a : key) : Prop :=
  exists f z, In f (g_files g) /\ In z (fh f) /\ is_cmd z = false /\ r_seq z <= F /\ side o k (r_key z) /\ nearer o (r_key z) a.

Lemma log_near : forall n0 pre h F g c o k, GI n0 pre h F g -> lastseq h + 1 < NIL -> c_lso c = false -> g_bar g = 0 -> o <> EQ ->
  (forall r, In r h -> r_key r <> []) ->
  match lm_nearest c o k g with
  | Ok r => In r h /\ is_cmd r = false /\ F < r_seq r /\ side o k (r_key r) /\ last_write h (r_key r) = Some r /\
      forall y, In y h -> is_cmd y = false -> F < r_seq y -> side o k (r_key y) -> nearer o (r_key y) (r_key r) -> stops g F o k (r_key y)
  | Fail e => e = KEY_NOT_FOUND /\ forall y, In y h -> is_cmd y = false -> F < r_seq y -> side o k (r_key y) -> stops g F o k (r_key y)
  | Undef => False
  end.
Proof.
  intros n0 pre h F g c o k H Hl Hc Hb Ho Hne. unfold lm_nearest. rewrite (gi_last_flushed hash _ _ _ _ _ H), (gi_max_num hash _ _ _ _ _ H Hl), Hc, Hb.
  rewrite (file_range_all (g_files g) n0) by (try apply (gi_nums _ _ _ _ _ _ H); try apply (gi_ne _ _ _ _ _ _ H); assert (X := gi_gmax _ _ _ _ _ _ H); lia).
  change (fun f => mt_search o (read_limit 0 (f_mt f)) k false true (f_mt f)) with (ask o k).
  assert (Hin : forall f y, In f (g_files g) -> In y (fh f) -> In y h).
  { intros f y Hf Hy. rewrite (gi_hist _ _ _ _ _ _ H). apply in_or_app. right. apply in_flat_map. eauto. }
  assert (Un : forall y, In y h -> F < r_seq y -> exists f, In f (g_files g) /\ In y (fh f)).
  { intros y Hy Hs. rewrite (gi_hist _ _ _ _ _ _ H) in Hy. apply in_app_iff in Hy as [Hy|Hy]; [apply (gi_pre _ _ _ _ _ _ H) in Hy; lia|]. apply in_flat_map in Hy as (f & A & B). eauto. }
  assert (St : forall f z y, In f (g_files g) -> first_in o k f z -> r_seq z <= F -> In y (fh f) -> is_cmd y = false -> F < r_seq y -> side o k (r_key y) -> stops g F o k (r_key y)).
  { intros f z y Hf (Z1 & Z2 & Z3 & Z4 & Z5) Lz Hy Cy Ly Sy. exists f, z. repeat (split; [assumption|]).
    destruct (nearer_total o (r_key z) (r_key y)) as [Q|[Q|Q]]; [exact Q| |destruct (Z5 y Hy Cy Sy Q)]. specialize (Z4 y Hy Cy (eq_sym Q)). lia. }
  assert (L := loop_spec o k (ask o k) Ho (rev (g_files g)) None).
  assert (L1 : forall f, In f (rev (g_files g)) -> ask o k f <> Undef).
  { intros f Hf E. apply in_rev in Hf. pose proof (ask_spec _ _ _ _ _ o k f H Ho Hf) as Q. now rewrite E in Q. }
  assert (L2 : forall r, In r (results (ask o k) (rev (g_files g))) -> exists f, In f (g_files g) /\ ask o k f = Ok r /\ first_in o k f r /\ F < r_seq r).
  { intros r Hr. apply in_flat_map in Hr as (f & Hf & Hr). apply in_rev in Hf. pose proof (ask_spec _ _ _ _ _ o k f H Ho Hf) as Q. destruct (ask o k f) as [x|e|] eqn:E; [|destruct Hr|destruct Hr]. destruct Hr as [->|[]]. exists f. tauto. }
  specialize (L L1). cbn [app] in L.
  assert (L3 : forall r, In r (results (ask o k) (rev (g_files g))) -> r_key r <> [] /\ side o k (r_key r)).
  { intros r Hr. destruct (L2 r Hr) as (f & Hf & _ & (A & B & C & _) & _). split; [apply Hne; eauto|exact C]. }
  specialize (L L3 I).
  (* every unflushed record on the side: its file answers with something not farther, or stops *)
  assert (Cov : forall f y, In f (g_files g) -> In y (fh f) -> is_cmd y = false -> F < r_seq y -> side o k (r_key y) ->
     (exists r, ask o k f = Ok r /\ ~ nearer o (r_key y) (r_key r)) \/ stops g F o k (r_key y)).
  { intros f y Hf Hy Cy Ly Sy. pose proof (ask_spec _ _ _ _ _ o k f H Ho Hf) as Q. destruct (ask o k f) as [r|e|]; [|destruct Q as [(z & Z & Lz)|Q]|destruct Q].
    - left. exists r. split; [reflexivity|]. destruct Q as [(_ & _ & _ & _ & Q) _]. now apply Q.
    - right. eauto.
    - destruct (Q y Hy Cy Sy). }
  destruct (results (ask o k) (rev (g_files g))) as [|r0 rs] eqn:ER.
  - rewrite L. split; [reflexivity|]. intros y Hy Cy Ly Sy. destruct (Un y Hy Ly) as (f & Hf & Hyf). destruct (Cov f y Hf Hyf Cy Ly Sy) as [(r & E & _)|Q]; [|exact Q].
    exfalso. assert (X : In r (results (ask o k) (rev (g_files g)))) by (apply in_flat_map; exists f; split; [now apply in_rev in Hf|rewrite E; now left]). rewrite ER in X. destruct X.
  - destruct L as (r & -> & (a & b & Eab & A & B)). rewrite <- ER in *.
    assert (Hr : In r (results (ask o k) (rev (g_files g)))) by (rewrite Eab; apply in_or_app; right; now left).
    destruct (L2 r Hr) as (fr & Hfr & Er & (R1 & R2 & R3 & R4 & R5) & R6).
    assert (NN : forall f x, In f (g_files g) -> ask o k f = Ok x -> ~ nearer o (r_key x) (r_key r)).
    { intros f x Hf E Q. assert (X : In x (results (ask o k) (rev (g_files g)))) by (apply in_flat_map; exists f; split; [now apply in_rev in Hf|rewrite E; now left]).
      rewrite Eab in X. apply in_app_iff in X as [X|[<-|X]]; [|exact (nearer_irrefl _ _ Q)|exact (B x X Q)]. exact (nearer_irrefl _ _ (nearer_trans _ _ _ _ Q (A x X))). }
    split; [eauto|]. split; [exact R2|]. split; [exact R6|]. split; [exact R3|]. split.
    + apply last_write_sorted; [apply (gi_asc _ _ _ _ _ _ H)|eauto|exact R2|]. intros y Hy Cy Ey. destruct (N.le_gt_cases (r_seq y) (r_seq r)) as [Q|Q]; [exact Q|exfalso].
      destruct (Un y Hy ltac:(lia)) as (f & Hf & Hyf). destruct (in_split _ _ Hf) as (u & v & Ef).
      assert (Hfr' := Hfr). rewrite Ef in Hfr'. apply in_app_iff in Hfr' as [Hu|[->|Hv]].
      * (* the file of [r] is older *)
        pose proof (ask_spec _ _ _ _ _ o k f H Ho Hf) as Qf.
        assert (Lz : forall z, In z (fh f) -> F < r_seq z).
        { intros z Hz. pose proof (gi_starts _ _ _ _ _ _ H u f v Ef r ltac:(apply in_flat_map; eauto)) as S1. pose proof (fi_low _ _ (gi_fi _ _ _ _ _ _ H f Hf) z Hz). lia. }
        destruct (ask o k f) as [x|e|] eqn:Ex; [|destruct Qf as [(z & (Z1 & _) & Lz')|Qf]|destruct Qf].
        -- destruct Qf as [(X1 & X2 & X3 & X4 & X5) X6]. assert (Nx := NN f x Hf Ex). assert (Sy : side o k (r_key y)) by (now rewrite Ey). specialize (X5 y Hyf Cy Sy). rewrite Ey in X5.
           assert (Kx : r_key x = r_key r) by (destruct (nearer_total o (r_key x) (r_key r)) as [q|[q|q]]; [contradiction|exact q|contradiction]).
           assert (Ix : In x (results (ask o k) (rev (g_files g)))) by (apply in_flat_map; exists f; split; [now apply in_rev in Hf|rewrite Ex; now left]).
           assert (Hxr : r_seq r < r_seq x).
           { pose proof (gi_starts _ _ _ _ _ _ H u f v Ef r ltac:(apply in_flat_map; eauto)) as S1. pose proof (fi_low _ _ (gi_fi _ _ _ _ _ _ H f Hf) x X1). lia. }
           assert (Ds : StronglySorted (fun p q => r_seq q < r_seq p) (results (ask o k) (rev (g_files g)))).
           { apply results_desc.
             - intros f' z Hf' E'. pose proof (ask_spec _ _ _ _ _ o k f' H Ho Hf') as Q'. rewrite E' in Q'. apply Q'.
             - intros u' f' v' E' p q Hp Hq. assert (Hf' : In f' (g_files g)) by (rewrite E'; apply in_or_app; right; now left).
               pose proof (gi_starts _ _ _ _ _ _ H u' f' v' E' p Hp) as S1. pose proof (fi_low _ _ (gi_fi _ _ _ _ _ _ H f' Hf') q Hq). lia. }
           rewrite Eab in Ix, Ds. apply ss_app in Ds as (_ & Ds & _). apply in_app_iff in Ix as [Ix|[->|Ix]]; [|lia|].
           ++ exact (nearer_neq _ _ _ (A x Ix) (eq_sym Kx)).
           ++ pose proof (ss_in _ _ _ _ Ds x Ix). cbn beta in *. lia.
        -- specialize (Lz z Z1). lia.
        -- apply (Qf y Hyf Cy). now rewrite Ey.
      * specialize (R4 y Hyf Cy Ey). lia.
      * assert (Ef' := Ef). apply in_split in Hv as (v1 & v2 & Ev). rewrite Ev in Ef'. rewrite app_comm_cons, app_assoc in Ef'.
        pose proof (gi_starts _ _ _ _ _ _ H _ fr v2 Ef' y ltac:(apply in_flat_map; exists f; split; [apply in_or_app; right; now left|exact Hyf])) as S1. pose proof (fi_low _ _ (gi_fi _ _ _ _ _ _ H fr Hfr) r R1). lia.
    + intros y Hy Cy Ly Sy Q. destruct (Un y Hy Ly) as (f & Hf & Hyf). destruct (Cov f y Hf Hyf Cy Ly Sy) as [(x & E & Nx)|S1]; [exfalso|exact S1].
      exact (Nx (nearer_far _ _ _ _ Q (NN f x Hf E))).
Qed.

(** * The table section *)

Lemma doc_near_spec : forall o k l, o <> EQ -> docs_ok l ->
  match doc_near o k l with
  | Some d => In d l /\ side o k (r_key d) /\ forall x, In x l -> side o k (r_key x) -> ~ nearer o (r_key x) (r_key d)
  | None => forall x, In x l -> ~ side o k (r_key x)
  end.
Proof.
  intros o k l Ho Hs.
  assert (E : doc_near o k l = if is_greater o then find (fun d => sideb o k (r_key d)) l else find (fun d => sideb o k (r_key d)) (rev l)) by (destruct o; try congruence; reflexivity).
  rewrite E. clear E. unfold nearer. destruct (is_greater o).
  - pose proof (find_least _ _ (fun d => sideb o k (r_key d)) l Hs) as H. cbn beta in H. destruct (find (fun d => sideb o k (r_key d)) l) as [d|].
    + destruct H as (A & B & C). split; [exact A|]. split; [now apply sideb_spec|]. intros x Hx Sx Q. destruct (C x Hx) as [->|C']; [now apply sideb_spec|exact (klt_irrefl _ Q)|exact (klt_asym _ _ C' Q)].
    + intros x Hx Sx. apply sideb_spec in Sx. rewrite (H x Hx) in Sx. discriminate.
  - pose proof (find_least _ _ (fun d => sideb o k (r_key d)) (rev l) (ss_rev _ _ _ Hs)) as H. cbn beta in H. destruct (find (fun d => sideb o k (r_key d)) (rev l)) as [d|].
    + destruct H as (A & B & C). split; [now apply in_rev|]. split; [now apply sideb_spec|]. intros x Hx Sx Q. destruct (C x) as [->|C']; [now apply in_rev in Hx|now apply sideb_spec|exact (klt_irrefl _ Q)|exact (klt_asym _ _ C' Q)].
    + intros x Hx Sx. apply sideb_spec in Sx. apply in_rev in Hx. rewrite (H x Hx) in Sx. discriminate.
Qed.

Definition founds (o : sopt) (k : key) (ts : list tbl) : list rec :=
  flat_map (fun t => match doc_near o k (b_docs t) with Some r => [r] | None => [] end) ts.
Lemma near_tabs_fold : forall o k ts cur, near_tabs o k ts cur = fold_left (upd_tab o) (founds o k ts) cur.
Proof.
  intros o k. induction ts as [|t ts IH]; intros cur; [reflexivity|]. unfold near_tabs in *. cbn [fold_left]. rewrite IH. unfold founds. cbn [flat_map].
  destruct (doc_near o k (b_docs t)); reflexivity.
Qed.
Definition asked_tables (o : sopt) (k : key) (s : lsm) : list tbl := l_zero s ++ flat_map (tables_near o k) (l_up s).
Lemma tm_near_fold : forall o k s, tm_nearest o k s = let r := fold_left (upd_tab o) (founds o k (asked_tables o k s)) None in if rec_empty r then None else r.
Proof.
  intros o k s. unfold tm_nearest, asked_tables. cbv zeta.
  assert (E : forall ls cur, fold_left (fun cur ts => near_tabs o k (tables_near o k ts) cur) ls cur = fold_left (upd_tab o) (founds o k (flat_map (tables_near o k) ls)) cur).
  { induction ls as [|a ls IH]; intros cur; [reflexivity|]. cbn [fold_left flat_map]. rewrite IH, near_tabs_fold. unfold founds. now rewrite flat_map_app, fold_left_app. }
  rewrite E, near_tabs_fold. unfold founds. rewrite flat_map_app, fold_left_app. reflexivity.
Qed.

Definition beats (o : sopt) (r x : rec) : Prop := nearer o (r_key r) (r_key x) \/ (r_key r = r_key x /\ r_seq x <= r_seq r).
Lemma beats_refl : forall o r, beats o r r.
Proof. intros o r. right. split; [reflexivity|lia]. Qed.
Lemma beats_trans : forall o a b c, beats o a b -> beats o b c -> beats o a c.
Proof.
  intros o a b c [H1|[H1 L1]] [H2|[H2 L2]].
  - left. eapply nearer_trans; eauto.
  - left. now rewrite <- H2.
  - left. now rewrite H1.
  - right. split; [congruence|lia].
Qed.
Lemma upd_tab_spec : forall o c x, o <> EQ -> r_key c <> [] ->
  exists r, upd_tab o (Some c) x = Some r /\ (r = c \/ r = x) /\ beats o r c /\ beats o r x.
Proof.
  intros o c x Ho Hc. unfold upd_tab. destruct (r_key c) as [|b l] eqn:E; [congruence|]. rewrite <- E in *. clear E.
  assert (K : match (if is_greater o then kcmp (r_key x) (r_key c) else if is_smaller o then kcmp (r_key c) (r_key x) else Eq) with
              | Lt => nearer o (r_key x) (r_key c) | Eq => r_key x = r_key c | Gt => nearer o (r_key c) (r_key x) end).
  { unfold nearer. destruct o; cbn [is_greater is_smaller]; try congruence.
    all: match goal with |- context [kcmp ?a ?b] => destruct (kcmp a b) eqn:Q end; [apply kcmp_eq in Q; congruence|exact Q|apply kcmp_gt in Q; exact Q]. }
  destruct (if is_greater o then _ else _).
  - destruct (N.ltb_spec (r_seq c) (r_seq x)) as [L|L]; [exists x|exists c]; (split; [reflexivity|]); (split; [auto|]); split; try apply beats_refl; right; (split; [congruence|lia]).
  - exists x. split; [reflexivity|]. split; [auto|]. split; [now left|apply beats_refl].
  - exists c. split; [reflexivity|]. split; [auto|]. split; [apply beats_refl|now left].
Qed.
Lemma upd_fold : forall o, o <> EQ -> forall L c, (forall x, In x (c :: L) -> r_key x <> []) ->
  exists r, fold_left (upd_tab o) L (Some c) = Some r /\ In r (c :: L) /\ forall x, In x (c :: L) -> beats o r x.
Proof.
  intros o Ho. induction L as [|y L IH]; intros c H; cbn [fold_left].
  - exists c. split; [reflexivity|]. split; [now left|]. intros x [<-|[]]. apply beats_refl.
  - destruct (upd_tab_spec o c y Ho (H c (or_introl eq_refl))) as (m & -> & M1 & M2 & M3).
    destruct (IH m) as (r & E & I1 & B). { intros x [<-|Hx]; [destruct M1 as [->| ->]; apply H; cbn; auto|apply H; cbn; auto]. }
    exists r. split; [exact E|]. split.
    + destruct I1 as [<-|I1]; [destruct M1 as [->| ->]; cbn; auto|cbn; auto].
    + intros x [<-|[<-|Hx]]; [eapply beats_trans; [apply B; now left|exact M2]|eapply beats_trans; [apply B; now left|exact M3]|apply B; now right].
Qed.

(** Neighbouring tables. *)
Lemma around_spec : forall k l prev p t n, StronglySorted min_lt l -> around k prev l = Some (p, t, n) ->
  exists a b, l = a ++ t :: b /\ (a = [] /\ p = prev \/ exists a' x, a = a' ++ [x] /\ p = Some x /\ kle (b_min t) k) /\
    n = hd_error b /\ forall u, In u b -> klt k (b_min u).
Proof.
  intros k. induction l as [|x l IH]; intros prev p t n Hs E; [discriminate|]. cbn [around] in E. destruct l as [|u l].
  - injection E as <- <- <-. exists [], []. split; [reflexivity|]. split; [left; split; reflexivity|]. split; [reflexivity|intros u []].
  - apply StronglySorted_inv in Hs as [Hs F]. destruct (kleb (b_min u) k) eqn:L.
    + destruct (IH _ _ _ _ Hs E) as (a & b & E1 & E2 & E3 & E4). exists (x :: a), b. rewrite E1. split; [reflexivity|]. split; [|now split]. right.
      destruct E2 as [[-> ->]|(a' & y & -> & -> & Q)].
      * exists [], x. split; [reflexivity|]. split; [reflexivity|]. cbn in E1. injection E1 as -> _. now apply kleb_true.
      * exists (x :: a'), y. now repeat split.
    + injection E as <- <- <-. exists [], (u :: l). split; [reflexivity|]. split; [left; now split|]. split; [reflexivity|]. apply kleb_false in L.
      intros w [<-|Hw]; [exact L|]. eapply klt_trans; [exact L|]. exact (ss_in _ _ _ _ Hs w Hw).
Qed.

Lemma tables_near_incl : forall o k ts t, StronglySorted min_lt ts -> In t (tables_near o k ts) -> In t ts.
Proof.
  intros o k ts t Hs H. unfold tables_near in H. destruct (around k None ts) as [[[p x] n]|] eqn:E; [|destruct H].
  destruct (around_spec _ _ _ _ _ _ Hs E) as (a & b & -> & E2 & E3 & _).
  apply in_app_iff in H as [H|H].
  - destruct E2 as [[-> ->]|(a' & y & -> & -> & _)]; [destruct H|]. destruct (is_smaller o); [|destruct H]. destruct H as [<-|[]]. apply in_or_app. left. apply in_or_app. right. now left.
  - apply in_app_iff in H as [[<-|[]]|H]; [apply in_or_app; right; now left|]. destruct n as [y|]; [|destruct H]. destruct (is_greater o); [|destruct H]. destruct H as [<-|[]].
    apply in_or_app. right. right. destruct b as [|b0 b]; [discriminate|]. injection E3 as ->. now left.
Qed.

Lemma min_gap : forall ts a t b, lvl_ok ts -> ts = a ++ t :: b ->
  (forall u d, In u a -> In d (b_docs u) -> klt (r_key d) (b_min t)) /\ (forall u, In u b -> klt (b_min t) (b_min u)) /\ (forall d, In d (b_docs t) -> kle (b_min t) (r_key d)).
Proof.
  intros ts a t b [Hs Hd] E. assert (Ht : In t ts) by (rewrite E; apply in_or_app; right; now left). rewrite E in Hs. apply ss_app in Hs as (_ & Hs & Hx). split; [|split].
  - intros u d Hu Hdd. assert (Hu' : In u ts) by (rewrite E; apply in_or_app; now left). destruct (Hd u Hu') as [_ Q]. destruct (Q d Hdd) as [_ Q2]. apply Q2; [exact Ht|]. apply (Hx u t Hu). now left.
  - intros u Hu. exact (ss_in _ _ _ _ Hs u Hu).
  - intros d Hdd. destruct (Hd t Ht) as [_ Q]. exact (proj1 (Q d Hdd)).
Qed.

Lemma level_near : forall o k ts t d, o <> EQ -> lvl_ok ts -> filled ts -> In t ts -> In d (b_docs t) -> side o k (r_key d) ->
  exists t' d', In t' (tables_near o k ts) /\ In d' (b_docs t') /\ side o k (r_key d') /\ ~ nearer o (r_key d) (r_key d').
Proof.
  intros o k ts t d Ho Hok Hf Ht Hd Sd. pose proof (proj1 Hok) as Hs. unfold tables_near.
  destruct (around k None ts) as [[[p x] n]|] eqn:E.
  2:{ exfalso. clear -E Ht. generalize dependent (@None tbl). induction ts as [|a ts IH]; [destruct Ht|]. intros prev E. cbn [around] in E. destruct ts as [|u ts]; [discriminate|].
      destruct (kleb (b_min u) k); [|discriminate]. destruct Ht as [->|Ht]; [|exact (IH Ht _ E)]. clear IH. revert E. generalize (Some t). generalize u. induction ts as [|v ts IH]; intros w q E; cbn [around] in E; [discriminate|]. destruct (kleb (b_min v) k); [eapply IH; exact E|discriminate]. }
  destruct (around_spec _ _ _ _ _ _ Hs E) as (a & b & Ets & E2 & E3 & E4). destruct (min_gap ts a x b Hok Ets) as (G1 & G2 & G3).
  assert (Self : In t (match p with Some y => if is_smaller o then [y] else [] | None => [] end ++ [x] ++ match n with Some y => if is_greater o then [y] else [] | None => [] end) ->
    exists t' d', In t' (match p with Some y => if is_smaller o then [y] else [] | None => [] end ++ [x] ++ match n with Some y => if is_greater o then [y] else [] | None => [] end) /\ In d' (b_docs t') /\ side o k (r_key d') /\ ~ nearer o (r_key d) (r_key d')).
  { intros Hin. exists t, d. repeat (split; [assumption|]). apply nearer_irrefl. }
  assert (Ht' := Ht). rewrite Ets in Ht'. apply in_app_iff in Ht' as [Ha|[->|Hb]].
  - (* before the table of the key *)
    destruct E2 as [[-> _]|(a' & y & -> & -> & Lx)]; [destruct Ha|]. specialize (G1 t d Ha Hd). assert (Lk : klt (r_key d) k) by (eapply klt_kle_trans; eauto).
    destruct (is_smaller o) eqn:Sm.
    2:{ exfalso. destruct o; cbn in Sm, Sd; try congruence; [exact (proj1 (kle_not_lt _ _) Sd Lk)|exact (klt_asym _ _ Sd Lk)]. }
    apply in_app_iff in Ha as [Ha|[->|[]]]; [|apply Self; now left].
    rewrite <- app_assoc in Ets. cbn [app] in Ets. destruct (min_gap ts a' y (x :: b) Hok Ets) as (Y1 & Y2 & Y3).
    assert (Ny : b_docs y <> []). { rewrite Ets in Hf. destruct a' as [|z a']; [destruct Ha|]. cbn in Hf. apply Hf. apply in_or_app. right. now left. }
    destruct (b_docs y) as [|d' l] eqn:Ed; [congruence|]. exists y, d'. split; [now left|]. split; [rewrite Ed; now left|].
    assert (Ly : klt (r_key d') k). { eapply klt_kle_trans; [|exact Lx]. destruct Hok as [_ Hok]. assert (Iy : In y ts) by (rewrite Ets; apply in_or_app; right; now left). destruct (Hok y Iy) as [_ Q].
      apply (proj2 (Q d' ltac:(rewrite Ed; now left)) x); [rewrite Ets; apply in_or_app; right; right; now left|]. apply Y2. now left. }
    split; [destruct o; cbn in Sm |- *; try congruence; first [now apply klt_kle|exact Ly]|].
    assert (Q : klt (r_key d) (r_key d')). { eapply klt_kle_trans; [exact (Y1 t d Ha Hd)|]. apply Y3. now left. }
    unfold nearer. assert (is_greater o = false) as -> by (destruct o; cbn in Sm |- *; congruence). exact (klt_asym _ _ Q).
  - apply Self. apply in_or_app. right. now left.
  - (* after it *)
    assert (Lk : klt k (r_key d)). { eapply klt_kle_trans; [exact (E4 t Hb)|]. destruct Hok as [_ Hok]. destruct (Hok t Ht) as [_ Q]. exact (proj1 (Q d Hd)). }
    destruct (is_greater o) eqn:Gr.
    2:{ exfalso. destruct o; cbn in Gr, Sd; try congruence; [exact (proj1 (kle_not_lt _ _) Sd Lk)|exact (klt_asym _ _ Sd Lk)]. }
    destruct b as [|y b]; [destruct Hb|]. cbn in E3. subst n. destruct Hb as [->|Hb]; [apply Self; apply in_or_app; right; right; now left|].
    assert (Ets' : ts = (a ++ [x]) ++ y :: b) by (rewrite <- app_assoc; exact Ets). destruct (min_gap ts (a ++ [x]) y b Hok Ets') as (Y1 & Y2 & Y3).
    assert (Ny : b_docs y <> []). { rewrite Ets in Hf. destruct a as [|z a]; cbn in Hf; apply Hf; [now left|]. apply in_or_app. right. right. now left. }
    destruct (b_docs y) as [|d' l] eqn:Ed; [congruence|]. exists y, d'. split; [apply in_or_app; right; right; now left|]. split; [rewrite Ed; now left|].
    assert (Ly : klt k (r_key d')). { eapply klt_kle_trans; [apply E4; now left|]. apply Y3. now left. }
    split; [destruct o; cbn in Gr |- *; try congruence; first [now apply klt_kle|exact Ly]|].
    assert (Q : klt (r_key d') (r_key d)). { destruct Hok as [_ Hok]. assert (Iy : In y ts) by (rewrite Ets; apply in_or_app; right; right; now left). destruct (Hok y Iy) as [_ Qy].
      eapply klt_kle_trans; [apply (proj2 (Qy d' ltac:(rewrite Ed; now left)) t Ht); exact (Y2 t Hb)|]. destruct (Hok t Ht) as [_ Qt]. exact (proj1 (Qt d Hd)). }
    unfold nearer. rewrite Gr. exact (klt_asym _ _ Q).
Qed.

Lemma tab_near : forall c R s o k, LI hash part c R s -> (forall a, vle (view part s a) (newest_write R a)) -> (forall a, part a < tc_parts c) -> sorted_seq R -> o <> EQ ->
  (forall r, In r R -> r_key r <> []) -> (forall ts, In ts (l_up s) -> filled ts) ->
  match tm_nearest o k s with
  | Some d => In d R /\ is_cmd d = false /\ side o k (r_key d) /\ newest_write R (r_key d) = Some d /\ forall x, in_tabs s x -> side o k (r_key x) -> ~ nearer o (r_key x) (r_key d)
  | None => forall x, in_tabs s x -> ~ side o k (r_key x)
  end.
Proof.
  intros c R s o k HI HV Hp Hs Ho Hne Hf.
  assert (Tt : forall t, In t (asked_tables o k s) -> docs_ok (b_docs t) /\ forall d, In d (b_docs t) -> in_tabs s d).
  { intros t Ht. apply in_app_iff in Ht as [Ht|Ht].
    - split; [apply (z_mem _ _ _ (li_zero _ _ _ _ _ HI) t Ht)|]. intros d Hd. left. eauto.
    - apply in_flat_map in Ht as (ts & Hts & Ht). pose proof (li_up _ _ _ _ _ HI ts Hts) as Hok. apply tables_near_incl in Ht; [|apply Hok]. split; [apply (proj2 Hok t Ht)|]. intros d Hd. right. exists ts. split; [exact Hts|]. exists t. now split. }
  assert (InR : forall d, in_tabs s d -> In d R /\ is_cmd d = false).
  { intros d [(t & Ht & Hd)|(ts & Hts & t & Ht & Hd)]; [exact (gd_docs _ _ _ _ (li_good0 _ _ _ _ _ HI t Ht) d Hd)|exact (gd_docs _ _ _ _ (li_good _ _ _ _ _ HI ts t Hts Ht) d Hd)]. }
  set (D := founds o k (asked_tables o k s)).
  assert (D1 : forall d, In d D -> in_tabs s d /\ side o k (r_key d)).
  { intros d Hd. apply in_flat_map in Hd as (t & Ht & Hd). destruct (Tt t Ht) as [T1 T2]. pose proof (doc_near_spec o k _ Ho T1) as Q. destruct (doc_near o k (b_docs t)) as [x|]; [|destruct Hd]. destruct Hd as [->|[]]. destruct Q as (Q1 & Q2 & _). auto. }
  assert (D2 : forall x, in_tabs s x -> side o k (r_key x) -> exists d, In d D /\ ~ nearer o (r_key x) (r_key d)).
  { intros x Hx Sx. assert (Q : exists t d, In t (asked_tables o k s) /\ In d (b_docs t) /\ side o k (r_key d) /\ ~ nearer o (r_key x) (r_key d)).
    { destruct Hx as [(t & Ht & Hd)|(ts & Hts & t & Ht & Hd)].
      - exists t, x. split; [apply in_or_app; now left|]. repeat (split; [assumption|]). apply nearer_irrefl.
      - destruct (level_near o k ts t x Ho (li_up _ _ _ _ _ HI ts Hts) (Hf ts Hts) Ht Hd Sx) as (t' & d' & A & B & C & E). exists t', d'. split; [apply in_or_app; right; apply in_flat_map; eauto|auto]. }
    destruct Q as (t & d & A & B & C & E). destruct (Tt t A) as [T1 _]. pose proof (doc_near_spec o k _ Ho T1) as Q. destruct (doc_near o k (b_docs t)) as [y|] eqn:Ey; [|destruct (Q d B C)].
    exists y. split; [apply in_flat_map; exists t; split; [exact A|rewrite Ey; now left]|]. destruct Q as (Q1 & Q2 & Q3). intros N. apply (Q3 d B C). destruct (nearer_total o (r_key d) (r_key y)) as [q|[q|q]]; [exact q| |]; exfalso.
    + apply E. now rewrite q.
    + apply E. eapply nearer_trans; eauto. }
  rewrite tm_near_fold. cbv zeta. fold D. destruct D as [|d0 D'] eqn:ED.
  - cbn [fold_left rec_empty]. intros x Hx Sx. destruct (D2 x Hx Sx) as (d & [] & _).
  - cbn [fold_left]. change (upd_tab o None d0) with (Some d0). destruct (upd_fold o Ho D' d0) as (r & E & I1 & B).
    { intros x Hx. apply Hne. apply InR. now apply D1. }
    rewrite E. destruct (D1 r I1) as [T1 T2]. destruct (InR r T1) as [R1 R2].
    assert (rec_empty (Some r) = false) as ->. { cbn [rec_empty]. specialize (Hne r R1). destruct (r_key r); [congruence|reflexivity]. }
    assert (Nn : forall x, in_tabs s x -> side o k (r_key x) -> ~ nearer o (r_key x) (r_key r)).
    { intros x Hx Sx Q. destruct (D2 x Hx Sx) as (d & Hd & Nd). destruct (B d Hd) as [Bd|[Bd _]].
      - apply Nd. eapply nearer_trans; eauto.
      - apply Nd. now rewrite <- Bd. }
    split; [exact R1|]. split; [exact R2|]. split; [exact T2|]. split; [|exact Nn].
    destruct (view part s (r_key r)) as [v|] eqn:Ev.
    + destruct (view_some hash part c R s (r_key r) v HI Ev) as [V1 V2]. destruct (HV (r_key r)) as [Hv|[Hv _]]; [|congruence]. rewrite Ev in Hv. rewrite <- Hv. f_equal.
      (* the newest document of the key is among those found: all tables asked return something not farther *)
      destruct (InR v V2) as [Rv Cv].
      assert (Lv : r_seq r <= r_seq v).
      { symmetry in Hv. change (newest_write R (r_key r)) with (last_write R (r_key r)) in Hv. rewrite <- newest_last_write in Hv. apply (newest_le hash R NIL (r_key r) v Hs Hv); [|reflexivity].
        apply filter_In. split; [exact R1|]. now rewrite keqb_refl, R2. }
      assert (Hv2 : exists t, In t (asked_tables o k s) /\ In v (b_docs t)).
      { destruct V2 as [(t & Ht & Hd)|(ts & Hts & t & Ht & Hd)]; [exists t; split; [apply in_or_app; now left|exact Hd]|].
        assert (Sv : side o k (r_key v)) by (now rewrite V1).
        destruct (level_near o k ts t v Ho (li_up _ _ _ _ _ HI ts Hts) (Hf ts Hts) Ht Hd Sv) as (t' & d' & A1 & A2 & A3 & A4).
        assert (It' : In t' (asked_tables o k s)) by (apply in_or_app; right; apply in_flat_map; eauto).
        destruct (Tt t' It') as [_ Td]. assert (Nd : ~ nearer o (r_key d') (r_key r)) by (apply Nn; [now apply Td|exact A3]). rewrite V1 in A4.
        assert (Kd : r_key d' = r_key r) by (destruct (nearer_total o (r_key d') (r_key r)) as [q|[q|q]]; [contradiction|exact q|contradiction]).
        exists t'. split; [exact It'|]. assert (t' = t) as ->; [|exact Hd].
        pose proof (li_up _ _ _ _ _ HI ts Hts) as Hok. apply tables_near_incl in A1; [|apply Hok].
        assert (X1 : floor (r_key r) ts = Some t'). { apply floor_spec; [apply Hok|]. destruct (proj2 Hok t' A1) as [_ Q]. destruct (Q d' A2) as [Q1 Q2]. rewrite Kd in Q1, Q2. auto. }
        assert (X2 : floor (r_key r) ts = Some t). { apply floor_spec; [apply Hok|]. destruct (proj2 Hok t Ht) as [_ Q]. destruct (Q v Hd) as [Q1 Q2]. rewrite V1 in Q1, Q2. auto. }
        congruence. }
      destruct Hv2 as (t & It & Hd). destruct (Tt t It) as [T1' T2']. pose proof (doc_near_spec o k _ Ho T1') as Q. destruct (doc_near o k (b_docs t)) as [y|] eqn:Ey; [|destruct (Q v Hd); now rewrite V1].
      destruct Q as (Q1 & Q2 & Q3). assert (Hy : In y (d0 :: D')) by (rewrite <- ED; apply in_flat_map; exists t; split; [exact It|rewrite Ey; now left]).
      assert (Ky : r_key y = r_key r).
      { assert (N1 : ~ nearer o (r_key y) (r_key r)) by (apply Nn; [now apply T2'|exact Q2]). assert (N2 : ~ nearer o (r_key v) (r_key y)) by (apply Q3; [exact Hd|now rewrite V1]). rewrite V1 in N2.
        destruct (nearer_total o (r_key y) (r_key r)) as [q|[q|q]]; [contradiction|exact q|contradiction]. }
      assert (y = v) as -> by (apply (docs_key_inj (b_docs t)); [exact T1'|exact Q1|exact Hd|congruence]).
      destruct (B v Hy) as [Bv|[_ Bv]]; [rewrite Ky in Bv; destruct (nearer_irrefl _ _ Bv)|]. apply (sorted_seq_inj R v r Hs Rv R1). lia.
    + destruct (view_none hash part c R s (r_key r) HI (Hp _) Ev r T1 eq_refl).
Qed.

(** * Both sections *)

Theorem nearest_spec : forall c tc h f o k, cfg_ok c -> c_lso c = false -> tcfg_ok part tc -> freach hash part c tc h f -> d_bat (fd_db f) = None -> o <> EQ ->
  (forall r, In r h -> r_key r <> []) -> (forall ts, In ts (l_up (fd_lsm f)) -> filled ts) -> flushed_kept f ->
  match f_nearest c o k f with
  | Ok r => side o k (r_key r) /\ last_write h (r_key r) = Some r /\
            forall a y, last_write h a = Some y -> is_ins y = true -> side o k a -> ~ nearer o a (r_key r)
  | Fail e => e = KEY_NOT_FOUND /\ forall a y, last_write h a = Some y -> is_ins y = true -> ~ side o k a
  | Undef => False
  end.
Proof.
  intros c tc h f o k Cok Hl Tok H Hb Ho Hne Hfl Hk. destruct (freach_both _ _ _ _ _ _ H) as [H1 H2].
  destruct (reach_inv hash c h _ Cok H1) as [(n0 & pre & F & p & HG & Et & Hlast & _ & _ & _ & HB)]. rewrite Hb in HB. destruct HB as [-> Hbar]. rewrite app_nil_r in *.
  destruct (lreach_inv hash part tc _ _ Tok H2) as [HI HV]. set (R := d_tab (fd_db f)) in *. set (s := fd_lsm f) in *. set (g := d_log (fd_db f)) in *.
  assert (Hs : sorted_seq h) by (apply (gi_asc _ _ _ _ _ _ HG)).
  assert (Rin : forall r, In r R <-> In r h /\ r_seq r <= F) by (intros r; rewrite Et, filter_In; split; intros [A B]; split; auto; lia).
  assert (HsR : sorted_seq R) by (rewrite Et; now apply sorted_seq_filter).
  pose proof (log_near n0 pre h F g c o k HG Hlast Hl Hbar Ho Hne) as L.
  pose proof (tab_near tc R s o k HI HV (proj2 (proj2 Tok)) HsR Ho (fun r Hr => Hne r (proj1 (proj1 (Rin r) Hr))) Hfl) as T.
  (* flushed writes *)
  assert (LW : forall a y, last_write h a = Some y -> In y h /\ r_key y = a /\ is_cmd y = false).
  { intros a y E. rewrite <- newest_last_write in E. apply newest_in in E. tauto. }
  assert (NW : forall a y, last_write h a = Some y -> r_seq y <= F -> newest_write R a = Some y).
  { intros a y E Ly. destruct (LW a y E) as (Y1 & Y2 & Y3). subst a. change (newest_write R (r_key y)) with (last_write R (r_key y)). apply last_write_sorted; [exact HsR|now apply Rin|exact Y3|].
    intros z Hz Cz Kz. apply Rin in Hz as [Hz _]. rewrite <- newest_last_write in E. apply (newest_le hash h NIL (r_key y) y Hs E); [|reflexivity]. apply filter_In. split; [exact Hz|]. now rewrite Kz, keqb_refl, Cz. }
  assert (InT : forall a y, last_write h a = Some y -> is_ins y = true -> r_seq y <= F -> exists d, in_tabs s d /\ r_key d = a).
  { intros a y E Iy Ly. pose proof (NW a y E Ly) as Nw. destruct (HV a) as [Q|[_ (z & Q & Dz)]].
    - rewrite Nw in Q. destruct (view_some hash part tc R s a y HI Q) as [V1 V2]. eauto.
    - rewrite Nw in Q. injection Q as <-. unfold is_ins, is_del in *. destruct (r_type y =? INS) eqn:E1; [|discriminate]. apply N.eqb_eq in E1, Dz. rewrite E1 in Dz. discriminate. }
  assert (St : forall a, stops g F o k a -> exists d, in_tabs s d /\ side o k (r_key d) /\ nearer o (r_key d) a).
  { intros a (lf & z & Z1 & Z2 & Z3 & Z4 & Z5 & Z6). pose proof (gi_flu _ _ _ _ _ _ HG lf z Z1 Z2) as U. replace (F <? r_seq z) with false in U by lia. unfold unflushed in U. apply orb_false_iff in U as [U1 U2]. apply negb_false_iff in U1.
    destruct (Hk lf z Z1) as (d & Hd & Kd); [exact Z2|exact Z3|exact U1|lia|]. exists d. rewrite Kd. auto. }
  (* a live key on the side has a table document at least as close, or is found by the log *)
  assert (Live : forall a y, last_write h a = Some y -> is_ins y = true -> side o k a ->
     (exists d, in_tabs s d /\ side o k (r_key d) /\ ~ nearer o a (r_key d)) \/ (F < r_seq y /\ exists r, lm_nearest c o k g = Ok r /\ ~ nearer o a (r_key r))).
  { intros a y E Iy Sa. destruct (LW a y E) as (Y1 & Y2 & Y3). destruct (N.le_gt_cases (r_seq y) F) as [Ly|Ly].
    - left. destruct (InT a y E Iy Ly) as (d & Hd & Kd). exists d. rewrite Kd. split; [exact Hd|]. split; [exact Sa|apply nearer_irrefl].
    - assert (Sy : side o k (r_key y)) by (now rewrite Y2). destruct (lm_nearest c o k g) as [r|e|]; [| |destruct L].
      + destruct L as (_ & _ & _ & _ & _ & L6). destruct (nearer_total o (r_key y) (r_key r)) as [Q|Q].
        * left. destruct (St _ (L6 y Y1 Y3 Ly Sy Q)) as (d & A & B & C). exists d. split; [exact A|]. split; [exact B|]. rewrite <- Y2. intros N. exact (nearer_irrefl _ _ (nearer_trans _ _ _ _ C N)).
        * right. split; [exact Ly|]. exists r. split; [reflexivity|]. rewrite <- Y2. destruct Q as [->|Q]; [apply nearer_irrefl|]. intros N. exact (nearer_irrefl _ _ (nearer_trans _ _ _ _ Q N)).
      + left. destruct (St _ (proj2 L y Y1 Y3 Ly Sy)) as (d & A & B & C). exists d. split; [exact A|]. split; [exact B|]. rewrite <- Y2. intros N. exact (nearer_irrefl _ _ (nearer_trans _ _ _ _ C N)). }
  (* what the tables return is the last write unless the log knows better *)
  assert (TL : forall d, tm_nearest o k s = Some d -> (forall r, lm_nearest c o k g = Ok r -> nearer o (r_key d) (r_key r)) -> last_write h (r_key d) = Some d).
  { intros d Ed Hd. rewrite Ed in T. destruct T as (T1 & T2 & T3 & T4 & T5). apply Rin in T1 as [T1 T1'].
    destruct (last_write h (r_key d)) as [y|] eqn:E.
    - destruct (LW _ _ E) as (Y1 & Y2 & Y3). destruct (N.le_gt_cases (r_seq y) F) as [Ly|Ly]; [pose proof (NW _ _ E Ly); congruence|]. exfalso.
      assert (Sy : side o k (r_key y)) by (now rewrite Y2). assert (S : stops g F o k (r_key y)).
      { destruct (lm_nearest c o k g) as [r|e|]; [|exact (proj2 L y Y1 Y3 Ly Sy)|destruct L]. destruct L as (_ & _ & _ & _ & _ & L6). apply L6; auto. rewrite Y2. now apply Hd. }
      destruct (St _ S) as (x & A & B & C). rewrite Y2 in C. exact (T5 x A B C).
    - unfold last_write in E. exfalso. assert (Q := find_none _ _ E d). cbn beta in Q. rewrite keqb_refl, T2 in Q. cbn [negb andb] in Q. discriminate Q. now apply in_rev in T1. }
  assert (Rne : forall r, lm_nearest c o k g = Ok r -> rec_empty (Some r) = false).
  { intros r Er. rewrite Er in L. destruct L as (L1 & _). specialize (Hne r L1). cbn [rec_empty]. destruct (r_key r); [congruence|reflexivity]. }
  assert (Tne : forall d, tm_nearest o k s = Some d -> rec_empty (Some d) = false).
  { intros d Ed. rewrite Ed in T. destruct T as (T1 & _). apply Rin in T1 as [T1 _]. specialize (Hne d T1). cbn [rec_empty]. destruct (r_key d); [congruence|reflexivity]. }
  unfold f_nearest. fold s g. assert (En : near_end o (lm_nearest c o k g) (tm_nearest o k s) = match lm_nearest c o k g with Ok r => choose o (Some r) (tm_nearest o k s) | Fail _ => choose o None (tm_nearest o k s) | Undef => Undef end).
  { unfold near_end. destruct o; try congruence; (destruct (lm_nearest c _ k g) as [r|e|]; [reflexivity| |reflexivity]); destruct L as [-> _]; reflexivity. }
  rewrite En. clear En. destruct (lm_nearest c o k g) as [r|e|] eqn:EL; [| |destruct L].
  - pose proof L as (L1 & L2 & L3 & L4 & L5 & L6). destruct (tm_nearest o k s) as [d|] eqn:ET.
    + pose proof T as (T1 & T2 & T3 & T4 & T5). unfold choose. rewrite (Rne r eq_refl), (Tne d eq_refl).
      assert (CL : ~ nearer o (r_key d) (r_key r) -> side o k (r_key r) /\ last_write h (r_key r) = Some r /\ forall a y, last_write h a = Some y -> is_ins y = true -> side o k a -> ~ nearer o a (r_key r)).
      { intros N. split; [exact L4|]. split; [exact L5|]. intros a y E Iy Sa Q. destruct (Live a y E Iy Sa) as [(x & A & B & C)|(_ & r' & Er & C)].
        - specialize (T5 x A B). apply N. destruct (nearer_total o (r_key d) (r_key r)) as [q|[q|q]]; [exact q| |]; exfalso.
          + rewrite q in T5. apply C. exact (nearer_far _ _ _ _ Q T5).
          + apply T5. destruct (nearer_total o (r_key x) (r_key d)) as [w|[w|w]]; [exact w| |]; exfalso; apply C.
            * rewrite w. eapply nearer_trans; eauto.
            * eapply nearer_trans; [exact Q|]. eapply nearer_trans; eauto.
        - injection Er as <-. exact (C Q). }
      assert (CT : nearer o (r_key d) (r_key r) -> side o k (r_key d) /\ last_write h (r_key d) = Some d /\ forall a y, last_write h a = Some y -> is_ins y = true -> side o k a -> ~ nearer o a (r_key d)).
      { intros N. split; [exact T3|]. split; [apply TL; [reflexivity|]; intros r' Er; injection Er as <-; exact N|]. intros a y E Iy Sa Q. destruct (Live a y E Iy Sa) as [(x & A & B & C)|(_ & r' & Er & C)].
        - specialize (T5 x A B). apply C. exact (nearer_far _ _ _ _ Q T5).
        - injection Er as <-. apply C. eapply nearer_trans; eauto. }
      unfold nearer in CL, CT |- *.
      destruct (kcmp (r_key r) (r_key d)) eqn:Ek.
      * apply kcmp_eq in Ek. apply Rin in T1 as [_ T1]. replace (r_seq d <=? r_seq r) with true by lia. apply CL. rewrite Ek. destruct (is_greater o); apply klt_irrefl.
      * destruct o; cbn [is_greater is_smaller] in *; try congruence; first [apply CL; exact (klt_asym _ _ Ek)|apply CT; exact Ek].
      * apply kcmp_gt in Ek. destruct o; cbn [is_greater is_smaller] in *; try congruence; first [apply CL; exact (klt_asym _ _ Ek)|apply CT; exact Ek].
    + unfold choose. rewrite (Rne r eq_refl). cbn [rec_empty]. split; [exact L4|]. split; [exact L5|]. intros a y E Iy Sa Q. destruct (Live a y E Iy Sa) as [(x & A & B & C)|(_ & r' & Er & C)].
      * exact (T x A B).
      * injection Er as <-. exact (C Q).
  - destruct (tm_nearest o k s) as [d|] eqn:ET.
    + pose proof T as (T1 & T2 & T3 & T4 & T5). unfold choose. rewrite (Tne d eq_refl). cbn [rec_empty]. split; [exact T3|]. split; [apply TL; [reflexivity|]; discriminate|].
      intros a y E Iy Sa Q. destruct (Live a y E Iy Sa) as [(x & A & B & C)|(_ & r' & Er & C)]; [|discriminate]. specialize (T5 x A B). apply C. exact (nearer_far _ _ _ _ Q T5).
    + unfold choose. cbn [rec_empty]. split; [reflexivity|]. intros a y E Iy Sa. destruct (Live a y E Iy Sa) as [(x & A & B & C)|(_ & r' & Er & C)]; [|discriminate]. exact (T x A B).
Qed.

(** Two ways to have [flushed_kept]. *)
Lemma kept_only_sets : forall c tc h f, cfg_ok c -> tcfg_ok part tc -> freach hash part c tc h f -> d_bat (fd_db f) = None -> (forall r, In r h -> is_del r = false) -> flushed_kept f.
Proof.
  intros c tc h f Cok Tok H Hb Hd lf z Z1 Z2 Z3 Z4 Z5. destruct (freach_both _ _ _ _ _ _ H) as [H1 H2].
  destruct (reach_inv hash c h _ Cok H1) as [(n0 & pre & F & p & HG & Et & Hlast & _ & HFl & _ & HB)]. rewrite Hb in HB. destruct HB as [-> _]. rewrite app_nil_r in *.
  destruct (lreach_inv hash part tc _ _ Tok H2) as [HI HV].
  assert (Zh : In z h). { rewrite (gi_hist _ _ _ _ _ _ HG). apply in_or_app. right. apply in_flat_map. exists lf. now split. }
  assert (ZF : r_seq z <= F). { pose proof (gi_flu _ _ _ _ _ _ HG lf z Z1 Z2) as U. unfold unflushed in U. rewrite Z4 in U. cbn [negb orb] in U. lia. }
  assert (ZR : In z (d_tab (fd_db f))) by (rewrite Et; apply filter_In; split; [exact Zh|lia]).
  destruct (newest_write (d_tab (fd_db f)) (r_key z)) as [w|] eqn:Ew.
  - destruct (HV (r_key z)) as [Q|[_ (x & Q & Dx)]].
    + rewrite Ew in Q. destruct (view_some hash part tc _ _ _ w HI Q) as [V1 V2]. exists w. now split.
    + assert (Hx : In x h) by (apply last_write_in in Q; rewrite Et in Q; now apply filter_In in Q). rewrite (Hd x Hx) in Dx. discriminate.
  - exfalso. unfold newest_write in Ew. assert (Q := find_none _ _ Ew z). cbn beta in Q. rewrite keqb_refl, Z3 in Q. cbn [negb andb] in Q. discriminate Q. now apply in_rev in ZR.
Qed.
End Hash.
