(** Iteration by sequence number (proofs; statements in SeqIterProps.v). *)
From Coq Require Import List NArith Bool Arith Lia Sorted Permutation.
From Verif Require Import Base LogFormatModel KeyModel KeyProofs BloomModel MemTableModel MemTableProofs LogMgrModel LogMgrProofs LogMgrProofs2 LogMgrProofs3 DbModel DbProofs
  LsmModel LsmProofs LsmProofs2 LsmProofs5 FullModel FullProofs IterModel IterSpec IterProofs LeafIterModel LeafIterProofs DbIterModel DbIterProofs DbIterProofs2 DbIterProofs3 DbIterProofs4 DbIterProofs5 SeqIterModel.
Import ListNotations.
Local Open Scope N_scope.

(** ** Sorted by number *)
Lemma ssort_nth : forall l i j x y, sorted_seq l -> nth_error l i = Some x -> nth_error l j = Some y -> (i < j)%nat -> r_seq x < r_seq y.
Proof.
  intros l. induction l as [|a l IH]; intros i j x y H Hi Hj L; [destruct i; discriminate|]. unfold sorted_seq in H. cbn [map] in H. apply StronglySorted_inv in H as [H F]. rewrite Forall_forall in F.
  destruct j as [|j]; [lia|]. destruct i as [|i]; cbn [nth_error] in *; [injection Hi as <-; apply F; apply in_map; exact (nth_error_In _ _ Hj)|]. apply (IH i j); [exact H|exact Hi|exact Hj|lia].
Qed.
Lemma ssort_csorted : forall l, sorted_seq l -> csorted BySeq l.
Proof. intros l H i j x y L Hi Hj. unfold lt, cmpr. apply N.compare_lt_iff. exact (ssort_nth l i j x y H Hi Hj L). Qed.
Lemma le_seq : forall x y, le BySeq x y <-> r_seq x <= r_seq y.
Proof. intros. unfold le, cmpr. now rewrite N.compare_le_iff. Qed.
Lemma lt_seq : forall x y, lt BySeq x y <-> r_seq x < r_seq y.
Proof. intros. unfold lt, cmpr. now rewrite N.compare_lt_iff. Qed.
Lemma csorted_ssort : forall l, csorted BySeq l -> sorted_seq l.
Proof.
  intros l H. apply csorted_ss in H. unfold sorted_seq. induction H as [|x l H IH F]; cbn [map]; [constructor|]. constructor; [exact IH|]. rewrite Forall_forall in *. intros n Hn. apply in_map_iff in Hn as (y & <- & Hy).
  apply lt_seq. now apply F.
Qed.
Lemma ssort_succ : forall l p r x, sorted_seq l -> nth_error l p = Some r -> In x l -> r_seq r < r_seq x -> (forall y, In y l -> r_seq r < r_seq y -> r_seq x <= r_seq y) -> nth_error l (S p) = Some x.
Proof.
  intros l p r x H Hp Hx L M. apply In_nth_error in Hx as [j Hj].
  assert (Lj : (p < j)%nat). { destruct (Nat.lt_trichotomy p j) as [Q|[->|Q]]; [exact Q|assert (r = x) by congruence; subst; lia|]. pose proof (ssort_nth l j p x r H Hj Hp Q). lia. }
  destruct (Nat.eq_dec (S p) j) as [->|Ne]; [exact Hj|]. exfalso. destruct (nth_error l (S p)) as [y|] eqn:Ey.
  - pose proof (ssort_nth l p (S p) r y H Hp Ey ltac:(lia)). pose proof (ssort_nth l (S p) j y x H Ey Hj ltac:(lia)). specialize (M y (nth_error_In _ _ Ey)). lia.
  - apply nth_error_None in Ey. assert (j < length l)%nat by (apply nth_error_Some; congruence). lia.
Qed.
Lemma ssort_pred : forall l p r x, sorted_seq l -> nth_error l p = Some r -> In x l -> r_seq x < r_seq r -> (forall y, In y l -> r_seq y < r_seq r -> r_seq y <= r_seq x) -> exists q, p = S q /\ nth_error l q = Some x.
Proof.
  intros l p r x H Hp Hx L M. apply In_nth_error in Hx as [j Hj].
  assert (Lj : (j < p)%nat). { destruct (Nat.lt_trichotomy p j) as [Q|[->|Q]]; [|assert (r = x) by congruence; subst; lia|exact Q]. pose proof (ssort_nth l p j r x H Hp Hj Q). lia. }
  destruct p as [|q]; [lia|]. exists q. split; [reflexivity|]. destruct (Nat.eq_dec q j) as [->|Ne]; [exact Hj|]. exfalso. destruct (nth_error l q) as [y|] eqn:Ey.
  - pose proof (ssort_nth l q (S q) y r H Ey Hp ltac:(lia)). pose proof (ssort_nth l j q x y H Hj Ey ltac:(lia)). specialize (M y (nth_error_In _ _ Ey)). lia.
  - apply nth_error_None in Ey. assert (S q < length l)%nat by (apply nth_error_Some; congruence). lia.
Qed.
Lemma ssort_min : forall l x, sorted_seq l -> In x l -> (forall y, In y l -> r_seq x <= r_seq y) -> nth_error l 0 = Some x.
Proof.
  intros l x H Hx M. apply In_nth_error in Hx as [j Hj]. destruct j as [|j]; [exact Hj|]. exfalso. destruct l as [|y l]; [discriminate|]. pose proof (ssort_nth (y :: l) 0 (S j) y x H eq_refl Hj ltac:(lia)). specialize (M y (or_introl eq_refl)). lia.
Qed.
Lemma ssort_max : forall l x, sorted_seq l -> In x l -> (forall y, In y l -> r_seq y <= r_seq x) -> exists q, nth_error l q = Some x /\ S q = length l.
Proof.
  intros l x H Hx M. apply In_nth_error in Hx as [j Hj]. exists j. split; [exact Hj|]. assert (j < length l)%nat by (apply nth_error_Some; congruence). destruct (Nat.eq_dec (S j) (length l)) as [E|Ne]; [exact E|]. exfalso.
  destruct (nth_error l (S j)) as [y|] eqn:Ey; [|apply nth_error_None in Ey; lia]. pose proof (ssort_nth l j (S j) x y H Hj Ey ltac:(lia)). specialize (M y (nth_error_In _ _ Ey)). lia.
Qed.
(** The first from the left, the first from the right. *)
Lemma find_first : forall (p : rec -> bool) l, sorted_seq l ->
  match find p l with Some x => In x l /\ p x = true /\ forall y, In y l -> p y = true -> r_seq x <= r_seq y | None => forall y, In y l -> p y = false end.
Proof.
  intros p l H. destruct (find p l) as [x|] eqn:E; [|intros y Hy; exact (find_none _ _ E y Hy)]. pose proof (find_some _ _ E) as [A B]. split; [exact A|]. split; [exact B|].
  revert H E. clear A. induction l as [|a l IH]; intros H E y Hy Py; [destruct Hy|]. cbn [find] in E. unfold sorted_seq in H. cbn [map] in H. apply StronglySorted_inv in H as [H F]. rewrite Forall_forall in F.
  destruct (p a) eqn:Pa.
  - injection E as <-. destruct Hy as [<-|Hy]; [lia|]. specialize (F _ (in_map r_seq _ _ Hy)). lia.
  - destruct Hy as [<-|Hy]; [congruence|]. now apply IH.
Qed.
Lemma find_last : forall (p : rec -> bool) l, sorted_seq l ->
  match find p (rev l) with Some x => In x l /\ p x = true /\ forall y, In y l -> p y = true -> r_seq y <= r_seq x | None => forall y, In y l -> p y = false end.
Proof.
  intros p l H. destruct (find p (rev l)) as [x|] eqn:E.
  - pose proof (find_some _ _ E) as [A B]. apply in_rev in A. split; [exact A|]. split; [exact B|]. revert H E. clear A B. induction l as [|a l IH] using rev_ind; intros H E y Hy Py; [destruct Hy|].
    rewrite rev_app_distr in E. cbn [rev app find] in E. unfold sorted_seq in H. rewrite map_app in H. apply SS_app_inv in H as (H & _ & F). destruct (p a) eqn:Pa.
    + injection E as <-. apply in_app_iff in Hy as [Hy|[<-|[]]]; [|lia]. specialize (F (r_seq y) (r_seq a) (in_map r_seq _ _ Hy) (or_introl eq_refl)). lia.
    + apply in_app_iff in Hy as [Hy|[<-|[]]]; [now apply IH|congruence].
  - intros y Hy. apply (find_none _ _ E). now apply -> in_rev.
Qed.
Lemma seq_find_in : forall l x, sorted_seq l -> In x l -> seq_find (r_seq x) l = Some x.
Proof. intros l x H Hx. apply seq_find_some; [exact H|exact Hx]. Qed.

(** ** A leaf of the log *)
Definition y_in (y : msi) (r : rec) : bool := (y_min y <=? r_seq r) && (r_seq r <=? y_max y).
Definition y_list (y : msi) : list rec := filter (y_in y) (y_nodes y).
Definition RY (y : msi) (l : list rec) (p : nat) : Prop :=
  sorted_seq (y_nodes y) /\ l = y_list y /\ exists r, nth_error l p = Some r /\ r_seq r = y_cur y.
(** The only target sought: gotoBegin(). *)
Definition begin_sn (t : rec) : Prop := r_seq t = 0.

Lemma ry_parts : forall y l p, RY y l p -> sorted_seq (y_nodes y) /\ sorted_seq l /\ l = y_list y /\ exists r, nth_error l p = Some r /\ r_seq r = y_cur y /\ In r (y_nodes y) /\ y_in y r = true.
Proof.
  intros y l p (S0 & El & r & Hr & Er). split; [exact S0|]. split; [rewrite El; now apply sorted_seq_filter|]. split; [exact El|]. exists r. split; [exact Hr|]. split; [exact Er|].
  apply nth_error_In in Hr. rewrite El in Hr. apply filter_In in Hr. exact Hr.
Qed.
Lemma ry_get : forall y l p, RY y l p -> nth_error l p = Some (y_get y) /\ csorted BySeq l.
Proof.
  intros y l p H. destruct (ry_parts _ _ _ H) as (S0 & S1 & El & r & Hr & Er & Hn & _). split; [|now apply ssort_csorted]. rewrite Hr. unfold y_get. rewrite <- Er, (seq_find_in _ _ S0 Hn). reflexivity.
Qed.
Lemma ry_move : forall y l q x, sorted_seq (y_nodes y) -> l = y_list y -> nth_error l q = Some x -> RY (y_move y (r_seq x)) l q.
Proof. intros y l q x S0 El Hq. split; [exact S0|]. split; [exact El|]. exists x. now split. Qed.
Lemma ry_next : forall y l p, RY y l p -> exists y', y_next y = Some (y', Nat.ltb (S p) (length l)) /\ RY y' l (if Nat.ltb (S p) (length l) then S p else p).
Proof.
  intros y l p H. destruct (ry_parts _ _ _ H) as (S0 & S1 & El & r & Hr & Er & Hn & Hi). unfold y_next. pose proof (find_first (fun r => y_cur y <? r_seq r) (y_nodes y) S0) as F.
  assert (Last : (forall x, In x l -> r_seq x <= y_cur y) -> Nat.ltb (S p) (length l) = false).
  { intros Q. apply Nat.ltb_ge. destruct (nth_error l (S p)) as [z|] eqn:Ez; [|now apply nth_error_None in Ez]. pose proof (ssort_nth l p (S p) r z S1 Hr Ez ltac:(lia)). specialize (Q z (nth_error_In _ _ Ez)). lia. }
  unfold y_in in Hi. destruct (find _ (y_nodes y)) as [x|].
  - destruct F as (F1 & F2 & F3). destruct (N.ltb_spec (y_max y) (r_seq x)) as [Lm|Lm].
    + rewrite Last; [exists y; now split|]. intros z Hz. rewrite El in Hz. apply filter_In in Hz as [Hz1 Hz2]. unfold y_in in Hz2. destruct (N.le_gt_cases (r_seq z) (y_cur y)) as [Q|Q]; [exact Q|]. specialize (F3 z Hz1 ltac:(lia)). lia.
    + assert (Hx : In x l) by (rewrite El; apply filter_In; split; [exact F1|]; unfold y_in; lia).
      pose proof (ssort_succ l p r x S1 Hr Hx ltac:(lia)) as Q. rewrite <- Er in F3. specialize (Q ltac:(intros z Hz Lz; apply F3; [rewrite El in Hz; apply filter_In in Hz; tauto|lia])).
      assert ((S p < length l)%nat) as Lp by (apply nth_error_Some; congruence). apply Nat.ltb_lt in Lp. rewrite Lp. exists (y_move y (r_seq x)). split; [reflexivity|]. now apply ry_move.
  - rewrite Last; [exists y; now split|]. intros z Hz. rewrite El in Hz. apply filter_In in Hz as [Hz1 _]. specialize (F z Hz1). cbn beta in F. lia.
Qed.
Lemma ry_prev : forall y l p, RY y l p -> exists y', y_prev y = Some (y', Nat.ltb 0 p) /\ RY y' l (pred p).
Proof.
  intros y l p H. destruct (ry_parts _ _ _ H) as (S0 & S1 & El & r & Hr & Er & Hn & Hi). unfold y_prev. pose proof (find_last (fun r => r_seq r <? y_cur y) (y_nodes y) S0) as F.
  assert (First : (forall x, In x l -> y_cur y <= r_seq x) -> p = O).
  { intros Q. destruct p as [|q]; [reflexivity|]. destruct (nth_error l q) as [z|] eqn:Ez; [|apply nth_error_None in Ez; assert (S q < length l)%nat by (apply nth_error_Some; congruence); lia].
    pose proof (ssort_nth l q (S q) z r S1 Ez Hr ltac:(lia)). specialize (Q z (nth_error_In _ _ Ez)). lia. }
  unfold y_in in Hi. destruct (find _ (rev (y_nodes y))) as [x|].
  - destruct F as (F1 & F2 & F3). destruct (N.ltb_spec (r_seq x) (y_min y)) as [Lm|Lm].
    + assert (p = O) as ->. { apply First. intros z Hz. rewrite El in Hz. apply filter_In in Hz as [Hz1 Hz2]. unfold y_in in Hz2. destruct (N.le_gt_cases (y_cur y) (r_seq z)) as [Q|Q]; [exact Q|]. specialize (F3 z Hz1 ltac:(lia)). lia. }
      exists y. now split.
    + assert (Hx : In x l) by (rewrite El; apply filter_In; split; [exact F1|]; unfold y_in; lia).
      rewrite <- Er in F3. destruct (ssort_pred l p r x S1 Hr Hx ltac:(lia)) as (q & -> & Q); [intros z Hz Lz; apply F3; [rewrite El in Hz; apply filter_In in Hz; tauto|lia]|].
      exists (y_move y (r_seq x)). split; [reflexivity|]. cbn [pred]. now apply ry_move.
  - assert (p = O) as ->. { apply First. intros z Hz. rewrite El in Hz. apply filter_In in Hz as [Hz1 _]. specialize (F z Hz1). cbn beta in F. lia. } exists y. now split.
Qed.
Lemma ry_end : forall y l p, RY y l p -> exists y' q, y_to_end y = Some (y', true) /\ RY y' l q /\ S q = length l.
Proof.
  intros y l p H. destruct (ry_parts _ _ _ H) as (S0 & S1 & El & r & Hr & Er & Hn & Hi). unfold y_to_end, y_seek_sn. cbv zeta. rewrite N.ltb_irrefl. unfold y_le.
  pose proof (find_last (fun r => r_seq r <=? y_max y) (y_nodes y) S0) as F. unfold y_in in Hi. destruct (find _ (rev (y_nodes y))) as [x|]; [|specialize (F r Hn); cbn beta in F; lia].
  destruct F as (F1 & F2 & F3). pose proof (F3 r Hn ltac:(lia)) as Lx. assert (Hx : In x l) by (rewrite El; apply filter_In; split; [exact F1|]; unfold y_in; lia).
  destruct (ssort_max l x S1 Hx) as (q & Q1 & Q2); [intros z Hz; rewrite El in Hz; apply filter_In in Hz as [Hz1 Hz2]; unfold y_in in Hz2; apply F3; [exact Hz1|lia]|].
  exists (y_move y (r_seq x)), q. split; [reflexivity|]. split; [now apply ry_move|exact Q2].
Qed.
Lemma ry_greater : forall t y l p, begin_sn t -> RY y l p -> exists y' q, y_seek true t y = Some (y', true) /\ RY y' l q /\ at_greater BySeq t l (y_get y').
Proof.
  intros t y l p Ht H. destruct (ry_parts _ _ _ H) as (S0 & S1 & El & r & Hr & Er & Hn & Hi). unfold y_seek, y_seek_sn. cbv zeta. rewrite Ht. unfold y_in in Hi.
  assert (E : (if 0 <? y_min y then y_min y else 0) = y_min y) by (destruct (N.ltb_spec 0 (y_min y)); lia). rewrite E. unfold y_ge.
  pose proof (find_first (fun r => y_min y <=? r_seq r) (y_nodes y) S0) as F. destruct (find _ (y_nodes y)) as [x|]; [|specialize (F r Hn); cbn beta in F; lia]. destruct F as (F1 & F2 & F3).
  pose proof (F3 r Hn ltac:(lia)) as Lx. assert (Hx : In x l) by (rewrite El; apply filter_In; split; [exact F1|]; unfold y_in; lia).
  assert (Q : forall z, In z l -> r_seq x <= r_seq z) by (intros z Hz; rewrite El in Hz; apply filter_In in Hz as [Hz1 Hz2]; unfold y_in in Hz2; apply F3; [exact Hz1|lia]).
  pose proof (ssort_min l x S1 Hx Q) as Q0. pose proof (ry_move y l 0 x S0 El Q0) as RM. exists (y_move y (r_seq x)), O. split; [reflexivity|]. split; [exact RM|].
  destruct (ry_get _ _ _ RM) as [G _]. rewrite Q0 in G. injection G as <-. left. split; [apply le_seq; rewrite Ht; lia|]. intros z Hz _. apply le_seq. now apply Q.
Qed.
Lemma ry_smaller : forall t y l p, False -> RY y l p -> exists y' q, y_seek false t y = Some (y', true) /\ RY y' l q /\ at_smaller BySeq t l (y_get y').
Proof. intros t y l p []. Qed.

(** ** The leaves of the log *)

Definition within (min max s : N) : Prop := (valid_number min = true -> min <= s) /\ (valid_number max = true -> s <= max).
(** Every number up to the last one is used: the numbers were assigned automatically. *)
Definition consecutive (h : list rec) : Prop := forall n, 1 <= n <= lastseq h -> exists r, In r h /\ r_seq r = n.

Section Log.
Variable hash : key -> N * N.

Lemma y_leaf : forall f a b, FI hash f -> (fh f <> [] -> a <= m_max (f_mt f)) ->
  (forall n, m_min (f_mt f) <= n <= m_max (f_mt f) -> a <= n <= b -> exists r, In r (fh f) /\ r_seq r = n) ->
  (m_flushed (f_mt f) <> NIL -> m_flushed (f_mt f) <= a) ->
  match y_init (f_mt f) a b false with
  | Some y => RY y (y_list y) 0 /\ forall r, In r (y_list y) <-> In r (fh f) /\ a <= r_seq r <= b
  | None => forall r, In r (fh f) -> ~ a <= r_seq r <= b
  end.
Proof.
  intros f a b Fi Ha Hc Hfl. pose proof (fi_mw _ _ Fi) as W. unfold y_init. destruct (N.eqb_spec (m_max (f_mt f)) NIL) as [En|En]; [intros r Hr; rewrite (mw_emp _ _ _ W En) in Hr; destruct Hr|].
  assert (Hne : fh f <> []) by (intros E; destruct (fi_emp _ _ Fi E); congruence). specialize (Ha Hne). destruct (fi_min _ _ Fi Hne) as (r0 & R1 & R2). pose proof (mw_mm _ _ _ W En) as Hmm.
  pose proof (mr_bnd _ _ _ (mw_mr _ _ _ W)) as Bd. pose proof (Bd r0 R1) as [B1 B2]. cbv zeta. cbn [negb].
  replace (m_min (f_mt f) =? NIL) with false by (symmetry; apply N.eqb_neq; lia). cbn [negb andb].
  set (c0 := if a <? m_min (f_mt f) then m_min (f_mt f) else a). assert (E0 : c0 = N.max a (m_min (f_mt f))) by (unfold c0; destruct (N.ltb_spec a (m_min (f_mt f))); lia). clearbody c0.
  assert (E1 : (if negb (m_flushed (f_mt f) =? NIL) && (c0 <? m_flushed (f_mt f)) then m_flushed (f_mt f) else c0) = c0).
  { destruct (N.eqb_spec (m_flushed (f_mt f)) NIL) as [e|n]; [reflexivity|]. specialize (Hfl n). replace (c0 <? m_flushed (f_mt f)) with false by lia. now rewrite andb_false_r. }
  rewrite E1. replace (m_max (f_mt f) <? c0) with false by lia. destruct (N.ltb_spec b c0) as [Lb|Lb].
  - intros r Hr [H1 H2]. pose proof (mw_min _ _ _ W r Hr). lia.
  - destruct (Hc c0 ltac:(lia) ltac:(lia)) as (r & Hr & Er). rewrite (mw_seq _ _ _ W). pose proof (find_first (fun r => c0 <=? r_seq r) (fh f) (mw_asc _ _ _ W)) as Q.
    destruct (find _ (fh f)) as [x|]; [|specialize (Q r Hr); cbn beta in Q; lia]. destruct Q as (Q1 & Q2 & Q3). assert (r_seq x = c0) by (specialize (Q3 r Hr ltac:(lia)); lia).
    replace (b <? m_min (f_mt f)) with false by lia. set (e := if m_max (f_mt f) <? b then m_max (f_mt f) else b). assert (Ee : e = N.min b (m_max (f_mt f))) by (unfold e; destruct (N.ltb_spec (m_max (f_mt f)) b); lia). clearbody e.
    assert (L : forall z, In z (y_list (mkY (fh f) (r_seq x) c0 e)) <-> In z (fh f) /\ a <= r_seq z <= b).
    { intros z. unfold y_list. cbn [y_nodes]. rewrite filter_In. unfold y_in. cbn [y_min y_max]. split.
      - intros [Z1 Z2]. split; [exact Z1|lia].
      - intros [Z1 Z2]. split; [exact Z1|]. pose proof (Bd z Z1) as [Bz _]. pose proof (mw_min _ _ _ W z Z1). lia. }
    split; [|exact L]. split; [exact (mw_asc _ _ _ W)|]. split; [reflexivity|]. exists x. split; [|reflexivity].
    apply ssort_min; [apply sorted_seq_filter; exact (mw_asc _ _ _ W)|apply L; split; [exact Q1|lia]|]. intros z Hz. apply L in Hz as [Z1 Z2]. pose proof (mw_min _ _ _ W z Z1). lia.
Qed.

(** The numbers between the smallest and the largest of a file are in the file. *)
Lemma in_file : forall n0 pre h F g f r, GI hash n0 pre h F g -> In f (g_files g) -> fh f <> [] -> In r h -> m_min (f_mt f) <= r_seq r <= m_max (f_mt f) -> In r (fh f).
Proof.
  intros n0 pre h F g f r H Hf Hne Hr Hb. pose proof (gi_fi _ _ _ _ _ _ H f Hf) as Fi. destruct (fi_min _ _ Fi Hne) as (r0 & R1 & R2). pose proof (fi_max _ _ Fi Hne) as Em.
  apply in_split in Hf as (u & v & E). pose proof (gi_asc _ _ _ _ _ _ H) as Hs. rewrite (gi_hist _ _ _ _ _ _ H) in Hr, Hs. rewrite E in Hr, Hs. unfold all_h in Hr, Hs. rewrite flat_map_app in Hr, Hs. cbn [flat_map] in Hr, Hs.
  unfold sorted_seq in Hs. rewrite !map_app in Hs. apply in_app_iff in Hr as [Hr|Hr].
  - exfalso. apply SS_app_inv in Hs as (_ & _ & Hs). specialize (Hs (r_seq r) (r_seq r0) (in_map r_seq _ _ Hr) ltac:(apply in_or_app; right; apply in_or_app; left; now apply in_map)). lia.
  - apply in_app_iff in Hr as [Hr|Hr].
    + exfalso. apply SS_app_inv in Hs as (_ & Hs & _). apply SS_app_inv in Hs as (_ & _ & Hs). specialize (Hs (r_seq r) (r_seq r0) (in_map r_seq _ _ Hr) ltac:(apply in_or_app; left; now apply in_map)). lia.
    + apply in_app_iff in Hr as [Hr|Hr]; [exact Hr|]. exfalso. apply SS_app_inv in Hs as (_ & Hs & _). apply SS_app_inv in Hs as (_ & Hs & _). apply SS_app_inv in Hs as (S1 & _ & Hs).
      destruct (exists_last Hne) as (w & z & Ez). assert (Hz : In z (fh f)) by (rewrite Ez; apply in_or_app; right; now left). rewrite Ez, lastseq_snoc in Em.
      specialize (Hs (r_seq z) (r_seq r) (in_map r_seq _ _ Hz) (in_map r_seq _ _ Hr)). lia.
Qed.

Lemma log_leaves_sn_spec : forall n0 pre h part F g min max, GI hash n0 pre (h ++ part) F g -> lastseq (h ++ part) + 1 < NIL -> F <= lastseq h ->
  (part = [] /\ g_bar g = 0) \/ (h <> [] /\ g_bar g = lastseq h) -> consecutive h -> max <> 0 ->
  exists ls, log_leaves_sn min max g = Some ls /\
    (forall y, In y ls -> RY y (y_list y) 0) /\
    (forall y r, In y ls -> In r (y_list y) -> In r h /\ F < r_seq r /\ within min max (r_seq r)) /\
    (forall r, In r h -> F < r_seq r -> within min max (r_seq r) -> exists y, In y ls /\ In r (y_list y)).
Proof.
  intros n0 pre h part F g min max H Hl HF HB HC Hmax. unfold log_leaves_sn, itr_range. rewrite (avail_spec _ _ _ _ _ _ H Hl). cbv zeta.
  set (a0 := if F =? 0 then 0 else F + 1). set (a := if valid_number min && (a0 <? min) then min else a0).
  pose proof (gi_F_le _ _ _ _ _ _ H) as FNil.
  assert (Va : valid_number a = true).
  { unfold a. destruct (valid_number min) eqn:Vm; cbn [andb]; [destruct (a0 <? min); [exact Vm|]|]; unfold a0, valid_number; destruct (F =? 0); try reflexivity; apply negb_true_iff; lia. }
  assert (Ha : forall r, In r (h ++ part) -> (a <= r_seq r <-> F < r_seq r /\ (valid_number min = true -> min <= r_seq r))).
  { intros r Hr. pose proof (gi_pos _ _ _ _ _ _ H r Hr). unfold a, a0. destruct (valid_number min); cbn [andb]; destruct (N.eqb_spec F 0); try (destruct (N.ltb_spec 0 min)); try (destruct (N.ltb_spec (F + 1) min)); split; try (intros; split; [|intros]); try lia; intros [? Q]; try specialize (Q eq_refl); lia. }
  assert (Hall : forall f r, In f (g_files g) -> In r (fh f) -> In r (h ++ part)).
  { intros f r Hf Hr. rewrite (gi_hist _ _ _ _ _ _ H). apply in_or_app. right. apply in_flat_map. now exists f. }
  assert (Hfile : forall r, In r (h ++ part) -> F < r_seq r -> exists f, In f (g_files g) /\ In r (fh f)).
  { intros r Hr L. rewrite (gi_hist _ _ _ _ _ _ H) in Hr. apply in_app_iff in Hr as [Hr|Hr]; [pose proof (gi_pre _ _ _ _ _ _ H r Hr); lia|]. apply in_flat_map in Hr as (f & Hf & Hr). now exists f. }
  pose proof (gi_asc _ _ _ _ _ _ H) as Hsort.
  destruct h as [|h0 ht] eqn:Eh.
  - assert (part = [] /\ g_bar g = 0) as [-> Eb] by (destruct HB as [HB|[HB _]]; [exact HB|congruence]). cbn [app] in *. rewrite Eb. change (negb (0 =? 0)) with false. cbn [andb].
    set (b0 := if valid_number max && (max <? NIL) then max else NIL). clearbody b0.
    assert (Emp : forall f, In f (g_files g) -> y_init (f_mt f) a b0 false = None).
    { intros f Hf. unfold y_init. destruct (fi_emp _ _ (gi_fi _ _ _ _ _ _ H f Hf) (gi_empty_h _ _ _ _ _ H f Hf)) as [-> _]. now rewrite N.eqb_refl. }
    destruct (b0 <? a); [exists []; split; [reflexivity|]; split; [intros y []|]; split; [intros y r []|intros r []]|].
    assert (F0 : F = 0) by (cbn in HF; lia).
    assert (Fs : exists lo hi fs, itr_files a b0 g = Some (lo, hi) /\ files_between (N.to_nat (hi + 1 - lo)) lo (g_files g) = Some fs /\ incl fs (g_files g)).
    { pose proof (gi_few _ _ _ _ _ _ H) as Few. change (lastseq []) with 0 in Few. unfold itr_files. rewrite (gi_last_flushed _ _ _ _ _ _ H), (gi_max_num _ _ _ _ _ _ H Hl). pose proof (gi_nums _ _ _ _ _ _ H) as Hn. pose proof (gi_gmax _ _ _ _ _ _ H) as Hg.
      assert (NN : forall s x, file_by_seq s false (g_files g) = Some x -> n0 <= f_num x <= g_max g).
      { intros s x E. unfold file_by_seq in E. destruct (by_start s (g_files g)) as [y|] eqn:E2; [|discriminate]. assert (x = y) as ->.
        { destruct (valid_number (m_min (f_mt y)) && (s <? m_min (f_mt y))); [discriminate|]. destruct ((m_max (f_mt y) <? s) && (negb (has_next y (g_files g)) || negb false)); [discriminate|]. congruence. }
        destruct (by_start_spec _ _ _ E2) as (B1 & _). pose proof (nums_in _ _ _ Hn B1). lia. }
      assert (N0 : n0 <= n0 <= g_max g) by (unfold len in *; pose proof (gi_ne _ _ _ _ _ _ H); destruct (g_files g); [congruence|cbn [length] in Hg; lia]).
      rewrite Va; set (lo := match file_by_seq a false (g_files g) with Some f => f_num f | None => n0 end). assert (Hlo : n0 <= lo <= g_max g) by (unfold lo; destruct (file_by_seq a false (g_files g)) eqn:E; [exact (NN _ _ E)|exact N0]).
      set (hi := if valid_number b0 then match file_by_seq b0 false (g_files g) with Some f => N.max lo (f_num f) | None => g_max g end else g_max g).
      assert (Hhi : lo <= hi <= g_max g). { unfold hi. clearbody lo. destruct (valid_number b0); [|lia]. destruct (file_by_seq b0 false (g_files g)) eqn:E; [pose proof (NN _ _ E); lia|lia]. }
      destruct (files_between_spec (N.to_nat (hi + 1 - lo)) lo n0 (g_files g) Hn ltac:(lia) ltac:(lia)) as (fs & E & Hfs). exists lo, hi, fs. split; [reflexivity|]. split; [exact E|]. intros f Hf. now apply Hfs. }
    destruct Fs as (lo & hi & fs & -> & -> & Hi). exists []. split; [|split; [intros y []|]; split; [intros y r []|intros r []]]. f_equal.
    assert (Z : forall l, incl l (g_files g) -> some_of (map (fun f => y_init (f_mt f) a b0 false) l) = []).
    { intros l. induction l as [|f l IH]; intros Hli; [reflexivity|]. unfold some_of in *. cbn [map flat_map]. rewrite (Emp f (Hli f (or_introl eq_refl))). cbn [app]. apply IH. intros x Hx. apply Hli. now right. }
    now apply Z.
  - rewrite <- Eh in *. assert (Hne : h <> []) by (rewrite Eh; discriminate). clear Eh h0 ht.
    assert (Em : match h ++ part with [] => NIL | _ => lastseq (h ++ part) end = lastseq (h ++ part)) by (destruct h; [congruence|reflexivity]). rewrite Em.
    assert (Hlast : exists z, In z h /\ r_seq z = lastseq h).
    { destruct (exists_last Hne) as (u & z & ->). exists z. rewrite lastseq_snoc. split; [apply in_or_app; right; now left|reflexivity]. }
    destruct Hlast as (z & Hz & Ez). assert (Hzp : In z (h ++ part)) by (apply in_or_app; now left). pose proof (gi_pos _ _ _ _ _ _ H z Hzp) as Zp. pose proof (lastseq_ge _ z Hsort Hzp) as Zl.
    assert (Hvis : forall r, In r (h ++ part) -> (r_seq r <= lastseq h <-> In r h)).
    { intros r Hr. pose proof Hsort as Hs. unfold sorted_seq in Hs. rewrite map_app in Hs. apply SS_app_inv in Hs as (S1 & S2 & S3). split.
      - intros Hle. apply in_app_iff in Hr as [Hr|Hr]; [exact Hr|]. specialize (S3 _ _ (in_map r_seq _ _ Hz) (in_map r_seq _ _ Hr)). lia.
      - intros Hh. now apply lastseq_ge. }
    set (b1 := if valid_number max && (max <? lastseq (h ++ part)) then max else lastseq (h ++ part)).
    set (b := if negb (g_bar g =? 0) && (g_bar g <? b1) then g_bar g else b1).
    assert (Eb : b = if valid_number max && (max <? lastseq h) then max else lastseq h).
    { unfold b, b1. rewrite Ez in Zl. destruct HB as [[Ep Eb]|[_ Eb]].
      - rewrite Eb, Ep, app_nil_r. change (negb (0 =? 0)) with false. reflexivity.
      - rewrite Eb. replace (lastseq h =? 0) with false by (symmetry; apply N.eqb_neq; lia). cbn [negb andb]. destruct (valid_number max); cbn [andb].
        + destruct (N.ltb_spec max (lastseq (h ++ part))); destruct (N.ltb_spec max (lastseq h)); try (replace (lastseq h <? max) with false by lia); try (destruct (N.ltb_spec (lastseq h) max)); try (destruct (N.ltb_spec (lastseq h) (lastseq (h ++ part)))); lia.
        + destruct (N.ltb_spec (lastseq h) (lastseq (h ++ part))); lia. }
    assert (Hb : forall r, In r (h ++ part) -> (r_seq r <= b <-> In r h /\ (valid_number max = true -> r_seq r <= max))).
    { intros r Hr. rewrite <- (Hvis r Hr), Eb. destruct (valid_number max); cbn [andb]; [destruct (N.ltb_spec max (lastseq h))|]; split; try (intros; split; [|intros]); try lia; intros [? Q]; try specialize (Q eq_refl); lia. }
    assert (Bl : b <= lastseq h) by (rewrite Eb; destruct (valid_number max); cbn [andb]; [destruct (N.ltb_spec max (lastseq h))|]; lia).
    assert (B1 : 1 <= b) by (rewrite Eb; destruct (valid_number max); cbn [andb]; [destruct (N.ltb_spec max (lastseq h))|]; lia).
    clearbody b b1. destruct (N.ltb_spec b a) as [Lab|Lab].
    + exists []. split; [reflexivity|]. split; [intros y []|]. split; [intros y r []|]. intros r Hr HFr [W1 W2]. exfalso. assert (Hp : In r (h ++ part)) by (apply in_or_app; now left).
      pose proof (proj2 (Ha r Hp) (conj HFr W1)). pose proof (proj2 (Hb r Hp) (conj Hr W2)). lia.
    + destruct (HC b ltac:(lia)) as (rb & Rb1 & Rb2). assert (Rbp : In rb (h ++ part)) by (apply in_or_app; now left).
      assert (Fb : F < r_seq rb) by (apply (Ha rb Rbp); lia). destruct (Hfile rb Rbp Fb) as (fb & Fb1 & Fb2).
      destruct (files_cover hash n0 pre (h ++ part) F g a b H Hl Va) as (lo & hi & fs & Ei & Ebt & Hi & Hc); [intros _; now exists fb, rb|]. rewrite Ei, Ebt.
      (* the files start with the one that has [a] *)
      assert (Low : forall f, In f fs -> fh f <> [] -> a <= m_max (f_mt f)).
      { intros f Hf Hfn. pose proof (Hi f Hf) as Hfg. destruct (N.eq_dec a 0) as [->|A0]; [lia|]. destruct (HC a ltac:(lia)) as (ra & Ra1 & Ra2). assert (Rap : In ra (h ++ part)) by (apply in_or_app; now left).
        assert (Fa : F < r_seq ra) by (apply (Ha ra Rap); lia). destruct (Hfile ra Rap Fa) as (fa & Fa1 & Fa2).
        unfold itr_files in Ei. rewrite (gi_last_flushed _ _ _ _ _ _ H), (gi_max_num _ _ _ _ _ _ H Hl), Va in Ei. rewrite <- Ra2, (file_by_seq_hit _ _ _ _ _ _ false fa ra H Fa1 Fa2) in Ei.
        injection Ei as Elo Ehi. pose proof (gi_nums _ _ _ _ _ _ H) as Hn. pose proof (gi_gmax _ _ _ _ _ _ H) as Hg.
        assert (Hh2 : hi <= g_max g). { rewrite <- Ehi. pose proof (nums_in _ _ _ Hn Fa1). destruct (valid_number b); [|lia]. rewrite <- Rb2, (file_by_seq_hit _ _ _ _ _ _ false fb rb H Fb1 Fb2). pose proof (nums_in _ _ _ Hn Fb1). lia. }
        pose proof (nums_in _ _ _ Hn Fa1) as Nfa. destruct (files_between_spec (N.to_nat (hi + 1 - lo)) lo n0 (g_files g) Hn ltac:(lia)) as (fs' & E' & Hfs').
        { destruct (N.le_gt_cases lo hi); [lia|]. rewrite <- Ehi in *. destruct (valid_number b); [|lia]. rewrite <- Rb2, (file_by_seq_hit _ _ _ _ _ _ false fb rb H Fb1 Fb2) in *. lia. }
        rewrite Ebt in E'. injection E' as <-. apply Hfs' in Hf as [_ Hf]. pose proof (gi_fi _ _ _ _ _ _ H f Hfg) as Fi. rewrite <- Ra2.
        destruct (N.eq_dec (f_num f) (f_num fa)) as [e|ne].
        - assert (f = fa) as -> by (exact (num_same _ _ _ _ Hn Hfg Fa1 e)). apply (mr_bnd _ _ _ (mw_mr _ _ _ (fi_mw _ _ Fi)) ra Fa2).
        - pose proof Fa1 as X1. apply in_split in X1 as (u & v & Ex). pose proof Hfg as X2. apply in_split in X2 as (u' & v' & Ef). assert (Hpne : h ++ part <> []) by (destruct h; [congruence|discriminate]).
          destruct (two_split _ _ _ _ _ _ _ Ex Ef) as [(c & d & Eq)|[(c & d & Eq)|(_ & Eq & _)]]; [| |subst; lia].
          + destruct (starts_order _ _ _ _ _ _ H Hpne _ _ _ _ _ Eq) as [_ Q]. specialize (Q ra Fa2). destruct (fi_min _ _ Fi Hfn) as (r0 & R1 & R2). pose proof (fi_low _ _ Fi r0 R1). pose proof (mr_bnd _ _ _ (mw_mr _ _ _ (fi_mw _ _ Fi)) r0 R1). lia.
          + rewrite Eq in Hn. apply nums_app in Hn as [_ [Hn1 Hn2]]. apply nums_app in Hn2 as [_ [Hn2 _]]. lia. }
      assert (Lf : forall f, In f fs -> match y_init (f_mt f) a b false with
        | Some y => RY y (y_list y) 0 /\ forall r, In r (y_list y) <-> In r (fh f) /\ a <= r_seq r <= b
        | None => forall r, In r (fh f) -> ~ a <= r_seq r <= b end).
      { intros f Hf. pose proof (Hi f Hf) as Hfg. pose proof (gi_fi _ _ _ _ _ _ H f Hfg) as Fi. destruct (m_seq (f_mt f)) as [|q0 qs] eqn:Efh.
        - (* an empty file *)
          assert (Ef0 : fh f = []) by (rewrite <- (mw_seq _ _ _ (fi_mw _ _ Fi)); exact Efh). unfold y_init. destruct (fi_emp _ _ Fi Ef0) as [-> _]. rewrite N.eqb_refl. intros r Hr. rewrite Ef0 in Hr. destruct Hr.
        - assert (Hfn : fh f <> []) by (rewrite <- (mw_seq _ _ _ (fi_mw _ _ Fi)), Efh; discriminate). apply (y_leaf f a b Fi); [intros _; exact (Low f Hf Hfn)| |].
          + intros n Hn1 Hn2. destruct (fi_min _ _ Fi Hfn) as (r0 & R1 & R2). pose proof (gi_pos _ _ _ _ _ _ H r0 (Hall f r0 Hfg R1)). destruct (HC n ltac:(lia)) as (r & Hr1 & Hr2). exists r. split; [|exact Hr2].
            apply (in_file n0 pre (h ++ part) F g f r H Hfg Hfn); [apply in_or_app; now left|lia].
          + intros Hfl. destruct (fi_flu _ _ Fi Hfl) as (r & Hr & Er). pose proof (gi_flu _ _ _ _ _ _ H f r Hfg Hr) as Q. unfold unflushed in Q. rewrite Er in Q. unfold valid_number in Q.
            replace (m_flushed (f_mt f) =? NIL) with false in Q by (symmetry; now apply N.eqb_neq). cbn [negb orb] in Q. rewrite N.ltb_irrefl in Q. pose proof (gi_pos _ _ _ _ _ _ H r (Hall f r Hfg Hr)).
            assert (F + 1 <= a). { unfold a, a0. replace (F =? 0) with false by (symmetry; apply N.eqb_neq; lia). destruct (valid_number min); cbn [andb]; [destruct (N.ltb_spec (F + 1) min)|]; lia. } lia. }
      eexists. split; [reflexivity|]. split; [|split].
      * intros y Hy. apply some_of_in, in_map_iff in Hy as (f & E & Hf). specialize (Lf f Hf). rewrite E in Lf. apply Lf.
      * intros y r Hy Hr. apply some_of_in, in_map_iff in Hy as (f & E & Hf). specialize (Lf f Hf). rewrite E in Lf. apply Lf in Hr as [R1 R2]. pose proof (Hall f r (Hi f Hf) R1) as Rp.
        destruct (proj1 (Ha r Rp) ltac:(lia)) as [A1 A2]. destruct (proj1 (Hb r Rp) ltac:(lia)) as [A3 A4]. split; [exact A3|]. split; [exact A1|]. now split.
      * intros r Hr HFr [W1 W2]. assert (Rp : In r (h ++ part)) by (apply in_or_app; now left). pose proof (proj2 (Ha r Rp) (conj HFr W1)) as Ar. pose proof (proj2 (Hb r Rp) (conj Hr W2)) as Br.
        destruct (Hfile r Rp HFr) as (f & F1 & F2). pose proof (Hc f r F1 F2 Ar (fun _ => Br)) as Hf. specialize (Lf f Hf). destruct (y_init (f_mt f) a b false) as [y|] eqn:E.
        -- exists y. split; [apply some_of_in, in_map_iff; now exists f|]. apply Lf. split; [exact F2|lia].
        -- exfalso. apply (Lf r F2). lia.
Qed.
End Log.

(** ** The leaves of the tables *)

Lemma by_number_in : forall r l x, In x (by_number r l) <-> x = r \/ In x l.
Proof. intros r l x. induction l as [|y l IH]; cbn [by_number]; [cbn; intuition|]. destruct (r_seq r <=? r_seq y); cbn [In]; [intuition|]. rewrite IH. intuition. Qed.
Lemma sort_numbers_in : forall l x, In x (sort_numbers l) <-> In x l.
Proof. intros l x. induction l as [|y l IH]; [reflexivity|]. unfold sort_numbers in *. cbn [fold_right]. rewrite by_number_in, IH. cbn. intuition. Qed.
Lemma by_number_sorted : forall r l, sorted_seq l -> (forall x, In x l -> r_seq x <> r_seq r) -> sorted_seq (by_number r l).
Proof.
  intros r l. induction l as [|y l IH]; intros H Hd; cbn [by_number]; [constructor; constructor|]. pose proof H as H0. unfold sorted_seq in H. cbn [map] in H. apply StronglySorted_inv in H as [H1 H2]. rewrite Forall_forall in H2.
  pose proof (Hd y (or_introl eq_refl)) as Dy. destruct (N.leb_spec (r_seq r) (r_seq y)) as [L|L].
  - unfold sorted_seq. cbn [map]. constructor; [exact H0|]. rewrite Forall_forall. intros n [<-|Hn]; [lia|]. specialize (H2 n Hn). lia.
  - unfold sorted_seq. cbn [map]. constructor; [apply IH; [exact H1|intros x Hx; apply Hd; now right]|]. rewrite Forall_forall. intros n Hn. apply in_map_iff in Hn as (x & <- & Hx). apply by_number_in in Hx as [->|Hx]; [exact L|]. apply H2. now apply in_map.
Qed.
Lemma sort_numbers_sorted : forall l, NoDup (map r_seq l) -> sorted_seq (sort_numbers l).
Proof.
  intros l. induction l as [|y l IH]; intros H; [constructor|]. cbn [map] in H. apply NoDup_cons_iff in H as [H1 H2]. unfold sort_numbers. cbn [fold_right]. apply by_number_sorted; [now apply IH|].
  intros x Hx E. apply (sort_numbers_in l) in Hx. apply H1. rewrite <- E. now apply in_map.
Qed.

Section Tab.
Variable hash : key -> N * N.
Variable part : key -> N.

Lemma in_seqs_within : forall min max s, max <> 0 -> in_seqs min max s = true <-> within min max s.
Proof.
  intros min max s H. unfold in_seqs, within. cbv zeta. replace (0 =? 0) with true by reflexivity. destruct (valid_number min), (valid_number max); rewrite andb_true_iff, orb_true_iff; split; intros [A B]; split; try (intros; lia); try lia.
Qed.
Lemma docs_seqs : forall h l, sorted_seq h -> docs_ok l -> incl l h -> NoDup (map r_seq l).
Proof.
  intros h l Hs. induction l as [|x l IH]; intros Hd Hi; [constructor|]. cbn [map]. unfold docs_ok in Hd. apply StronglySorted_inv in Hd as [Hd Hf]. rewrite Forall_forall in Hf. constructor; [|apply IH; [exact Hd|intros y Hy; apply Hi; now right]].
  intros Hx. apply in_map_iff in Hx as (y & E & Hy). assert (y = x) as -> by (apply (sorted_seq_inj h); [exact Hs|apply Hi; now right|apply Hi; now left|exact E]). specialize (Hf x Hy). exact (klt_irrefl _ Hf).
Qed.

Lemma tab_leaves_sn_spec : forall c h R s min max, LI hash part c R s -> (forall k, vle (view part s k) (newest_write R k)) -> sorted_seq h -> incl R h -> max <> 0 ->
  (forall t, In t (tab_leaves_sn min max s) -> t_pos t = O /\ t_docs t <> [] /\ csorted BySeq (t_docs t)) /\
  (forall t r, In t (tab_leaves_sn min max s) -> In r (t_docs t) -> In r R /\ within min max (r_seq r)) /\
  (forall r, newest_write R (r_key r) = Some r -> is_del r = false -> within min max (r_seq r) -> exists t, In t (tab_leaves_sn min max s) /\ In r (t_docs t)).
Proof.
  intros c h R s min max HI HV Hs Hi Hmax.
  assert (Tb : forall u, In u (tab_tables [] [] s) -> good hash c R u /\ docs_ok (b_docs u)).
  { intros u Hu. unfold tab_tables in Hu. apply in_app_iff in Hu as [Hu|Hu].
    - split; [exact (li_good0 _ _ _ _ _ HI u Hu)|apply (z_mem _ _ _ (li_zero _ _ _ _ _ HI) u Hu)].
    - apply in_flat_map in Hu as (ts & Hts & Hu). unfold tables_range in Hu. apply filter_In in Hu as [Hu _]. destruct (from_floor_spec [] ts) as (pre & E & _).
      assert (Hu' : In u ts) by (rewrite E; apply in_or_app; now right). split; [exact (li_good _ _ _ _ _ HI ts u Hts Hu')|apply (proj2 (li_up _ _ _ _ _ HI ts Hts) u Hu')]. }
  assert (Lv : forall t, In t (tab_leaves_sn min max s) <-> exists u, In u (tab_tables [] [] s) /\ t = LeafIterModel.mkT (sort_numbers (filter (fun r => in_seqs min max (r_seq r)) (b_docs u))) 0 /\ t_docs t <> []).
  { intros t. unfold tab_leaves_sn. rewrite some_of_in, in_map_iff. split.
    - intros (u & E & Hu). exists u. split; [exact Hu|]. unfold t_init in E. destruct (sort_numbers _); [discriminate|]. injection E as <-. split; [reflexivity|]. cbn. discriminate.
    - intros (u & Hu & -> & Hn). exists u. split; [|exact Hu]. cbn [t_docs] in Hn. unfold t_init. destruct (sort_numbers _); [congruence|reflexivity]. }
  split; [|split].
  - intros t Ht. apply Lv in Ht as (u & Hu & -> & Hne). split; [reflexivity|]. split; [exact Hne|]. cbn [t_docs]. destruct (Tb u Hu) as [G D]. apply ssort_csorted, sort_numbers_sorted.
    apply (docs_seqs h); [exact Hs|now apply docs_filter|]. intros r Hr. apply filter_In in Hr as [Hr _]. apply Hi, (gd_docs _ _ _ _ G r Hr).
  - intros t r Ht Hr. apply Lv in Ht as (u & Hu & -> & _). cbn [t_docs] in Hr. apply sort_numbers_in, filter_In in Hr as [Hr Hin]. destruct (Tb u Hu) as [G _]. split; [apply (gd_docs _ _ _ _ G r Hr)|]. now apply in_seqs_within.
  - intros r Hr Hd Hw. specialize (HV (r_key r)). rewrite Hr in HV. destruct HV as [HV|(HV & y & Ey & D)]; [|injection Ey as <-; congruence].
    assert (exists u, In u (tab_tables [] [] s) /\ In r (b_docs u)) as (u & Hu & Hru).
    { destruct (view_some _ _ _ _ _ _ _ HI HV) as [_ [(t & Ht & Hdd)|(ts & Hts & t & Ht & Hdd)]].
      - exists t. split; [apply in_or_app; now left|exact Hdd].
      - exists t. split; [|exact Hdd]. apply in_or_app; right; apply in_flat_map; exists ts; split; [exact Hts|]. apply (range_hit [] [] ts t r (li_up _ _ _ _ _ HI ts Hts) Ht Hdd). apply in_range_spec. split; [apply kle_nil|now left]. }
    exists (LeafIterModel.mkT (sort_numbers (filter (fun r => in_seqs min max (r_seq r)) (b_docs u))) 0).
    assert (Q : In r (sort_numbers (filter (fun r => in_seqs min max (r_seq r)) (b_docs u)))) by (apply sort_numbers_in, filter_In; split; [exact Hru|now apply in_seqs_within]).
    split; [|exact Q]. apply Lv. exists u. split; [exact Hu|]. split; [reflexivity|]. cbn [t_docs]. intros E. rewrite E in Q. destruct Q.
Qed.
End Tab.

(** ** The iterator *)

(** The records an iterator by number may and must show: sorted by number, written by the user, in
    the range; among them every one that is still in the log section and every one that is the
    current value of its key. *)
Definition numbered (h flushed : list rec) (min max : N) (l : list rec) : Prop :=
  StronglySorted (fun a b => r_seq a < r_seq b) l /\
  (forall r, In r l -> In r h /\ within min max (r_seq r)) /\
  (forall r, In r h -> within min max (r_seq r) -> (~ In r flushed \/ spec_get h (r_key r) = Ok r) -> In r l).

Definition each_leaf_sn (P : list rec -> Prop) (min max : N) (f : fdb) : Prop :=
  (forall ls y, log_leaves_sn min max (d_log (fd_db f)) = Some ls -> In y ls -> P (y_list y)) /\
  (forall t, In t (tab_leaves_sn min max (fd_lsm f)) -> P (t_docs t)).
Definition two_numbers (l : list rec) : Prop := exists x y, In x l /\ In y l /\ r_seq x < r_seq y.

Theorem iter_sn_spec : forall hash part c tc h f min max both, cfg_ok c -> tcfg_ok part tc -> freach hash part c tc h f -> consecutive h -> max <> 0 ->
  (both = true -> each_leaf_sn two_numbers min max f) ->
  exists l n, numbered h (d_tab (fd_db f)) min max l /\ forall fuel, (n <= fuel)%nat -> exists it, db_itr_sn fuel min max (d_log (fd_db f)) (fd_lsm f) = Some it /\
    match it with
    | None => l = []
    | Some d => d_get msi y_get BySeq d = at_pos l (opened l) /\
        forall ms, (forall t, In (SeekG t) ms -> r_seq t = 0) -> (forall t, ~ In (SeekS t) ms) -> (both = false -> one_direction true ms = true) ->
          exists out, d_moves msi y_get y_next y_prev y_seek y_to_end BySeq fuel ms d = Some out /\ ctrace BySeq l (opened l) ms out
    end.
Proof.
  intros hash part c tc h f min max both Cok Tok H HC Hmax Htwo.
  destruct (freach_both _ _ _ _ _ _ H) as [H1 H2]. destruct (reach_inv hash c h (fd_db f) Cok H1) as [(n0 & pre & F & pt & GI0 & Et & Hl & HFn & HF & _ & HB)].
  destruct (lreach_inv hash part tc _ _ Tok H2) as [LI0 LV].
  assert (HB' : (pt = [] /\ g_bar (d_log (fd_db f)) = 0) \/ (h <> [] /\ g_bar (d_log (fd_db f)) = lastseq h)).
  { destruct (d_bat (fd_db f)) as [[todo done]|]; [right; destruct HB as [_ HB]; split; apply HB|left; exact HB]. }
  assert (Hs : sorted_seq h). { pose proof (gi_asc _ _ _ _ _ _ GI0) as S0. unfold sorted_seq in *. rewrite map_app in S0. apply SS_app_inv in S0. tauto. }
  destruct (log_leaves_sn_spec hash n0 pre h pt F (d_log (fd_db f)) min max GI0 Hl HF HB' HC Hmax) as (ls & El & Q1 & Q2 & Q3).
  assert (Hinc : incl (d_tab (fd_db f)) h) by (rewrite Et; intros r Hr; apply filter_In in Hr; tauto).
  destruct (tab_leaves_sn_spec hash part tc h _ (fd_lsm f) min max LI0 LV Hs Hinc Hmax) as (P1 & P2 & P3).
  set (lt := tab_leaves_sn min max (fd_lsm f)) in *. set (a := flat_map y_list ls). set (b := flat_map t_docs lt).
  assert (Hab : forall r, In r (a ++ b) -> In r h /\ within min max (r_seq r)).
  { intros r Hr. apply in_app_iff in Hr as [Hr|Hr]; apply in_flat_map in Hr as (x & Hx & Hr); [destruct (Q2 x r Hx Hr) as (A1 & _ & A2); now split|destruct (P2 x r Hx Hr) as [A1 A2]; split; [now apply Hinc|exact A2]]. }
  assert (U : uniq BySeq (a ++ b)) by (intros x y Hx Hy _ _ E; apply (sorted_seq_inj h); [exact Hs|apply (Hab x Hx)|apply (Hab y Hy)|exact E]).
  assert (Num : forall M, merged BySeq (a ++ b) M -> numbered h (d_tab (fd_db f)) min max M).
  { intros M [Mc Mm]. assert (Mi : forall r, In r M <-> In r (a ++ b)) by (intros r; rewrite Mm; split; [tauto|intros Q; split; [exact Q|intros; discriminate]]). split; [|split].
    - apply csorted_ssort in Mc. clear -Mc. unfold sorted_seq in Mc. induction M as [|x M IH]; [constructor|]. cbn [map] in Mc. apply StronglySorted_inv in Mc as [M1 M2]. constructor; [now apply IH|]. rewrite Forall_forall in *. intros y Hy. apply M2. now apply in_map.
    - intros r Hr. apply Hab. now apply Mi.
    - intros r Hr Hw Hx. apply Mi, in_or_app. destruct (N.lt_ge_cases F (r_seq r)) as [L|L]; [left; apply in_flat_map; exact (Q3 r Hr L Hw)|right]. apply in_flat_map.
      assert (HT : In r (d_tab (fd_db f))) by (rewrite Et; apply filter_In; split; [exact Hr|lia]). destruct Hx as [Hx|Hx]; [destruct (Hx HT)|]. apply spec_get_ok in Hx as [X1 X2]. apply P3; [| |exact Hw].
      + rewrite Et. unfold newest_write. unfold last_write in X1. rewrite <- filter_rev. revert X1. generalize (r_key r) as k. induction (rev h) as [|z t IH]; intros k X1; [discriminate|]. cbn [find filter] in *.
        destruct (keqb (r_key z) k && negb (is_cmd z)) eqn:E3; [injection X1 as ->; replace (r_seq r <=? F) with true by lia; cbn [find]; now rewrite E3|]. destruct (r_seq z <=? F); cbn [find]; rewrite ?E3; apply IH; exact X1.
      + unfold is_ins, is_del in *. apply N.eqb_eq in X2. rewrite X2. reflexivity. }
  assert (Two : forall l0, (both = true -> two_numbers l0) -> two BySeq true both l0).
  { intros l0 Hk _ Hb. destruct (Hk Hb) as (x & y & X1 & X2 & X3). exists x, y. split; [exact X1|]. split; [exact X2|]. now apply lt_seq. }
  assert (L0 : forall y, In y ls -> RY y (y_list y) 0 /\ two BySeq true both (y_list y)).
  { intros y Hy. split; [exact (Q1 y Hy)|]. apply Two. intros Hb. exact (proj1 (Htwo Hb) ls y El Hy). }
  assert (T0 : forall t, In t lt -> RT BySeq (fun _ => False) t (t_docs t) 0 /\ two BySeq true both (t_docs t)).
  { intros t Ht. destruct (P1 t Ht) as (E0 & Ne & Cs). split; [|apply Two; intros Hb; exact (proj2 (Htwo Hb) t Ht)]. split; [|intros q []].
    split; [reflexivity|]. split; [exact E0|]. split; [destruct (t_docs t); [congruence|cbn; lia]|exact Cs]. }
  assert (Rch : forall t l0, begin_sn t -> l0 <> [] -> reaches BySeq t (newest_of BySeq l0)).
  { intros t l0 Ht Hne. destruct l0 as [|r l0]; [congruence|]. destruct (newest_of_cover BySeq (r :: l0) r (or_introl eq_refl)) as (z & Z1 & _). exists z. split; [exact Z1|]. apply le_seq. unfold begin_sn in Ht. rewrite Ht. lia. }
  assert (Emp : forall (l0 : list rec) Ls, (l0 = [] -> forall n, Ls n = []) -> tops BySeq begin_sn Ls (newest_of BySeq l0)).
  { intros l0 Ls HL t Ht. destruct l0 as [|r l0]; [right|left; apply Rch; [exact Ht|discriminate]]. intros n n' x y Hx. rewrite (HL eq_refl n) in Hx. destruct Hx. }
  assert (FN : forall A (lf : A -> list rec) (l0 : list A), flat_map lf l0 = [] -> forall n, nth_list lf l0 n = []).
  { intros A lf l0 E n. unfold nth_list. destruct (nth_error l0 n) as [x|] eqn:En; [|reflexivity]. apply nth_error_In in En. destruct (lf x) as [|r t] eqn:Ex; [reflexivity|].
    assert (In r (flat_map lf l0)) as Q by (apply in_flat_map; exists x; split; [exact En|rewrite Ex; now left]). rewrite E in Q. destruct Q. }
  assert (T1 : tops BySeq begin_sn (nth_list y_list ls) (newest_of BySeq a)) by (apply Emp, FN).
  assert (T2 : tops BySeq begin_sn (nth_list t_docs lt) (newest_of BySeq b)) by (apply Emp, FN).
  assert (T3 : tops BySeq begin_sn (two_lists BySeq a b) (newest_of BySeq (newest_of BySeq a ++ newest_of BySeq b))).
  { apply Emp. intros E n. apply app_eq_nil in E as [E1 E2]. unfold two_lists. destruct n; assumption. }
  pose proof (newest_merged BySeq (a ++ b) U) as M0.
  assert (Same : forall M, merged BySeq (a ++ b) M -> M = newest_of BySeq (a ++ b)).
  { intros M HM. apply (sorted_same rec (fun x y => r_seq x < r_seq y)); [intros x; lia|intros x y; lia|apply (Num M HM)|apply (Num _ M0)|]. destruct HM as [_ HM]. destruct M0 as [_ M0]. intros x. rewrite HM, M0. reflexivity. }
  exists (newest_of BySeq (a ++ b)), (length (a ++ b)). split; [exact (Num _ M0)|]. intros fuel Hf. set (l := newest_of BySeq (a ++ b)) in *.
  pose proof (d_open msi y_get y_next y_prev y_seek y_to_end BySeq begin_sn (fun _ => False) RY ry_get ry_next ry_prev ry_end both fuel y_list ls lt L0 T0 U T1 T2 T3 Hf) as O.
  unfold db_itr_sn. rewrite El. fold lt.
  assert (Sh : forall M : list rec, filter (shown BySeq) M = M) by (intros M; induction M as [|x M IH]; [reflexivity|]; cbn [filter shown]; now rewrite IH).
  assert (Fin : forall d M i, merged BySeq (a ++ b) M -> (length M <= length (a ++ b))%nat -> DInv msi y_get BySeq begin_sn (fun _ => False) RY true both d M i ->
    here BySeq M i (match filter (shown BySeq) M with [] => After | _ => At 0 end) ->
    d_get msi y_get BySeq d = at_pos l (opened l) /\ forall ms, (forall t, In (SeekG t) ms -> r_seq t = 0) -> (forall t, ~ In (SeekS t) ms) -> (both = false -> one_direction true ms = true) ->
          exists out, d_moves msi y_get y_next y_prev y_seek y_to_end BySeq fuel ms d = Some out /\ ctrace BySeq l (opened l) ms out).
  { intros d M i Mg Ml D Hh. rewrite Sh in Hh. fold (opened M) in Hh. pose proof (Same M Mg) as EM. fold l in EM. split.
    - pose proof (here_get msi y_get BySeq begin_sn (fun _ => False) RY true both d M i _ D Hh) as Q. rewrite Sh, EM in Q. exact Q.
    - intros ms Ha Hb Ho. assert (As : Forall (asked begin_sn (fun _ => False)) ms) by (apply Forall_asked; [exact Ha|exact Hb]). destruct both.
      + pose proof (moves_both msi y_get y_next y_prev y_seek y_to_end BySeq begin_sn (fun _ => False) RY ry_get ry_next ry_prev ry_end ry_greater ry_smaller fuel ms d M i _ D Hh ltac:(lia) As) as Q. rewrite Sh, EM in Q. exact Q.
      + pose proof (moves_one msi y_get y_next y_prev y_seek y_to_end BySeq begin_sn (fun _ => False) RY ry_get ry_next ry_prev ry_end ry_greater ry_smaller fuel ms true d M i _ D Hh ltac:(lia) As (Ho eq_refl)) as Q. rewrite Sh, EM in Q. exact Q. }
  destruct ls as [|x0 ls0] eqn:Els; destruct lt as [|t0 lt0] eqn:Elt.
  - exists None. split; [exact O|]. reflexivity.
  - destruct O as (d & M & i & E & Mg & Ml & D & Hh). exists (Some d). split; [exact E|]. exact (Fin d M i Mg Ml D Hh).
  - destruct O as (d & M & i & E & Mg & Ml & D & Hh). exists (Some d). split; [exact E|]. exact (Fin d M i Mg Ml D Hh).
  - destruct O as (d & M & i & E & Mg & Ml & D & Hh). exists (Some d). split; [exact E|]. exact (Fin d M i Mg Ml D Hh).
Qed.
