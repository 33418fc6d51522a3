(** What the iterator finds in the log section and in the tables (proofs). *)
From Coq Require Import List NArith Bool Arith Lia Sorted Permutation.
From Verif Require Import Base LogFormatModel KeyModel KeyProofs BloomModel MemTableModel MemTableProofs LogMgrModel LogMgrProofs LogMgrProofs2 LogMgrProofs3 DbModel DbProofs
  LsmModel LsmProofs LsmProofs2 LsmProofs5 IterModel IterSpec IterProofs LeafIterModel LeafIterProofs DbIterModel DbIterProofs.
Import ListNotations.
Local Open Scope N_scope.

Section Log.
Variable hash : key -> N * N.

Lemma first_file : forall n0 pre h F g, GI hash n0 pre h F g -> exists f t, g_files g = f :: t /\ f_num f = n0 /\ file_at n0 (g_files g) = Some f.
Proof.
  intros n0 pre h F g H. pose proof (gi_ne _ _ _ _ _ _ H) as Hne. pose proof (gi_nums _ _ _ _ _ _ H) as Hn. destruct (g_files g) as [|f t]; [congruence|]. exists f, t. destruct Hn as [Hn _].
  split; [reflexivity|]. split; [exact Hn|]. unfold file_at. cbn [find]. now rewrite Hn, N.eqb_refl.
Qed.
Lemma first_flushed : forall n0 pre h F g f t, GI hash n0 pre h F g -> g_files g = f :: t -> m_flushed (f_mt f) = if F =? 0 then NIL else F.
Proof.
  intros n0 pre h F g f t H E. assert (Hf : In f (g_files g)) by (rewrite E; now left). pose proof (gi_fi _ _ _ _ _ _ H f Hf) as Fi.
  assert (X : m_flushed (f_mt f) <> NIL -> F <> 0 /\ m_flushed (f_mt f) <= F).
  { intros Hn. destruct (fi_flu _ _ Fi Hn) as (r & Hr & Er). pose proof (gi_flu _ _ _ _ _ _ H f r Hf Hr) as Q. unfold unflushed in Q. rewrite Er in *. unfold valid_number in Q.
    replace (m_flushed (f_mt f) =? NIL) with false in Q by lia. cbn [negb orb] in Q. rewrite N.ltb_irrefl in Q.
    assert (1 <= r_seq r) by (apply (gi_pos _ _ _ _ _ _ H); rewrite (gi_hist _ _ _ _ _ _ H); apply in_or_app; right; apply in_flat_map; eauto). lia. }
  destruct (N.eqb_spec F 0) as [->|HF]; [destruct (N.eq_dec (m_flushed (f_mt f)) NIL) as [e|n]; [exact e|destruct (X n); congruence]|].
  destruct (gi_F _ _ _ _ _ _ H HF) as (r & Hr & Er). apply in_flat_map in Hr as (f' & Hf' & Hr). pose proof (gi_flu _ _ _ _ _ _ H f' r Hf' Hr) as Q. unfold unflushed, valid_number in Q. rewrite Er in Q. rewrite N.ltb_irrefl in Q.
  apply in_split in Hf' as (a & b & Ef). assert (a = []) by (apply (gi_first _ _ _ _ _ _ H a f' b Ef); intros En; rewrite En in Q; discriminate). subst a. rewrite E in Ef. injection Ef as -> _.
  assert (m_flushed (f_mt f') <> NIL) as Hn by (intros En; rewrite En in Q; discriminate). destruct (X Hn) as [_ X2]. lia.
Qed.
Lemma avail_spec : forall n0 pre h F g, GI hash n0 pre h F g -> lastseq h + 1 < NIL ->
  avail_range g = Some (if F =? 0 then 0 else F + 1, match h with [] => NIL | _ => lastseq h end).
Proof.
  intros n0 pre h F g H Hl. unfold avail_range. rewrite (gi_last_flushed _ _ _ _ _ _ H), (gi_max_num _ _ _ _ _ _ H Hl), (gi_newest _ _ _ _ _ _ H).
  destruct (first_file _ _ _ _ _ H) as (f & t & E & _ & ->). rewrite (first_flushed _ _ _ _ _ f t H E), (newest_file_max _ _ _ _ _ _ H).
  f_equal. f_equal. destruct (N.eqb_spec F 0); [now rewrite N.eqb_refl|]. pose proof (gi_F_le _ _ _ _ _ _ H). replace (F =? NIL) with false by lia. reflexivity.
Qed.

(** The list a leaf of the log moves over. *)
Definition x_list (x : mki) : list rec := map (x_lat x) (x_vis x).
Lemma not_kltb : forall a b, negb (kltb a b) = kleb b a.
Proof.
  intros a b. destruct (kltb a b) eqn:E; cbn [negb]; symmetry.
  - apply kleb_false. now apply kltb_true.
  - apply kleb_true. now apply kltb_false.
Qed.
Lemma range_of : forall x k, negb (above_end x k) && negb (below_start x k) = in_range (x_start x) (x_end x) k.
Proof.
  intros x k. unfold above_end, below_start, in_range, is_nil. rewrite andb_comm. f_equal.
  - destruct (x_start x) as [|b s]; [|change (keqb (b :: s) []) with false; cbn [negb andb]; apply not_kltb]. symmetry. apply kleb_true. apply kle_nil.
  - destruct (x_end x) as [|c e]; [reflexivity|]. change (keqb (c :: e) []) with false. cbn [negb andb orb]. apply not_kltb.
Qed.

(** The key index of a file. *)
Lemma node_of : forall f n, FI hash f -> In n (m_key (f_mt f)) -> snd n = for_key (fst n) (fh f).
Proof.
  intros f n Fi Hn. pose proof (mw_mr _ _ _ (fi_mw _ _ Fi)) as MR0. rewrite <- (mr_key _ _ _ MR0). symmetry. unfold lookup.
  pose proof (proj1 (nsorted_keys _) (mr_ksort _ _ _ MR0)) as Ns. clear MR0. induction Ns as [|y l Ns IH F]; [destruct Hn|]. cbn [find]. destruct Hn as [->|Hn]; [now rewrite keqb_refl|].
  rewrite Forall_forall in F. destruct (keqb (fst y) (fst n)) eqn:E; [|now apply IH]. apply keqb_true in E. specialize (F n Hn). rewrite E in F. destruct (klt_irrefl _ F).
Qed.
Lemma node_for : forall f k r, FI hash f -> In r (for_key k (fh f)) -> exists n, In n (m_key (f_mt f)) /\ fst n = k.
Proof.
  intros f k r Fi Hr. pose proof (mw_mr _ _ _ (fi_mw _ _ Fi)) as MR0. rewrite <- (mr_key _ _ _ MR0) in Hr. unfold lookup in Hr.
  destruct (find _ (m_key (f_mt f))) as [n|] eqn:E; [|destruct Hr]. apply find_some in E as [E1 E2]. cbn beta in E2. apply keqb_true in E2. now exists n.
Qed.
Lemma file_nodes : forall f, FI hash f -> nsorted (m_key (f_mt f)) /\ nwf (m_key (f_mt f)).
Proof.
  intros f Fi. split; [apply nsorted_keys; exact (mr_ksort _ _ _ (mw_mr _ _ _ (fi_mw _ _ Fi)))|]. intros n r Hn Hr. rewrite (node_of f n Fi Hn) in Hr. apply filter_In in Hr as [_ Hr]. apply andb_prop in Hr as [Hr _]. now apply keqb_true.
Qed.

(** One file as a leaf. *)
Lemma leaf_of : forall f start end_ a b, FI hash f ->
  match x_init (m_key (f_mt f)) start end_ a b with
  | Some x => RX x (x_list x) 0 /\ x_nodes x = m_key (f_mt f) /\ x_start x = start /\ x_end x = end_ /\ x_from x = a /\ x_upto x = b
  | None => x_vis (mkX (m_key (f_mt f)) [] start end_ a b) = []
  end.
Proof.
  intros f start end_ a b Fi. destruct (file_nodes f Fi) as [N1 N2]. pose proof (rx_init (m_key (f_mt f)) start end_ a b N1 N2) as H. cbv zeta in H. unfold x_init in *.
  destruct (fwd_valid _ _) as [k|]; [|exact H]. split; [exact H|]. repeat split; reflexivity.
Qed.
Lemma leaf_records : forall f x r, FI hash f -> x_nodes x = m_key (f_mt f) -> valid_number (x_from x) = true -> In r (x_list x) ->
  In r (fh f) /\ is_cmd r = false /\ in_range (x_start x) (x_end x) (r_key r) = true /\ x_from x <= r_seq r /\ (valid_number (x_upto x) = true -> r_seq r <= x_upto x).
Proof.
  intros f x r Fi En Va Hr. unfold x_list in Hr. apply in_map_iff in Hr as (n & El & Hn). unfold x_vis in Hn. apply filter_In in Hn as [Hn Hok]. rewrite En in Hn. unfold x_ok in Hok. apply andb_prop in Hok as [Hok Hv].
  rewrite range_of in Hok. unfold node_valid in Hv. apply andb_prop in Hv as [_ Hv]. unfold x_lat in El. unfold latest_rec in *. rewrite (node_of f n Fi Hn) in *.
  destruct (find _ (rev (for_key (fst n) (fh f)))) as [y|] eqn:E; [|discriminate]. rewrite Va in *. cbn [negb orb] in *. destruct (x_from x <=? r_seq y) eqn:Ea; [|discriminate]. subst y.
  apply find_some in E as [E1 E2]. cbn beta in E2. apply in_rev in E1. apply filter_In in E1 as [E1 E3]. apply andb_prop in E3 as [E3 E4]. apply keqb_true in E3. apply negb_true_iff in E4.
  rewrite E3. repeat split; [exact E1|exact E4|exact Hok|lia|]. intros Vu. rewrite Vu in E2. cbn [negb orb] in E2. lia.
Qed.
Lemma leaf_has : forall f x r, FI hash f -> x_nodes x = m_key (f_mt f) -> valid_number (x_from x) = true -> In r (fh f) -> is_cmd r = false ->
  in_range (x_start x) (x_end x) (r_key r) = true -> x_from x <= r_seq r -> visible (x_upto x) r = true ->
  (forall y, In y (fh f) -> r_key y = r_key r -> is_cmd y = false -> visible (x_upto x) y = true -> r_seq y <= r_seq r) -> In r (x_list x).
Proof.
  intros f x r Fi En Va Hr Hc Hin Hfr Hvi Hmax.
  assert (Hk : In r (for_key (r_key r) (fh f))) by (apply filter_In; split; [exact Hr|]; now rewrite keqb_refl, Hc).
  destruct (node_for f (r_key r) r Fi Hk) as (n & Hn & En2). pose proof (node_of f n Fi Hn) as Es. rewrite En2 in Es.
  assert (Hl : latest_rec (x_from x) (x_upto x) (snd n) = Some r).
  { unfold latest_rec. rewrite Es. destruct (find _ (rev (for_key (r_key r) (fh f)))) as [y|] eqn:E.
    - pose proof (newest_le hash (fh f) (x_upto x) (r_key r) y (mw_asc _ _ _ (fi_mw _ _ Fi)) E r Hk Hvi) as L. apply find_some in E as [E1 E2]. cbn beta in E2. apply in_rev in E1. apply filter_In in E1 as [E1 E3].
      apply andb_prop in E3 as [E3 E4]. apply keqb_true in E3. apply negb_true_iff in E4. specialize (Hmax y E1 E3 E4 E2).
      assert (y = r) as -> by (apply (sorted_seq_inj (fh f)); [exact (mw_asc _ _ _ (fi_mw _ _ Fi))|exact E1|exact Hr|lia]). rewrite Va. cbn [negb orb]. now replace (x_from x <=? r_seq r) with true by lia.
    - exfalso. pose proof (find_none _ _ E r) as Q. cbn beta in Q. rewrite Hvi in Q || unfold visible in Hvi; rewrite Hvi in Q. discriminate Q. now apply -> in_rev. }
  unfold x_list. apply in_map_iff. exists n. split; [unfold x_lat; now rewrite Hl|]. unfold x_vis. apply filter_In. split; [now rewrite En|]. unfold x_ok. rewrite range_of, En2, Hin. cbn [andb]. unfold node_valid. rewrite Hl, andb_true_r.
  apply negb_true_iff. apply N.ltb_ge. rewrite Es.
  assert (Mn : min_seq_of (for_key (r_key r) (fh f)) <= r_seq r).
  { pose proof (sorted_seq_filter (fun y => keqb (r_key y) (r_key r) && negb (is_cmd y)) (fh f) (mw_asc _ _ _ (fi_mw _ _ Fi))) as Ss. fold (for_key (r_key r) (fh f)) in Ss.
    destruct (for_key (r_key r) (fh f)) as [|y l]; [destruct Hk|]. cbn [min_seq_of]. destruct Hk as [<-|Hk]; [lia|]. unfold sorted_seq in Ss. cbn [map] in Ss. apply StronglySorted_inv in Ss as [_ Ss].
    rewrite Forall_forall in Ss. specialize (Ss _ (in_map r_seq _ _ Hk)). lia. }
  unfold visible, valid_number in Hvi. pose proof (mr_bnd _ _ _ (mw_mr _ _ _ (fi_mw _ _ Fi)) r Hr) as [_ Bn]. destruct (x_upto x =? NIL) eqn:Eu; cbn [negb orb] in Hvi; lia.
Qed.

Lemma num_same : forall fs n0 x y, nums_from n0 fs -> In x fs -> In y fs -> f_num x = f_num y -> x = y.
Proof.
  intros fs n0 x y H Hx Hy E. apply in_split in Hx as (a & b & Ex). apply in_split in Hy as (a' & b' & Ey). pose proof (file_at_num fs n0 a x b H Ex) as A. pose proof (file_at_num fs n0 a' y b' H Ey) as B. congruence.
Qed.
Lemma files_between_spec : forall n lo n0 fs, nums_from n0 fs -> n0 <= lo -> lo + N.of_nat n <= n0 + len fs ->
  exists l, files_between n lo fs = Some l /\ forall f, In f l <-> In f fs /\ lo <= f_num f < lo + N.of_nat n.
Proof.
  induction n as [|n IH]; intros lo n0 fs H Hlo Hhi; cbn [files_between].
  - exists []. split; [reflexivity|]. intros f. split; [intros []|intros [_ Q]; lia].
  - destruct (file_at_split fs n0 lo H ltac:(lia)) as (a & f & b & Ef & Enum & _). assert (file_at lo fs = Some f) as -> by (rewrite <- Enum; exact (file_at_num fs n0 a f b H Ef)).
    destruct (IH (lo + 1) n0 fs H ltac:(lia) ltac:(lia)) as (l & -> & Hl). exists (f :: l). split; [reflexivity|]. intros f'. cbn [In]. rewrite Hl. split.
    + intros [<-|[A B]]; [split; [rewrite Ef; apply in_or_app; right; now left|lia]|split; [exact A|lia]].
    + intros [A B]. destruct (N.eq_dec (f_num f') lo) as [e|ne]; [left|right; split; [exact A|lia]].
      apply (num_same fs n0); [exact H|rewrite Ef; apply in_or_app; right; now left|exact A|congruence].
Qed.

(** The files chosen hold every record numbered from [a] to [b]. *)
Lemma files_cover : forall n0 pre h F g a b, GI hash n0 pre h F g -> lastseq h + 1 < NIL -> valid_number a = true ->
  (valid_number b = true -> exists f r, In f (g_files g) /\ In r (fh f) /\ r_seq r = b) ->
  exists lo hi fs, itr_files a b g = Some (lo, hi) /\ files_between (N.to_nat (hi + 1 - lo)) lo (g_files g) = Some fs /\ incl fs (g_files g) /\
    forall f r, In f (g_files g) -> In r (fh f) -> a <= r_seq r -> (valid_number b = true -> r_seq r <= b) -> In f fs.
Proof.
  intros n0 pre h F g a b H Hl Va Hb. unfold itr_files. rewrite (gi_last_flushed _ _ _ _ _ _ H), (gi_max_num _ _ _ _ _ _ H Hl), Va.
  pose proof (gi_nums _ _ _ _ _ _ H) as Hn. pose proof (gi_gmax _ _ _ _ _ _ H) as Hg.
  set (lo := match file_by_seq a false (g_files g) with Some f => f_num f | None => n0 end).
  assert (Hlo : n0 <= lo <= g_max g /\ forall f r, In f (g_files g) -> In r (fh f) -> a <= r_seq r -> lo <= f_num f).
  { unfold lo. destruct (file_by_seq a false (g_files g)) as [x|] eqn:E.
    - unfold file_by_seq in E. destruct (by_start a (g_files g)) as [y|] eqn:Eb; [|discriminate].
      assert (x = y) as -> by (destruct (_ && _); [discriminate|]; destruct (_ && _); [discriminate|]; congruence).
      destruct (by_start_spec _ _ _ Eb) as (B1 & B2 & B3). pose proof (nums_in _ _ _ Hn B1). split; [lia|]. intros f r Hf Hr Ha.
      destruct (N.le_gt_cases (f_num y) (f_num f)) as [L|L]; [exact L|]. exfalso. assert (Hne : h <> []).
      { intros ->. pose proof (gi_empty_h _ _ _ _ _ H f Hf) as X. rewrite X in Hr. destruct Hr. }
      pose proof B1 as B1'. apply in_split in B1' as (u & v & Ey). pose proof Hf as Hf'. apply in_split in Hf' as (u' & v' & Ef).
      destruct (two_split _ _ _ _ _ _ _ Ey Ef) as [(c & d & Eq)|[(c & d & Eq)|(_ & Eq & _)]]; [| |subst; lia].
      + rewrite Eq in Hn. apply nums_app in Hn as [_ [Hn1 Hn2]]. apply nums_app in Hn2 as [_ [Hn2 _]]. lia.
      + destruct (starts_order _ _ _ _ _ _ H Hne _ _ _ _ _ Eq) as [_ Q]. specialize (Q r Hr). lia.
    - split; [unfold len in *; pose proof (gi_ne _ _ _ _ _ _ H); destruct (g_files g); [congruence|cbn [length] in Hg; lia]|]. intros f r Hf _ _. pose proof (nums_in _ _ _ Hn Hf). lia. }
  clearbody lo. destruct Hlo as [Hlo Clo].
  set (hi := if valid_number b then _ else g_max g).
  assert (Hhi : lo <= hi <= g_max g /\ forall f r, In f (g_files g) -> In r (fh f) -> (valid_number b = true -> r_seq r <= b) -> f_num f <= hi).
  { unfold hi. destruct (valid_number b).
    - destruct (Hb eq_refl) as (x & y & Hx & Hy & <-). rewrite (file_by_seq_hit _ _ _ _ _ _ false x y H Hx Hy). pose proof (nums_in _ _ _ Hn Hx). split; [lia|]. intros f r Hf Hr Hle. specialize (Hle eq_refl).
      destruct (N.le_gt_cases (f_num f) (f_num x)) as [L|L]; [lia|]. exfalso. assert (Hne : h <> []).
      { intros ->. pose proof (gi_empty_h _ _ _ _ _ H f Hf) as X. rewrite X in Hr. destruct Hr. }
      pose proof Hx as Hx'. apply in_split in Hx' as (u & v & Ex). pose proof Hf as Hf'. apply in_split in Hf' as (u' & v' & Ef).
      destruct (two_split _ _ _ _ _ _ _ Ex Ef) as [(c & d & Eq)|[(c & d & Eq)|(_ & Eq & _)]]; [| |subst; lia].
      + destruct (starts_order _ _ _ _ _ _ H Hne _ _ _ _ _ Eq) as [_ Q]. specialize (Q y Hy). pose proof (fi_low _ _ (gi_fi _ _ _ _ _ _ H f Hf) r Hr). lia.
      + rewrite Eq in Hn. apply nums_app in Hn as [_ [Hn1 Hn2]]. apply nums_app in Hn2 as [_ [Hn2 _]]. lia.
    - split; [lia|]. intros f r Hf _ _. pose proof (nums_in _ _ _ Hn Hf). lia. }
  clearbody hi. destruct Hhi as [Hhi Chi].
  destruct (files_between_spec (N.to_nat (hi + 1 - lo)) lo n0 (g_files g) Hn ltac:(lia) ltac:(lia)) as (fs & E & Hfs).
  exists lo, hi, fs. split; [reflexivity|]. split; [exact E|]. split; [intros f Hf; now apply Hfs|].
  intros f r Hf Hr Ha Hbr. apply Hfs. split; [exact Hf|]. specialize (Clo f r Hf Hr Ha). specialize (Chi f r Hf Hr Hbr). lia.
Qed.

Lemma some_of_in : forall A (l : list (option A)) x, In x (some_of l) <-> In (Some x) l.
Proof.
  intros A l x. unfold some_of. rewrite in_flat_map. split.
  - intros (y & Hy & Hx). destruct y as [z|]; [destruct Hx as [<-|[]]; exact Hy|destruct Hx].
  - intros H. exists (Some x). split; [exact H|now left].
Qed.

Lemma log_leaves_spec : forall n0 pre h part F g start end_, GI hash n0 pre (h ++ part) F g -> lastseq (h ++ part) + 1 < NIL -> F <= lastseq h ->
  (part = [] /\ g_bar g = 0) \/ (h <> [] /\ g_bar g = lastseq h) ->
  exists ls, log_leaves start end_ g = Some ls /\
    (forall x, In x ls -> RX x (x_list x) 0 /\ x_start x = start /\ x_end x = end_ /\ exists f, In f (g_files g) /\ x_nodes x = m_key (f_mt f)) /\
    (forall x r, In x ls -> In r (x_list x) -> In r h /\ is_cmd r = false /\ F < r_seq r /\ in_range start end_ (r_key r) = true) /\
    (forall r, last_write h (r_key r) = Some r -> F < r_seq r -> in_range start end_ (r_key r) = true -> exists x, In x ls /\ In r (x_list x)).
Proof.
  intros n0 pre h part F g start end_ H Hl HF HB. unfold log_leaves, itr_range. rewrite (avail_spec _ _ _ _ _ H Hl). rewrite nil_invalid. cbv zeta. cbn [andb].
  set (a := if F =? 0 then 0 else F + 1). assert (Va : valid_number a = true) by (unfold a, valid_number; pose proof (gi_F_le _ _ _ _ _ _ H); destruct (F =? 0); [reflexivity|]; apply negb_true_iff; lia).
  assert (Ha : forall r, In r (h ++ part) -> (a <= r_seq r <-> F < r_seq r)).
  { intros r Hr. pose proof (gi_pos _ _ _ _ _ _ H r Hr). unfold a. destruct (N.eqb_spec F 0); lia. }
  assert (Hall : forall f r, In f (g_files g) -> In r (fh f) -> In r (h ++ part)).
  { intros f r Hf Hr. rewrite (gi_hist _ _ _ _ _ _ H). apply in_or_app. right. apply in_flat_map. now exists f. }
  pose proof (gi_asc _ _ _ _ _ _ H) as Hsort.
  (* what the leaves over the files [fs] hold *)
  assert (Core : forall b fs, incl fs (g_files g) -> (forall f r, In f (g_files g) -> In r (fh f) -> a <= r_seq r -> (valid_number b = true -> r_seq r <= b) -> In f fs) ->
     (forall r, In r (h ++ part) -> (visible b r = true <-> In r h)) ->
     exists ls, Some (some_of (map (fun f => x_init (m_key (f_mt f)) start end_ a b) fs)) = Some ls /\
    (forall x, In x ls -> RX x (x_list x) 0 /\ x_start x = start /\ x_end x = end_ /\ exists f, In f (g_files g) /\ x_nodes x = m_key (f_mt f)) /\
    (forall x r, In x ls -> In r (x_list x) -> In r h /\ is_cmd r = false /\ F < r_seq r /\ in_range start end_ (r_key r) = true) /\
    (forall r, last_write h (r_key r) = Some r -> F < r_seq r -> in_range start end_ (r_key r) = true -> exists x, In x ls /\ In r (x_list x))).
  { intros b fs Hincl Hcov Hvis. eexists. split; [reflexivity|].
    assert (Lf : forall x, In x (some_of (map (fun f => x_init (m_key (f_mt f)) start end_ a b) fs)) -> exists f, In f (g_files g) /\ RX x (x_list x) 0 /\ x_nodes x = m_key (f_mt f) /\ x_start x = start /\ x_end x = end_ /\ x_from x = a /\ x_upto x = b).
    { intros x Hx. apply some_of_in, in_map_iff in Hx as (f & E & Hf). exists f. split; [now apply Hincl|]. pose proof (leaf_of f start end_ a b (gi_fi _ _ _ _ _ _ H f (Hincl f Hf))) as Q. now rewrite E in Q. }
    split; [|split].
    - intros x Hx. destruct (Lf x Hx) as (f & Hf & R0 & Rn & Rs & Re & _). repeat (split; [assumption|]). now exists f.
    - intros x r Hx Hr. destruct (Lf x Hx) as (f & Hf & _ & Rn & Rs & Re & Ra & Ru). rewrite <- Ra in Va. destruct (leaf_records f x r (gi_fi _ _ _ _ _ _ H f Hf) Rn Va Hr) as (A1 & A2 & A3 & A4 & A5).
      rewrite Rs, Re in A3. rewrite Ra in A4. rewrite Ru in A5. pose proof (Hall f r Hf A1) as Hh. split; [|split; [exact A2|split; [now apply (Ha r Hh)|exact A3]]]. apply (Hvis r Hh).
      unfold visible. destruct (valid_number b); [|reflexivity]. specialize (A5 eq_refl). cbn [negb orb]. lia.
    - intros r Hr HFr Hin. pose proof (last_write_in _ _ _ Hr) as Hh. assert (Hrc : is_cmd r = false).
      { unfold last_write in Hr. apply find_some in Hr as [_ Hr]. cbn beta in Hr. apply andb_prop in Hr as [_ Hr]. now apply negb_true_iff. }
      assert (Hhp : In r (h ++ part)) by (apply in_or_app; now left). pose proof Hhp as Hhp'. rewrite (gi_hist _ _ _ _ _ _ H) in Hhp'. apply in_app_iff in Hhp' as [Hp|Hp]; [pose proof (gi_pre _ _ _ _ _ _ H r Hp); lia|].
      apply in_flat_map in Hp as (f & Hf & Hrf). pose proof (proj2 (Hvis r Hhp) Hh) as Hv.
      assert (Hffs : In f fs). { apply (Hcov f r Hf Hrf); [now apply (Ha r Hhp)|]. intros Vb. unfold visible in Hv. rewrite Vb in Hv. cbn [negb orb] in Hv. lia. }
      pose proof (gi_fi _ _ _ _ _ _ H f Hf) as Fi.
      assert (X : forall x, x_nodes x = m_key (f_mt f) -> x_start x = start -> x_end x = end_ -> x_from x = a -> x_upto x = b -> In r (x_list x)).
      { intros x E1 E2 E3 E4 E5. apply (leaf_has f x r Fi E1); rewrite ?E2, ?E3, ?E4, ?E5; try assumption; [now apply (Ha r Hhp)|].
        intros y Hy Ky Cy Vy. pose proof (proj1 (Hvis y (Hall f y Hf Hy)) Vy) as Hyh. unfold sorted_seq in Hsort. rewrite map_app in Hsort. apply SS_app_inv in Hsort as [Hs _].
        apply (newest_le hash h NIL (r_key r) r); [exact Hs|now rewrite newest_last_write| |reflexivity]. apply filter_In. split; [exact Hyh|]. rewrite Ky, keqb_refl, Cy. reflexivity. }
      pose proof (leaf_of f start end_ a b Fi) as Q. destruct (x_init (m_key (f_mt f)) start end_ a b) as [x|] eqn:Ex.
      + exists x. destruct Q as (_ & E1 & E2 & E3 & E4 & E5). split; [|now apply X]. apply some_of_in. apply in_map_iff. now exists f.
      + exfalso. specialize (X (mkX (m_key (f_mt f)) [] start end_ a b) eq_refl eq_refl eq_refl eq_refl eq_refl). unfold x_list in X. rewrite Q in X. destruct X. }
  destruct h as [|h0 ht] eqn:Eh.
  - assert (part = [] /\ g_bar g = 0) as [-> Eb] by (destruct HB as [HB|[HB _]]; [exact HB|congruence]). cbn [app] in *. rewrite Eb. change (negb (0 =? 0)) with false. cbn [andb].
    assert (F = 0) as F0 by (cbn in HF; lia). assert (Ea : a = 0) by (unfold a; rewrite F0; reflexivity). replace (NIL <? a) with false by (rewrite Ea; reflexivity).
    destruct (files_cover n0 pre [] F g a NIL H Hl Va) as (lo & hi & fs & -> & -> & Hi & Hc); [discriminate|]. apply (Core NIL fs Hi); [exact Hc|]. intros r [].
  - rewrite <- Eh in *. assert (Hne : h <> []) by (rewrite Eh; discriminate). clear Eh h0 ht.
    assert (Em : match h ++ part with [] => NIL | _ => lastseq (h ++ part) end = lastseq (h ++ part)) by (destruct h; [congruence|reflexivity]). rewrite Em.
    assert (Hlast : exists z, In z h /\ r_seq z = lastseq h).
    { destruct (exists_last Hne) as (u & z & ->). exists z. rewrite lastseq_snoc. split; [apply in_or_app; right; now left|reflexivity]. }
    destruct Hlast as (z & Hz & Ez). assert (Hzp : In z (h ++ part)) by (apply in_or_app; now left). pose proof (gi_pos _ _ _ _ _ _ H z Hzp) as Zp. pose proof (lastseq_ge _ z Hsort Hzp) as Zl.
    assert (Hvis : forall r, In r (h ++ part) -> (r_seq r <= lastseq h <-> In r h)).
    { intros r Hr. pose proof Hsort as Hs. unfold sorted_seq in Hs. rewrite map_app in Hs. apply SS_app_inv in Hs as (S1 & S2 & S3). split.
      - intros Hle. apply in_app_iff in Hr as [Hr|Hr]; [exact Hr|]. specialize (S3 _ _ (in_map r_seq _ _ Hz) (in_map r_seq _ _ Hr)). lia.
      - intros Hh. now apply lastseq_ge. }
    set (b2 := if negb (g_bar g =? 0) && (g_bar g <? lastseq (h ++ part)) then g_bar g else lastseq (h ++ part)).
    assert (Eb : b2 = lastseq h).
    { unfold b2. destruct HB as [[Ep Eb]|[_ Eb]]; [rewrite Eb, Ep, app_nil_r; reflexivity|]. rewrite Eb. destruct (N.ltb_spec (lastseq h) (lastseq (h ++ part))) as [L|L]; [replace (lastseq h =? 0) with false by lia; reflexivity|].
      rewrite andb_false_r. lia. }
    rewrite Eb. clearbody b2. destruct (lastseq h <? a) eqn:Ela.
    + exists []. split; [reflexivity|]. split; [intros x []|]. split; [intros x r []|]. intros r Hr HFr _. exfalso. pose proof (last_write_in _ _ _ Hr) as Hh.
      assert (Hp : In r (h ++ part)) by (apply in_or_app; now left). apply (Ha r Hp) in HFr. apply (Hvis r Hp) in Hh. lia.
    + assert (HFz : F < lastseq h) by (rewrite <- Ez; apply (Ha z Hzp); lia).
      assert (Vb : valid_number (lastseq h) = true) by (unfold valid_number; apply negb_true_iff; lia).
      destruct (files_cover n0 pre (h ++ part) F g a (lastseq h) H Hl Va) as (lo & hi & fs & -> & -> & Hi & Hc).
      { intros _. pose proof Hzp as Hz2. rewrite (gi_hist _ _ _ _ _ _ H) in Hz2. apply in_app_iff in Hz2 as [Hp|Hp]; [pose proof (gi_pre _ _ _ _ _ _ H z Hp); lia|].
        apply in_flat_map in Hp as (f & Hf & Hrf). now exists f, z. }
      apply (Core (lastseq h) fs Hi); [exact Hc|]. intros r Hr. rewrite <- (Hvis r Hr). unfold visible. rewrite Vb. cbn [negb orb]. lia.
Qed.
End Log.

Section Tab.
Variable hash : key -> N * N.
Variable part : key -> N.

(** A document is in some table. *)
Definition in_tabs (s : lsm) (r : rec) : Prop := (exists t, In t (l_zero s) /\ In r (b_docs t)) \/ exists ts, In ts (l_up s) /\ recs ts r.

Lemma ups_some : forall k l r, (forall ts, In ts l -> lvl_ok ts) -> ups k l = Some r -> r_key r = k /\ exists ts, In ts l /\ recs ts r.
Proof.
  intros k l r. induction l as [|ts l IH]; intros H E; [discriminate|]. cbn [ups] in E. destruct (lv_get k ts) as [x|] eqn:G; cbn [orr] in E.
  - injection E as ->. apply lv_get_some in G as [G1 G2]; [|apply H; now left]. split; [exact G2|]. exists ts. split; [now left|exact G1].
  - destruct IH as (A & ts' & B & C); [intros ts' Hts; apply H; now right|exact E|]. split; [exact A|]. exists ts'. split; [now right|exact C].
Qed.
Lemma ups_none : forall k l, (forall ts, In ts l -> lvl_ok ts) -> ups k l = None -> forall ts r, In ts l -> recs ts r -> r_key r <> k.
Proof.
  intros k l. induction l as [|ts l IH]; intros H E ts' r Hts Hr; [destruct Hts|]. cbn [ups] in E. destruct (lv_get k ts) as [x|] eqn:G; [discriminate|]. cbn [orr] in E.
  destruct Hts as [<-|Hts]; [|eapply IH; eauto; intros; apply H; now right]. eapply lv_get_none; eauto. apply H. now left.
Qed.
Lemma view_some : forall c R s k r, LI hash part c R s -> view part s k = Some r -> r_key r = k /\ in_tabs s r.
Proof.
  intros c R s k r HI E. unfold view, zview in E. destruct (zget (nf (part k)) k (l_zero s)) as [x|] eqn:E1; cbn [orr] in E.
  - injection E as ->. unfold zget in E1. destruct (filter (nf (part k)) (l_zero s)) as [|t l] eqn:Ef; [discriminate|]. apply fd_get_in in E1 as [A B]. split; [exact B|]. left. exists t. split; [|exact A].
    assert (In t (filter (nf (part k)) (l_zero s))) as Q by (rewrite Ef; now left). apply filter_In in Q. tauto.
  - destruct (zget (sf (part k)) k (l_zero s)) as [x|] eqn:E2; cbn [orr] in E.
    + injection E as ->. unfold zget in E2. destruct (filter (sf (part k)) (l_zero s)) as [|t l] eqn:Ef; [discriminate|]. apply fd_get_in in E2 as [A B]. split; [exact B|]. left. exists t. split; [|exact A].
      assert (In t (filter (sf (part k)) (l_zero s))) as Q by (rewrite Ef; now left). apply filter_In in Q. tauto.
    + apply ups_some in E as [A B]; [|exact (li_up _ _ _ _ _ HI)]. split; [exact A|now right].
Qed.
Lemma view_none : forall c R s k, LI hash part c R s -> part k < tc_parts c -> view part s k = None -> forall r, in_tabs s r -> r_key r <> k.
Proof.
  intros c R s k HI Hp E r Hr Ek. unfold view, zview in E. destruct (zget (nf (part k)) k (l_zero s)) as [x|] eqn:E1; cbn [orr] in E; [discriminate|].
  destruct (zget (sf (part k)) k (l_zero s)) as [x|] eqn:E2; cbn [orr] in E; [discriminate|]. destruct Hr as [(t & Ht & Hr)|(ts & Hts & Hr)]; [|exact (ups_none _ _ (li_up _ _ _ _ _ HI) E ts r Hts Hr Ek)].
  pose proof (li_zero _ _ _ _ _ HI) as Z. destruct (z_mem _ _ _ Z t Ht) as (_ & _ & Dk & Dp). specialize (Dp r Hr). rewrite Ek in Dp. unfold zget in E1, E2. destruct (b_src t) eqn:Sr.
  - assert (In t (filter (sf (part k)) (l_zero s))) as Q by (apply filter_In; split; [exact Ht|]; unfold sf; rewrite Sr, Dp, N.eqb_refl; reflexivity).
    destruct (z_src _ _ _ Z (part k)) as [Ef|(t' & Ef)]; rewrite Ef in *; [destruct Q|]. destruct Q as [->|[]]. rewrite fd_get_none in E2. exact (E2 r Hr Ek).
  - assert (In t (filter (nf (part k)) (l_zero s))) as Q by (apply filter_In; split; [exact Ht|]; unfold nf; rewrite Sr, Dp, N.eqb_refl; reflexivity).
    destruct (z_norm _ _ _ Z (part k) Hp) as (t' & Ef); rewrite Ef in *. destruct Q as [->|[]]. rewrite fd_get_none in E1. exact (E1 r Hr Ek).
Qed.

Lemma range_hit : forall start end_ ts t d, lvl_ok ts -> In t ts -> In d (b_docs t) -> in_range start end_ (r_key d) = true -> In t (tables_range start end_ ts).
Proof.
  intros start end_ ts t d [Hs Hd] Ht Hdd Hin. unfold in_range in Hin. apply andb_prop in Hin as [H1 H2]. apply kleb_true in H1. destruct (Hd t Ht) as [_ Q]. destruct (Q d Hdd) as [Q1 Q2].
  unfold tables_range. apply filter_In. split.
  - destruct (from_floor_spec start ts) as (pre & E & _ & Hp). pose proof Ht as Ht'. rewrite E in Ht'. apply in_app_iff in Ht' as [Hpre|Hok]; [|exact Hok]. exfalso.
    destruct Hp as [->|(x & tl & Ex & Lx)]; [destruct Hpre|]. rewrite Ex in E. assert (Hx : In x ts) by (rewrite E; apply in_or_app; right; now left).
    assert (L : klt (b_min t) (b_min x)). { rewrite E in Hs. apply ss_app in Hs as (_ & _ & Hs). apply (Hs t x Hpre). now left. }
    specialize (Q2 x Hx L). exact (proj1 (kle_not_lt _ _) (kle_trans _ _ _ Lx H1) Q2).
  - unfold is_nil in *. destruct end_; [reflexivity|]. cbn [orb] in *. apply kleb_true in H2. apply kleb_true. exact (kle_trans _ _ _ Q1 H2).
Qed.

Lemma tab_leaves_in : forall start end_ s t, In t (tab_leaves start end_ s) <->
  exists u, In u (tab_tables start end_ s) /\ t = mkT (filter (fun r => in_range start end_ (r_key r)) (b_docs u)) 0 /\ t_docs t <> [].
Proof.
  intros start end_ s t. unfold tab_leaves. rewrite some_of_in, in_map_iff. split.
  - intros (u & E & Hu). exists u. split; [exact Hu|]. unfold t_init in E. destruct (filter _ (b_docs u)); [discriminate|]. injection E as <-. split; [reflexivity|]. cbn. discriminate.
  - intros (u & Hu & -> & Hne). exists u. split; [|exact Hu]. unfold t_init. cbn [t_docs] in Hne. destruct (filter _ (b_docs u)); [congruence|reflexivity].
Qed.

Lemma docs_csorted : forall l, docs_ok l -> csorted ByKey l.
Proof.
  intros l H. unfold docs_ok in H. induction H as [|x l H IH F]; intros i j a b Hij Ha Hb; [destruct i; discriminate|]. rewrite Forall_forall in F. destruct i as [|i]; destruct j as [|j]; [lia| |lia|].
  - cbn in Ha, Hb. injection Ha as <-. exact (F b (nth_error_In _ _ Hb)).
  - apply (IH i j); [lia|exact Ha|exact Hb].
Qed.
Lemma docs_filter : forall p l, docs_ok l -> docs_ok (filter p l).
Proof. intros p l H. unfold docs_ok in *. now apply SS_filter. Qed.

Lemma tab_leaves_spec : forall c R s start end_, LI hash part c R s -> (forall k, vle (view part s k) (newest_write R k)) -> (forall k, part k < tc_parts c) ->
  (forall t, In t (tab_leaves start end_ s) -> t_pos t = O /\ t_docs t <> [] /\ csorted ByKey (t_docs t)) /\
  (forall t r, In t (tab_leaves start end_ s) -> In r (t_docs t) -> In r R /\ is_cmd r = false /\ in_range start end_ (r_key r) = true) /\
  (forall r, newest_write R (r_key r) = Some r -> in_range start end_ (r_key r) = true ->
     (exists t, In t (tab_leaves start end_ s) /\ In r (t_docs t)) \/
     (is_del r = true /\ forall t x, In t (tab_leaves start end_ s) -> In x (t_docs t) -> r_key x <> r_key r)).
Proof.
  intros c R s start end_ HI HV Hp.
  assert (Tb : forall u, In u (tab_tables start end_ s) -> good hash c R u /\ docs_ok (b_docs u) /\ forall r, In r (b_docs u) -> in_tabs s r).
  { intros u Hu. unfold tab_tables in Hu. apply in_app_iff in Hu as [Hu|Hu].
    - split; [exact (li_good0 _ _ _ _ _ HI u Hu)|]. split; [apply (z_mem _ _ _ (li_zero _ _ _ _ _ HI) u Hu)|]. intros r Hr. left. now exists u.
    - apply in_flat_map in Hu as (ts & Hts & Hu). unfold tables_range in Hu. apply filter_In in Hu as [Hu _]. destruct (from_floor_spec start ts) as (pre & E & _).
      assert (Hu' : In u ts) by (rewrite E; apply in_or_app; now right). split; [exact (li_good _ _ _ _ _ HI ts u Hts Hu')|]. split; [apply (proj2 (li_up _ _ _ _ _ HI ts Hts) u Hu')|].
      intros r Hr. right. exists ts. split; [exact Hts|now exists u]. }
  split; [|split].
  - intros t Ht. apply tab_leaves_in in Ht as (u & Hu & -> & Hne). split; [reflexivity|]. split; [exact Hne|]. cbn [t_docs]. apply docs_csorted, docs_filter. apply Tb. exact Hu.
  - intros t r Ht Hr. apply tab_leaves_in in Ht as (u & Hu & -> & _). cbn [t_docs] in Hr. apply filter_In in Hr as [Hr Hin]. destruct (Tb u Hu) as [G _]. destruct (gd_docs _ _ _ _ G r Hr). auto.
  - intros r Hr Hin. specialize (HV (r_key r)). rewrite Hr in HV. destruct HV as [HV|(HV & y & Ey & D)].
    + left. destruct (view_some _ _ _ _ _ HI HV) as [_ [(t & Ht & Hd)|(ts & Hts & t & Ht & Hd)]].
      * exists (mkT (filter (fun r => in_range start end_ (r_key r)) (b_docs t)) 0). assert (Q : In r (filter (fun r => in_range start end_ (r_key r)) (b_docs t))) by (apply filter_In; now split). split; [|exact Q].
        apply tab_leaves_in. exists t. split; [apply in_or_app; now left|]. split; [reflexivity|]. cbn [t_docs]. intros E. rewrite E in Q. destruct Q.
      * exists (mkT (filter (fun r => in_range start end_ (r_key r)) (b_docs t)) 0). assert (Q : In r (filter (fun r => in_range start end_ (r_key r)) (b_docs t))) by (apply filter_In; now split). split; [|exact Q].
        apply tab_leaves_in. exists t. split; [apply in_or_app; right; apply in_flat_map; exists ts; split; [exact Hts|]; exact (range_hit start end_ ts t r (li_up _ _ _ _ _ HI ts Hts) Ht Hd Hin)|].
        split; [reflexivity|]. cbn [t_docs]. intros E. rewrite E in Q. destruct Q.
    + right. injection Ey as <-. split; [exact D|]. intros t x Ht Hx. apply tab_leaves_in in Ht as (u & Hu & -> & _). cbn [t_docs] in Hx. apply filter_In in Hx as [Hx _]. destruct (Tb u Hu) as (_ & _ & Q).
      exact (view_none c R s (r_key r) HI (Hp _) HV x (Q x Hx)).
Qed.
End Tab.
