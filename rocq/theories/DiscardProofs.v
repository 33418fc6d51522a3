(** DB::discardDirty (proofs; statements in DiscardProps.v). *)
From Verif Require Import Base KeyModel KeyProofs LogFormatModel BloomModel BloomProofs MemTableModel MemTableProofs
  LogMgrModel LogMgrProofs LogMgrProofs2 LogMgrProofs3 IterModel LeafIterModel DbModel DbProofs DbIterModel DiscardModel DiscardSpec.
From Coq Require Import Sorted.
Local Open Scope N_scope.

Section Proofs.
Variable hash : key -> N * N.
Notation GI := (GI hash).
Notation FI := (FI hash).
Notation MR := (MR hash).
Notation MW := (MW hash).

(** * One memtable *)

Lemma kept_neg : forall b h, filter (fun x => negb (b <=? r_seq x)) h = kept b h.
Proof. intros b h. unfold kept. apply filter_ext. intros x. rewrite N.ltb_antisym. reflexivity. Qed.

Lemma for_key_kept : forall b k h, for_key k (kept b h) = filter (fun r => r_seq r <? b) (for_key k h).
Proof.
  intros b k h. unfold for_key, kept. rewrite !filter_filter. apply filter_ext. intros x. apply andb_comm.
Qed.

Lemma lookup_map : forall (t : key -> bool) (f : list rec -> list rec) k l,
  lookup k (map (fun n => if t (fst n) then (fst n, f (snd n)) else n) l) =
  match find (fun n => keqb (fst n) k) l with Some n => if t k then f (snd n) else snd n | None => [] end.
Proof.
  intros t f k l. induction l as [|[k' rs] l IH]; [reflexivity|]. cbn [map find fst snd].
  destruct (t k') eqn:Et; rewrite lookup_cons; destruct (keqb k' k) eqn:Ek.
  - apply keqb_true in Ek. subst k'. rewrite Et. reflexivity.
  - exact IH.
  - apply keqb_true in Ek. subst k'. rewrite Et. reflexivity.
  - exact IH.
Qed.

Lemma filter_id : forall {A} (p : A -> bool) l, (forall x, In x l -> p x = true) -> filter p l = l.
Proof.
  intros A p l H. induction l as [|x l IH]; [reflexivity|]. cbn [filter]. rewrite (H x (or_introl eq_refl)).
  f_equal. apply IH. intros y Hy; apply H; right; exact Hy.
Qed.

Lemma lookup_discard : forall h m b k, MW h m -> lookup k (m_key (mt_discard b m)) = for_key k (kept b h).
Proof.
  intros h m b k W. set (t := fun k => existsb (fun x => keqb (r_key x) k) (filter (fun x => b <=? r_seq x) (m_seq m))).
  change (m_key (mt_discard b m)) with (map (fun n => if t (fst n) then (fst n, discard_recs b (snd n)) else n) (m_key m)).
  rewrite lookup_map.
  assert (L := mr_key _ _ _ (mw_mr _ _ _ W) k). rewrite for_key_kept, <- L. unfold lookup.
  destruct (find (fun n => keqb (fst n) k) (m_key m)) as [n|] eqn:En; [|reflexivity].
  assert (Ls : snd n = for_key k h) by (rewrite <- L; unfold lookup; rewrite En; reflexivity).
  destruct (t k) eqn:Et.
  - unfold discard_recs. apply filter_ext. intros x. rewrite N.ltb_antisym. reflexivity.
  - symmetry. apply filter_id. intros x Hx. rewrite Ls in Hx. apply filter_In in Hx. destruct Hx as [Hx Kx].
    apply andb_true_iff in Kx. destruct Kx as [Kx _].
    destruct (r_seq x <? b) eqn:E; [reflexivity|]. exfalso.
    assert (t k = true); [|congruence]. unfold t.
    apply existsb_exists. exists x. split; [|exact Kx]. apply filter_In. split; [rewrite (mw_seq _ _ _ W); exact Hx|lia].
Qed.

(** The table without its empty nodes. *)
Definition ne_node (n : key * list rec) : bool := match snd n with [] => false | _ => true end.
Definition prune (m : mt) : mt :=
  mkMt (m_start m) (m_min m) (m_flushed m) (m_synced m) (m_max m) (m_alloc m) (m_seq m) (filter ne_node (m_key m)) (m_chks m) (m_bf m).

Lemma sorted_keys_filter : forall p l, sorted_keys l -> sorted_keys (filter p l).
Proof.
  unfold sorted_keys; intros p l; induction l as [|a l IH]; intros H; cbn [filter map] in *; [assumption|].
  apply StronglySorted_inv in H; destruct H as [H HF]. destruct (p a); [|auto].
  cbn [map]; constructor; [auto|]. rewrite Forall_forall in *; intros x Hx; apply HF.
  apply in_map_iff in Hx; destruct Hx as (y & <- & Hy); apply filter_In in Hy; apply in_map, Hy.
Qed.

Lemma lookup_prune : forall l k, sorted_keys l -> lookup k (filter ne_node l) = lookup k l.
Proof.
  induction l as [|[k' rs] l IH]; intros k S; [reflexivity|]. apply sorted_keys_cons in S. destruct S as [S SK].
  rewrite lookup_cons. cbn [filter]. unfold ne_node at 1; cbn [snd]. destruct rs as [|r rs].
  - destruct (keqb k' k) eqn:E; [|apply IH; exact S]. apply keqb_true in E. subst k'. rewrite IH by exact S.
    apply lookup_absent. intros H. apply SK in H. unfold klt in H. rewrite kcmp_refl in H. discriminate.
  - rewrite lookup_cons. destruct (keqb k' k); [reflexivity|]. apply IH; exact S.
Qed.

Lemma discard_keys : forall b m, map fst (m_key (mt_discard b m)) = map fst (m_key m).
Proof.
  intros b m. unfold mt_discard. cbn [m_key]. rewrite map_map. apply map_ext. intros [k rs]. cbn [fst snd].
  destruct (existsb _ _); reflexivity.
Qed.

Lemma mr_discard : forall h m b, MW h m -> MR (kept b h) (prune (mt_discard b m)).
Proof.
  intros h m b W. assert (R := mw_mr _ _ _ W).
  assert (S : sorted_keys (m_key (mt_discard b m))) by (unfold sorted_keys; rewrite discard_keys; apply (mr_ksort _ _ _ R)).
  constructor.
  - apply sorted_keys_filter, S.
  - intros k. cbn [prune m_key]. rewrite lookup_prune by exact S. apply lookup_discard, W.
  - cbn [prune mt_discard m_seq]. apply sorted_seq_filter, (mr_ssort _ _ _ R).
  - intros s. cbn [prune mt_discard m_seq]. rewrite (mw_seq _ _ _ W), kept_neg. symmetry. apply find_sorted, sorted_seq_filter, (mw_asc _ _ _ W).
  - intros r Hr. apply filter_In in Hr. apply (mr_bnd _ _ _ R), Hr.
  - apply (mr_wf _ _ _ R).
  - intros k Hk. apply (mr_bf _ _ _ R). rewrite <- (discard_keys b). apply in_map_iff in Hk. destruct Hk as (n & <- & Hn).
    apply filter_In in Hn. apply in_map, Hn.
  - intros n Hn. apply filter_In in Hn. destruct Hn as [_ Hn]. unfold ne_node in Hn. destruct (snd n); [discriminate|discriminate].
Qed.

Lemma mt_get_prune : forall chk k af at_ m, sorted_keys (m_key m) -> mt_get hash chk k af at_ (prune m) = mt_get hash chk k af at_ m.
Proof.
  intros chk k af at_ m S. unfold mt_get, mt_search. cbn [prune m_bf m_key m_flushed seek_node].
  destruct (bl_check (hash k) (m_bf m)) as [[|]|]; try reflexivity.
  assert (L := lookup_prune (m_key m) k S). unfold lookup in L.
  destruct (find (fun n => keqb (fst n) k) (filter ne_node (m_key m))) as [n|];
    destruct (find (fun n => keqb (fst n) k) (m_key m)) as [n'|].
  - rewrite L. reflexivity.
  - rewrite L. reflexivity.
  - rewrite <- L. reflexivity.
  - reflexivity.
Qed.

Lemma discard_get : forall h m b chk k af at_, MW h m ->
  mt_get hash chk k af at_ (mt_discard b m) = answer (m_flushed m) af at_ (newest (kept b h) chk k).
Proof.
  intros h m b chk k af at_ W. rewrite <- mt_get_prune.
  - rewrite (mt_get_spec hash _ _ _ _ _ _ (mr_discard h m b W)). reflexivity.
  - unfold sorted_keys. rewrite discard_keys. apply (mr_ksort _ _ _ (mw_mr _ _ _ W)).
Qed.

(** * The log section *)

Definition discard_file (b n0 mx : N) (f : lgf) : lgf := if between n0 mx (f_num f) then with_mt f (mt_discard b (f_mt f)) else f.

Lemma lm_discard_ok : forall n0 pre h F g b g', GI n0 pre h F g -> lastseq h + 1 < NIL -> lm_discard b g = (Ok tt, g') ->
  exists f0, In f0 (g_files g) /\ f_start f0 <= b /\ g' = with_files g (map (discard_file b (f_num f0) (g_max g)) (g_files g)).
Proof.
  intros n0 pre h F g b g' H Hl E. unfold lm_discard in E. rewrite (gi_max_num _ _ _ _ _ _ H Hl) in E.
  destruct (file_by_seq b false (g_files g)) as [f0|] eqn:E0; [|discriminate]. injection E as <-. exists f0.
  unfold file_by_seq in E0. destruct (by_start b (g_files g)) as [x|] eqn:Ex; [|discriminate].
  destruct (_ && _) in E0; [discriminate|]. destruct (_ && _) in E0; [discriminate|]. injection E0 as <-.
  destruct (by_start_spec _ _ _ Ex) as (A & B & _). split; [exact A|]. split; [exact B|]. reflexivity.
Qed.

(** A file that is not touched has only records below [b]. *)
Lemma untouched : forall n0 pre h F g b f0 f, GI n0 pre h F g -> In f0 (g_files g) -> f_start f0 <= b -> In f (g_files g) ->
  between (f_num f0) (g_max g) (f_num f) = false -> forall r, In r (fh f) -> r_seq r < b.
Proof.
  intros n0 pre h F g b f0 f H H0 Hs Hf Hb r Hr.
  assert (Nf := nums_in _ _ _ (gi_nums _ _ _ _ _ _ H) Hf). assert (G := gi_gmax _ _ _ _ _ _ H).
  unfold between in Hb. assert (Lt : f_num f < f_num f0) by lia.
  apply in_split in H0. destruct H0 as (a & c & E0).
  assert (Hin : In f a).
  { rewrite E0 in Hf. apply in_app_or in Hf. destruct Hf as [Hf|Hf]; [exact Hf|exfalso].
    assert (N := gi_nums _ _ _ _ _ _ H). rewrite E0 in N. apply nums_app in N. destruct N as [_ N].
    assert (X := nums_in _ _ _ N Hf). destruct N as [N _]. lia. }
  assert (X := gi_starts _ _ _ _ _ _ H a f0 c E0 r). assert (In r (all_h a)) by (apply in_flat_map; exists f; auto). specialize (X H0). lia.
Qed.

Lemma discard_file_h : forall n0 pre h F g b f0 f, GI n0 pre h F g -> In f0 (g_files g) -> f_start f0 <= b -> In f (g_files g) ->
  fh (discard_file b (f_num f0) (g_max g) f) = kept b (fh f).
Proof.
  intros n0 pre h F g b f0 f H H0 Hs Hf. unfold discard_file. destruct (between _ _ _) eqn:Eb.
  - unfold fh, with_mt, mt_discard. cbn [f_mt m_seq]. apply kept_neg.
  - symmetry. apply filter_id. intros r Hr. assert (X := untouched _ _ _ _ _ _ _ _ H H0 Hs Hf Eb r Hr). lia.
Qed.

Lemma discard_file_get : forall n0 pre h F g b f0 f chk k, GI n0 pre h F g -> In f0 (g_files g) -> f_start f0 <= b -> In f (g_files g) ->
  mt_get hash chk k false true (f_mt (discard_file b (f_num f0) (g_max g) f)) =
  answer (m_flushed (f_mt f)) false true (newest (kept b (fh f)) chk k).
Proof.
  intros n0 pre h F g b f0 f chk k H H0 Hs Hf. assert (FIf := gi_fi _ _ _ _ _ _ H f Hf).
  unfold discard_file. destruct (between _ _ _) eqn:Eb.
  - cbn [with_mt f_mt]. apply discard_get, (fi_mw _ _ FIf).
  - rewrite (mt_get_spec hash _ _ _ _ _ _ (mw_mr _ _ _ (fi_mw _ _ FIf))). f_equal. f_equal. symmetry. apply filter_id.
    intros r Hr. assert (X := untouched _ _ _ _ _ _ _ _ H H0 Hs Hf Eb r Hr). lia.
Qed.

Lemma discard_file_same : forall b n m f, let f' := discard_file b n m f in
  f_num f' = f_num f /\ f_start f' = f_start f /\ m_max (f_mt f') = m_max (f_mt f) /\ m_flushed (f_mt f') = m_flushed (f_mt f) /\
  m_min (f_mt f') = m_min (f_mt f) /\ m_synced (f_mt f') = m_synced (f_mt f).
Proof. intros b n m f. unfold discard_file. destruct (between n m (f_num f)); cbn; repeat split. Qed.

Lemma all_h_kept : forall b (t : lgf -> lgf) fs, (forall f, In f fs -> fh (t f) = kept b (fh f)) -> all_h (map t fs) = kept b (all_h fs).
Proof.
  intros b t fs. induction fs as [|f fs IH]; intros E; [reflexivity|]. cbn [map all_h flat_map]. fold (all_h (map t fs)). fold (all_h fs).
  rewrite (E f (or_introl eq_refl)), IH by (intros x Hx; apply E; right; exact Hx). unfold kept. rewrite filter_app. reflexivity.
Qed.

(** What the log answers afterwards. *)
Lemma discard_log_get : forall n0 pre h F g b g' c k, GI n0 pre h F g -> lastseq h + 1 < NIL -> g_bar g = 0 ->
  lm_discard b g = (Ok tt, g') -> lm_get hash c k g' = log_answer (kept b h) F NIL k.
Proof.
  intros n0 pre h F g b g' c k H Hl Hb E. destruct (lm_discard_ok _ _ _ _ _ _ _ H Hl E) as (f0 & H0 & Hs & ->). clear E.
  set (t := discard_file b (f_num f0) (g_max g)). set (g' := with_files g (map t (g_files g))).
  assert (Num : forall f, f_num (t f) = f_num f) by (intros f; apply discard_file_same).
  assert (Nums : nums_from n0 (map t (g_files g))).
  { apply nums_map; [exact Num|apply (gi_nums _ _ _ _ _ _ H)]. }
  assert (Len : len (map t (g_files g)) = len (g_files g)) by (unfold len; rewrite map_length; reflexivity).
  assert (Ne : map t (g_files g) <> []) by (intros X; apply map_eq_nil in X; apply (gi_ne _ _ _ _ _ _ H X)).
  assert (G := gi_gmax _ _ _ _ _ _ H).
  assert (Lf : last_flushed g' = Some n0).
  { assert (X := gi_last_flushed _ _ _ _ _ _ H). unfold last_flushed, min_num, g', with_files in *. cbn [g_lf g_files] in *.
    destruct (g_files g) as [|f fs]; [cbn [map]; exact X|]. cbn [map]. rewrite Num. exact X. }
  assert (Mx : max_num g' = Some (g_max g)) by apply (gi_max_num _ _ _ _ _ _ H Hl).
  assert (Hist : all_h (map t (g_files g)) = kept b (all_h (g_files g))).
  { apply all_h_kept. intros f Hf. apply (discard_file_h _ _ _ _ _ _ _ _ H H0 Hs Hf). }
  assert (Sort : sorted_seq (all_h (map t (g_files g)))) by (rewrite Hist; apply sorted_seq_filter, (gi_sorted_files _ _ _ _ _ _ H)).
  assert (Flu : forall f r, In f (map t (g_files g)) -> In r (fh f) -> unflushed (m_flushed (f_mt f)) r = (F <? r_seq r)).
  { intros f r Hf Hr. apply in_map_iff in Hf. destruct Hf as (f1 & <- & Hf1). unfold t in *.
    destruct (discard_file_same b (f_num f0) (g_max g) f1) as (_ & _ & _ & Q & _). rewrite Q.
    rewrite (discard_file_h _ _ _ _ _ _ _ _ H H0 Hs Hf1) in Hr. apply filter_In in Hr. apply (gi_flu _ _ _ _ _ _ H); tauto. }
  assert (Pre : log_answer (kept b h) F NIL k =
    match newest (all_h (map t (g_files g))) NIL k with Some r => if F <? r_seq r then Ok r else Fail KEY_NOT_FOUND | None => Fail KEY_NOT_FOUND end).
  { unfold log_answer. rewrite Hist, (gi_hist _ _ _ _ _ _ H). unfold kept. rewrite filter_app, newest_app.
    destruct (newest (filter (fun r => r_seq r <? b) (all_h (g_files g))) NIL k); [reflexivity|].
    destruct (newest (filter (fun r => r_seq r <? b) pre) NIL k) as [r|] eqn:Er; [|reflexivity].
    apply newest_in in Er. destruct Er as (Er & _). apply filter_In in Er. assert (X := gi_pre _ _ _ _ _ _ H r (proj1 Er)).
    replace (F <? r_seq r) with false by lia. reflexivity. }
  rewrite Pre. unfold lm_get. rewrite Lf, Mx. destruct (c_lso c).
  - assert (Ef : filter (fun f => (n0 <=? f_num f) && (f_num f <=? g_max g)) (map t (g_files g)) = map t (g_files g)).
    { apply filter_id. intros f Hf. assert (Y := nums_in _ _ _ Nums Hf). lia. }
    unfold g', with_files. cbn [g_files]. rewrite Ef. apply (first_ok_spec hash _ F k NIL); [exact Sort| |exact Flu].
    intros f Hf. apply in_map_iff in Hf. destruct Hf as (f1 & <- & Hf1). unfold t.
    rewrite (discard_file_get _ _ _ _ _ _ _ _ _ _ H H0 Hs Hf1), (discard_file_h _ _ _ _ _ _ _ _ H H0 Hs Hf1).
    destruct (discard_file_same b (f_num f0) (g_max g) f1) as (_ & _ & _ & Q & _). rewrite Q. reflexivity.
  - unfold g', with_files. cbn [g_files g_bar]. rewrite (file_range_all _ n0); [|exact Nums|exact Ne|lia].
    apply (first_ok_spec hash _ F k NIL); [exact Sort| |exact Flu].
    intros f Hf. apply in_map_iff in Hf. destruct Hf as (f1 & <- & Hf1). unfold t.
    rewrite (discard_file_get _ _ _ _ _ _ _ _ _ _ H H0 Hs Hf1), (discard_file_h _ _ _ _ _ _ _ _ H H0 Hs Hf1).
    destruct (discard_file_same b (f_num f0) (g_max g) f1) as (_ & _ & Qm & Q & _). rewrite Q. f_equal.
    unfold read_limit. rewrite Hb, Qm. change (negb (0 =? 0)) with false. cbv iota.
    assert (FIf := gi_fi _ _ _ _ _ _ H f1 Hf1). unfold newest.
    assert (V : forall x, In x (rev (for_key k (kept b (fh f1)))) -> visible (m_max (f_mt f1)) x = visible NIL x).
    { intros x Hx. apply in_rev in Hx. apply filter_In in Hx. destruct Hx as [Hx _]. apply filter_In in Hx. destruct Hx as [Hx _].
      assert (B := mr_bnd _ _ _ (mw_mr _ _ _ (fi_mw _ _ FIf)) x Hx). unfold visible. rewrite nil_invalid. cbn [negb orb].
      apply orb_true_iff. right. lia. }
    clear -V. revert V. induction (rev (for_key k (kept b (fh f1)))) as [|x l IH]; intros V; [reflexivity|]. cbn [find].
    rewrite (V x (or_introl eq_refl)), IH by (intros y Hy; apply V; right; exact Hy). reflexivity.
Qed.

(** The flushed number and [F]. *)
Lemma flushed_above : forall n0 pre h F g b, GI n0 pre h F g -> F <> 0 -> (forall s, lm_flushed_seq g = Ok s -> s < b) -> F < b.
Proof.
  intros n0 pre h F g b H HF A. destruct (gi_F _ _ _ _ _ _ H HF) as (r & Hr & Er). apply in_flat_map in Hr. destruct Hr as (f & Hf & Hr).
  assert (U := gi_flu _ _ _ _ _ _ H f r Hf Hr). replace (F <? r_seq r) with false in U by lia.
  unfold unflushed in U. apply orb_false_iff in U. destruct U as [U1 U2]. apply negb_false_iff in U1.
  assert (Nn : m_flushed (f_mt f) <> NIL) by (intros X; rewrite X in U1; discriminate).
  apply in_split in Hf. destruct Hf as (a & c & E). assert (a = []) by (apply (gi_first _ _ _ _ _ _ H a f c E Nn)). subst a.
  assert (N := gi_nums _ _ _ _ _ _ H). rewrite E in N. destruct N as [N _].
  specialize (A (m_flushed (f_mt f))). unfold lm_flushed_seq in A. rewrite (gi_last_flushed _ _ _ _ _ _ H) in A.
  rewrite E in A. cbn [app file_at find] in A. unfold file_at in A. cbn [find] in A. rewrite N, N.eqb_refl, U1 in A. specialize (A eq_refl). lia.
Qed.

Lemma kept_tab : forall h F b, F < b -> filter (fun r => r_seq r <=? F) (kept b h) = filter (fun r => r_seq r <=? F) h.
Proof.
  intros h F b L. unfold kept. rewrite filter_filter. apply filter_ext. intros x. destruct (r_seq x <=? F) eqn:E.
  - replace (r_seq x <? b) with true by lia. reflexivity.
  - apply andb_false_r.
Qed.

Theorem discard_get_ok : forall c h d b d' k, cfg_ok c -> c_lso c = false -> reach hash c h d -> d_bat d = None ->
  above_flushed b d -> db_discard b d = (Ok tt, d') -> db_get hash c k d' = spec_get (kept b h) k.
Proof.
  intros c h d b d' k Cok Hlso R Bt A E. destruct (reach_inv hash c h d Cok R) as [(n0 & pre & F & part & H & Ht & Hl & HF & HFl & HG & HB)].
  rewrite Bt in HB. destruct HB as [-> Hb]. rewrite app_nil_r in *. unfold db_discard in E.
  destruct (lm_discard b (d_log d)) as [x g'] eqn:Ed. injection E as -> <-.
  unfold db_get. cbn [d_log d_tab]. rewrite (discard_log_get _ _ _ _ _ _ _ c k H Hl Hb Ed), Ht.
  replace (filter (fun r => r_seq r <=? F) h) with (filter (fun r => r_seq r <=? F) (kept b h)).
  - apply (log_plus_tab hash). apply sorted_seq_filter, (gi_asc _ _ _ _ _ _ H).
  - destruct (N.eq_dec F 0) as [->|Fn].
    + rewrite !filter_none; [reflexivity| |].
      * intros x Hx. assert (X := gi_pos _ _ _ _ _ _ H x Hx). lia.
      * intros x Hx. apply filter_In in Hx. assert (X := gi_pos _ _ _ _ _ _ H x (proj1 Hx)). lia.
    + apply kept_tab. apply (flushed_above _ _ _ _ _ _ H Fn A).
Qed.

(** ** Reads by sequence number *)
Lemma by_start_map : forall (t : lgf -> lgf) s fs, (forall f, f_start (t f) = f_start f) ->
  by_start s (map t fs) = option_map t (by_start s fs).
Proof.
  intros t s fs E. induction fs as [|f fs IH]; [reflexivity|]. cbn [map by_start]. rewrite IH.
  destruct (by_start s fs) as [x|]; cbn [option_map]; rewrite ?E.
  - destruct (_ && _); reflexivity.
  - destruct (_ <=? _); reflexivity.
Qed.

Lemma file_by_seq_map : forall (t : lgf -> lgf) s fs, (forall f, f_start (t f) = f_start f) ->
  (forall f, m_min (f_mt (t f)) = m_min (f_mt f)) -> (forall f, m_max (f_mt (t f)) = m_max (f_mt f)) ->
  file_by_seq s false (map t fs) = option_map t (file_by_seq s false fs).
Proof.
  intros t s fs E1 E2 E3. unfold file_by_seq. rewrite by_start_map by exact E1.
  destruct (by_start s fs) as [x|]; [|reflexivity]. cbn [option_map]. rewrite E2, E3.
  destruct (_ && _); [reflexivity|]. cbn [negb]. rewrite !orb_true_r. destruct (_ && _); reflexivity.
Qed.

Theorem discard_seq_ok : forall c h d b d' s, cfg_ok c -> reach hash c h d -> d_bat d = None -> db_discard b d = (Ok tt, d') ->
  lm_get_seq s (d_log d') =
  match lm_get_seq s (d_log d) with
  | Ok r => if r_seq r <? b then Ok r else Fail SEQNUM_NOT_FOUND
  | other => other
  end.
Proof.
  intros c h d b d' s Cok R Bt E. destruct (reach_inv hash c h d Cok R) as [(n0 & pre & F & part & H & Ht & Hl & HF & HFl & HG & HB)].
  rewrite Bt in HB. destruct HB as [-> Hb]. rewrite app_nil_r in *. unfold db_discard in E.
  destruct (lm_discard b (d_log d)) as [x g'] eqn:Ed. injection E as -> <-. cbn [d_log].
  destruct (lm_discard_ok _ _ _ _ _ _ _ H Hl Ed) as (f0 & H0 & Hs & ->). clear Ed.
  unfold lm_get_seq, with_files. cbn [g_files g_bar]. rewrite file_by_seq_map; [|intros f; apply discard_file_same..].
  destruct (file_by_seq s false (g_files (d_log d))) as [f|] eqn:Ef; [|reflexivity]. cbn [option_map].
  assert (Hf : In f (g_files (d_log d))).
  { unfold file_by_seq in Ef. destruct (by_start s (g_files (d_log d))) as [y|] eqn:Ey; [|discriminate].
    destruct (_ && _) in Ef; [discriminate|]. destruct (_ && _) in Ef; [discriminate|]. injection Ef as <-. apply (by_start_spec _ _ _ Ey). }
  destruct (discard_file_same b (f_num f0) (g_max (d_log d)) f) as (_ & _ & Q1 & Q2 & _).
  rewrite Q1. destruct (_ || _); [reflexivity|]. unfold mt_get_seq. rewrite Q2. destruct (_ && _); [reflexivity|].
  change (m_seq (f_mt (discard_file b (f_num f0) (g_max (d_log d)) f))) with (fh (discard_file b (f_num f0) (g_max (d_log d)) f)).
  rewrite (discard_file_h _ _ _ _ _ _ _ _ H H0 Hs Hf). change (m_seq (f_mt f)) with (fh f).
  assert (A := mw_asc _ _ _ (fi_mw _ _ (gi_fi _ _ _ _ _ _ H f Hf))).
  assert (A' : sorted_seq (kept b (fh f))) by (apply sorted_seq_filter, A).
  destruct (seq_find s (fh f)) as [r|] eqn:Er.
  - apply seq_find_in in Er. destruct Er as [Er1 Er2]. subst s. destruct (r_seq r <? b) eqn:Eb.
    + rewrite (seq_find_some _ r A'); [reflexivity|]. apply filter_In. auto.
    + destruct (seq_find (r_seq r) (kept b (fh f))) as [z|] eqn:Ez; [|reflexivity]. exfalso.
      apply seq_find_in in Ez. destruct Ez as [Ez1 Ez2]. apply filter_In in Ez1. lia.
  - destruct (seq_find s (kept b (fh f))) as [z|] eqn:Ez; [|reflexivity]. exfalso.
    apply seq_find_in in Ez. destruct Ez as [Ez1 Ez2]. apply filter_In in Ez1. rewrite seq_find_none in Er. apply (Er z); tauto.
Qed.

(** ** The key iterator *)
Lemma fwd_valid_defined : forall x l, (forall n, In n l -> snd n <> []) -> fwd_valid_u x l = Ok (fwd_valid x l).
Proof.
  intros x l. induction l as [|[k rs] l IH]; intros N; [reflexivity|]. cbn [fwd_valid_u fwd_valid].
  destruct (above_end x k); [reflexivity|]. assert (Nr := N (k, rs) (or_introl eq_refl)). cbn [snd] in Nr.
  destruct rs as [|r rs]; [congruence|]. cbn [node_valid_u min_seq_u]. unfold node_valid. cbn [min_seq_of].
  destruct (_ && _); [reflexivity|]. apply IH. intros n Hn; apply N; right; exact Hn.
Qed.
Lemma x_init_defined : forall nodes a z from upto, (forall n, In n nodes -> snd n <> []) ->
  x_init_u nodes a z from upto = Ok (x_init nodes a z from upto).
Proof.
  intros nodes a z from upto N. unfold x_init_u, x_init. rewrite fwd_valid_defined.
  - destruct (fwd_valid _ _); reflexivity.
  - intros n Hn. apply filter_In in Hn. apply N, Hn.
Qed.
Lemma x_next_defined : forall x, (forall n, In n (x_nodes x) -> snd n <> []) ->
  exists x' m, x_next_u x = Ok (x', m) /\ x_next x = Some (x', m) /\ x_nodes x' = x_nodes x.
Proof.
  intros x N. unfold x_next_u, x_next. rewrite fwd_valid_defined.
  - destruct (fwd_valid _ _); eauto.
  - intros n Hn. apply filter_In in Hn. apply N, Hn.
Qed.

Lemma files_between_in : forall n lo fs l, DbIterModel.files_between n lo fs = Some l -> forall f, In f l -> In f fs.
Proof.
  induction n as [|n IH]; intros lo fs l E f Hf; cbn [DbIterModel.files_between] in E; [injection E as <-; destruct Hf|].
  destruct (file_at lo fs) as [f1|] eqn:E1; [|discriminate].
  destruct (DbIterModel.files_between n (lo + 1) fs) as [l'|] eqn:E2; [|discriminate]. injection E as <-.
  destruct Hf as [<-|Hf]; [apply (file_at_in _ _ _ E1)|eapply IH; eauto].
Qed.
Lemma all_ok_map : forall {A B} (f : A -> res (option B)) (g : A -> option B) l, (forall a, In a l -> f a = Ok (g a)) ->
  all_ok (map f l) = Ok (some_of (map g l)).
Proof.
  intros A B f g l. induction l as [|a l IH]; intros H; [reflexivity|]. cbn [map all_ok]. rewrite (H a (or_introl eq_refl)).
  rewrite IH by (intros y Hy; apply H; right; exact Hy). unfold some_of. cbn [flat_map]. destruct (g a); reflexivity.
Qed.
Lemma log_open_defined : forall a z g, (forall f n, In f (g_files g) -> In n (m_key (f_mt f)) -> snd n <> []) ->
  log_open a z g = match log_leaves a z g with Some l => Ok l | None => Fail NOT_INITIALIZED_ST end.
Proof.
  intros a z g N. unfold log_open, log_leaves. destruct (itr_range NIL NIL g) as [[[lo hi]|u]|]; [|reflexivity..].
  destruct (itr_files lo hi g) as [[x y]|]; [|reflexivity].
  destruct (DbIterModel.files_between (N.to_nat (y + 1 - x)) x (g_files g)) as [l|] eqn:E; [|reflexivity].
  apply all_ok_map. intros f Hf. apply x_init_defined. intros n Hn. eapply N; [eapply files_between_in; eauto|exact Hn].
Qed.

(** No node is emptied if every key that loses a record keeps one. *)
Lemma nodes_stay : forall c h d b d', cfg_ok c -> reach hash c h d -> db_discard b d = (Ok tt, d') -> older_stays b d ->
  forall f n, In f (g_files (d_log d')) -> In n (m_key (f_mt f)) -> snd n <> [].
Proof.
  intros c h d b d' Cok R E O f n Hf Hn. destruct (reach_inv hash c h d Cok R) as [(n0 & pre & F & part & H & Ht & Hl & HF & HFl & HG & HB)].
  unfold db_discard in E. destruct (lm_discard b (d_log d)) as [x g'] eqn:Ed. injection E as -> <-. cbn [d_log] in *.
  destruct (lm_discard_ok _ _ _ _ _ _ _ H Hl Ed) as (f0 & H0 & Hs & ->). clear Ed. cbn [with_files g_files] in Hf.
  apply in_map_iff in Hf. destruct Hf as (f1 & <- & Hf1). assert (W := fi_mw _ _ (gi_fi _ _ _ _ _ _ H f1 Hf1)).
  unfold discard_file in Hn. destruct (between _ _ _); [|apply (mr_ne _ _ _ (mw_mr _ _ _ W) n Hn)].
  cbn [with_mt f_mt] in Hn.
  assert (L : snd n = for_key (fst n) (kept b (fh f1))).
  { rewrite <- (lookup_discard _ _ b _ W).
    assert (S : sorted_keys (m_key (mt_discard b (f_mt f1)))) by (unfold sorted_keys; rewrite discard_keys; apply (mr_ksort _ _ _ (mw_mr _ _ _ W))).
    clear -Hn S. induction (m_key (mt_discard b (f_mt f1))) as [|[k rs] l IH]; [destruct Hn|]. rewrite lookup_cons.
    apply sorted_keys_cons in S. destruct S as [S SK]. destruct Hn as [<-|Hn]; [cbn [fst snd]; rewrite keqb_refl; reflexivity|].
    destruct (keqb k (fst n)) eqn:Ek; [|apply IH; assumption]. exfalso. apply keqb_true in Ek. subst k.
    assert (X := SK (fst n) (in_map fst _ _ Hn)). unfold klt in X. rewrite kcmp_refl in X. discriminate. }
  assert (Old : exists r, In r (fh f1) /\ r_key r = fst n /\ is_cmd r = false).
  { assert (Kn : In (fst n) (map fst (m_key (f_mt f1)))) by (rewrite <- (discard_keys b); apply in_map, Hn).
    apply in_map_iff in Kn. destruct Kn as (n1 & En & Hn1).
    assert (Ne := mr_ne _ _ _ (mw_mr _ _ _ W) n1 Hn1).
    assert (L1 : snd n1 = for_key (fst n1) (fh f1)).
    { rewrite <- (mr_key _ _ _ (mw_mr _ _ _ W)). assert (S := mr_ksort _ _ _ (mw_mr _ _ _ W)).
      clear -Hn1 S. induction (m_key (f_mt f1)) as [|[k rs] l IH]; [destruct Hn1|]. rewrite lookup_cons.
      apply sorted_keys_cons in S. destruct S as [S SK]. destruct Hn1 as [<-|Hn]; [cbn [fst snd]; rewrite keqb_refl; reflexivity|].
      destruct (keqb k (fst n1)) eqn:Ek; [|apply IH; assumption]. exfalso. apply keqb_true in Ek. subst k.
      assert (X := SK (fst n1) (in_map fst _ _ Hn)). unfold klt in X. rewrite kcmp_refl in X. discriminate. }
    destruct (snd n1) as [|r rs] eqn:Es; [congruence|]. assert (Hr : In r (for_key (fst n1) (fh f1))) by (rewrite <- L1; left; reflexivity).
    apply filter_In in Hr. destruct Hr as [Hr Kr]. apply andb_true_iff in Kr. destruct Kr as [K1 K2]. apply keqb_true in K1. apply negb_true_iff in K2.
    exists r. split; [exact Hr|]. split; [congruence|exact K2]. }
  destruct Old as (r & Hr & Kr & Cr).
  assert (Kept : exists r', In r' (fh f1) /\ r_key r' = fst n /\ is_cmd r' = false /\ r_seq r' < b).
  { destruct (N.lt_ge_cases (r_seq r) b) as [Lt|Ge]; [exists r; auto|].
    destruct (O f1 r Hf1 Hr Ge Cr) as (r' & A & B & C & D). exists r'. split; [exact A|]. split; [congruence|auto]. }
  destruct Kept as (r' & A & B & C & D). rewrite L. intros X.
  assert (Y : In r' (for_key (fst n) (kept b (fh f1)))); [|rewrite X in Y; destruct Y].
  apply filter_In. split; [apply filter_In; split; [exact A|lia]|]. rewrite B, keqb_refl, C. reflexivity.
Qed.

Theorem discard_iter_ok : forall c h d b d' a z, cfg_ok c -> reach hash c h d -> db_discard b d = (Ok tt, d') -> older_stays b d ->
  log_open a z (d_log d') = match log_leaves a z (d_log d') with Some l => Ok l | None => Fail NOT_INITIALIZED_ST end.
Proof.
  intros c h d b d' a z Cok R E O. apply log_open_defined. intros f n Hf Hn. apply (nodes_stay c h d b d' Cok R E O f n Hf Hn).
Qed.

(** Without discardDirty the iterator is never undefined. *)
Theorem iter_ok : forall c h d a z, cfg_ok c -> reach hash c h d ->
  log_open a z (d_log d) = match log_leaves a z (d_log d) with Some l => Ok l | None => Fail NOT_INITIALIZED_ST end.
Proof.
  intros c h d a z Cok R. destruct (reach_inv hash c h d Cok R) as [(n0 & pre & F & part & H & _)].
  apply log_open_defined. intros f n Hf Hn. apply (mr_ne _ _ _ (mw_mr _ _ _ (fi_mw _ _ (gi_fi _ _ _ _ _ _ H f Hf))) n Hn).
Qed.

End Proofs.
