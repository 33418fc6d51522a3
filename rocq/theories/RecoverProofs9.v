(** Crash recovery with tables: what is read after a crash in the middle of a sync or a flush. *)
From Verif Require Import Base KeyModel KeyProofs LogFormatModel LogManifestModel BloomModel BloomProofs MemTableModel MemTableProofs
  LogMgrModel LogMgrProofs LogMgrProofs2 LogMgrProofs3 DbModel DbProofs RecoverModel RecoverProofs RecoverProofs2 RecoverProofs3
  RecoverProofs4 RecoverProofs5 RecoverProofs7 RecoverProofs8.
From Coq Require Import Sorted ZifyBool.
Local Open Scope N_scope.

Section Proofs.
Variable hash : key -> N * N.
Notation GI := (GI hash).
Notation FI := (FI hash).
Notation DI := (DI hash).
Notation PI := (PI hash).

(** The manifest lists all files of the running database. *)
Lemma man_full : forall pw c h hs p n0 pre hh F, PI pw c h hs p -> GI n0 pre hh F (d_log (p_db p)) ->
  Forall2 ent_ok (l_files (p_man p)) (g_files (d_log (p_db p))) /\ l_max (p_man p) = g_max (d_log (p_db p)) /\
  l_flushed (p_man p) = g_lf (d_log (p_db p)) /\ (l_synced (p_man p) = NIL \/ l_synced (p_man p) <= l_max (p_man p)).
Proof.
  intros pw c h hs p n0 pre hh F P H. destruct (pi_man _ _ _ _ _ _ P) as [A (a & b & E & Hb & He & (a' & f & Ea & Em) & Hlf & Hls)].
  split; [exact A|]. split; [|split; [exact Hlf|exact Hls]].
  assert (Hbn : b = []).
  { apply f2_len in A. apply f2_len in He. rewrite E, app_length in A. destruct b; [reflexivity|cbn [length] in A; lia]. }
  rewrite Hbn, app_nil_r in E. destruct (gi_last _ _ _ _ _ _ H) as (u & z & Eu & Ez). rewrite E, Ea in Eu. apply app_inj_tail in Eu.
  destruct Eu as [_ ->]. congruence.
Qed.

(** ** In a sync *)

Definition sync_cont (s0 s1 n : N) (j : nat) (f : lgf) : list rec :=
  if f_num f <? n then upto s1 (fh f)
  else if f_num f =? n then upto s0 (fh f) ++ firstn j (skipn (length (upto s0 (fh f))) (upto s1 (fh f)))
  else upto s0 (fh f).

Lemma upto_prefix : forall s l, sorted_seq l -> exists t, l = upto s l ++ t /\ forall r, In r t -> s < r_seq r.
Proof.
  intros s l; induction l as [|r l IH]; intros Hs; [exists []; split; [reflexivity|intros ? []]|]. cbn [upto filter].
  assert (Hs2 : sorted_seq l) by (unfold sorted_seq in *; cbn [map] in Hs; inversion Hs; assumption).
  destruct (r_seq r <=? s) eqn:E.
  - destruct (IH Hs2) as (t & Et & Ht). exists t. split; [cbn [app]; f_equal; exact Et|exact Ht].
  - exists (r :: l). assert (Hgt : forall y, In y (r :: l) -> s < r_seq y).
    { intros y [<-|Hy]; [lia|]. assert (X := asc_app_lt [r] l r y Hs (or_introl eq_refl) Hy). lia. }
    split; [|exact Hgt]. fold (upto s l). rewrite (upto_none s l); [reflexivity|]. intros y Hy. apply Hgt. right; exact Hy.
Qed.

Lemma upto_mono_prefix : forall s0 s1 l, sorted_seq l -> s0 <= s1 -> prefix (upto s0 l) (upto s1 l).
Proof.
  intros s0 s1 l Hs Hle. destruct (upto_prefix s0 (upto s1 l) (upto_sorted _ _ Hs)) as (t & Et & _). exists t. rewrite Et at 1. f_equal.
  unfold upto. clear -Hle. induction l as [|r l IH]; [reflexivity|]. cbn [filter]. destruct (r_seq r <=? s1) eqn:E1; cbn [filter].
  - destruct (r_seq r <=? s0); rewrite IH; reflexivity.
  - replace (r_seq r <=? s0) with false by lia. exact IH.
Qed.

Lemma skipn_app_len : forall {A} (a b : list A), skipn (length a) (a ++ b) = b.
Proof. intros A a; induction a as [|x a IH]; intros b; [reflexivity|]. cbn. apply IH. Qed.

Lemma flat_upto : forall s a, flat_map (fun f => upto s (fh f)) a = upto s (all_h a).
Proof. intros s a; induction a as [|f a IH]; [reflexivity|]. change (all_h (f :: a)) with (fh f ++ all_h a). cbn [flat_map]. rewrite upto_app, IH. reflexivity. Qed.

Lemma crash_in_sync : forall pw c h hs p n j torn, cfg_ok c -> c_lso c = false -> PI pw c h hs p ->
  exists p' h1, pstep hash c (PReopen (XSync n j torn)) p = Some (Ok [], p') /\ prefix hs h1 /\ prefix h1 h /\
    (forall k, db_get hash c k (p_db p') = spec_get h1 k).
Proof.
  intros pw c h hs p n j torn Cok Hlso P. destruct (pi_good _ _ _ _ _ _ P) as (n0 & pre & F & part & G0).
  destruct (pi_di _ _ _ _ _ _ P) as [(n0' & pre' & F' & part' & H & Ht & Hl & HF & HFl & HG & HB)].
  clear n0 pre F part G0. rename n0' into n0, pre' into pre, F' into F, part' into part.
  assert (G0 : good hash c h hs (p_db p) n0 pre F part).
  { constructor; try assumption; [apply (pi_pre _ _ _ _ _ _ P)|apply (pi_mark _ _ _ _ _ _ P)]. }
  assert (Hle := pi_le _ _ _ _ _ _ P). set (d := p_db p) in *. set (g := d_log d) in *.
  set (s0 := lastseq hs) in *. set (s1 := lastseq h) in *.
  destruct (good_hs hash c h hs d n0 pre F part (g_files g) [] G0) as (HF0 & Hhs & Hs & Hpos & Ht0 & _ & _); [rewrite app_nil_r; reflexivity|intros f []|].
  fold s0 in HF0, Hhs.
  (* h as the records up to s1 *)
  assert (Hh : h = pre ++ upto s1 (all_h (g_files g))).
  { assert (X := upto_self h part (gi_asc _ _ _ _ _ _ H) ltac:(intros r Hr; apply (gi_pos _ _ _ _ _ _ H); apply in_or_app; right; exact Hr)).
    fold s1 in X. rewrite <- X at 1. rewrite (gi_hist _ _ _ _ _ _ H), upto_app. f_equal. apply upto_all. intros r Hr.
    assert (Y := gi_pre _ _ _ _ _ _ H r Hr). lia. }
  set (cont := sync_cont s0 s1 n j).
  assert (Hfs : forall f, In f (g_files g) -> sorted_seq (fh f)) by (intros f Hf; apply (fi_sorted hash), (gi_fi _ _ _ _ _ _ H f Hf)).
  assert (Hmid : forall f, In f (g_files g) -> exists w v, upto s1 (fh f) = upto s0 (fh f) ++ w ++ v /\
     firstn j (skipn (length (upto s0 (fh f))) (upto s1 (fh f))) = w).
  { intros f Hf. destruct (upto_mono_prefix s0 s1 (fh f) (Hfs f Hf) Hle) as (t & Et). exists (firstn j t), (skipn j t).
    rewrite firstn_skipn, Et, skipn_app_len. auto. }
  assert (Hlo : forall f, In f (g_files g) -> prefix (upto s0 (fh f)) (cont f)).
  { intros f Hf. unfold cont, sync_cont. destruct (f_num f <? n); [apply upto_mono_prefix; [apply Hfs, Hf|exact Hle]|].
    destruct (f_num f =? n); [eexists; reflexivity|apply prefix_refl]. }
  assert (Hhi : forall f, In f (g_files g) -> prefix (cont f) (upto s1 (fh f))).
  { intros f Hf. unfold cont, sync_cont. destruct (f_num f <? n); [apply prefix_refl|].
    destruct (f_num f =? n); [|apply upto_mono_prefix; [apply Hfs, Hf|exact Hle]].
    destruct (Hmid f Hf) as (w & v & Ew & ->). exists v. rewrite Ew, app_assoc. reflexivity. }
  assert (Hord : forall a f b, g_files g = a ++ f :: b -> cont f <> upto s1 (fh f) -> forall x, In x b -> cont x = upto s0 (fh x)).
  { intros a f b E Hne x Hx. assert (HN := gi_nums _ _ _ _ _ _ H). fold g in HN. rewrite E in HN. apply nums_app in HN. destruct HN as [_ [N1 N2]].
    assert (Nx := nums_in _ _ _ N2 Hx). unfold cont, sync_cont in *. destruct (f_num f <? n) eqn:E1; [congruence|].
    replace (f_num x <? n) with false by lia. replace (f_num x =? n) with false by lia. reflexivity. }
  destruct (in_order cont s0 s1 (g_files g) (gi_sorted_files hash _ _ _ _ _ H) Hlo Hhi Hord) as [Q1 Q2].
  set (h1 := pre ++ flat_map cont (g_files g)).
  assert (P1 : prefix hs h1) by (rewrite Hhs; apply prefix_app, Q1).
  assert (P2 : prefix h1 h) by (rewrite Hh; apply prefix_app, Q2).
  (* the step *)
  cbn [pstep]. unfold p_reopen. destruct (step hash c (OSync no_fault) (p_db p)) as [[x0 d']|] eqn:Est.
  2: { exfalso. unfold step in Est. destruct (lm_sync no_fault (d_log (p_db p))); discriminate. }
  assert (Hmk := sync_marks hash c h d n0 pre F part s0 H HFl HB Hle (pi_mark _ _ _ _ _ _ P)).
  destruct (sync_exact hash _ _ _ _ _ H Hl) as (PP & QQ & ls & Ef & Hfull & Hge & Esy).
  unfold step in Est. fold d in Est. fold g in Est. rewrite Esy in Est. injection Est as <- <-. cbn [d_log d_tab g_files].
  fold g in Ef, Hmk, Hge, Hfull. fold g. set (sf := sync_file (g_max g) (g_bar g)) in *. set (fs' := PP ++ map sf QQ).
  assert (Hn' : map f_num fs' = map f_num (g_files g)).
  { unfold fs'. rewrite Ef, !map_app, map_map. f_equal. apply map_ext. intros f. apply sync_file_num. }
  assert (HN' : nums_from n0 fs') by (eapply nums_same; [symmetry; exact Hn'|apply (gi_nums _ _ _ _ _ _ H)]).
  assert (Hat : forall f, In f (g_files g) -> exists f', file_at (f_num f) fs' = Some f' /\ m_synced (f_mt f') = mark s1 f).
  { intros f Hf. assert (Hf2 := Hf). rewrite Ef in Hf2. apply in_app_or in Hf2. destruct Hf2 as [Hp|Hq].
    - exists f. split; [|apply (Hmk f Hf), Hfull, Hp]. assert (Hi : In f fs') by (apply in_or_app; left; exact Hp).
      apply in_split in Hi. destruct Hi as (u & v & Eu). apply (file_at_num _ _ _ _ _ HN' Eu).
    - exists (sf f). split; [|apply (Hmk f Hf)]. assert (Hi : In (sf f) fs') by (apply in_or_app; right; apply in_map, Hq).
      apply in_split in Hi. destruct Hi as (u & v & Eu). rewrite <- (sync_file_num (g_max g) (g_bar g) f). apply (file_at_num _ _ _ _ _ HN' Eu). }
  assert (Hdisk : forall f, In f (g_files g) -> exists y, dlog_at (f_num f) (map (write_some n j torn (g_files g) fs') (p_disk p)) = Some y /\ dl_recs y = cont f).
  { intros f Hf. assert (Dk := pi_disk _ _ _ _ _ _ P f Hf). unfold disk_ok in Dk. fold s0 in Dk. rewrite dlog_at_map.
    2: { intros y. unfold write_some. destruct (dl_num y <? n); [apply write_file_num|]. destruct (dl_num y =? n); [|reflexivity]. destruct (dl_torn y); reflexivity. }
    rewrite Dk. eexists. split; [reflexivity|].
    assert (A1 : file_at (f_num f) (g_files g) = Some f).
    { apply in_split in Hf. destruct Hf as (u & v & Eu). apply (file_at_num _ _ _ _ _ (gi_nums _ _ _ _ _ _ H) Eu). }
    destruct (Hat f Hf) as (f' & A2 & Sm).
    assert (Wf : dl_recs (write_file (g_files g) fs' (mkDL (f_num f) (upto s0 (fh f)) false)) = upto s1 (fh f)).
    { unfold write_file. cbn [dl_num dl_torn dl_recs]. rewrite A1, A2. cbn [dl_recs].
      apply (to_write_upto hash s0 s1 f f'); [apply (gi_fi _ _ _ _ _ _ H f Hf)|apply (pi_mark _ _ _ _ _ _ P f Hf)|exact Sm|exact Hle]. }
    unfold write_some, cont, sync_cont. cbn [dl_num dl_recs dl_torn]. destruct (f_num f <? n); [exact Wf|].
    destruct (f_num f =? n); [cbn [dl_recs]; rewrite Wf; reflexivity|reflexivity]. }
  destruct (man_full pw c h hs p n0 pre (h ++ part) F P H) as (M1 & M2 & M3 & M4).
  assert (Hsort : sorted_seq h1).
  { destruct P2 as [t Et]. assert (X := gi_asc _ _ _ _ _ _ H). rewrite Et, <- app_assoc in X. unfold sorted_seq in *. rewrite map_app in X. apply SS_app_inv in X. tauto. }
  assert (Htab : d_tab d = filter (fun r => r_seq r <=? F) h1).
  { destruct P1 as [w Ew]. destruct P2 as [t Et]. rewrite Ew, filter_app. rewrite <- Ht0.
    assert (X : filter (fun r => r_seq r <=? F) w = []); [|rewrite X, app_nil_r; reflexivity].
    rewrite Ht, Et, Ew, !filter_app, <- app_assoc in Ht0. rewrite <- (app_nil_r (filter _ hs)) in Ht0 at 2. apply app_inv_head in Ht0.
    apply app_eq_nil in Ht0. apply Ht0. }
  destruct (open_reads hash c g n0 pre (h ++ part) F [] (g_files g) cont (d_tab d) F
    (map (write_some n j torn (g_files g) fs') (p_disk p)) (p_dur p) (p_man p) (p_old p) Cok Hlso H Hl eq_refl (gi_ne _ _ _ _ _ _ H) (ent_nfs _ _ M1) M2 M3 M4) as (p' & E & Hget).
  - intros f [].
  - exact Hdisk.
  - intros f Hf. destruct (Hhi f Hf) as [v Ev]. destruct (upto_prefix s1 (fh f) (Hfs f Hf)) as (t & Et & _). exists (v ++ t). rewrite app_assoc, <- Ev. exact Et.
  - exact Hsort.
  - exact Htab.
  - lia.
  - intros f r [].
  - exists p', h1. fold d g fs'. rewrite E. split; [reflexivity|]. split; [exact P1|]. split; [exact P2|exact Hget].
Qed.

(** ** In a flush *)

Lemma split_mono : forall (rm : N -> bool) n0 fs, nums_from n0 fs -> (forall m n, m <= n -> rm n = true -> rm m = true) ->
  exists a b, fs = a ++ b /\ (forall f, In f a -> rm (f_num f) = true) /\ (forall f, In f b -> rm (f_num f) = false).
Proof.
  intros rm n0 fs; revert n0; induction fs as [|f fs IH]; intros n0 HN Hm; [exists [], []; split; [reflexivity|split; intros ? []]|].
  destruct HN as [N1 N2]. destruct (IH _ N2 Hm) as (a & b & E & Ha & Hb). destruct (rm (f_num f)) eqn:Er.
  - exists (f :: a), b. split; [rewrite E; reflexivity|]. split; [intros x [<-|Hx]; auto|exact Hb].
  - exists [], (f :: fs). split; [reflexivity|]. split; [intros ? []|]. intros x [<-|Hx]; [exact Er|].
    destruct (rm (f_num x)) eqn:Ex; [|reflexivity]. exfalso. assert (Nx := nums_in _ _ _ N2 Hx).
    rewrite (Hm (f_num f) (f_num x) ltac:(lia) Ex) in Er. discriminate.
Qed.

(** Log files are removed oldest first. *)
Definition oldest_first (held gone : N -> bool) : Prop :=
  forall m n, m <= n -> gone n && negb (held n) = true -> gone m && negb (held m) = true.

Lemma crash_in_flush : forall pw c h hs p fo seq held gone rs p1, cfg_ok c -> c_lso c = false -> PI pw c h hs p ->
  allowed c h (p_db p) (OFlush fo seq) -> o_beyond fo = false -> oldest_first held gone ->
  pstep hash c (PFlush fo seq held) p = Some (Ok rs, p1) ->
  exists p', pstep hash c (PReopen (XFlush fo seq held gone)) p = Some (Ok [], p') /\
    (forall k, db_get hash c k (p_db p') = spec_get hs k).
Proof.
  intros pw c h hs p fo seq held gone rs p1 Cok Hlso P Al Hbey Hold E. cbn [pstep] in E. unfold p_flush in E.
  destruct (pi_di _ _ _ _ _ _ P) as [(n0 & pre & F & part & H & Ht & Hl & HF & HFl & HG & HB)].
  assert (G0 : good hash c h hs (p_db p) n0 pre F part).
  { constructor; try assumption; [apply (pi_pre _ _ _ _ _ _ P)|apply (pi_mark _ _ _ _ _ _ P)]. }
  set (d := p_db p) in *. set (g := d_log d) in *. set (s0 := lastseq hs) in *.
  destruct (good_hs hash c h hs d n0 pre F part (g_files g) [] G0) as (HF0 & Hhs & Hs & Hpos & Ht0 & _ & _); [rewrite app_nil_r; reflexivity|intros f []|].
  fold s0 in HF0, Hhs.
  destruct (step hash c (OFlush fo seq) d) as [[x0 d']|] eqn:Est; [|discriminate].
  assert (Est2 := Est).
  destruct (flush_facts hash c h d fo seq n0 pre F part H Hl HB Al) as (ro & g1 & Efl & R1).
  unfold step in Est. rewrite Efl in Est. destruct ro as [[rr cs]|e|]; [| |destruct R1].
  2: { injection Est as <- <-. injection E as E _. discriminate. }
  destruct R1 as (n1 & pre1 & s & HsF & Hs1 & Hsl & Ers & H1 & _ & _ & (A & ft & B & EA & En1 & _ & EB)).
  rewrite Hbey in EB. injection Est as <- <-. fold g in EA, Efl.
  set (g' := with_bar g1 (g_bar g)) in *.
  assert (H1' : GI n1 pre1 (h ++ part) s g') by (apply gi_bar; exact H1).
  destruct (mark_file_marks s ft) as (M1 & M2 & M3 & M4). set (ft' := mark_file false s ft) in *.
  assert (EB' : g_files g' = ft' :: B) by exact EB.
  assert (Hsyn : s <= s0).
  { apply (flushed_synced hash n1 pre1 (h ++ part) s g' s0 H1'). intros f Hf. rewrite EB' in Hf. destruct Hf as [<-|Hf].
    - rewrite M3. rewrite (pi_mark _ _ _ _ _ _ P ft); [|fold d; fold g; rewrite EA; apply in_or_app; right; left; reflexivity]. unfold mark. rewrite M2. reflexivity.
    - apply (pi_mark _ _ _ _ _ _ P f). fold d; fold g. rewrite EA. apply in_or_app; right; right; exact Hf. }
  assert (Hpre1 : pre1 = pre ++ all_h A).
  { assert (X := gi_hist _ _ _ _ _ _ H). assert (Y := gi_hist _ _ _ _ _ _ H1'). rewrite EB' in Y. fold g in X. rewrite X, EA, all_h_app in Y.
    change (all_h (ft' :: B)) with (fh ft' ++ all_h B) in Y. change (all_h (ft :: B)) with (fh ft ++ all_h B) in Y. rewrite M2 in Y.
    rewrite app_assoc in Y. apply app_inv_tail in Y. symmetry. exact Y. }
  assert (Htab : d_tab d ++ rr = filter (fun r => r_seq r <=? s) hs).
  { destruct (pi_pre _ _ _ _ _ _ P) as [tl Etl].
    rewrite Ht0, Ers, Etl, <- app_assoc, filter_app, (filter_none _ (tl ++ part)), app_nil_r; [apply filter_cut; assumption|].
    intros r Hr. assert (X : s0 < r_seq r); [|lia].
    assert (Hasc := gi_asc _ _ _ _ _ _ H). assert (Hp := gi_pos _ _ _ _ _ _ H). rewrite Etl, <- app_assoc in Hasc, Hp. unfold s0.
    destruct hs as [|y t] eqn:Eh; [assert (Y := Hp r ltac:(apply in_or_app; right; exact Hr)); cbn; lia|]. rewrite <- Eh in *.
    destruct (lastseq_in hs) as (z & Hz & <-); [rewrite Eh; discriminate|]. apply (asc_app_lt _ _ z r Hasc Hz Hr). }
  (* the removed files *)
  set (rm := fun n => (n <? n1) && (gone n && negb (held n))).
  destruct (split_mono rm n0 (g_files g) (gi_nums _ _ _ _ _ _ H)) as (a0 & a1 & Ea & Ha0 & Ha1).
  { intros m n Hmn Hr. unfold rm in *. apply andb_prop in Hr. destruct Hr as [R1 R2]. rewrite (Hold m n Hmn R2). replace (m <? n1) with true by lia. reflexivity. }
  assert (HNg := gi_nums _ _ _ _ _ _ H). fold g in HNg.
  assert (HNA : nums_from n0 A /\ n1 = n0 + len A).
  { rewrite EA in HNg. apply nums_app in HNg. destruct HNg as [X [Y _]]. split; [exact X|]. rewrite En1. exact Y. }
  assert (Hdrop : forall f, In f (g_files g) -> dropped g g' (f_num f) = (f_num f <? n1)).
  { intros f Hf. unfold dropped. assert (Nf := nums_in _ _ _ HNg Hf).
    assert (A1 : file_at (f_num f) (g_files g) = Some f).
    { apply in_split in Hf. destruct Hf as (u & v & Eu). apply (file_at_num _ _ _ _ _ HNg Eu). }
    rewrite A1. assert (HN1 := gi_nums _ _ _ _ _ _ H1').
    assert (HL : n0 + len (g_files g) = n1 + len (g_files g')).
    { rewrite EA, EB', (proj2 HNA). unfold len. rewrite app_length. cbn [length]. lia. }
    destruct (f_num f <? n1) eqn:Q.
    - rewrite (file_at_none n1 (g_files g') (f_num f) HN1); [reflexivity|lia].
    - destruct (file_at_split (g_files g') n1 (f_num f) HN1) as (u & z & v & Ez & Enz & _); [lia|].
      rewrite <- Enz, (file_at_num _ _ _ _ _ HN1 Ez). reflexivity. }
  set (keep := fun y => negb (dropped g g' (dl_num y) && negb (held (dl_num y)) && gone (dl_num y))).
  assert (Hkeep : forall y f, In f (g_files g) -> dl_num y = f_num f -> keep y = negb (rm (f_num f))).
  { intros y f Hf Ey. unfold keep, rm. rewrite Ey, (Hdrop f Hf). destruct (f_num f <? n1), (held (f_num f)), (gone (f_num f)); reflexivity. }
  cbn [pstep]. unfold p_reopen. fold d. rewrite Est2. cbn [d_log d_tab]. fold g. fold g'. fold keep.
  assert (Hin0 : forall f, In f a0 -> In f (g_files g)) by (intros f Hf; rewrite Ea; apply in_or_app; left; exact Hf).
  assert (Hin1 : forall f, In f a1 -> In f (g_files g)) by (intros f Hf; rewrite Ea; apply in_or_app; right; exact Hf).
  assert (Hhs2 : pre ++ flat_map (fun f => upto s0 (fh f)) (g_files g) = hs) by (rewrite flat_upto; symmetry; exact Hhs).
  destruct (man_full pw c h hs p n0 pre (h ++ part) F P H) as (Q1 & Q2 & Q3 & Q4). apply ent_nfs in Q1.
  destruct (open_reads hash c g n0 pre (h ++ part) F a0 a1 (fun f => upto s0 (fh f)) (d_tab d ++ rr) s
    (filter keep (p_disk p)) (filter keep (p_dur p)) (p_man p) (p_old p) Cok Hlso H Hl Ea) as (p' & Eo & Hget); try assumption.
  - intros Z. assert (Hft : In ft (g_files g)) by (rewrite EA; apply in_or_app; right; left; reflexivity).
    rewrite Ea, Z, app_nil_r in Hft. assert (X := Ha0 ft Hft). unfold rm in X. rewrite En1 in X. replace (f_num ft <? f_num ft) with false in X by lia. discriminate.
  - intros f Hf. apply dlog_at_none. intros y Hy Ey. apply filter_In in Hy. destruct Hy as [_ Hy].
    rewrite (Hkeep y f (Hin0 f Hf) Ey), (Ha0 f Hf) in Hy. discriminate.
  - intros f Hf. assert (Dk := pi_disk _ _ _ _ _ _ P f (Hin1 f Hf)). unfold disk_ok in Dk. fold s0 in Dk. exists (mkDL (f_num f) (upto s0 (fh f)) false). split; [|reflexivity].
    apply dlog_at_filter; [exact Dk|]. intros y Ey. rewrite (Hkeep y f (Hin1 f Hf) Ey), (Ha1 f Hf). reflexivity.
  - intros f Hf. destruct (upto_prefix s0 (fh f) (fi_sorted hash _ (gi_fi _ _ _ _ _ _ H f Hf))) as (t & Et & _). exists t. exact Et.
  - rewrite Hhs2. exact Hs.
  - rewrite Hhs2. exact Htab.
  - intros f r Hf Hr. apply upto_in in Hr. destruct Hr as [Hr _]. assert (X := Ha0 f Hf). unfold rm in X. apply andb_prop in X. destruct X as [X _].
    assert (HfA : In f A).
    { assert (Hf2 := Hin0 f Hf). rewrite EA in Hf2. apply in_app_or in Hf2. destruct Hf2 as [Y|Y]; [exact Y|exfalso].
      rewrite EA in HNg. apply nums_app in HNg. destruct HNg as [_ HNg]. assert (Z := nums_in _ _ _ HNg Y). destruct HNA as [_ Z2]. lia. }
    apply (gi_pre _ _ _ _ _ _ H1'). rewrite Hpre1. apply in_or_app; right. apply in_flat_map. exists f; auto.
  - rewrite Hhs2 in Hget. exists p'. rewrite Eo. split; [reflexivity|exact Hget].
Qed.

(** From guarded runs. *)
Lemma preach_in_sync : forall pw c h hs p n j torn, cfg_ok c -> c_lso c = false -> preach hash pw c h hs p ->
  exists p' h1, pstep hash c (PReopen (XSync n j torn)) p = Some (Ok [], p') /\ (exists a, h1 = hs ++ a) /\ (exists b, h = h1 ++ b) /\
    (forall k, db_get hash c k (p_db p') = spec_get h1 k).
Proof. intros pw c h hs p n j torn Cok Hlso R. apply (crash_in_sync pw c h hs p n j torn Cok Hlso). eapply preach_inv; eassumption. Qed.

Lemma preach_in_flush : forall pw c h hs p fo seq held gone rs p1, cfg_ok c -> c_lso c = false -> preach hash pw c h hs p ->
  allowed c h (p_db p) (OFlush fo seq) -> o_beyond fo = false -> oldest_first held gone ->
  pstep hash c (PFlush fo seq held) p = Some (Ok rs, p1) ->
  exists p', pstep hash c (PReopen (XFlush fo seq held gone)) p = Some (Ok [], p') /\
    (forall k, db_get hash c k (p_db p') = spec_get hs k).
Proof.
  intros pw c h hs p fo seq held gone rs p1 Cok Hlso R. apply (crash_in_flush pw c h hs p fo seq held gone rs p1 Cok Hlso). eapply preach_inv; eassumption.
Qed.

(** ** Calls that acknowledge several writes *)

(** The same runs with the writes grouped by the call that acknowledged them: [bs] all, [bss] those
    before the last sync. *)
Inductive preachb (pw : bool) (c : cfg) : list (list rec) -> list (list rec) -> pdb -> Prop :=
| pb_new : preachb pw c [] [] (p_new c)
| pb_db : forall bs bss p o x p', preachb pw c bs bss p -> allowed c (concat bs) (p_db p) o ->
    pstep hash c (PDb o) p = Some (x, p') -> preachb pw c (bs ++ [acked x]) bss p'
| pb_sync : forall bs bss p fsync x p', preachb pw c bs bss p -> (pw = true -> fsync = true) ->
    pstep hash c (PSync fsync) p = Some (x, p') -> preachb pw c bs bs p'
| pb_flush : forall bs bss p fo seq held x p', preachb pw c bs bss p -> allowed c (concat bs) (p_db p) (OFlush fo seq) -> o_beyond fo = false ->
    pstep hash c (PFlush fo seq held) p = Some (x, p') -> preachb pw c bs bss p'
| pb_close : forall bs bss p x p', preachb pw c bs bss p -> concat bs <> [] -> d_bat (p_db p) = None ->
    pstep hash c (PReopen XClean) p = Some (x, p') -> preachb pw c bs bs p'
| pb_crash : forall bs bss p k x p', preachb pw c bs bss p -> crashes pw p k -> RecoverProofs6.settled (read_man p k) -> no_torn k ->
    pstep hash c (PReopen k) p = Some (x, p') -> preachb pw c bss bss p'.

Lemma preachb_flat : forall pw c bs bss p, preachb pw c bs bss p -> preach hash pw c (concat bs) (concat bss) p /\ exists t, bs = bss ++ t.
Proof.
  intros pw c bs bss p R. induction R as [|bs bss p o x p' R [IH [t Et]] Al E|bs bss p fsync x p' R [IH [t Et]] Hf E|bs bss p fo seq held x p' R [IH [t Et]] Al Hb E
    |bs bss p x p' R [IH [t Et]] Hne Hbat E|bs bss p k x p' R [IH [t Et]] Hk Hset Hnt E].
  - split; [constructor|exists []; reflexivity].
  - split; [|exists (t ++ [acked x]); rewrite Et, app_assoc; reflexivity]. rewrite concat_app. cbn [concat]. rewrite app_nil_r. eapply pr_db; eassumption.
  - split; [eapply pr_sync; eassumption|exists []; rewrite app_nil_r; reflexivity].
  - split; [eapply pr_flush; eassumption|exists t; exact Et].
  - split; [eapply pr_close; eassumption|exists []; rewrite app_nil_r; reflexivity].
  - split; [eapply pr_crash; eassumption|exists []; rewrite app_nil_r; reflexivity].
Qed.

Lemma preachb_crash : forall pw c bs bss p x, cfg_ok c -> c_lso c = false -> preachb pw c bs bss p -> crashes pw p x ->
  exists p', pstep hash c (PReopen x) p = Some (Ok [], p') /\ (exists t, bs = bss ++ t) /\
    (forall k, db_get hash c k (p_db p') = spec_get (concat bss) k).
Proof.
  intros pw c bs bss p x Cok Hlso R Hx. destruct (preachb_flat pw c bs bss p R) as [R1 T].
  destruct (preach_crash hash pw c (concat bs) (concat bss) p x Cok Hlso R1 Hx) as (p' & E & G & _). exists p'. auto.
Qed.

Lemma preachb_in_flush : forall pw c bs bss p fo seq held gone rs p1, cfg_ok c -> c_lso c = false -> preachb pw c bs bss p ->
  allowed c (concat bs) (p_db p) (OFlush fo seq) -> o_beyond fo = false -> oldest_first held gone ->
  pstep hash c (PFlush fo seq held) p = Some (Ok rs, p1) ->
  exists p', pstep hash c (PReopen (XFlush fo seq held gone)) p = Some (Ok [], p') /\ (exists t, bs = bss ++ t) /\
    (forall k, db_get hash c k (p_db p') = spec_get (concat bss) k).
Proof.
  intros pw c bs bss p fo seq held gone rs p1 Cok Hlso R Al Hb Ho E. destruct (preachb_flat pw c bs bss p R) as [R1 T].
  destruct (preach_in_flush pw c (concat bs) (concat bss) p fo seq held gone rs p1 Cok Hlso R1 Al Hb Ho E) as (p' & E2 & G). exists p'. auto.
Qed.

End Proofs.
