(** Crash recovery with tables: the recovered database can go on. *)
From Verif Require Import Base KeyModel KeyProofs LogFormatModel LogManifestModel BloomModel BloomProofs MemTableModel MemTableProofs
  LogMgrModel LogMgrProofs LogMgrProofs2 LogMgrProofs3 DbModel DbProofs RecoverModel RecoverProofs RecoverProofs2 RecoverProofs3
  RecoverProofs4 RecoverProofs5.
From Coq Require Import Sorted ZifyBool.
Local Open Scope N_scope.

Section Proofs.
Variable hash : key -> N * N.
Notation GI := (GI hash).
Notation FI := (FI hash).
Notation DI := (DI hash).
Notation PI := (PI hash).
Notation RI := (RI hash).
Notation good := (good hash).

(** The first automatic number after recovery. *)
Lemma recovered_next : forall c fs n0 mx lf X tab disk dur man old full r z, cfg_ok c -> nums_from n0 fs -> mx + 1 = n0 + len fs -> mx + 1 < NIL ->
  (exists fs1 f', fs = fs1 ++ [f'] /\ f_imm f' = true /\ m_max (f_mt f') = (if z =? 0 then NIL else z)) -> z + 1 < NIL -> r_seq r = NIL ->
  exists p', pstep hash c (PDb (OSet full r)) (mkP (mkDb (mkG fs mx lf X 0) tab [] None) disk dur man old) = Some (Ok [stored r (z + 1)], p').
Proof.
  intros c fs n0 mx lf X tab disk dur man old full r z [Co Cr Cm] HN Hmx Hlim (fs1 & f' & E & Himm & Hmax) Hz Hr.
  cbn [pstep]. unfold p_write, step. cbn [p_db d_bat d_log d_tab d_gone].
  set (g := mkG fs mx lf X 0). assert (Hnil : NIL <> 0) by (rewrite nil_val; discriminate).
  assert (HA : file_at mx fs = Some f').
  { assert (HN2 := HN). rewrite E in HN2. apply nums_app in HN2. destruct HN2 as [_ [Q _]].
    assert (Hf : f_num f' = mx) by (rewrite E in Hmx; unfold len in *; rewrite app_length in Hmx; cbn [length] in Hmx; lia).
    rewrite <- Hf. eapply file_at_num; [exact HN|exact E]. }
  assert (Hset : exists g2, lm_set hash c full r g = (Ok (stored r (z + 1)), g2)).
  { unfold lm_set. rewrite Cr, Hr. replace (NIL =? 0) with false by lia. unfold max_num. cbn [g g_max]. replace (mx =? NIL) with false by lia.
    rewrite Co, andb_false_r. cbv zeta. cbn [g g_files]. rewrite HA. unfold valid_to_write. rewrite Himm. cbn [orb negb andb].
    unfold add_new_file. cbn [g g_max g_files g_lf g_ls g_bar].
    assert (Hm0 : (mx + 1) mod 2 ^ 64 = mx + 1) by (apply N.mod_small; rewrite nil_val in Hlim; lia). rewrite Hm0.
    set (start := (m_max (f_mt f') + 1) mod 2 ^ 64).
    assert (Hst : (start = 0 /\ z = 0) \/ (start = z + 1)).
    { unfold start. rewrite Hmax. destruct (z =? 0) eqn:Q; [left; split; [rewrite nil_val; reflexivity|lia]|right].
      apply N.mod_small. rewrite nil_val in Hz. lia. }
    set (nf := mkF (mx + 1) start false (mt_init (c_maxent c * 64) start)). unfold file_set. cbn [g_files].
    assert (HNn : nums_from n0 (fs ++ [nf])).
    { apply nums_app. split; [exact HN|]. cbn [nums_from nf f_num]. split; [lia|exact I]. }
    assert (HAn : file_at (mx + 1) (fs ++ [nf]) = Some nf) by exact (file_at_num _ _ _ nf [] HNn eq_refl).
    rewrite HAn, Co. unfold lf_set. rewrite andb_false_r. cbn [andb].
    assert (Hput := mt_put_spec hash [] (f_mt nf) r (mw_init hash (c_maxent c * 64) start ltac:(lia))).
    assert (Q1 : m_start (f_mt nf) < NIL) by (cbn; lia).
    specialize (Hput Q1 (or_introl eq_refl) ltac:(lia)).
    assert (Hnext : next_seq (r_seq r) (f_mt nf) = Some (z + 1)).
    { rewrite Hr. unfold next_seq. rewrite N.eqb_refl. cbn [nf f_mt mt_init m_max m_start]. rewrite N.eqb_refl.
      destruct Hst as [[-> ->]| ->]; [reflexivity|]. replace (z + 1 =? 0) with false by lia. reflexivity. }
    rewrite Hnext in Hput. destruct Hput as (m' & E1 & _). rewrite E1. eexists. reflexivity. }
  destruct Hset as (g2 & Es). rewrite Es. cbn [d_log]. destruct (g_max g2 =? g_max g); [eexists; reflexivity|].
  cbn [g g_max g_files]. rewrite HA. eexists. reflexivity.
Qed.

(** The recovered database satisfies the invariant of a running one, if something of every log
    file was synced. *)
Lemma recovered_di : forall c h hs d n0 pre F part a b fs X mx, good c h hs d n0 pre F part ->
  (forall f, In f (g_files (d_log d)) -> fh f <> [] -> f_num f <= m_min (f_mt f)) ->
  g_files (d_log d) = a ++ b -> (forall f, In f b -> upto (lastseq hs) (fh f) = []) -> a <> [] -> mx + 1 = n0 + len a ->
  Forall2 (RI (lastseq hs)) a fs -> n0 <= X <= mx -> (forall f, In f a -> upto (lastseq hs) (fh f) <> []) ->
  DI c hs (mkDb (mkG fs mx (g_lf (d_log d)) X 0) (d_tab d) [] None).
Proof.
  intros c h hs d n0 pre F part a b fs X mx G Hfew E Hb Hne Hmx RA HX Hsettled.
  destruct (good_hs hash _ _ _ _ _ _ _ _ a b G E Hb) as (HF & Hhs & Hs & Hpos & Ht & Hl & _).
  destruct G as [H _ Hl2 _ Hm].
  assert (HN := gi_nums _ _ _ _ _ _ H). rewrite E in HN. apply nums_app in HN. destruct HN as [HN _].
  assert (HNf : nums_from n0 fs) by (eapply nums_same; [|exact HN]; symmetry; eapply ri_nums; exact RA).
  assert (Hlen : len fs = len a).
  { unfold len. f_equal. rewrite <- (map_length f_num fs), (ri_nums _ _ _ _ RA), map_length. reflexivity. }
  assert (Hfne : fs <> []) by (intros Z; rewrite Z in *; apply f2_len in RA; destruct a; [congruence|discriminate]).
  assert (Hall := all_h_upto _ _ _ _ RA).
  assert (Hina : forall f, In f a -> In f (g_files (d_log d))) by (intros f Hf; rewrite E; apply in_or_app; left; exact Hf).
  assert (Hrec : forall f', In f' fs -> exists f, In f a /\ RI (lastseq hs) f f' /\ FI f' /\ m_synced (f_mt f') = mark (lastseq hs) f /\
    m_min (f_mt f') = m_min (f_mt f) /\ f_start f' = m_min (f_mt f) /\ m_max (f_mt f') = mark (lastseq hs) f /\ fh f' <> []).
  { intros f' Hf'. destruct (ri_in _ _ _ _ RA f' Hf') as (f & Hf & R). exists f. destruct (ri_fi _ _ _ _ R (Hsettled f Hf)) as (A1 & A2 & A3 & A4 & A5 & A6).
    rewrite (ri_fh _ _ _ _ R). auto 10. }
  assert (Hhne : hs <> []).
  { destruct fs as [|f' t] eqn:Ef; [congruence|]. destruct (Hrec f' (or_introl eq_refl)) as (f & Hf & R & _ & _ & _ & _ & _ & NE).
    intros Z. rewrite Hhs, <- Hall in Z. apply app_eq_nil in Z. destruct Z as [_ Z]. cbn [all_h flat_map] in Z. apply app_eq_nil in Z. destruct Z; congruence. }
  constructor. exists n0, pre, F, []. cbn [d_log d_tab d_gone d_bat g_bar]. rewrite !app_nil_r.
  split; [|split; [exact Ht|split; [exact Hl|split; [intros _; exact Hhne|split; [exact HF|split; [intros f []|split; reflexivity]]]]]].
  constructor; cbn [g_files g_max g_lf g_ls].
  - exact Hfne.
  - exact HNf.
  - lia.
  - rewrite Hall. exact Hhs.
  - exact Hs.
  - exact Hpos.
  - intros f' Hf'. destruct (Hrec f' Hf') as (f & _ & _ & A & _). exact A.
  - intros _ f' Hf'. destruct (Hrec f' Hf') as (f & _ & _ & _ & _ & _ & _ & _ & A). exact A.
  - intros Z; congruence.
  - destruct (exists_last Hne) as (a' & fl & Ea). assert (Hfl : In fl a) by (rewrite Ea; apply in_or_app; right; left; reflexivity).
    assert (En : f_num fl = mx).
    { rewrite Ea in *. apply nums_app in HN. destruct HN as [_ [Q _]]. unfold len in *. rewrite app_length in Hmx. cbn [length] in Hmx. lia. }
    destruct (upto (lastseq hs) (fh fl)) as [|r t] eqn:Eu; [destruct (Hsettled fl Hfl Eu)|].
    assert (Hr : In r (upto (lastseq hs) (fh fl))) by (rewrite Eu; left; reflexivity). apply upto_in in Hr.
    assert (Q := Hfew fl (Hina fl Hfl) ltac:(intros Z; rewrite Z in Hr; destruct (proj1 Hr))).
    assert (Y := mw_min _ _ _ (fi_mw _ _ (gi_fi _ _ _ _ _ _ H fl (Hina fl Hfl))) r (proj1 Hr)). lia.
  - intros Z; congruence.
  - intros Z; congruence.
  - apply (gi_lf _ _ _ _ _ _ H).
  - right. split; [exact HX|]. split.
    + intros f' Hf' _. destruct (Hrec f' Hf') as (f & _ & _ & _ & A & _ & _ & B & _). unfold full_synced. congruence.
    + intros f' Hf' _ Hn. destruct (Hrec f' Hf') as (f & Hf & _ & _ & A & _). rewrite A in Hn.
      apply (mark_nil hash _ f (gi_fi _ _ _ _ _ _ H f (Hina f Hf))) in Hn. destruct (Hsettled f Hf Hn).
  - intros f' r Hf' Hr. destruct (Hrec f' Hf') as (f & Hf & R & _). rewrite (ri_flu _ _ _ _ R). rewrite (ri_fh _ _ _ _ R) in Hr.
    apply upto_in in Hr. apply (gi_flu _ _ _ _ _ _ H f r (Hina f Hf) (proj1 Hr)).
  - apply (gi_pre _ _ _ _ _ _ H).
  - intros Hn. destruct (gi_F _ _ _ _ _ _ H Hn) as (r & Hr & Er). exists r. split; [|exact Er]. rewrite Hall. apply upto_in.
    rewrite E, all_h_app in Hr. apply in_app_or in Hr. destruct Hr as [Hr|Hr]; [split; [exact Hr|lia]|exfalso].
    apply in_flat_map in Hr. destruct Hr as (f & Hf & Hr). assert (Z : In r (upto (lastseq hs) (fh f))) by (apply upto_in; split; [exact Hr|lia]).
    rewrite (Hb f Hf) in Z. destruct Z.
  - intros a1 f' b1 Ef Hfl. rewrite Ef in RA. apply Forall2_app_inv_r in RA. destruct RA as (a2 & b2 & R1 & R2 & Ea).
    inversion R2 as [|f ? b3 ? Rf Rb]; subst. rewrite (ri_flu _ _ _ _ Rf) in Hfl. rewrite <- app_assoc in E. cbn [app] in E.
    assert (Q := gi_first _ _ _ _ _ _ H a2 f (b3 ++ b) E Hfl). subst a2. inversion R1. reflexivity.
  - intros a1 f' b1 Ef r Hr. assert (Hf' : In f' fs) by (rewrite Ef; apply in_or_app; right; left; reflexivity).
    destruct (Hrec f' Hf') as (f & Hf & R & FIf & _ & B & C & _ & NE). rewrite C, <- B.
    destruct (fi_min _ _ FIf NE) as (x & Hx & <-).
    assert (Hsort : sorted_seq (all_h fs)).
    { rewrite Hhs, <- Hall in Hs. unfold sorted_seq in *. rewrite map_app in Hs. apply SS_app_inv in Hs. tauto. }
    rewrite Ef, all_h_app in Hsort. apply (asc_app_lt _ _ r x Hsort Hr). cbn [all_h flat_map]. apply in_or_app; left; exact Hx.
Qed.

(** ** The whole invariant after reopening *)

Definition settled (M : lman) : Prop := forall e, In e (l_files M) -> e_synced e <> NIL.

Lemma settled_files : forall s M a, settled M -> Forall2 ent_ok (l_files M) a -> (forall f, In f a -> m_synced (f_mt f) = mark s f) ->
  forall f, In f a -> upto s (fh f) <> [].
Proof.
  intros s M a Hs H. unfold settled in Hs. revert Hs. induction H as [|e f es a He H IH]; intros Hs Hm x Hx; [destruct Hx|].
  destruct Hx as [<-|Hx].
  - intros Z. apply (Hs e (or_introl eq_refl)). destruct He as (_ & _ & -> & _). rewrite (Hm f (or_introl eq_refl)). unfold mark. rewrite Z. reflexivity.
  - apply IH; [intros y Hy; apply Hs; right; exact Hy|intros y Hy; apply Hm; right; exact Hy|exact Hx].
Qed.

Lemma ents_ri : forall s es a fs, Forall2 ent_ok es a -> Forall2 (RI s) a fs -> (forall f, In f a -> m_synced (f_mt f) = mark s f) ->
  (forall f, In f a -> FI f) -> (forall f, In f a -> upto s (fh f) <> []) -> Forall2 ent_ok es fs.
Proof.
  intros s es a fs H; revert fs. induction H as [|e f es a He H IH]; intros fs R Hm Hfi Hn; inversion R as [|? f' ? fs' Rf Rt]; subst; constructor.
  - destruct He as (A1 & A2 & A3 & A4 & A5). assert (NE := Hn f (or_introl eq_refl)).
    destruct (ri_fi _ _ _ _ Rf NE) as (B1 & B2 & B3 & B4 & B5 & B6). unfold ent_ok.
    rewrite (ri_num _ _ _ _ Rf), (ri_flu _ _ _ _ Rf), B2, B3, <- (Hm f (or_introl eq_refl)). auto 10.
  - apply IH; [exact Rt| | |]; intros x Hx; [apply Hm|apply Hfi|apply Hn]; right; exact Hx.
Qed.

Definition filled (s : N) (g : lmgr) (disk : list dlog) : Prop :=
  forall f, In f (g_files g) -> exists x, dlog_at (f_num f) disk = Some x /\ dl_recs x = upto s (fh f).

Definition whole (disk : list dlog) : Prop := forall d, In d disk -> dl_torn d = false.

Lemma filled_ok : forall s g disk f, filled s g disk -> whole disk -> In f (g_files g) -> disk_ok s f disk.
Proof.
  intros s g disk f Hf Hw Hin. destruct (Hf f Hin) as (x & Ex & Er). unfold disk_ok. rewrite Ex. apply dlog_at_in in Ex. destruct Ex as [X1 X2].
  assert (T := Hw x X1). destruct x as [n rs t]. cbn [dl_num dl_recs dl_torn] in *. subst. reflexivity.
Qed.

Lemma pi_open : forall pw c h hs p disk dur M old p', cfg_ok c -> c_lso c = false -> PI pw c h hs p ->
  man_ok (lastseq hs) (d_log (p_db p)) M -> settled M -> filled (lastseq hs) (d_log (p_db p)) disk ->
  (forall f, In f (g_files (d_log (p_db p))) -> disk_ok (lastseq hs) f disk) ->
  (pw = true -> forall f, In f (g_files (d_log (p_db p))) -> disk_ok (lastseq hs) f dur) ->
  (pw = true -> forall N, In N old -> man_ok (lastseq hs) (d_log (p_db p)) N) ->
  (pw = true -> old <> [] -> Forall2 ent_ok (l_files M) (g_files (d_log (p_db p)))) ->
  p_open hash c (d_tab (p_db p)) disk dur M old = Some p' ->
  PI pw c hs hs p'.
Proof.
  intros pw c h hs p disk dur M old p' Cok Hlso P HM Hset Hfil Hdisk Hdur Hold Hall E.
  destruct (pi_good _ _ _ _ _ _ P) as (n0 & pre & F & part & G). set (d := p_db p) in *.
  destruct (open_ok hash c h hs d n0 pre F part disk dur M old Cok Hlso G HM Hfil)
    as (a & b & fs & X & q & Eab & Hb & He & (a' & fl & Ea & Emax) & RA & HX & Hmx & Eq & Edb & Edisk & Edur & Eman).
  rewrite Eq in E. injection E as ->.
  assert (Hina : forall f, In f a -> In f (g_files (d_log d))) by (intros f Hf; rewrite Eab; apply in_or_app; left; exact Hf).
  assert (Hma : forall f, In f a -> m_synced (f_mt f) = mark (lastseq hs) f) by (intros f Hf; apply (go_mark _ _ _ _ _ _ _ _ _ G), Hina, Hf).
  assert (Hfi : forall f, In f a -> FI f) by (intros f Hf; apply (gi_fi _ _ _ _ _ _ (go_gi _ _ _ _ _ _ _ _ _ G)), Hina, Hf).
  assert (Hne : forall f, In f a -> upto (lastseq hs) (fh f) <> []) by (apply (settled_files _ M a Hset He Hma)).
  assert (Hane : a <> []) by (rewrite Ea; destruct a'; discriminate).
  assert (HN := gi_nums _ _ _ _ _ _ (go_gi _ _ _ _ _ _ _ _ _ G)). rewrite Eab in HN. apply nums_app in HN. destruct HN as [HN _].
  assert (Hmxa : l_max M + 1 = n0 + len a).
  { rewrite Emax, Ea in *. apply nums_app in HN. destruct HN as [_ [Q _]]. unfold len in *. rewrite app_length. cbn [length]. lia. }
  assert (HNf : nums_from n0 fs) by (eapply nums_same; [|exact HN]; symmetry; eapply ri_nums; exact RA).
  assert (Hlen : len fs = len a).
  { unfold len. f_equal. rewrite <- (map_length f_num fs), (ri_nums _ _ _ _ RA), map_length. reflexivity. }
  assert (D := recovered_di c h hs d n0 pre F part a b fs X (l_max M) G (pi_few _ _ _ _ _ _ P) Eab Hb Hane Hmxa RA HX Hne).
  assert (Hrec : forall f', In f' fs -> exists f, In f a /\ RI (lastseq hs) f f' /\ m_synced (f_mt f') = mark (lastseq hs) f /\
    m_min (f_mt f') = m_min (f_mt f) /\ upto (lastseq hs) (fh f') = upto (lastseq hs) (fh f)).
  { intros f' Hf'. destruct (ri_in _ _ _ _ RA f' Hf') as (f & Hf & R). exists f. destruct (ri_fi _ _ _ _ R (Hne f Hf)) as (A1 & A2 & A3 & A4 & A5 & A6).
    rewrite (ri_fh _ _ _ _ R). split; [exact Hf|]. split; [exact R|]. split; [exact A2|]. split; [exact A3|].
    apply upto_all. intros r Hr. apply upto_in in Hr. apply Hr. }
  assert (Hkeep : forall l, (forall f, In f (g_files (d_log d)) -> disk_ok (lastseq hs) f l) ->
    forall f', In f' fs -> disk_ok (lastseq hs) f' (filter (fun y => match file_at (dl_num y) fs with Some _ => true | None => false end) l)).
  { intros l Hl f' Hf'. destruct (Hrec f' Hf') as (f & Hf & R & _ & _ & Eu). unfold disk_ok. rewrite (ri_num _ _ _ _ R), Eu.
    apply dlog_at_filter; [apply (Hl f (Hina f Hf))|]. intros y Ey. rewrite Ey, <- (ri_num _ _ _ _ R).
    apply in_split in Hf'. destruct Hf' as (u & v & Ef). rewrite (file_at_num _ _ _ _ _ HNf Ef). reflexivity. }
  (* manifests that list all of [a] *)
  assert (Hment : forall N, man_ok (lastseq hs) (d_log d) N -> (exists b2, g_files (d_log d) = a ++ b2 /\ Forall2 ent_ok (l_files N) a) -> l_max N = l_max M ->
    man_ok (lastseq hs) (mkG fs (l_max M) (g_lf (d_log d)) X 0) N).
  { intros N (a1 & b1 & _ & _ & _ & _ & N1 & N2) (b2 & E2 & He2) HNmax. exists fs, []. cbn [g_files g_lf]. split; [rewrite app_nil_r; reflexivity|]. split; [intros f []|].
    split; [apply (ents_ri (lastseq hs) _ a fs He2 RA Hma Hfi Hne)|]. split; [|split; [exact N1|exact N2]].
    rewrite Ea in RA. apply Forall2_app_inv_l in RA. destruct RA as (f1 & f2 & R1 & R2 & Ef). inversion R2 as [|? y ? ? Ry Rn]; subst. inversion Rn; subst.
    exists f1, y. split; [reflexivity|]. rewrite HNmax, Emax, (ri_num _ _ _ _ Ry). reflexivity. }
  constructor; rewrite ?Edb; cbn [d_log g_files g_max].
  - exact D.
  - exists []. rewrite app_nil_r. reflexivity.
  - intros f' Hf'. destruct (Hrec f' Hf') as (f & Hf & R & A & _ & Eu). rewrite A. unfold mark. rewrite Eu. reflexivity.
  - rewrite Edisk. apply Hkeep, Hdisk.
  - intros Hp. rewrite Edur. apply Hkeep, (Hdur Hp).
  - destruct Eman as [[-> _]|[-> _]].
    + split; [apply (ents_ri (lastseq hs) _ a fs He RA Hma Hfi Hne)|]. apply Hment; [exact HM|exists b; auto|reflexivity].
    + rewrite Edb. cbn [d_log]. split; [apply man_of_ents|]. destruct D as [(n1 & pre1 & F1 & part1 & H1 & _)]. eapply man_of_ok; exact H1.
  - intros Hp N HN2. destruct Eman as [[_ Eo]|[_ Eo]]; rewrite Eo in HN2; [|destruct HN2].
    assert (Hl2 := Hall Hp ltac:(intros Z; rewrite Z in HN2; destruct HN2)).
    assert (HMN := Hold Hp N HN2). destruct HMN as (a1 & b1 & E1 & B1 & H1 & (a1' & f1 & Ea1 & Em1) & R3 & R4).
    (* nothing is missing: every file has synced records *)
    assert (Eb : b = []).
    { apply f2_len in He. apply f2_len in Hl2. rewrite Eab, app_length in Hl2. destruct b; [reflexivity|cbn [length] in Hl2; lia]. }
    subst b. rewrite app_nil_r in Eab. rewrite Eab in E1.
    assert (Eb1 : b1 = []).
    { destruct b1 as [|y t]; [reflexivity|exfalso]. assert (Hy : In y a) by (rewrite E1; apply in_or_app; right; left; reflexivity).
      apply (Hne y Hy). apply B1. left; reflexivity. }
    subst b1. rewrite app_nil_r in E1. subst a1. apply Hment.
    + exists a, []. rewrite app_nil_r. split; [exact Eab|]. split; [intros f []|]. split; [exact H1|]. split; [exists a1', f1; auto|]. split; assumption.
    + exists []. rewrite app_nil_r. auto.
    + rewrite Em1, Emax. assert (Q : a1' ++ [f1] = a' ++ [fl]) by congruence. apply app_inj_tail in Q. destruct Q as [_ ->]. reflexivity.
  - intros y Hy. rewrite Edisk, Edur in Hy.
    assert (Z : match file_at (dl_num y) fs with Some _ => true | None => false end = true) by (destruct Hy as [Hy|Hy]; apply filter_In in Hy; apply Hy).
    destruct (file_at (dl_num y) fs) as [f|] eqn:Ef; [|discriminate]. apply file_at_in in Ef. destruct Ef as [Ef1 <-].
    assert (Q := nums_in _ _ _ HNf Ef1). lia.
  - intros f' Hf' Hfn. destruct (Hrec f' Hf') as (f & Hf & R & _ & B & _). rewrite (ri_num _ _ _ _ R), B.
    apply (pi_few _ _ _ _ _ _ P f (Hina f Hf)). intros Z. apply Hfn. rewrite (ri_fh _ _ _ _ R), Z. reflexivity.
Qed.

End Proofs.
