(** A sync with concurrent writers: what writes do to the log files, and files replaced. *)
From Verif Require Import Base KeyModel KeyProofs LogFormatModel LogManifestModel BloomModel BloomProofs MemTableModel MemTableProofs
  LogMgrModel LogMgrProofs LogMgrProofs2 LogMgrProofs3 DbModel DbProofs RecoverModel RecoverProofs RecoverProofs2 RecoverProofs3
  SyncRaceModel SyncRaceSpec.
From Coq Require Import Sorted ZifyBool.
Local Open Scope N_scope.

Lemma upd_same_imm : forall n (m : mt) fs f', In f' (upd_file n (fun f => with_mt f m) fs) -> exists f, In f fs /\ f_num f = f_num f' /\ f_imm f = f_imm f'.
Proof.
  intros n m fs f' H. unfold upd_file in H. apply in_map_iff in H. destruct H as (f & E & Hf). exists f. split; [exact Hf|].
  destruct (f_num f =? n); subst f'; split; reflexivity.
Qed.

Lemma file_at_upd : forall n k fs, (forall f, f_num (k f) = f_num f) -> file_at n (upd_file n k fs) = option_map k (file_at n fs).
Proof.
  intros n k fs Hk. unfold file_at, upd_file. induction fs as [|f fs IH]; [reflexivity|]. cbn [map find].
  destruct (f_num f =? n) eqn:E; [rewrite Hk, E; reflexivity|]. rewrite E. exact IH.
Qed.

Section Proofs.
Variable hash : key -> N * N.
Notation GI := (GI hash).
Notation FI := (FI hash).
Notation DI := (DI hash).

(** ** Order of the files *)

Lemma gi_order : forall n0 pre h F g f1 f2 x1 x2, GI n0 pre h F g -> In f1 (g_files g) -> In f2 (g_files g) -> f_num f1 < f_num f2 ->
  In x1 (fh f1) -> In x2 (fh f2) -> r_seq x1 < r_seq x2.
Proof.
  intros n0 pre h F g f1 f2 x1 x2 H H1 H2 Hlt X1 X2. assert (HN := gi_nums _ _ _ _ _ _ H).
  apply in_split in H2. destruct H2 as (a & b & E). assert (HA : In f1 a).
  { rewrite E in H1, HN. apply nums_app in HN. destruct HN as [_ [N1 N2]]. apply in_app_or in H1. destruct H1 as [H1|[H1|H1]]; [exact H1|subst; lia|].
    assert (Y := nums_in _ _ _ N2 H1). lia. }
  assert (Hs := gi_asc _ _ _ _ _ _ H). rewrite (gi_hist _ _ _ _ _ _ H), E, all_h_app in Hs. rewrite app_assoc in Hs.
  refine (asc_app_lt _ _ x1 x2 Hs _ _).
  - apply in_or_app; right. apply in_flat_map. exists f1; auto.
  - cbn [all_h flat_map]. apply in_or_app; left. exact X2.
Qed.

(** The newest file has the last acknowledged record. *)
Lemma di_top : forall c h d f, DI c h d -> h <> [] -> In f (g_files (d_log d)) -> f_num f = g_max (d_log d) ->
  exists x, In x (fh f) /\ r_seq x = lastseq h.
Proof.
  intros c h d f [(n0 & pre & F & part & H & Ht & Hl & HF & HFl & HG & HB)] Hne Hf Hn.
  destruct (gi_last _ _ _ _ _ _ H) as (a & fl & Ea & En).
  assert (f = fl).
  { assert (HN := gi_nums _ _ _ _ _ _ H). assert (A := file_at_num _ _ _ _ _ HN Ea). apply in_split in Hf. destruct Hf as (u & v & Eu).
    assert (B := file_at_num _ _ _ _ _ HN Eu). rewrite Hn, <- En in B. congruence. }
  subst fl. assert (Hh := gi_hist _ _ _ _ _ _ H). rewrite Ea, all_h_app in Hh. cbn [all_h flat_map] in Hh. rewrite app_nil_r in Hh.
  destruct (d_bat d) as [[todo done]|].
  - destruct HB as [-> (B1 & B2 & B3 & B4 & B5 & (a' & f' & u & Ea' & Eu & Hu))].
    rewrite Ea in Ea'. apply app_inj_tail in Ea'. destruct Ea' as [<- <-].
    rewrite Eu, !app_assoc in Hh. apply app_inv_tail in Hh.
    assert (Hlu : lastseq h = lastseq u) by (rewrite Hh; apply lastseq_app; exact Hu).
    rewrite Hlu, Eu. destruct (lastseq_in u Hu) as (x & Hx & <-). exists x. split; [apply in_or_app; left; exact Hx|reflexivity].
  - destruct HB as [-> _]. rewrite app_nil_r in *. assert (Hfn := gi_nonemp _ _ _ _ _ _ H Hne f Hf).
    rewrite Hh, app_assoc, (lastseq_app _ _ Hfn). apply lastseq_in; exact Hfn.
Qed.

Lemma di_in : forall c h d f x, DI c h d -> h <> [] -> In f (g_files (d_log d)) -> In x (fh f) -> r_seq x <= lastseq h -> In x h.
Proof.
  intros c h d f x [(n0 & pre & F & part & H & _)] Hne Hf Hx Hle.
  assert (X : In x (h ++ part)) by (rewrite (gi_hist _ _ _ _ _ _ H); apply in_or_app; right; apply in_flat_map; exists f; auto).
  apply in_app_or in X. destruct X as [X|X]; [exact X|]. destruct (proj2 (gi_pre_part hash _ _ _ _ _ _ H) x X) as [Y|Y]; [lia|congruence].
Qed.

(** ** Writes *)

Lemma lm_set_imm_ls : forall n0 pre h F g c full r o g', GI n0 pre h F g -> lastseq h + 1 < NIL -> c_ow c = false ->
  lm_set hash c full r g = (o, g') ->
  g_ls g' = g_ls g /\ forall f', In f' (g_files g') -> f_imm f' = true -> exists f, In f (g_files g) /\ f_num f = f_num f' /\ f_imm f = true.
Proof.
  intros n0 pre h F g c full r o g' H Hl Ho E.
  assert (R0 : g_ls g = g_ls g /\ forall f', In f' (g_files g) -> f_imm f' = true -> exists f, In f (g_files g) /\ f_num f = f_num f' /\ f_imm f = true)
    by (split; [reflexivity|intros f' Hf Hi; exists f'; auto]).
  unfold lm_set in E. destruct (c_ro c); [injection E as <- <-; exact R0|]. destruct (r_seq r =? 0); [injection E as <- <-; exact R0|].
  destruct (max_num g) as [mx|] eqn:Em; [|injection E as <- <-; exact R0].
  rewrite (gi_max_num _ _ _ _ _ _ H Hl) in Em. injection Em as <-.
  assert (HA := gi_newest _ _ _ _ _ _ H). rewrite Ho, andb_false_r, HA in E. cbn [negb] in E. rewrite orb_true_l, andb_true_r in E.
  set (f := newest_file g) in *.
  match goal with E : context [file_set hash c ?n r ?g1] |- _ => set (n1 := n) in *; set (g1' := g1) in * end.
  assert (Hg1 : g_ls g1' = g_ls g /\ (forall f', In f' (g_files g1') -> f_imm f' = true -> exists f0, In f0 (g_files g) /\ f_num f0 = f_num f' /\ f_imm f0 = true)
     /\ exists f1, file_at n1 (g_files g1') = Some f1 /\ f_imm f1 = false).
  { unfold g1', n1. destruct (negb (valid_to_write c full f)) eqn:Er.
    - split; [reflexivity|]. unfold add_new_file. cbn [g_files g_max]. set (nf := mkF _ _ false _). split.
      + intros f' Hf' Hi. apply in_app_or in Hf'. destruct Hf' as [Hf'|[<-|[]]]; [exists f'; auto|discriminate].
      + exists nf. split; [|reflexivity].
        assert (Hm0 : (g_max g + 1) mod 2 ^ 64 = g_max g + 1).
        { apply N.mod_small. assert (X := gi_few _ _ _ _ _ _ H). rewrite nil_val in Hl. lia. }
        assert (HG := gi_gmax _ _ _ _ _ _ H).
        assert (HNn : nums_from n0 (g_files g ++ [nf])).
        { apply nums_app. split; [apply (gi_nums _ _ _ _ _ _ H)|]. cbn [nums_from]. split; [|exact I]. unfold nf; cbn [f_num]. lia. }
        assert (X := file_at_num _ _ _ nf [] HNn eq_refl). exact X.
    - split; [reflexivity|]. split; [intros f' Hf Hi; exists f'; auto|]. exists f. split; [exact HA|].
      unfold valid_to_write in Er. destruct (f_imm f); [discriminate|reflexivity]. }
  destruct Hg1 as (L1 & I1 & f1 & A1 & M1). unfold file_set in E. rewrite A1 in E.
  destruct (lf_set hash (c_ow c) r (f_mt f1)) as [o1 m'].
  set (g2 := with_files g1' (upd_file n1 (fun f => with_mt f m') (g_files g1'))) in *.
  assert (R2 : g_ls g2 = g_ls g /\ forall f', In f' (g_files g2) -> f_imm f' = true -> exists f0, In f0 (g_files g) /\ f_num f0 = f_num f' /\ f_imm f0 = true).
  { split; [exact L1|]. intros f' Hf' Hi. cbn [g2 with_files g_files] in Hf'. destruct (upd_same_imm _ _ _ _ Hf') as (f2 & H2 & E2 & E3).
    rewrite Hi in E3. destruct (I1 f2 H2 E3) as (f3 & H3 & E4 & E5). exists f3. split; [exact H3|]. split; [congruence|exact E5]. }
  destruct o1; try (injection E as <- <-; exact R2).
  assert (A2 : file_at n1 (g_files g2) = Some (with_mt f1 m')).
  { cbn [g2 with_files g_files]. rewrite file_at_upd by reflexivity. rewrite A1. reflexivity. }
  rewrite A2 in E. cbn [with_mt f_imm] in E. rewrite M1 in E. injection E as <- <-. exact R2.
Qed.

Lemma file_set_imm_ls : forall c n r g o g', file_set hash c n r g = (o, g') ->
  g_ls g' = g_ls g /\ forall f', In f' (g_files g') -> f_imm f' = true -> exists f, In f (g_files g) /\ f_num f = f_num f' /\ f_imm f = true.
Proof.
  intros c n r g o g' E. unfold file_set in E. destruct (file_at n (g_files g)) as [f|].
  - destruct (lf_set hash (c_ow c) r (f_mt f)) as [o1 m']. injection E as <- <-. split; [reflexivity|].
    intros f' Hf' Hi. destruct (upd_same_imm _ _ _ _ Hf') as (f2 & H2 & E2 & E3). exists f2. rewrite E3. auto.
  - injection E as <- <-. split; [reflexivity|]. intros f' Hf' Hi. exists f'; auto.
Qed.

Lemma write_imm_ls : forall c h d o x d', cfg_ok c -> DI c h d -> step hash c o d = Some (x, d') ->
  match o with OSync _ | OFlush _ _ => False | _ => True end ->
  g_ls (d_log d') = g_ls (d_log d) /\
  (forall f', In f' (g_files (d_log d')) -> f_imm f' = true -> exists f, In f (g_files (d_log d)) /\ f_num f = f_num f' /\ f_imm f = true).
Proof.
  intros c h d o x d' Cok D E Ho. destruct Cok as [Co Cr Cm].
  destruct D as [(n0 & pre & F & part & H & Ht & Hl & _)].
  assert (R0 : forall g, g_files g = g_files (d_log d) -> g_ls g = g_ls (d_log d) -> g_ls g = g_ls (d_log d) /\
    forall f', In f' (g_files g) -> f_imm f' = true -> exists f, In f (g_files (d_log d)) /\ f_num f = f_num f' /\ f_imm f = true).
  { intros g E1 E2. split; [exact E2|]. rewrite E1. intros f' Hf Hi; exists f'; auto. }
  destruct o as [full r|b| | |bad|fo seq|out0]; try destruct Ho; unfold step in E.
  - destruct (d_bat d); [discriminate|]. destruct (lm_set hash c full r (d_log d)) as [o g'] eqn:Es. injection E as <- <-. cbn [d_log].
    eapply lm_set_imm_ls; eauto.
  - destruct (d_bat d); [discriminate|]. destruct (c_ro c); [injection E as <- <-; apply R0; reflexivity|].
    destruct b; [injection E as <- <-; apply R0; reflexivity|].
    destruct (batch_valid c _ _); injection E as <- <-; apply R0; reflexivity.
  - destruct (d_bat d) as [[[|r t] done]|]; [discriminate| |discriminate].
    destruct (batch_put hash c r (d_log d)) as [o g'] eqn:Es. unfold batch_put in Es.
    assert (R : g_ls g' = g_ls (d_log d) /\ forall f', In f' (g_files g') -> f_imm f' = true -> exists f, In f (g_files (d_log d)) /\ f_num f = f_num f' /\ f_imm f = true).
    { destruct (max_num (d_log d)); [eapply file_set_imm_ls; eauto|]. injection Es as <- <-. apply R0; reflexivity. }
    destruct o; injection E as <- <-; exact R.
  - destruct (d_bat d) as [[[|r t] done]|]; [|discriminate|discriminate]. injection E as <- <-. apply R0; reflexivity.
  - destruct (lm_checkpoint out0 (d_log d)) as [o g'] eqn:Es. injection E as <- <-. cbn [d_log]. unfold lm_checkpoint in Es.
    destruct (max_num (d_log d)); [|injection Es as <- <-; apply R0; reflexivity].
    destruct (file_at n (g_files (d_log d))) as [f|]; [|injection Es as <- <-; apply R0; reflexivity].
    destruct (mt_checkpoint out0 (f_mt f)) as [s m']. injection Es as <- <-. split; [reflexivity|].
    intros f' Hf' Hi. destruct (upd_same_imm _ _ _ _ Hf') as (f2 & H2 & E2 & E3). exists f2. rewrite E3. auto.
Qed.

(** A batch can only begin with [OBegin]. *)
Lemma write_bat : forall c d o x d', step hash c o d = Some (x, d') -> is_begin o = false -> d_bat d = None -> d_bat d' = None.
Proof.
  intros c d o x d' E Hb Hd. destruct o as [full r|b| | |bad|fo seq|out0]; try discriminate Hb; unfold step in E; rewrite ?Hd in E.
  - destruct (lm_set hash c full r (d_log d)). injection E as <- <-. reflexivity.
  - discriminate.
  - discriminate.
  - destruct (lm_sync bad (d_log d)). injection E as <- <-. first [exact Hd|reflexivity].
  - destruct (lm_flush fo seq (d_log d)) as [[[rs cs]| |] g]; injection E as <- <-; first [exact Hd|reflexivity].
  - destruct (lm_checkpoint out0 (d_log d)). injection E as <- <-. first [exact Hd|reflexivity].
Qed.

(** A file after a write: one that was there, the same except for records added to the newest, or a
    new one. *)
Definition old_file (h : list rec) (g : lmgr) (f f' : lgf) : Prop :=
  In f (g_files g) /\ f_num f' = f_num f /\ m_synced (f_mt f') = m_synced (f_mt f) /\
  upto (lastseq h) (fh f') = upto (lastseq h) (fh f) /\ (f_num f < g_max g -> fh f' = fh f).
Definition new_file (h : list rec) (g : lmgr) (f' : lgf) : Prop :=
  f_num f' = g_max g + 1 /\ m_synced (f_mt f') = NIL /\ (forall x, In x (fh f') -> lastseq h < r_seq x).

Lemma write_files : forall c h d o x d', cfg_ok c -> DI c h d -> h <> [] -> allowed c h d o -> step hash c o d = Some (x, d') ->
  match o with OSync _ | OFlush _ _ => False | _ => True end ->
  forall f', In f' (g_files (d_log d')) -> (exists f, old_file h (d_log d) f f') \/ new_file h (d_log d) f'.
Proof.
  intros c h d o x d' Cok D Hne Al E Ho f' Hf'.
  destruct (write_grown hash c h d o x d' (lastseq h) Cok D Al E Ho (N.le_refl _)) as (Hlf & Hg).
  destruct (step_keeps hash c h d o x d' Cok D Al E) as (D' & Hx & _).
  destruct Hg as [(K & Hmax)|(nf & Ef & U1 & U2 & U3 & Hmax & Hn & Hmod)].
  - left. destruct (kept_in _ _ _ K f' Hf') as (f & Hf & (K1 & K2 & K3 & K4 & K5 & K6)).
    exists f. split; [exact Hf|]. split; [exact K1|]. split; [exact K3|]. split; [exact K4|]. intros Hlt.
    (* the newest file has a record up to lastseq h, so all of f and f' is below *)
    assert (D1 := D). destruct D1 as [(n0 & pre & F & part & H & _)]. destruct (gi_last _ _ _ _ _ _ H) as (a & fl & Ea & En).
    assert (Hfl : In fl (g_files (d_log d))) by (rewrite Ea; apply in_or_app; right; left; reflexivity).
    destruct (di_top c h d fl D Hne Hfl En) as (t & Ht & Et).
    assert (B1 : forall y, In y (fh f) -> r_seq y <= lastseq h).
    { intros y Hy. assert (X := gi_order _ _ _ _ _ f fl y t H Hf Hfl ltac:(lia) Hy Ht). lia. }
    destruct D' as [(n0' & pre' & F' & part' & H' & _)].
    destruct (gi_last _ _ _ _ _ _ H') as (a' & fl' & Ea' & En').
    assert (Hfl' : In fl' (g_files (d_log d'))) by (rewrite Ea'; apply in_or_app; right; left; reflexivity).
    destruct (kept_in _ _ _ K fl' Hfl') as (g0 & Hg0 & (L1 & _ & _ & L4 & _)).
    assert (g0 = fl).
    { assert (HN := gi_nums _ _ _ _ _ _ H). assert (A := file_at_num _ _ _ _ _ HN Ea). apply in_split in Hg0. destruct Hg0 as (u & v & Eu).
      assert (B := file_at_num _ _ _ _ _ HN Eu). replace (f_num g0) with (f_num fl) in B by lia. congruence. }
    subst g0. assert (Ht' : In t (fh fl')).
    { assert (X : In t (upto (lastseq h) (fh fl))) by (apply upto_in; split; [exact Ht|lia]). rewrite <- L4 in X. apply upto_in in X. apply X. }
    assert (B2 : forall y, In y (fh f') -> r_seq y <= lastseq h).
    { intros y Hy. assert (X := gi_order _ _ _ _ _ f' fl' y t H' Hf' Hfl' ltac:(lia) Hy Ht'). lia. }
    rewrite (upto_all _ _ B1), (upto_all _ _ B2) in K4. exact K4.
  - rewrite Ef in Hf'. apply in_app_or in Hf'. destruct Hf' as [Hf'|[<-|[]]].
    + left. exists f'. split; [exact Hf'|]. auto 10.
    + right. split; [lia|]. split; [exact U2|]. intros y Hy. destruct (N.le_gt_cases (r_seq y) (lastseq h)) as [Hle|Hgt]; [|exact Hgt].
      assert (X : In y (upto (lastseq h) (fh nf))) by (apply upto_in; auto). rewrite U1 in X. destruct X.
Qed.

(** ** Files replaced *)

Lemma di_replace : forall c h d gs ls, DI c h d -> h <> [] -> Forall2 same_file (g_files (d_log d)) gs -> (forall f, In f gs -> FI f) ->
  (forall n0, min_num (d_log d) = Some n0 -> ls = NIL \/ (n0 <= ls <= g_max (d_log d) /\ (forall f, In f gs -> f_num f < ls -> full_synced f) /\
     (forall f, In f gs -> f_num f = ls -> m_synced (f_mt f) = NIL -> ls = n0))) ->
  DI c h (mkDb (mkG gs (g_max (d_log d)) (g_lf (d_log d)) ls (g_bar (d_log d))) (d_tab d) (d_gone d) (d_bat d)).
Proof.
  intros c h d gs ls D Hne S1 HFI Hls. destruct D as [(n0 & pre & F & part & H & Ht & Hl & HF & HFl & HG & HB)].
  assert (Hmin : min_num (d_log d) = Some n0).
  { unfold min_num. assert (HN := gi_nums _ _ _ _ _ _ H). assert (HE := gi_ne _ _ _ _ _ _ H).
    destruct (g_files (d_log d)) as [|f t]; [congruence|]. destruct HN as [HN _]. rewrite HN; reflexivity. }
  constructor. exists n0, pre, F, part. cbn [d_log d_tab d_gone d_bat g_bar].
  split; [apply gi_replace; [exact H|exact S1|exact HFI|apply Hls, Hmin|]|].
  { intros Z. apply app_eq_nil in Z. destruct Z as [Z _]. congruence. }
  split; [exact Ht|]. split; [exact Hl|]. split; [exact HF|]. split; [exact HFl|]. split; [exact HG|].
  destruct (d_bat d) as [[todo done]|]; [|exact HB].
  destruct HB as [-> (P1 & P2 & P3 & P4 & P5 & (a & f & u & P6 & P7 & P8))]. split; [reflexivity|]. split; [exact P1|]. split; [exact P2|].
  split; [exact P3|]. split; [exact P4|]. split; [exact P5|]. rewrite P6 in S1. destruct (same_files_last _ _ _ S1) as (a' & f' & Q1 & Q2).
  exists a', f', u. split; [exact Q1|]. split; [congruence|exact P8].
Qed.

(** Files are known by their numbers. *)
Lemma file_uniq : forall n0 pre h F g f1 f2, GI n0 pre h F g -> In f1 (g_files g) -> In f2 (g_files g) -> f_num f1 = f_num f2 -> f1 = f2.
Proof.
  intros n0 pre h F g f1 f2 H H1 H2 E. assert (HN := gi_nums _ _ _ _ _ _ H).
  apply in_split in H1. destruct H1 as (u & v & Eu). assert (A := file_at_num _ _ _ _ _ HN Eu).
  apply in_split in H2. destruct H2 as (u' & v' & Eu'). assert (B := file_at_num _ _ _ _ _ HN Eu'). congruence.
Qed.

Lemma file_here : forall n0 pre h F g f, GI n0 pre h F g -> In f (g_files g) -> file_at (f_num f) (g_files g) = Some f.
Proof.
  intros n0 pre h F g f H Hf. apply in_split in Hf. destruct Hf as (u & v & Eu). exact (file_at_num _ _ _ _ _ (gi_nums _ _ _ _ _ _ H) Eu).
Qed.

Lemma file_le : forall n0 pre h F g f, GI n0 pre h F g -> In f (g_files g) -> n0 <= f_num f <= g_max g.
Proof.
  intros n0 pre h F g f H Hf. assert (X := nums_in _ _ _ (gi_nums _ _ _ _ _ _ H) Hf). assert (Y := gi_gmax _ _ _ _ _ _ H). lia.
Qed.

Lemma max_eq : forall f f', FI f -> FI f' -> fh f' = fh f -> fh f <> [] -> m_max (f_mt f') = m_max (f_mt f).
Proof. intros f f' H H' E Hne. rewrite (fi_max _ _ H Hne), (fi_max _ _ H') by (rewrite E; exact Hne). rewrite E. reflexivity. Qed.

(** What a write leaves on disk. *)
Lemma p_write_shape : forall c h p o x p', cfg_ok c -> DI c h (p_db p) -> h <> [] -> allowed c h (p_db p) o ->
  match o with OSync _ | OFlush _ _ => False | _ => True end -> p_write hash c o p = Some (x, p') ->
  step hash c o (p_db p) = Some (x, p_db p') /\
  (forall f, In f (g_files (d_log (p_db p))) -> exists f', In f' (g_files (d_log (p_db p'))) /\ f_num f' = f_num f) /\
  ((g_max (d_log (p_db p')) = g_max (d_log (p_db p)) /\ p_disk p' = p_disk p /\ p_dur p' = p_dur p) \/
   (g_max (d_log (p_db p')) = g_max (d_log (p_db p)) + 1 /\
    p_disk p' = p_disk p ++ [mkDL (g_max (d_log (p_db p)) + 1) [] false] /\ p_dur p' = p_dur p ++ [mkDL (g_max (d_log (p_db p)) + 1) [] false])).
Proof.
  intros c h p o x p' Cok D Hne Al Ho Ep. unfold p_write in Ep. destruct (step hash c o (p_db p)) as [[x0 d']|] eqn:E; [|discriminate].
  destruct (write_grown hash c h (p_db p) o x0 d' (lastseq h) Cok D Al E Ho (N.le_refl _)) as (Hlf & Hg).
  destruct Hg as [(K & Hmax)|(nf & Ef & U1 & U2 & U3 & Hmax & Hn & Hmod)].
  - rewrite Hmax, N.eqb_refl in Ep. injection Ep as <- <-. cbn [p_db p_disk p_dur]. split; [reflexivity|]. split; [|left; auto].
    intros f Hf. assert (X : In (f_num f) (map f_num (g_files (d_log d')))) by (rewrite (kept_nums _ _ _ K); apply in_map, Hf).
    apply in_map_iff in X. destruct X as (f' & E1 & E2). exists f'; auto.
  - destruct (g_max (d_log d') =? g_max (d_log (p_db p))) eqn:Eq; [lia|].
    destruct (file_at (g_max (d_log (p_db p))) (g_files (d_log (p_db p)))); [|discriminate]. injection Ep as <- <-.
    cbn [p_store p_db p_disk p_dur]. split; [reflexivity|]. rewrite Hmax. split; [|right; auto].
    intros f Hf. exists f. split; [rewrite Ef; apply in_or_app; left; exact Hf|reflexivity].
Qed.

Lemma write_few : forall c h d o x d', cfg_ok c -> DI c h d -> h <> [] -> allowed c h d o -> step hash c o d = Some (x, d') ->
  match o with OSync _ | OFlush _ _ => False | _ => True end ->
  (forall f, In f (g_files (d_log d)) -> fh f <> [] -> f_num f <= m_min (f_mt f)) ->
  forall f, In f (g_files (d_log d')) -> fh f <> [] -> f_num f <= m_min (f_mt f).
Proof.
  intros c h d o x d' Cok D Hne Al E Ho P f Hf Hfn.
  destruct (write_grown hash c h d o x d' (lastseq h) Cok D Al E Ho (N.le_refl _)) as (Hlf & Hg).
  destruct (step_keeps hash c h d o x d' Cok D Al E) as (D' & Hx & _).
  assert (D0 := D). destruct D as [(n0 & pre & F & part & H & _)].
  assert (NE : h ++ part <> []) by (intros Z; apply app_eq_nil in Z; destruct Z; congruence).
  destruct Hg as [(K & Hmax)|(f' & Ef & U1 & U2 & U3 & Hmax & Hn & Hmod)].
  - destruct (kept_in _ _ _ K f Hf) as (f0 & H0 & (K1 & K2 & K3 & K4 & K5 & K6)). assert (FI0 := gi_fi _ _ _ _ _ _ H f0 H0). rewrite K1.
    assert (N0 := gi_nonemp _ _ _ _ _ _ H NE f0 H0).
    destruct K5 as [K5|K5]; [|rewrite K5; apply (P f0 H0 N0)].
    destruct (fi_min _ _ FI0 N0) as (r & Hr & Er). assert (X := mr_bnd _ _ _ (mw_mr _ _ _ (fi_mw _ _ FI0)) r Hr). lia.
  - assert (Hf2 := Hf). rewrite Ef in Hf2. apply in_app_or in Hf2. destruct Hf2 as [Hf2|[E2|[]]]; [apply (P f Hf2 Hfn)|].
    subst f. destruct D' as [(n1 & pre1 & F1 & part1 & H1 & _)].
    destruct (fi_min _ _ (gi_fi _ _ _ _ _ _ H1 f' Hf) Hfn) as (r & Hr & <-). rewrite Hn, Hmax.
    destruct (gi_last _ _ _ _ _ _ H) as (a & fl & Ea & En).
    assert (Hfl : In fl (g_files (d_log d))) by (rewrite Ea; apply in_or_app; right; left; reflexivity).
    assert (Hml := gi_max_last _ _ _ _ _ _ H NE a fl Ea).
    assert (FIl := gi_fi _ _ _ _ _ _ H fl Hfl). assert (NEl := gi_nonemp _ _ _ _ _ _ H NE fl Hfl).
    rewrite (fi_max _ _ FIl NEl) in Hml. destruct (lastseq_in _ NEl) as (z & Hz & Ez).
    assert (X := gi_few _ _ _ _ _ _ H). assert (Hfl' : In fl (g_files (d_log d'))) by (rewrite Ef; apply in_or_app; left; exact Hfl).
    assert (Y := gi_order _ _ _ _ _ fl f' z r H1 Hfl' Hf ltac:(lia) Hz Hr). lia.
Qed.

(** Batches stay in the newest file. *)
Lemma write_bat_max : forall c h d o x d', cfg_ok c -> DI c h d -> allowed c h d o -> step hash c o d = Some (x, d') -> is_begin o = false ->
  d_bat d <> None -> g_max (d_log d') = g_max (d_log d).
Proof.
  intros c h d o x d' Cok D Al E Hb Hd. destruct o as [full r|b| | |bad|fo seq|out0]; try discriminate Hb; unfold step in E.
  - destruct (d_bat d); [discriminate|congruence].
  - destruct (d_bat d) as [[[|r t] done]|]; [discriminate| |discriminate].
    destruct (batch_put hash c r (d_log d)) as [o g'] eqn:Es. unfold batch_put in Es.
    assert (R : g_max g' = g_max (d_log d)).
    { destruct (max_num (d_log d)); [|injection Es as <- <-; reflexivity]. unfold file_set in Es.
      destruct (file_at n (g_files (d_log d))); [|injection Es as <- <-; reflexivity].
      destruct (lf_set hash (c_ow c) r (f_mt l)). injection Es as <- <-. reflexivity. }
    destruct o; injection E as <- <-; exact R.
  - destruct (d_bat d) as [[[|r t] done]|]; [|discriminate|discriminate]. injection E as <- <-. reflexivity.
  - destruct (lm_sync bad (d_log d)) as [o g'] eqn:Es. injection E as <- <-. cbn [d_log]. unfold lm_sync in Es.
    destruct (max_num (d_log d)); [|injection Es as <- <-; reflexivity].
    destruct (match last_synced (d_log d) with Some x0 => Some x0 | None => min_num (d_log d) end); [|injection Es as <- <-; reflexivity].
    destruct (sync_loop _ _ _ _ _ _ _) as [[?| |] ?]; injection Es as <- <-; reflexivity.
  - destruct (lm_flush fo seq (d_log d)) as [o g'] eqn:Es. assert (R : g_max g' = g_max (d_log d)).
    { unfold lm_flush in Es.
      repeat match type of Es with
      | (if ?b then _ else _) = _ => destruct b
      | (let (_, _) := ?b in _) = _ => destruct b
      | match ?b with _ => _ end = _ => destruct b
      end; injection Es as <- <-; reflexivity. }
    destruct o as [[rs cs]| |]; injection E as <- <-; exact R.
  - destruct (lm_checkpoint out0 (d_log d)) as [o g'] eqn:Es. injection E as <- <-. cbn [d_log]. unfold lm_checkpoint in Es.
    destruct (max_num (d_log d)); [|injection Es as <- <-; reflexivity].
    destruct (file_at n (g_files (d_log d))) as [f|]; [|injection Es as <- <-; reflexivity].
    destruct (mt_checkpoint out0 (f_mt f)) as [s m']. injection Es as <- <-. reflexivity.
Qed.

(** A flush to the tables does not touch what matters here. *)
Lemma flush_imm : forall c d fo seq x d', step hash c (OFlush fo seq) d = Some (x, d') ->
  g_max (d_log d') = g_max (d_log d) /\
  forall f', In f' (g_files (d_log d')) -> exists f, In f (g_files (d_log d)) /\ f_num f = f_num f' /\ f_imm f = f_imm f'.
Proof.
  intros c d fo seq x d' E. unfold step in E. destruct (lm_flush fo seq (d_log d)) as [o g'] eqn:Es.
  assert (R : g_max g' = g_max (d_log d) /\ forall f', In f' (g_files g') -> exists f, In f (g_files (d_log d)) /\ f_num f = f_num f' /\ f_imm f = f_imm f').
  { unfold lm_flush in Es.
    repeat match type of Es with
    | (if ?b then _ else _) = _ => destruct b
    | (let (_, _) := ?b in _) = _ => destruct b
    | match ?b with _ => _ end = _ => destruct b
    end; injection Es as <- <-; (split; [reflexivity|]); cbn [g_files]; intros f' Hf';
    try (apply filter_In in Hf'; destruct Hf' as [Hf' _]); try (exists f'; auto; fail).
    all: unfold upd_file in Hf'; destruct (o_purge fo); apply in_map_iff in Hf'; destruct Hf' as (f & E1 & Hf); exists f; (split; [exact Hf|]);
      match type of E1 with (if ?b then _ else _) = _ => destruct b end; subst f'; split; reflexivity. }
  destruct o as [[rs cs]| |]; injection E as <- <-; exact R.
Qed.

End Proofs.
