(** A sync with concurrent writers: what is on disk when the process dies during the sync. *)
From Verif Require Import Base KeyModel KeyProofs LogFormatModel LogManifestModel BloomModel BloomProofs MemTableModel MemTableProofs
  LogMgrModel LogMgrProofs LogMgrProofs2 LogMgrProofs3 DbModel DbProofs DbProofs2 RecoverModel RecoverProofs RecoverProofs2 RecoverProofs3
  RecoverProofs5 RecoverProofs7 RecoverProofs8 RecoverProofs9 SyncRaceModel SyncRaceSpec SyncRaceProofs SyncRaceProofs2 SyncRaceProofs3.
From Coq Require Import Sorted ZifyBool.
Local Open Scope N_scope.

Section Proofs.
Variable hash : key -> N * N.
Notation GI := (GI hash).
Notation FI := (FI hash).
Notation DI := (DI hash).
Notation PI := (PI hash).
Notation SI := (SI hash).

(** The manifest on disk, whose synced marks may be behind, and the tables. *)
Record MX (hs : list rec) (p : pdb) : Prop := {
  mx_ents : Forall2 ent_nf (l_files (p_man p)) (g_files (d_log (p_db p)));
  mx_max : l_max (p_man p) = g_max (d_log (p_db p));
  mx_lf : l_flushed (p_man p) = g_lf (d_log (p_db p));
  mx_ls : l_synced (p_man p) = NIL \/ l_synced (p_man p) <= l_max (p_man p);
  mx_tab : forall r, In r (d_tab (p_db p)) -> r_seq r <= lastseq hs
}.

Lemma mx_pi : forall pw c h hs p, PI pw c h hs p -> MX hs p.
Proof.
  intros pw c h hs p P. destruct (pi_good _ _ _ _ _ _ P) as (n0 & pre & F & part & G0).
  destruct (man_full hash pw c h hs p n0 pre (h ++ part) F P (go_gi _ _ _ _ _ _ _ _ _ G0)) as (M1 & M2 & M3 & M4).
  constructor; try assumption; [apply ent_nfs; exact M1|].
  destruct (good_hs hash c h hs (p_db p) n0 pre F part (g_files (d_log (p_db p))) [] G0) as (HF0 & Hhs & Hs & Hpos & Ht0 & _ & _); [rewrite app_nil_r; reflexivity|intros f []|].
  intros r Hr. rewrite Ht0 in Hr. apply filter_In in Hr. lia.
Qed.

Lemma write_tab : forall c d o x d', step hash c o d = Some (x, d') -> match o with OSync _ | OFlush _ _ => False | _ => True end -> d_tab d' = d_tab d.
Proof.
  intros c d o x d' E Ho. unfold step in E. destruct o as [full r|b| | |bad|fo seq|out0]; try destruct Ho;
    repeat match type of E with
    | None = Some _ => discriminate E
    | Some _ = Some _ => injection E as <- <-; reflexivity
    | context [match ?y with _ => _ end] => destruct y
    end.
Qed.

Lemma ents_nf_kept : forall s es fs fs', Forall2 ent_nf es fs -> Forall2 (kept s) fs fs' -> Forall2 ent_nf es fs'.
Proof.
  intros s es fs fs' H. revert fs'. induction H as [|e f es fs [A B] H IH]; intros fs' K; inversion K as [|f0 f' l0 l' K1 K2]; subst; constructor.
  - destruct K1 as (K1 & K3 & _). split; congruence.
  - apply IH; assumption.
Qed.

Lemma mx_write : forall c h hs p o x p', cfg_ok c -> DI c h (p_db p) -> allowed c h (p_db p) o ->
  match o with OSync _ | OFlush _ _ => False | _ => True end -> p_write hash c o p = Some (x, p') -> MX hs p -> MX hs p'.
Proof.
  intros c h hs p o x p' Cok D Al Ho Ep M. unfold p_write in Ep. destruct (step hash c o (p_db p)) as [[x0 d']|] eqn:E; [|discriminate].
  assert (Tb := write_tab _ _ _ _ _ E Ho).
  destruct (write_grown hash c h (p_db p) o x0 d' 0 Cok D Al E Ho ltac:(lia)) as (Hlf & Hg). destruct M as [M1 M2 M3 M4 M5].
  destruct Hg as [(K & Hmax)|(f' & Ef & U1 & U2 & U3 & Hmax & Hn & Hmod)].
  - rewrite Hmax, N.eqb_refl in Ep. injection Ep as <- <-. constructor; cbn [p_db p_man].
    + eapply ents_nf_kept; eauto.
    + congruence.
    + congruence.
    + exact M4.
    + rewrite Tb. exact M5.
  - destruct D as [(n0 & pre & F & part & H & _)]. destruct (g_max (d_log d') =? g_max (d_log (p_db p))) eqn:Eq; [lia|].
    destruct (file_at (g_max (d_log (p_db p))) (g_files (d_log (p_db p)))) as [fl|] eqn:HA; [|discriminate]. injection Ep as <- <-.
    constructor; cbn [p_store p_db p_man].
    + unfold man_of, add_new_file. cbn [l_files g_files]. rewrite map_app, Ef. apply Forall2_app; [apply ent_nfs; apply (man_of_ents (d_log (p_db p)))|].
      cbn [map]. constructor; [|constructor]. unfold ent_nf. cbn [e_num e_flushed f_num f_mt mt_init m_flushed].
      rewrite <- Hmod. split; [symmetry; exact Hn|symmetry; exact U3].
    + unfold man_of, add_new_file. cbn [l_max g_max]. rewrite <- Hmod. symmetry. congruence.
    + unfold man_of, add_new_file. cbn [l_flushed g_lf]. symmetry; exact Hlf.
    + unfold man_of, add_new_file. cbn [l_synced l_max g_ls g_max]. destruct (gi_ls _ _ _ _ _ _ H) as [X|(X & _)]; [left; exact X|right; rewrite <- Hmod; lia].
    + rewrite Tb. exact M5.
Qed.

Lemma mx_flush : forall hs r b p r' p', y_flush r b p = (r', p') -> MX hs p -> MX hs p'.
Proof.
  intros hs r b p r' p' E [M1 M2 M3 M4 M5]. unfold y_flush in E. destruct (file_at _ _); injection E as <- <-; constructor; assumption.
Qed.

Lemma mx_mark : forall hs r a p r' p', y_mark r a p = (r', p') -> MX hs p -> MX hs p'.
Proof.
  intros hs r a p r' p' E [M1 M2 M3 M4 M5]. unfold y_mark in E. injection E as <- <-.
  constructor; cbn [with_disk with_log p_db p_man d_log d_tab with_files g_files g_max g_lf]; try assumption.
  clear -M1. induction M1 as [|e f es fs [A B] H IH]; [constructor|]. cbn [upd_file map]. constructor; [|exact IH].
  destruct (f_num f =? sr_next r); [|split; assumption].
  assert (Q : m_flushed (lf_set_synced a (f_mt f)) = m_flushed (f_mt f)).
  { unfold lf_set_synced. repeat match goal with |- context [if ?b then _ else _] => destruct b end; reflexivity. }
  destruct (sr_next r <? sr_to r); split; cbn [set_imm with_mt f_num f_mt]; try assumption; congruence.
Qed.

(** ** Opening *)

(** What may be found of the log files: all that was written before the file the sync is at; of that
    file, any part of what is being written. *)
Definition found (hs : list rec) (r : srun) (p : pdb) (disk : list dlog) : Prop :=
  forall f x, In f (g_files (d_log (p_db p))) -> dlog_at (f_num f) (p_disk p) = Some x ->
    exists d, dlog_at (f_num f) disk = Some d /\
      (dl_recs d = dl_recs x \/
       (f_num f = sr_next r /\ sr_after r <> None /\ prefix (upto (lastseq hs) (fh f)) (dl_recs d) /\ prefix (dl_recs d) (dl_recs x))).

Definition on (disk : list dlog) (f : lgf) : list rec := match dlog_at (f_num f) disk with Some d => dl_recs d | None => [] end.

Lemma si_conts : forall pw c h hs h1 r p disk, SI pw c h hs h1 r p -> found hs r p disk ->
  exists s1, lastseq hs <= s1 /\ (exists ht, starts ht h /\ starts hs ht /\ lastseq ht = s1) /\
  forall f, In f (g_files (d_log (p_db p))) -> (exists d, dlog_at (f_num f) disk = Some d) /\
    (f_num f < sr_next r -> on disk f = upto s1 (fh f)) /\
    (f_num f = sr_next r -> prefix (upto (lastseq hs) (fh f)) (on disk f) /\ prefix (on disk f) (upto s1 (fh f))) /\
    (sr_next r < f_num f -> on disk f = upto (lastseq hs) (fh f)).
Proof.
  intros pw c h hs h1 r p disk S Hd. assert (D := si_di _ _ _ _ _ _ _ _ S).
  destruct D as [(n0 & pre & F & part & H & Ht & Hl & HF & HFl & HG & HB)].
  assert (Hsh : sorted_seq h) by apply (proj1 (gi_pre_part hash _ _ _ _ _ _ H)).
  assert (Hsf : forall f, In f (g_files (d_log (p_db p))) -> sorted_seq (fh f)) by (intros f Hf; apply (fi_sorted hash), (gi_fi _ _ _ _ _ _ H f Hf)).
  assert (Hsort : forall a, starts a h -> sorted_seq a).
  { intros a (t & ->). unfold sorted_seq in *. rewrite map_app in Hsh. apply SS_app_inv in Hsh. tauto. }
  destruct (si_next _ _ _ _ _ _ _ _ S) as [Hn1 Hn2].
  assert (Hwh : forall f a, In f (g_files (d_log (p_db p))) -> dlog_at (f_num f) (p_disk p) = Some (mkDL (f_num f) a false) ->
    (exists d, dlog_at (f_num f) disk = Some d) /\
    ((f_num f = sr_next r -> sr_after r = None) -> on disk f = a) /\
    (prefix (upto (lastseq hs) (fh f)) a -> prefix (upto (lastseq hs) (fh f)) (on disk f) /\ prefix (on disk f) a)).
  { intros f a Hf Ea. destruct (Hd f _ Hf Ea) as (d & Ed & Cd). cbn [dl_recs] in Cd. split; [exists d; exact Ed|]. unfold on. rewrite Ed.
    split; [intros Hno; destruct Cd as [Cd|(C1 & C2 & _)]; [exact Cd|exfalso; apply C2, Hno, C1]|].
    intros Hp. destruct Cd as [Cd|(_ & _ & C3 & C4)]; [rewrite Cd; split; [exact Hp|apply prefix_refl]|split; assumption]. }
  assert (Hdec : (sr_to r < sr_next r \/ (sr_next r = sr_to r /\ sr_after r <> None)) \/ (sr_next r < sr_to r \/ (sr_next r = sr_to r /\ sr_after r = None))).
  { destruct (sr_after r); [|]; destruct (N.lt_trichotomy (sr_to r) (sr_next r)) as [A|[A|A]]; try (left; left; exact A); try (right; left; exact A).
    - left; right; split; [symmetry; exact A|discriminate].
    - right; right; split; [symmetry; exact A|reflexivity]. }
  assert (Htodo : forall f, In f (g_files (d_log (p_db p))) -> sr_next r < f_num f -> (exists d, dlog_at (f_num f) disk = Some d) /\ on disk f = upto (lastseq hs) (fh f)).
  { intros f Hf Hlt. destruct (si_todo _ _ _ _ _ _ _ _ S f Hf ltac:(lia)) as (_ & _ & Q). specialize (Q ltac:(intros; lia)).
    destruct (Hwh f _ Hf Q) as (W1 & W2 & _). split; [exact W1|]. apply W2. intros; lia. }
  destruct Hdec as [Hfin|Hnot].
  - destruct (si_fin _ _ _ _ _ _ _ _ S Hfin) as (ft & hs1 & x & Hft & Ent & T1 & T2 & Hx & Ex & Dk & _).
    assert (T0 : starts hs hs1) by (eapply starts_trans; [apply (si_hs _ _ _ _ _ _ _ _ S)|exact T1]).
    exists (lastseq hs1). assert (Hle : lastseq hs <= lastseq hs1) by (apply starts_le; [apply Hsort, T2|exact T0]).
    split; [exact Hle|]. split; [exists hs1; auto|]. intros f Hf.
    assert (Hbig : f_num f < sr_to r -> upto (lastseq hs1) (fh f) = fh f).
    { intros Hlt. apply upto_all. intros y Hy. assert (X := gi_order hash _ _ _ _ _ f ft y x H Hf Hft ltac:(lia) Hy Hx). lia. }
    destruct (N.lt_trichotomy (f_num f) (sr_next r)) as [A|[A|A]].
    + assert (Hc : dlog_at (f_num f) (p_disk p) = Some (mkDL (f_num f) (upto (lastseq hs1) (fh f)) false)).
      { destruct (N.eq_dec (f_num f) (sr_to r)) as [e|n].
        - assert (f = ft) by (eapply file_uniq; eauto; congruence). subst f. exact Dk.
        - assert (Hlt : f_num f < sr_to r) by (destruct Hfin; lia). rewrite (Hbig Hlt). apply (si_done _ _ _ _ _ _ _ _ S f Hf A Hlt). }
      destruct (Hwh f _ Hf Hc) as (W1 & W2 & _). split; [exact W1|]. split; [intros _; apply W2; intros; lia|]. split; intros; lia.
    + destruct Hfin as [Hfin|[Q1 Q2]].
      * destruct (si_todo _ _ _ _ _ _ _ _ S f Hf ltac:(lia)) as (_ & _ & Q).
        assert (Na : sr_after r = None) by (destruct (sr_after r); [exfalso; assert (sr_next r <= sr_to r) by (apply Hn2; discriminate); lia|reflexivity]).
        specialize (Q (fun _ => Na)). destruct (Hwh f _ Hf Q) as (W1 & W2 & _). split; [exact W1|]. rewrite (W2 (fun _ => Na)).
        split; [intros; lia|]. split; [|intros; lia]. intros _. split; [apply prefix_refl|apply upto_mono_prefix; [apply Hsf, Hf|exact Hle]].
      * assert (f = ft) by (eapply file_uniq; eauto; congruence). subst f. destruct (Hwh ft _ Hf Dk) as (W1 & _ & W3). split; [exact W1|].
        split; [intros; lia|]. split; [|intros; lia]. intros _. apply W3. apply upto_mono_prefix; [apply Hsf, Hf|exact Hle].
    + destruct (Htodo f Hf A) as [W1 W2]. split; [exact W1|]. split; [intros; lia|]. split; [intros; lia|]. intros _; exact W2.
  - destruct (si_top _ _ _ _ _ _ _ _ S) as (ft & x & Hft & Ent & Hx & Ex).
    exists (lastseq h1). assert (Hle : lastseq hs <= lastseq h1) by (apply starts_le; [apply Hsort, (si_h1 _ _ _ _ _ _ _ _ S)|apply (si_hs _ _ _ _ _ _ _ _ S)]).
    split; [exact Hle|]. split; [exists h1; split; [apply (si_h1 _ _ _ _ _ _ _ _ S)|split; [apply (si_hs _ _ _ _ _ _ _ _ S)|reflexivity]]|]. intros f Hf.
    assert (Hbig : f_num f < sr_to r -> upto (lastseq h1) (fh f) = fh f).
    { intros Hlt. apply upto_all. intros y Hy. assert (X := gi_order hash _ _ _ _ _ f ft y x H Hf Hft ltac:(lia) Hy Hx). lia. }
    assert (Hpf : prefix (upto (lastseq hs) (fh f)) (upto (lastseq h1) (fh f))) by (apply upto_mono_prefix; [apply Hsf, Hf|exact Hle]).
    destruct (N.lt_trichotomy (f_num f) (sr_next r)) as [A|[A|A]].
    + assert (Hlt : f_num f < sr_to r) by (destruct Hnot; lia). destruct (si_done _ _ _ _ _ _ _ _ S f Hf A Hlt) as (_ & Hc & _).
      destruct (Hwh f _ Hf Hc) as (W1 & W2 & _). rewrite (Hbig Hlt). split; [exact W1|]. split; [intros _; apply W2; intros; lia|]. split; intros; lia.
    + destruct (sr_after r) as [a|] eqn:Ea.
      * assert (Hlt : f_num f < sr_to r) by (destruct Hnot as [Q|[Q1 Q2]]; [lia|discriminate]).
        destruct (si_mid _ _ _ _ _ _ _ _ S a f Ea Hf A Hlt) as [Hc _]. destruct (Hwh f _ Hf Hc) as (W1 & _ & W3). rewrite (Hbig Hlt) in *.
        split; [exact W1|]. split; [intros; lia|]. split; [|intros; lia]. intros _. apply W3, Hpf.
      * destruct (si_todo _ _ _ _ _ _ _ _ S f Hf ltac:(lia)) as (_ & _ & Q). specialize (Q (fun _ => Ea)).
        destruct (Hwh f _ Hf Q) as (W1 & W2 & _). split; [exact W1|]. rewrite (W2 (fun _ => eq_refl)).
        split; [intros; lia|]. split; [|intros; lia]. intros _. split; [apply prefix_refl|exact Hpf].
    + destruct (Htodo f Hf A) as [W1 W2]. split; [exact W1|]. split; [intros; lia|]. split; [intros; lia|]. intros _; exact W2.
Qed.

Lemma crash_si : forall pw c h hs h1 r p disk, cfg_ok c -> c_lso c = false -> SI pw c h hs h1 r p -> MX hs p -> found hs r p disk ->
  exists p' h', p_open hash c (d_tab (p_db p)) disk (p_dur p) (p_man p) (p_old p) = Some p' /\ starts hs h' /\ starts h' h /\
    (forall k, db_get hash c k (p_db p') = spec_get h' k).
Proof.
  intros pw c h hs h1 r p disk Cok Hlso S M Hfd. assert (D := si_di _ _ _ _ _ _ _ _ S).
  destruct (si_conts pw c h hs h1 r p disk S Hfd) as (s1 & Hle & (ht & T1 & T2 & Es1) & Hc).
  destruct D as [(n0 & pre & F & part & H & Ht & Hl & HF & HFl & HG & HB)].
  set (g := d_log (p_db p)) in *. set (s0 := lastseq hs) in *. set (cont := on disk).
  assert (Hsh : sorted_seq h) by apply (proj1 (gi_pre_part hash _ _ _ _ _ _ H)).
  assert (Hfs : forall f, In f (g_files g) -> sorted_seq (fh f)) by (intros f Hf; apply (fi_sorted hash), (gi_fi _ _ _ _ _ _ H f Hf)).
  assert (Hpos : forall x, In x h -> 1 <= r_seq x) by (intros x Hx; apply (gi_pos _ _ _ _ _ _ H); apply in_or_app; left; exact Hx).
  assert (Shs : starts hs h) by (eapply starts_trans; eassumption).
  assert (Hpre : forall x, In x pre -> r_seq x <= s0).
  { intros x Hx. apply (mx_tab _ _ M). rewrite Ht. apply filter_In. assert (X := gi_pre _ _ _ _ _ _ H x Hx). split; [|lia].
    assert (Hi : In x (h ++ part)) by (rewrite (gi_hist _ _ _ _ _ _ H); apply in_or_app; left; exact Hx).
    apply in_app_or in Hi. destruct Hi as [Hi|Hi]; [exact Hi|]. exfalso.
    destruct (proj2 (gi_pre_part hash _ _ _ _ _ _ H) x Hi) as [Y|Y]; [lia|]. assert (Z := starts_ne _ _ (si_h1 _ _ _ _ _ _ _ _ S) (si_ne _ _ _ _ _ _ _ _ S)). congruence. }
  assert (Hcut : forall a, starts a h -> s0 <= lastseq a -> a = pre ++ upto (lastseq a) (all_h (g_files g))).
  { intros a (t & Et) La. assert (Hasc := gi_asc _ _ _ _ _ _ H). rewrite Et, <- app_assoc in Hasc.
    assert (X := upto_self a (t ++ part) Hasc).
    rewrite <- X at 1.
    - rewrite app_assoc, <- Et, (gi_hist _ _ _ _ _ _ H), upto_app. f_equal. apply upto_all. intros x Hx. specialize (Hpre x Hx). lia.
    - intros x Hx. apply (gi_pos _ _ _ _ _ _ H). rewrite Et, <- app_assoc. apply in_or_app; right; exact Hx. }
  assert (Hlo : forall f, In f (g_files g) -> prefix (upto s0 (fh f)) (cont f)).
  { intros f Hf. destruct (Hc f Hf) as (_ & C1 & C2 & C3). unfold cont. destruct (N.lt_trichotomy (f_num f) (sr_next r)) as [A|[A|A]].
    - rewrite (C1 A). apply upto_mono_prefix; [apply Hfs, Hf|exact Hle].
    - apply (C2 A).
    - rewrite (C3 A). apply prefix_refl. }
  assert (Hhi : forall f, In f (g_files g) -> prefix (cont f) (upto s1 (fh f))).
  { intros f Hf. destruct (Hc f Hf) as (_ & C1 & C2 & C3). unfold cont. destruct (N.lt_trichotomy (f_num f) (sr_next r)) as [A|[A|A]].
    - rewrite (C1 A). apply prefix_refl.
    - apply (C2 A).
    - rewrite (C3 A). apply upto_mono_prefix; [apply Hfs, Hf|exact Hle]. }
  assert (Hord : forall a f b, g_files g = a ++ f :: b -> cont f <> upto s1 (fh f) -> forall x, In x b -> cont x = upto s0 (fh x)).
  { intros a f b E Hne x Hx. assert (HN := gi_nums _ _ _ _ _ _ H). fold g in HN. rewrite E in HN. apply nums_app in HN. destruct HN as [_ [N1 N2]].
    assert (Nx := nums_in _ _ _ N2 Hx).
    assert (Hf : In f (g_files g)) by (rewrite E; apply in_or_app; right; left; reflexivity).
    assert (Hx2 : In x (g_files g)) by (rewrite E; apply in_or_app; right; right; exact Hx).
    destruct (Hc f Hf) as (_ & C1 & _ & _). destruct (Hc x Hx2) as (_ & _ & _ & C3). apply C3.
    destruct (N.lt_ge_cases (f_num f) (sr_next r)) as [A|A]; [exfalso; apply Hne, C1, A|lia]. }
  destruct (in_order cont s0 s1 (g_files g) (gi_sorted_files hash _ _ _ _ _ H) Hlo Hhi Hord) as [Q1 Q2].
  set (h' := pre ++ flat_map cont (g_files g)).
  assert (P1 : prefix hs h') by (rewrite (Hcut hs Shs (N.le_refl _)); apply prefix_app, Q1).
  assert (P2 : prefix h' h).
  { destruct T1 as [t Et]. assert (X : prefix h' ht) by (rewrite (Hcut ht (ex_intro _ t Et) ltac:(lia)), Es1; apply prefix_app, Q2).
    destruct X as [u Eu]. exists (u ++ t). rewrite Et, Eu, app_assoc. reflexivity. }
  assert (Hsort : sorted_seq h').
  { destruct P2 as [t Et]. rewrite Et in Hsh. unfold sorted_seq in *. rewrite map_app in Hsh. apply SS_app_inv in Hsh. tauto. }
  assert (Htab : d_tab (p_db p) = filter (fun x => r_seq x <=? F) h').
  { destruct P1 as [w Ew]. destruct P2 as [t Et]. rewrite Ht, Et, filter_app. rewrite (filter_none _ t), app_nil_r; [reflexivity|].
    intros x Hx. destruct (r_seq x <=? F) eqn:Q; [|reflexivity]. exfalso.
    assert (Hin : In x h) by (rewrite Et; apply in_or_app; right; exact Hx).
    assert (B := mx_tab _ _ M x ltac:(rewrite Ht; apply filter_In; split; [exact Hin|exact Q])).
    assert (Hx1 := Hpos x Hin). rewrite Et, Ew, <- app_assoc in Hsh.
    destruct hs as [|y0 t0] eqn:Eh; [cbn in B; lia|]. rewrite <- Eh in *. destruct (lastseq_in hs) as (z & Hz & Ez); [rewrite Eh; discriminate|].
    assert (X := asc_app_lt _ _ z x Hsh Hz ltac:(apply in_or_app; right; exact Hx)). lia. }
  destruct (open_reads hash c g n0 pre (h ++ part) F [] (g_files g) cont (d_tab (p_db p)) F
    disk (p_dur p) (p_man p) (p_old p) Cok Hlso H Hl eq_refl (gi_ne _ _ _ _ _ _ H) (mx_ents _ _ M) (mx_max _ _ M) (mx_lf _ _ M) (mx_ls _ _ M)) as (p' & E & Hget).
  - intros f [].
  - intros f Hf. destruct (Hc f Hf) as ((d & Ed) & _). exists d. split; [exact Ed|]. unfold cont, on. rewrite Ed. reflexivity.
  - intros f Hf. destruct (Hhi f Hf) as [v Ev]. destruct (upto_prefix s1 (fh f) (Hfs f Hf)) as (t & Et & _). exists (v ++ t). rewrite app_assoc, <- Ev. exact Et.
  - exact Hsort.
  - exact Htab.
  - lia.
  - intros f x [].
  - exists p', h'. split; [exact E|]. split; [exact P1|]. split; [exact P2|exact Hget].
Qed.

End Proofs.
