(** Crash recovery with tables: sync. *)
From Verif Require Import Base KeyModel KeyProofs LogFormatModel LogManifestModel BloomModel BloomProofs MemTableModel MemTableProofs
  LogMgrModel LogMgrProofs LogMgrProofs2 LogMgrProofs3 DbModel DbProofs RecoverModel RecoverProofs RecoverProofs2.
From Coq Require Import Sorted ZifyBool.
Local Open Scope N_scope.

Section Proofs.
Variable hash : key -> N * N.
Notation GI := (GI hash).
Notation FI := (FI hash).
Notation DI := (DI hash).
Notation PI := (PI hash).

Lemma sync_loop_ok : forall fuel n to bar last fs, exists l fs', sync_loop fuel n to bar no_fault last fs = (Ok l, fs').
Proof.
  induction fuel as [|fuel IH]; intros n to bar last fs; cbn [sync_loop]; [eauto|].
  destruct (to <? n); [eauto|]. destruct (file_at n fs); [|apply IH]. cbn [no_fault]. apply IH.
Qed.

(** The exact effect of a sync: the files before the last synced one are complete; the others are
    written. *)
Lemma sync_exact : forall n0 pre h F g, GI n0 pre h F g -> lastseq h + 1 < NIL ->
  exists P Q ls, g_files g = P ++ Q /\ (forall f, In f P -> full_synced f) /\ (forall f, In f Q -> sync_from g <= f_num f) /\
    lm_sync no_fault g = (Ok tt, mkG (P ++ map (sync_file (g_max g) (g_bar g)) Q) (g_max g) (g_lf g) ls (g_bar g)).
Proof.
  intros n0 pre h F g H Hl.
  assert (HN := gi_nums _ _ _ _ _ _ H). assert (HG := gi_gmax _ _ _ _ _ _ H). assert (HE := gi_ne _ _ _ _ _ _ H).
  assert (Hmin : min_num g = Some n0).
  { unfold min_num. destruct (g_files g) as [|f t]; [congruence|]. destruct HN as [HN _]. rewrite HN; reflexivity. }
  assert (Hfrom : exists from, match last_synced g with Some x => Some x | None => min_num g end = Some from /\
     n0 <= from <= g_max g /\ (forall f, In f (g_files g) -> f_num f < from -> full_synced f)).
  { unfold last_synced. destruct (gi_ls _ _ _ _ _ _ H) as [A|(A & B & B2)].
    - rewrite A, N.eqb_refl. exists n0. split; [exact Hmin|].
      assert (1 <= len (g_files g)) by (unfold len; destruct (g_files g); [congruence|cbn; lia]). split; [lia|].
      intros f Hf Hlt. assert (X := nums_in _ _ _ HN Hf). lia.
    - destruct (g_ls g =? NIL) eqn:E.
      + assert (g_max g < NIL) by (assert (X := gi_few _ _ _ _ _ _ H); lia). lia.
      + exists (g_ls g). split; [reflexivity|]. split; [exact A|exact B]. }
  destruct Hfrom as (from & Efrom & Hfr & Hfs).
  destruct (file_at_split _ _ from HN) as (P & f0 & Q0 & E & Ef0 & LP); [lia|].
  assert (Hlen : len (g_files g) = len P + len (f0 :: Q0)) by (rewrite E; unfold len; rewrite app_length; lia).
  rewrite E in HN. assert (HN2 := HN). apply nums_app in HN2. destruct HN2 as [HP HQ]. replace (n0 + len P) with from in HQ by lia.
  unfold lm_sync, sync_from. rewrite (gi_max_num _ _ _ _ _ _ H Hl), Efrom, E.
  destruct (sync_loop_ok (S (N.to_nat (g_max g - from))) from (g_max g) (g_bar g) from (P ++ f0 :: Q0)) as (l & fs' & EL). rewrite EL.
  destruct (sync_loop_spec (f0 :: Q0) P n0 from (g_max g) (g_bar g) no_fault from (S (N.to_nat (g_max g - from))) HN)
    as [(l2 & EL2 & _)|(Q1 & Q2 & _ & EL2)]; [lia|lia|unfold len in *; lia| |congruence].
  exists P, (f0 :: Q0), l. split; [reflexivity|]. split.
  { intros f Hf. apply Hfs; [rewrite E; apply in_or_app; left; exact Hf|]. assert (X := nums_in _ _ _ HP Hf). lia. }
  split; [intros f Hf; assert (X := nums_in _ _ _ HQ Hf); lia|]. congruence.
Qed.

(** The marks after a sync are those of the acknowledged writes. *)
Lemma sync_marks : forall c h d n0 pre F part s, GI n0 pre (h ++ part) F (d_log d) -> F <= lastseq h ->
  match d_bat d with None => part = [] /\ g_bar (d_log d) = 0 | Some (todo, done) => done = part /\ in_batch c h part todo F (d_log d) end ->
  s <= lastseq h -> (forall f, In f (g_files (d_log d)) -> m_synced (f_mt f) = mark s f) ->
  forall f, In f (g_files (d_log d)) ->
    m_synced (f_mt (sync_file (g_max (d_log d)) (g_bar (d_log d)) f)) = mark (lastseq h) f /\
    (full_synced f -> m_synced (f_mt f) = mark (lastseq h) f).
Proof.
  intros c h d n0 pre F part s H HFl HB Hs Hm f Hf. set (g := d_log d) in *.
  assert (FIf := gi_fi _ _ _ _ _ _ H f Hf). assert (Hsort := fi_sorted _ _ FIf).
  assert (Hll : lastseq h < NIL) by (apply (gi_lastseq_lt hash c h d _ _ _ _ H)).
  assert (Hin : forall r, In r (fh f) -> In r (h ++ part)).
  { intros r Hr. rewrite (gi_hist _ _ _ _ _ _ H). apply in_or_app; right. apply in_flat_map. exists f; auto. }
  (* the whole file is at most lastseq h *)
  assert (Hall : (forall r, In r (fh f) -> r_seq r <= lastseq h) -> m_max (f_mt f) <> NIL -> m_max (f_mt f) = mark (lastseq h) f).
  { intros A B. assert (NE : fh f <> []) by (intros Z; apply B, (fi_emp _ _ FIf Z)).
    unfold mark. rewrite (upto_all _ _ A). destruct (fh f) eqn:Eh; [congruence|]. rewrite <- Eh. apply (fi_max _ _ FIf). rewrite Eh; discriminate. }
  assert (Hemp : m_max (f_mt f) = NIL -> m_synced (f_mt f) = mark (lastseq h) f).
  { intros A. assert (Z := mw_emp _ _ _ (fi_mw _ _ FIf) A). unfold mark. rewrite Z. cbn [upto filter].
    destruct (N.eq_dec (m_synced (f_mt f)) NIL) as [e|n]; [exact e|]. destruct (fi_syn _ _ FIf n) as (r & Hr & _). rewrite Z in Hr. destruct Hr. }
  assert (Hfull : full_synced f -> m_max (f_mt f) <> NIL -> forall r, In r (fh f) -> r_seq r <= lastseq h).
  { intros A B r Hr. unfold full_synced in A. rewrite (Hm f Hf) in A.
    assert (NE : upto s (fh f) <> []) by (intros Z; apply (mark_nil hash s f FIf) in Z; congruence).
    rewrite (mark_some _ _ NE) in A. assert (X := mr_bnd _ _ _ (mw_mr _ _ _ (fi_mw _ _ FIf)) r Hr).
    assert (Y := upto_last s (fh f) r Hsort NE Hr). lia. }
  split.
  2: { intros A. destruct (N.eq_dec (m_max (f_mt f)) NIL) as [e|n]; [exact (Hemp e)|]. rewrite <- (Hall (Hfull A n) n). exact A. }
  assert (Hbar : g_bar g < NIL).
  { destruct (d_bat d) as [[todo done]|]; [destruct HB as [_ (_ & -> & _)]; exact Hll|destruct HB as [_ ->]; rewrite nil_val; lia]. }
  rewrite (sync_file_synced hash _ _ _ FIf Hbar).
  destruct (negb (valid_number (m_max (f_mt f)))) eqn:Ev.
  { apply Hemp. unfold valid_number in Ev. lia. }
  assert (Hmx : m_max (f_mt f) <> NIL) by (unfold valid_number in Ev; lia).
  destruct (d_bat d) as [[todo done]|].
  - destruct HB as [-> (B1 & B2 & B3 & B4 & B5 & (a & fl & u & Efl & Eu & Hu))].
    assert (Hpos : lastseq h <> 0).
    { destruct (lastseq_in h B1) as (z & Hz & <-). assert (X := gi_pos _ _ _ _ _ _ H z ltac:(apply in_or_app; left; exact Hz)). lia. }
    destruct (f_imm f && is_synced (f_mt f)) eqn:Ei.
    + apply Hall; [|exact Hmx]. apply Hfull; [|exact Hmx]. apply andb_prop in Ei. destruct Ei as [_ Ei]. unfold is_synced, valid_number in Ei.
      unfold full_synced. destruct (N.eq_dec (m_synced (f_mt f)) NIL) as [e|n]; [rewrite e, N.eqb_refl in Ei; destruct (m_max (f_mt f) =? NIL) eqn:Z; [lia|discriminate]|].
      destruct (fi_syn _ _ FIf n) as (r & Hr & Er). assert (X := mr_bnd _ _ _ (mw_mr _ _ _ (fi_mw _ _ FIf)) r Hr). lia.
    + rewrite B2. replace (lastseq h =? 0) with false by lia.
      destruct (N.le_gt_cases (m_max (f_mt f)) (lastseq h)) as [Hle|Hgt].
      * replace (N.min (m_max (f_mt f)) (lastseq h)) with (m_max (f_mt f)) by lia. apply Hall; [|exact Hmx].
        intros r Hr. assert (X := mr_bnd _ _ _ (mw_mr _ _ _ (fi_mw _ _ FIf)) r Hr). lia.
      * replace (N.min (m_max (f_mt f)) (lastseq h)) with (lastseq h) by lia.
        (* f is the last file *)
        assert (Hh : h = pre ++ all_h a ++ u).
        { assert (X := gi_hist _ _ _ _ _ _ H). fold g in X. rewrite Efl, all_h_app in X. cbn [all_h flat_map] in X. rewrite app_nil_r, Eu in X.
          rewrite !app_assoc in X. apply app_inv_tail in X. rewrite <- app_assoc in X. exact X. }
        assert (Hlu : lastseq h = lastseq u) by (rewrite Hh, app_assoc; apply lastseq_app; exact Hu).
        assert (Hfl : f = fl).
        { assert (Hf2 := Hf). rewrite Efl in Hf2. apply in_app_or in Hf2. destruct Hf2 as [Hf2|[E|[]]]; [exfalso|auto].
          assert (NE : fh f <> []) by (intros Z; apply Hmx, (fi_emp _ _ FIf Z)).
          destruct (fi_max_in _ _ FIf NE) as (r & Hr & Er).
          assert (Hrh : In r h) by (rewrite Hh; apply in_or_app; right; apply in_or_app; left; apply in_flat_map; exists f; auto).
          assert (X := lastseq_ge h r (proj1 (gi_pre_part hash _ _ _ _ _ _ H)) Hrh). lia. }
        subst fl. unfold mark. rewrite Eu, upto_app, (upto_all (lastseq h) u), (upto_none (lastseq h) part).
        -- rewrite app_nil_r. destruct u; [congruence|exact Hlu].
        -- intros r Hr. destruct (proj2 (gi_pre_part hash _ _ _ _ _ _ H) r Hr) as [X|X]; [exact X|congruence].
        -- intros r Hr. apply lastseq_ge; [apply (gi_pre_part hash _ _ _ _ _ _ H)|]. rewrite Hh. apply in_or_app; right; apply in_or_app; right; exact Hr.
  - destruct HB as [-> Hb0]. rewrite Hb0, N.eqb_refl. rewrite app_nil_r in *.
    assert (A : forall r, In r (fh f) -> r_seq r <= lastseq h) by (intros r Hr; apply lastseq_ge; [apply (gi_asc _ _ _ _ _ _ H)|apply Hin, Hr]).
    destruct (f_imm f && is_synced (f_mt f)); apply Hall; assumption.
Qed.

Lemma dlog_at_map : forall n l (k : dlog -> dlog), (forall d, dl_num (k d) = dl_num d) ->
  dlog_at n (map k l) = match dlog_at n l with Some d => Some (k d) | None => None end.
Proof.
  intros n l k Hk. unfold dlog_at. induction l as [|d l IH]; [reflexivity|]. cbn [map find]. rewrite Hk. destruct (dl_num d =? n); auto.
Qed.

Lemma write_file_num : forall o n d, dl_num (write_file o n d) = dl_num d.
Proof. intros o n d. unfold write_file. destruct (file_at (dl_num d) o); [|reflexivity]. destruct (file_at (dl_num d) n); [|reflexivity]. destruct (dl_torn d); reflexivity. Qed.

Lemma pi_sync : forall pw c h hs p fsync x p', cfg_ok c -> PI pw c h hs p -> (pw = true -> fsync = true) ->
  p_sync hash c fsync p = Some (x, p') -> PI pw c h h p' /\ x = Ok [] /\ d_tab (p_db p') = d_tab (p_db p) /\
  d_bat (p_db p') = d_bat (p_db p) /\
  Forall2 same_file (g_files (d_log (p_db p))) (g_files (d_log (p_db p'))).
Proof.
  intros pw c h hs p fsync x p' Cok P Hpw E. unfold p_sync in E.
  assert (D := pi_di _ _ _ _ _ _ P). assert (Hle := pi_le _ _ _ _ _ _ P). set (d := p_db p) in *.
  destruct (step hash c (OSync no_fault) d) as [[x0 d']|] eqn:Est; [|discriminate].
  destruct (step_keeps hash c h d (OSync no_fault) x0 d' Cok D I Est) as (D' & Hx & _).
  destruct D as [(n0 & pre & F & part & H & Ht & Hl & HF & HFl & HG & HB)].
  destruct (sync_exact _ _ _ _ _ H Hl) as (P1 & Q1 & ls & Ef & Hfull & Hge & Esy).
  assert (Hmk := sync_marks c h d n0 pre F part (lastseq hs) H HFl HB Hle (pi_mark _ _ _ _ _ _ P)).
  unfold step in Est. rewrite Esy in Est. injection Est as <- <-. cbn [acked] in D'. rewrite app_nil_r in D'.
  set (g := d_log d) in *. set (sf := sync_file (g_max g) (g_bar g)) in *.
  set (g' := mkG (P1 ++ map sf Q1) (g_max g) (g_lf g) ls (g_bar g)) in *.
  injection E as <- <-. cbn [p_store p_db d_tab d_log d_bat].
  assert (Hsame : Forall2 same_file (g_files g) (g_files g')).
  { rewrite Ef. cbn [g' g_files]. apply Forall2_app; [apply same_files_refl|]. apply map_same. intros f. apply sync_file_same. }
  split; [|split; [reflexivity|split; [reflexivity|split; [reflexivity|exact Hsame]]]].
  (* each file of g' comes from one of g *)
  assert (Hfrom : forall f', In f' (g_files g') -> exists f, In f (g_files g) /\ same_file f f' /\ m_synced (f_mt f') = mark (lastseq h) f /\
    (sync_from g <= f_num f \/ f' = f)).
  { intros f' Hf'. cbn [g' g_files] in Hf'. apply in_app_or in Hf'. destruct Hf' as [Hf'|Hf'].
    - exists f'. assert (Hi : In f' (g_files g)) by (rewrite Ef; apply in_or_app; left; exact Hf').
      split; [exact Hi|]. split; [apply same_file_refl|]. split; [apply (Hmk f' Hi), Hfull, Hf'|right; reflexivity].
    - apply in_map_iff in Hf'. destruct Hf' as (f & <- & Hf). assert (Hi : In f (g_files g)) by (rewrite Ef; apply in_or_app; right; exact Hf).
      exists f. split; [exact Hi|]. split; [apply sync_file_same|]. split; [apply (Hmk f Hi)|left; apply Hge, Hf]. }
  assert (D2 := D'). destruct D' as [(n0' & pre' & F' & part' & H' & _)]. cbn [d_log] in H'.
  assert (Hwr : forall f', In f' (g_files g') -> disk_ok (lastseq h) f' (map (write_file (g_files g) (g_files g')) (p_disk p))).
  { intros f' Hf'. destruct (Hfrom f' Hf') as (f & Hf & (S1 & S2 & S3 & S4 & S5) & Sm & _).
    assert (A1 : file_at (f_num f) (g_files g) = Some f).
    { apply in_split in Hf. destruct Hf as (u & v & Eu). apply (file_at_num _ _ _ _ _ (gi_nums _ _ _ _ _ _ H) Eu). }
    assert (A2 : file_at (f_num f) (g_files g') = Some f').
    { rewrite <- S1. apply in_split in Hf'. destruct Hf' as (u & v & Eu). apply (file_at_num _ _ _ _ _ (gi_nums _ _ _ _ _ _ H') Eu). }
    assert (Dk := pi_disk _ _ _ _ _ _ P f Hf). unfold disk_ok in *. rewrite S1, S2, dlog_at_map by apply write_file_num. rewrite Dk.
    unfold write_file. cbn [dl_num dl_torn dl_recs]. fold g. rewrite A1, A2.
    rewrite (to_write_upto hash (lastseq hs) (lastseq h) f f'); [reflexivity|apply (gi_fi _ _ _ _ _ _ H f Hf)|apply (pi_mark _ _ _ _ _ _ P f Hf)|exact Sm|exact Hle]. }
  set (disk := map (write_file (g_files g) (g_files g')) (p_disk p)) in *.
  assert (Hdnum : forall y, In y disk -> dl_num y <= g_max g).
  { intros y Hy. unfold disk in Hy. apply in_map_iff in Hy. destruct Hy as (z & <- & Hz). rewrite write_file_num. apply (pi_nums _ _ _ _ _ _ P z). left; exact Hz. }
  unfold p_store. constructor; cbn [p_db p_disk p_dur p_man p_old d_log];
    change (map (write_file (g_files g) (P1 ++ map sf Q1)) (p_disk p)) with disk.
  - exact D2.
  - exists []. rewrite app_nil_r. reflexivity.
  - intros f' Hf'. destruct (Hfrom f' Hf') as (f & Hf & (S1 & S2 & _) & Sm & _). rewrite Sm. unfold mark. rewrite S2. reflexivity.
  - exact Hwr.
  - intros Hp. rewrite (Hpw Hp). intros f' Hf'. destruct (Hfrom f' Hf') as (f & Hf & (S1 & S2 & _) & Sm & Hr).
    assert (Dk := Hwr f' Hf'). assert (Du := pi_dur _ _ _ _ _ _ P Hp f Hf). unfold disk_ok in *.
    unfold fsync_range. rewrite dlog_at_map.
    + rewrite S1 in *. rewrite Du. cbn [dl_num]. rewrite Dk. unfold between.
      assert (Nf := nums_in _ _ _ (gi_nums _ _ _ _ _ _ H) Hf). assert (Ng := gi_gmax _ _ _ _ _ _ H). fold g in Nf, Ng.
      destruct (sync_from g <=? f_num f) eqn:Eb.
      * replace (f_num f <=? g_max g) with true by lia. reflexivity.
      * destruct Hr as [Hr| ->]; [lia|]. cbn [andb].
        assert (Em := pi_mark _ _ _ _ _ _ P f Hf). f_equal. f_equal.
        (* nothing of f lies between *)
        assert (FIf := gi_fi _ _ _ _ _ _ H f Hf).
        rewrite <- (to_write_upto hash (lastseq hs) (lastseq h) f f FIf Em Sm Hle).
        unfold to_write. destruct (m_synced (f_mt f) =? NIL) eqn:Es; [rewrite app_nil_r; reflexivity|].
        rewrite filter_none; [rewrite app_nil_r; reflexivity|]. intros r _. lia.
    + intros y. destruct (dlog_at (dl_num y) disk) as [z|] eqn:Ez; [|reflexivity]. destruct (between _ _ (dl_num y)); [|reflexivity].
      apply dlog_at_in in Ez. apply Ez.
  - split; [apply man_of_ents|]. eapply man_of_ok; exact H'.
  - intros Hp M HM. rewrite (Hpw Hp) in HM. destruct HM.
  - intros y [Hy|Hy]; cbn [g' g_max]; [apply Hdnum, Hy|].
    destruct fsync; [|apply (pi_nums _ _ _ _ _ _ P y); right; exact Hy].
    unfold fsync_range in Hy. apply in_map_iff in Hy. destruct Hy as (z & <- & Hz).
    assert (X := pi_nums _ _ _ _ _ _ P z (or_intror Hz)). fold d in X. fold g in X.
    destruct (dlog_at (dl_num z) disk) as [w|] eqn:Ez; [|exact X]. destruct (between _ _ (dl_num z)); [|exact X].
    apply dlog_at_in in Ez. destruct Ez as [_ ->]. exact X.
  - intros f' Hf' Hfn. destruct (Hfrom f' Hf') as (f & Hf & (S1 & S2 & S3 & S4 & S5) & _).
    assert (Hfn2 : fh f <> []) by (rewrite <- S2; exact Hfn).
    rewrite S1, (fi_min_eq hash f f' (gi_fi _ _ _ _ _ _ H f Hf) (gi_fi _ _ _ _ _ _ H' f' Hf') S2 Hfn2). apply (pi_few _ _ _ _ _ _ P f Hf Hfn2).
Qed.

End Proofs.
