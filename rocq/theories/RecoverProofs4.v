(** Crash recovery with tables: opening. *)
From Verif Require Import Base KeyModel KeyProofs LogFormatModel LogManifestModel BloomModel BloomProofs MemTableModel MemTableProofs
  LogMgrModel LogMgrProofs LogMgrProofs2 LogMgrProofs3 DbModel DbProofs RecoverModel RecoverProofs RecoverProofs2 RecoverProofs3.
From Verif Require LogSpec RollbackProofs2.
From Coq Require Import Sorted ZifyBool.
Local Open Scope N_scope.

(** ** The loop over the manifest *)

Fixpoint fills (last : N) (es : list ment) : list ment :=
  match es with
  | [] => []
  | e :: t => let last' := if valid_number (e_synced e) then e_synced e else last in fill_marks last' e :: fills last' t
  end.

Definition lsync (last : N) (es : list ment) : N :=
  fold_left (fun l e => if valid_number (e_synced e) then e_synced e else l) es last.

Lemma fills_snoc : forall es last e, fills last (es ++ [e]) = fills last es ++ [fill_marks (lsync last (es ++ [e])) e].
Proof.
  induction es as [|x es IH]; intros last e; [reflexivity|]. cbn [app fills]. cbv zeta. rewrite IH. reflexivity.
Qed.

Lemma fill_synced : forall es last e, e_synced (fill_marks (lsync last (es ++ [e])) e) = lsync last (es ++ [e]).
Proof.
  intros es last e. unfold lsync. rewrite fold_left_app. cbn [fold_left fill_marks e_synced]. unfold valid_number.
  set (l := fold_left _ es last). destruct (e_synced e =? NIL) eqn:E; cbn [negb andb]; [|reflexivity].
  destruct (l =? NIL) eqn:E2; cbn [negb]; lia.
Qed.

Lemma load_files_fills : forall cf st es last fr d n0 mx, c_section_only cf = false ->
  (forall e, In e es -> st (e_num e) = F_OK \/ st (e_num e) = F_OTHER) ->
  (forall e, In e es -> n0 <= e_num e <= mx) -> d_flushed d = NIL \/ d_flushed d = n0 -> d_synced d = NIL \/ d_synced d <= mx ->
  mx < NIL ->
  exists X, load_files cf st es last fr d = mkLoad (d_max d) (d_flushed d) X (d_files d ++ fills last es) (d_new d) /\
    (X = NIL \/ X <= mx) /\ (es <> [] \/ n0 <= d_synced d <= mx -> n0 <= X <= mx).
Proof.
  intros cf st es; induction es as [|e es IH]; intros last fr d n0 mx Hcf Hst Hnum Hfl Hsy Hmx.
  - exists (d_synced d). cbn [load_files fills]. rewrite app_nil_r. split; [destruct d; reflexivity|]. split; [exact Hsy|].
    intros [Z|Z]; [congruence|exact Z].
  - cbn [load_files fills]. cbv zeta. unfold invalid_log. rewrite Hcf. cbn [andb].
    assert (N1 := Hnum e (or_introl eq_refl)).
    assert (Hskip : valid_number (d_flushed d) && (e_num e <? d_flushed d) = false).
    { unfold valid_number. destruct Hfl as [-> | ->]; [rewrite N.eqb_refl; reflexivity|]. replace (e_num e <? n0) with false by lia. apply andb_false_r. }
    rewrite Hskip. set (last' := if valid_number (e_synced e) then e_synced e else last).
    set (d1 := add_file d (fill_marks last' e)).
    assert (Hd1 : n0 <= d_synced d1 <= mx).
    { cbn [d1 add_file d_synced fill_marks e_num]. unfold valid_number. destruct (d_synced d =? NIL) eqn:E; cbn [negb orb]; [lia|].
      destruct (d_synced d <? e_num e) eqn:E2; lia. }
    destruct (IH last' true d1 n0 mx Hcf) as (X & E & HX & HX2);
      [intros x Hx; apply Hst; right; exact Hx|intros x Hx; apply Hnum; right; exact Hx|exact Hfl|right; lia|exact Hmx|].
    exists X. split; [|split; [exact HX|intros _; apply HX2; right; exact Hd1]].
    assert (R : load_files cf st es last' true d1 =
      mkLoad (d_max d) (d_flushed d) X (d_files d ++ fill_marks last' e :: fills last' es) (d_new d)).
    { rewrite E. cbn [d1 add_file d_max d_flushed d_files d_new]. rewrite <- app_assoc. reflexivity. }
    destruct (Hst e (or_introl eq_refl)) as [-> | ->]; exact R.
Qed.

Lemma lsync_snoc : forall last es e, lsync last (es ++ [e]) = if valid_number (e_synced e) then e_synced e else lsync last es.
Proof. intros. unfold lsync. rewrite fold_left_app. reflexivity. Qed.

(** The mark carried along is the last synced record. *)
Lemma lsync_mark : forall s es a, Forall2 ent_ok es a -> (forall f, In f a -> m_synced (f_mt f) = mark s f) ->
  (forall f, In f a -> mark s f = NIL -> upto s (fh f) = []) ->
  lsync NIL es = match upto s (all_h a) with [] => NIL | _ => lastseq (upto s (all_h a)) end.
Proof.
  intros s es a H. revert es H. induction a as [|f a IH] using rev_ind; intros es H Hm Hn.
  - inversion H. reflexivity.
  - apply Forall2_app_inv_r in H. destruct H as (es1 & l & H1 & H2 & ->). inversion H2 as [|e ? ? ? He Hnil]; subst. inversion Hnil; subst.
    rewrite lsync_snoc. destruct He as (A1 & A2 & A3 & A4 & A5).
    rewrite all_h_app, upto_app. cbn [all_h flat_map]. rewrite app_nil_r.
    assert (Hf : In f (a ++ [f])) by (apply in_or_app; right; left; reflexivity).
    rewrite A3, (Hm f Hf). unfold valid_number. destruct (mark s f =? NIL) eqn:E; cbn [negb].
    + rewrite (Hn f Hf ltac:(lia)), app_nil_r. apply IH; [exact H1| |]; intros x Hx; [apply Hm|apply Hn]; apply in_or_app; left; exact Hx.
    + assert (NE : upto s (fh f) <> []) by (intros Z; unfold mark in E; rewrite Z, N.eqb_refl in E; discriminate).
      rewrite (mark_some _ _ NE). destruct (upto s (all_h a) ++ upto s (fh f)) as [|y t] eqn:Et.
      * apply app_eq_nil in Et. destruct Et; congruence.
      * rewrite <- Et. symmetry. apply lastseq_app. exact NE.
Qed.

Section Proofs.
Variable hash : key -> N * N.
Notation GI := (GI hash).
Notation FI := (FI hash).
Notation DI := (DI hash).
Notation PI := (PI hash).

(** ** Loading a file *)

Lemma recs_of_map : forall l, LogSpec.recs_of (map ERec l) = l.
Proof. induction l as [|r l IH]; [reflexivity|]. change (LogSpec.recs_of (map ERec (r :: l))) with (r :: LogSpec.recs_of (map ERec l)). rewrite IH; reflexivity. Qed.

Lemma load_mt : forall nb mn fl sy l, 0 < nb -> sorted_seq l -> l <> [] -> (forall r, In r l -> r_seq r <= sy) -> sy < NIL ->
  (forall r, In r l -> mn <= r_seq r) ->
  exists m, mt_load hash nb mn fl sy (map ERec l) = Ok m /\ MW hash l m /\ m_max m = lastseq l /\ m_synced m = lastseq l /\
    m_start m = mn /\ m_min m = mn /\ m_flushed m = fl.
Proof.
  intros nb mn fl sy l Hnb Hs Hne Hb Hsy Hmn. unfold mt_load.
  assert (HR0 : MR hash [] (mkMt mn mn fl NIL sy sy [] [] [] (bl_create nb 3))).
  { assert (X := mr_init hash nb mn Hnb).
    constructor; cbn; try (constructor; fail); try (intros; reflexivity); try (intros ? []). apply (mr_wf _ _ _ X). }
  destruct (RollbackProofs2.load_fold hash (map ERec l) _ [] NIL (or_intror (conj eq_refl HR0)) eq_refl) as (m' & E & R1 & R2 & R3 & R4 & R5 & R6 & R7 & R8).
  - rewrite recs_of_map. exact Hs.
  - rewrite recs_of_map. intros r Hr. cbn [m_max]. apply Hb, Hr.
  - exact Hsy.
  - rewrite recs_of_map in *. cbn [app] in R1, R2. rewrite E. destruct l as [|x l0] eqn:El; [congruence|]. rewrite <- El in *.
    assert (Hend : RollbackProofs2.end_seq l = lastseq l).
    { destruct (exists_last Hne) as (u & z & ->). rewrite RollbackProofs2.end_snoc, lastseq_snoc. reflexivity. }
    rewrite Hend. destruct (lastseq_in l Hne) as (y & Hy & Ey). assert (By := Hb y Hy).
    destruct (lastseq l =? NIL) eqn:EN; [lia|]. eexists. split; [reflexivity|].
    cbn [m_max m_start m_min m_flushed m_synced] in *. assert (Zy := Hmn y Hy).
    split; [|rewrite R4, R5, R6; auto 10].
    constructor; cbn [m_seq m_max m_min m_alloc].
    + destruct R1 as [K1 K2 K3 K4 K5 K6 K7 K8]. constructor; cbn [m_key m_seq m_bf m_max]; try assumption.
      intros r Hr. assert (X := lastseq_ge _ _ Hs Hr). lia.
    + exact R2.
    + exact Hs.
    + reflexivity.
    + rewrite R5. exact Hmn.
    + rewrite R5. lia.
    + intros _. rewrite R5. lia.
    + intros Q. lia.
Qed.

(** A file after recovery: only the synced records are left. *)
Record RI (s : N) (f f' : lgf) : Prop := {
  ri_num : f_num f' = f_num f;
  ri_imm : f_imm f' = true;
  ri_fh : fh f' = upto s (fh f);
  ri_flu : m_flushed (f_mt f') = m_flushed (f_mt f);
  ri_mr : MR hash (fh f') (f_mt f');
  ri_fi : upto s (fh f) <> [] -> FI f' /\ m_synced (f_mt f') = mark s f /\ m_min (f_mt f') = m_min (f_mt f) /\
    f_start f' = m_min (f_mt f) /\ m_start (f_mt f') = m_min (f_mt f) /\ m_max (f_mt f') = mark s f
}.

Lemma load_one_ri : forall c disk s e f last d, 0 < c_maxent c -> FI f -> ent_ok e f -> m_synced (f_mt f) = mark s f ->
  dlog_at (f_num f) disk = Some d -> dl_recs d = upto s (fh f) ->
  exists f', load_one hash c disk None (fill_marks last e) = Some f' /\ RI s f f' /\
    (upto s (fh f) = [] -> m_max (f_mt f') = e_synced (fill_marks last e)).
Proof.
  intros c disk s e f last d Hc Hf (A1 & A2 & A3 & A4 & A5) Hm Hd Hr. unfold load_one. cbn [fill_marks e_num e_flushed e_synced e_min].
  rewrite A1, Hd, Hr, A2, A3.
  destruct (upto s (fh f)) as [|r0 l0] eqn:Eu.
  - (* nothing of this file was synced *)
    set (mn := if negb (valid_number (e_min e)) && valid_number last then last + 1 else e_min e).
    set (sy := if negb (valid_number (m_synced (f_mt f))) && valid_number last then last else m_synced (f_mt f)).
    unfold mt_load. cbn [map fold_left]. eexists. split; [reflexivity|]. split; [|reflexivity].
    constructor; cbn [f_num f_imm f_mt m_flushed fh m_seq]; try reflexivity; [rewrite Eu; reflexivity| |intros Z; congruence].
    assert (X := mr_init hash (c_maxent c * 64) mn ltac:(lia)).
    constructor; cbn; try (constructor; fail); try (intros; reflexivity); try (intros ? []). apply (mr_wf _ _ _ X).
  - rewrite <- Eu in *. assert (NE : upto s (fh f) <> []) by (rewrite Eu; discriminate).
    assert (Hs := fi_sorted _ _ Hf). assert (Hmk := mark_some _ _ NE).
    assert (Hmn : m_synced (f_mt f) <> NIL) by (rewrite Hm; intros Z; apply (mark_nil hash s f Hf) in Z; congruence).
    assert (Hv : valid_number (m_synced (f_mt f)) = true) by (unfold valid_number; lia).
    assert (NEf : fh f <> []) by (intros Z; rewrite Z in NE; apply NE; reflexivity).
    destruct (fi_min _ _ Hf NEf) as (rm & Hrm & Erm).
    assert (Hmin : m_min (f_mt f) < NIL) by (assert (X := mr_bnd _ _ _ (mw_mr _ _ _ (fi_mw _ _ Hf)) rm Hrm); lia).
    rewrite Hv. cbn [negb andb]. rewrite (A5 Hmn).
    assert (Hvm : valid_number (m_min (f_mt f)) = true) by (unfold valid_number; lia). rewrite Hvm. cbn [negb andb].
    assert (Hsub : forall r, In r (upto s (fh f)) -> In r (fh f)) by (intros r X; apply upto_in in X; apply X).
    destruct (load_mt (c_maxent c * 64) (m_min (f_mt f)) (m_flushed (f_mt f)) (m_synced (f_mt f)) (upto s (fh f))) as (m & E & HW & M1 & M2 & M3 & M4 & M5).
    + lia.
    + apply upto_sorted, Hs.
    + exact NE.
    + intros r X. rewrite Hm, Hmk. apply lastseq_ge; [apply upto_sorted, Hs|exact X].
    + rewrite Hm, Hmk. destruct (lastseq_in _ NE) as (y & Hy & <-). apply (mr_bnd _ _ _ (mw_mr _ _ _ (fi_mw _ _ Hf)) y (Hsub y Hy)).
    + intros r X. apply (mw_min _ _ _ (fi_mw _ _ Hf)), Hsub, X.
    + rewrite E. eexists. split; [reflexivity|]. split; [|intros Z; congruence].
      assert (Hfh : fh (mkF (f_num f) (m_min (f_mt f)) true m) = upto s (fh f)) by apply (mw_seq _ _ _ HW).
      constructor; cbn [f_num f_imm f_mt]; try reflexivity; try assumption.
      * rewrite Hfh. apply (mw_mr _ _ _ HW).
      * intros _. rewrite M1, M2, M3, M4, Hmk. split; [|cbn [f_start]; auto 10].
        constructor; cbn [f_mt f_start]; rewrite ?Hfh, ?M1, ?M2, ?M3, ?M4, ?M5.
        -- exact HW.
        -- reflexivity.
        -- intros Z; congruence.
        -- exact Hmin.
        -- intros _. apply lastseq_in, NE.
        -- intros Hx. destruct (fi_flu _ _ Hf Hx) as (y & Hy & Ey). exists y. split; [|exact Ey]. apply upto_in. split; [exact Hy|].
           destruct (fi_ord _ _ Hf Hx) as [_ X]. rewrite Hm, Hmk in X. apply (upto_last s (fh f) y Hs NE Hy). lia.
        -- intros Hx. destruct (fi_ord _ _ Hf Hx) as [_ X]. rewrite Hm, Hmk in X. split; [|exact X]. rewrite <- Hmk, <- Hm. exact Hmn.
        -- intros r X. apply (mw_min _ _ _ (fi_mw _ _ Hf)), Hsub, X.
        -- intros _. exists rm. split; [|exact Erm]. apply upto_in. split; [exact Hrm|].
           assert (Y : In r0 (upto s (fh f))) by (rewrite Eu; left; reflexivity). assert (W := Hsub r0 Y). apply upto_in in Y.
           assert (Z := mw_min _ _ _ (fi_mw _ _ Hf) r0 W). lia.
Qed.

Lemma load_all_ri : forall c disk s es a, 0 < c_maxent c -> Forall2 ent_ok es a -> (forall f, In f a -> FI f) ->
  (forall f, In f a -> m_synced (f_mt f) = mark s f) ->
  (forall f, In f a -> exists d, dlog_at (f_num f) disk = Some d /\ dl_recs d = upto s (fh f)) ->
  exists fs, load_all hash c disk None (fills NIL es) = Some fs /\ Forall2 (RI s) a fs /\
    (forall a1 f fs1 f', a = a1 ++ [f] -> fs = fs1 ++ [f'] -> m_max (f_mt f') = match upto s (all_h a) with [] => NIL | _ => lastseq (upto s (all_h a)) end).
Proof.
  intros c disk s es a Hc H. revert es H. induction a as [|f a IH] using rev_ind; intros es H Hfi Hm Hd.
  - inversion H. exists []. split; [reflexivity|]. split; [constructor|]. intros a1 f fs1 f' Z. destruct a1; discriminate.
  - assert (Hall := lsync_mark s es (a ++ [f]) H Hm).
    apply Forall2_app_inv_r in H. destruct H as (es1 & l & H1 & H2 & ->). inversion H2 as [|e ? ? ? He Hnil]; subst. inversion Hnil; subst.
    assert (Hf : In f (a ++ [f])) by (apply in_or_app; right; left; reflexivity).
    destruct (IH es1 H1) as (fs & E & R & _); [intros x Hx; apply Hfi|intros x Hx; apply Hm|intros x Hx; apply Hd|]; try (apply in_or_app; left; exact Hx).
    destruct (Hd f Hf) as (d & Ed & Er).
    destruct (load_one_ri c disk s e f (lsync NIL (es1 ++ [e])) d Hc (Hfi f Hf) He (Hm f Hf) Ed Er) as (f' & E' & R' & Hmx).
    exists (fs ++ [f']). split.
    { rewrite fills_snoc. revert E. generalize (fills NIL es1). intros l; revert fs R. clear -E'. intros fs _. revert fs.
      induction l as [|x l IH]; intros fs E; cbn [load_all app] in *.
      - injection E as <-. rewrite E'. reflexivity.
      - destruct (load_one hash c disk None x) as [y|]; [|discriminate]. destruct (load_all hash c disk None l) as [z|]; [|discriminate].
        injection E as <-. rewrite (IH z eq_refl). reflexivity. }
    split; [apply Forall2_app; [exact R|constructor; [exact R'|constructor]]|].
    intros a1 f1 fs1 f1' Ea Efs. apply app_inj_tail in Ea. destruct Ea as [-> ->]. apply app_inj_tail in Efs. destruct Efs as [-> ->].
    rewrite <- Hall; [|intros x Hx Z; apply (mark_nil hash s x (Hfi x Hx)), Z].
    destruct (upto s (fh f1)) as [|r0 l0] eqn:Eu.
    + rewrite (Hmx eq_refl). apply fill_synced.
    + assert (NE : upto s (fh f1) <> []) by (rewrite Eu; discriminate). destruct (ri_fi _ _ _ R' NE) as (_ & _ & _ & _ & _ & ->).
      rewrite lsync_snoc. destruct He as (_ & _ & A3 & _). rewrite A3, (Hm f1 Hf).
      assert (X : mark s f1 <> NIL) by (intros Z; apply (mark_nil hash s f1 (Hfi f1 Hf)) in Z; congruence).
      unfold valid_number. replace (mark s f1 =? NIL) with false by lia. reflexivity.
Qed.

End Proofs.
