(** Flushes and syncs that overlap: the invariant. *)
From Verif Require Import Base KeyModel KeyProofs LogFormatModel LogManifestModel BloomModel BloomProofs MemTableModel MemTableProofs
  LogMgrModel LogMgrProofs LogMgrProofs2 LogMgrProofs3 DbModel DbProofs DbProofs2 RecoverModel RecoverProofs RecoverProofs2 RecoverProofs3
  RecoverProofs5 RecoverProofs7 RecoverProofs8 RecoverProofs9 SyncRaceModel SyncRaceSpec SyncRaceProofs SyncRaceProofs2 SyncRaceProofs3 SyncRaceProofs4 SyncRaceProofs5
  FlushRaceModel FlushRaceSpec.
From Coq Require Import Sorted ZifyBool.
Local Open Scope N_scope.

Section Proofs.
Variable hash : key -> N * N.
Notation GI := (GI hash).
Notation FI := (FI hash).
Notation DI := (DI hash).

(** Synced marks are numbers of acknowledged writes. *)
Definition marks_le (s : N) (g : lmgr) : Prop := forall f, In f (g_files g) -> m_synced (f_mt f) <> NIL -> m_synced (f_mt f) <= s.

(** Between syncs. *)
Definition NI (c : cfg) (h : list rec) (d : db) : Prop := DI c h d /\ open_top (d_log d) /\ marks_le (lastseq h) (d_log d).

(** During a sync. *)
Record ZI (c : cfg) (h : list rec) (r : srun) (d : db) : Prop := {
  zi_di : DI c h d;
  zi_ne : h <> [];
  zi_top : exists f, In f (g_files (d_log d)) /\ f_num f = sr_to r;
  zi_ls : g_ls (d_log d) = NIL \/ (g_ls (d_log d) <= sr_next r /\ g_ls (d_log d) <= sr_to r);
  zi_last : sr_to r < sr_next r -> sr_last r = sr_to r;
  zi_imm : forall f, In f (g_files (d_log d)) -> sr_to r <= f_num f -> f_imm f = false;
  zi_bat : d_bat d <> None -> sr_to r = g_max (d_log d);
  zi_bar : match sr_bar r with
           | None => sr_after r = None /\ sr_next r <= sr_to r
           | Some b => (b = 0 /\ d_bat d = None) \/
                       (b <> 0 /\ b <= lastseq h /\ marks_le b (d_log d) /\
                        exists f y, In f (g_files (d_log d)) /\ f_num f = sr_to r /\ In y (fh f) /\ r_seq y = b)
           end;
  zi_next : sr_next r <= sr_to r + 1 /\ (sr_after r <> None -> sr_next r <= sr_to r);
  zi_done : forall f, In f (g_files (d_log d)) -> f_num f < sr_next r ->
              (f_num f < sr_to r -> full_synced f) /\ (f_num f = sr_to r -> m_synced (f_mt f) <> NIL);
  zi_sy : marks_le (lastseq h) (d_log d);
  zi_mid : forall a f, sr_after r = Some a -> In f (g_files (d_log d)) -> f_num f = sr_next r ->
              (f_num f < sr_to r -> a = m_max (f_mt f) \/ a = NIL) /\
              (f_num f = sr_to r -> exists x, In x (fh f) /\ r_seq x = a /\ a <= lastseq h /\ (m_synced (f_mt f) <> NIL -> m_synced (f_mt f) <= a) /\
                 (forall b, sr_bar r = Some b -> b <> 0 -> a = b))
}.

Lemma zi_begin : forall c h p fsync r, NI c h (p_db p) -> h <> [] -> y_begin fsync p = Some r -> ZI c h r (p_db p).
Proof.
  intros c h p fsync r (D & Ho & Hm) Hne E. assert (D0 := D).
  destruct D as [(n0 & pre & F & part & H & Ht & Hl & HF & HFl & HG & HB)].
  unfold y_begin in E. rewrite (gi_max_num hash _ _ _ _ _ H Hl) in E. injection E as <-.
  destruct (sync_from_ok hash _ _ _ _ _ H Hl) as (A1 & A2 & A3). set (g := d_log (p_db p)) in *.
  destruct (gi_last _ _ _ _ _ _ H) as (a & fl & Ea & En).
  assert (Hfl : In fl (g_files g)) by (rewrite Ea; apply in_or_app; right; left; reflexivity).
  constructor; cbn [sr_fsync sr_to sr_next sr_last sr_bar sr_after]; fold g; auto; try lia.
  - exists fl; auto.
  - intros f Hf Hle. apply Ho; [exact Hf|]. assert (X := file_le hash _ _ _ _ _ f H Hf). fold g in X. lia.
  - intros f Hf Hlt. split; [intros _; apply (A2 f Hf Hlt)|lia].
  - discriminate.
Qed.

(** Writes. *)
Lemma write_marks : forall c h d o x d', cfg_ok c -> DI c h d -> allowed c h d o -> step hash c o d = Some (x, d') ->
  match o with OSync _ | OFlush _ _ => False | _ => True end -> forall s, marks_le s (d_log d) -> marks_le s (d_log d').
Proof.
  intros c h d o x d' Cok D Al E Ho s M f' Hf' Hs.
  destruct (write_grown hash c h d o x d' (lastseq h) Cok D Al E Ho (N.le_refl _)) as (_ & [(K & _)|(nf & Ef & U1 & U2 & U3 & _)]).
  - destruct (kept_in _ _ _ K f' Hf') as (f & Hf & (_ & _ & K3 & _)). rewrite K3 in *. apply (M f Hf Hs).
  - rewrite Ef in Hf'. apply in_app_or in Hf'. destruct Hf' as [Hf'|[<-|[]]]; [apply (M f' Hf' Hs)|congruence].
Qed.

Lemma acked_le : forall c h d o x d', cfg_ok c -> DI c h d -> allowed c h d o -> step hash c o d = Some (x, d') -> lastseq h <= lastseq (h ++ acked x).
Proof.
  intros c h d o x d' Cok D Al E. destruct (step_keeps hash c h d o x d' Cok D Al E) as (D' & _). apply starts_le; [exact (di_sorted _ _ _ _ D')|].
  exists (acked x). reflexivity.
Qed.

Lemma marks_mono : forall s s' g, s <= s' -> marks_le s g -> marks_le s' g.
Proof. intros s s' g Hle M f Hf Hs. specialize (M f Hf Hs). lia. Qed.

Lemma ni_write : forall c h d o x d', cfg_ok c -> NI c h d -> allowed c h d o -> step hash c o d = Some (x, d') ->
  match o with OSync _ | OFlush _ _ => False | _ => True end -> NI c (h ++ acked x) d' /\ x <> Undef.
Proof.
  intros c h d o x d' Cok (D & Ho & Hm) Al E Hw. destruct (step_keeps hash c h d o x d' Cok D Al E) as (D' & Hx & _). split; [|exact Hx].
  split; [exact D'|]. split.
  - destruct (write_imm_ls hash c h d o x d' Cok D E Hw) as (_ & Himm).
    assert (Hmax : g_max (d_log d) <= g_max (d_log d')).
    { destruct (write_grown hash c h d o x d' 0 Cok D Al E Hw ltac:(lia)) as (_ & [(_ & A)|(nf & _ & _ & _ & _ & A & _)]); lia. }
    intros f' Hf' En. destruct (f_imm f') eqn:Ei; [|reflexivity]. destruct (Himm f' Hf' Ei) as (f & Hf & En2 & Ef).
    destruct D as [(n0 & pre & F & part & H & _)]. assert (X := file_le hash _ _ _ _ _ f H Hf). rewrite (Ho f Hf ltac:(lia)) in Ef. discriminate.
  - apply (marks_mono (lastseq h)); [exact (acked_le c h d o x d' Cok D Al E)|exact (write_marks c h d o x d' Cok D Al E Hw _ Hm)].
Qed.

Lemma write_grow : forall c h d o x d', cfg_ok c -> DI c h d -> h <> [] -> allowed c h d o -> step hash c o d = Some (x, d') ->
  match o with OSync _ | OFlush _ _ => False | _ => True end ->
  forall f, In f (g_files (d_log d)) -> exists f', In f' (g_files (d_log d')) /\ f_num f' = f_num f /\
    (forall y, In y (fh f) -> r_seq y <= lastseq h -> In y (fh f')).
Proof.
  intros c h d o x d' Cok D Hne Al E Ho f Hf.
  destruct (write_grown hash c h d o x d' (lastseq h) Cok D Al E Ho (N.le_refl _)) as (_ & [(K & _)|(nf & Ef & _)]).
  - assert (X : In (f_num f) (map f_num (g_files (d_log d')))) by (rewrite (kept_nums _ _ _ K); apply in_map, Hf).
    apply in_map_iff in X. destruct X as (f' & E1 & Hf'). exists f'. split; [exact Hf'|]. split; [exact E1|].
    destruct (kept_in _ _ _ K f' Hf') as (f0 & H0 & (K1 & _ & _ & K4 & _)).
    destruct D as [(n0 & pre & F & part & H & _)]. assert (f0 = f) by (apply (file_uniq hash _ _ _ _ _ f0 f H H0 Hf); congruence). subst f0.
    intros y Hy Hle. assert (Y : In y (upto (lastseq h) (fh f))) by (apply upto_in; auto). rewrite <- K4 in Y. apply upto_in in Y. apply Y.
  - exists f. split; [rewrite Ef; apply in_or_app; left; exact Hf|]. auto.
Qed.

Lemma zi_write : forall c h r d o x d', cfg_ok c -> ZI c h r d -> allowed c h d o -> is_begin o = false -> step hash c o d = Some (x, d') ->
  match o with OSync _ | OFlush _ _ => False | _ => True end -> ZI c (h ++ acked x) r d' /\ x <> Undef.
Proof.
  intros c h r d o x d' Cok Z Al Hb E Hw. assert (D := zi_di _ _ _ _ Z). assert (Hne := zi_ne _ _ _ _ Z).
  destruct (step_keeps hash c h d o x d' Cok D Al E) as (D' & Hx & _). split; [|exact Hx].
  assert (Hfiles := write_files hash c h d o x d' Cok D Hne Al E Hw).
  destruct (write_imm_ls hash c h d o x d' Cok D E Hw) as (Hls & Himm).
  assert (Hmono := acked_le c h d o x d' Cok D Al E).
  assert (Hmk := write_marks c h d o x d' Cok D Al E Hw).
  assert (Hgrow := write_grow c h d o x d' Cok D Hne Al E Hw).
  assert (D1 := D). destruct D1 as [(n0 & pre & F & part & H & _)]. assert (D1' := D'). destruct D1' as [(n0' & pre' & F' & part' & H' & _)].
  destruct (zi_top _ _ _ _ Z) as (ft & T1 & T2). assert (Tle := file_le hash _ _ _ _ _ ft H T1).
  destruct (zi_next _ _ _ _ Z) as (N1 & N2).
  assert (Hne' : h ++ acked x <> []) by (intro Q; apply app_eq_nil in Q; destruct Q; congruence).
  (* a file that was there *)
  assert (Hold : forall f', In f' (g_files (d_log d')) -> f_num f' <= sr_to r -> exists f, old_file h (d_log d) f f').
  { intros f' Hf' Hle. destruct (Hfiles f' Hf') as [Q|(Q & _)]; [exact Q|lia]. }
  assert (Hmx : forall f f', old_file h (d_log d) f f' -> In f' (g_files (d_log d')) -> f_num f < sr_to r -> m_max (f_mt f') = m_max (f_mt f)).
  { intros f f' (O1 & O2 & O3 & O4 & O5) Hf' Hlt. apply (max_eq hash); [apply (gi_fi _ _ _ _ _ _ H f O1)|apply (gi_fi _ _ _ _ _ _ H' f' Hf')|apply O5; lia|].
    exact (di_ne hash c h d n0 pre F part f D Hne H O1). }
  constructor.
  - exact D'.
  - exact Hne'.
  - destruct (Hgrow ft T1) as (f' & G1 & G2 & _). exists f'. split; [exact G1|congruence].
  - rewrite Hls. apply (zi_ls _ _ _ _ Z).
  - apply (zi_last _ _ _ _ Z).
  - intros f' Hf' Hle. destruct (f_imm f') eqn:Ei; [|reflexivity]. destruct (Himm f' Hf' Ei) as (f & Hf & En & Ef).
    rewrite (zi_imm _ _ _ _ Z f Hf ltac:(lia)) in Ef. discriminate.
  - intros Hd. destruct (d_bat d) as [bt|] eqn:Ebt; [|rewrite (write_bat hash c d o x d' E Hb Ebt) in Hd; congruence].
    rewrite (write_bat_max hash c h d o x d' Cok D Al E Hb ltac:(congruence)). apply (zi_bat _ _ _ _ Z). congruence.
  - assert (B := zi_bar _ _ _ _ Z). destruct (sr_bar r) as [b|]; [|exact B]. destruct B as [(B1 & B2)|(B1 & B2 & B3 & f & y & B4 & B5 & B6 & B7)].
    + left. split; [exact B1|]. apply (write_bat hash c d o x d' E Hb B2).
    + right. split; [exact B1|]. split; [lia|]. split; [apply Hmk, B3|]. destruct (Hgrow f B4) as (f' & G1 & G2 & G3). exists f', y.
      split; [exact G1|]. split; [congruence|]. split; [apply G3; [exact B6|lia]|exact B7].
  - split; [exact N1|exact N2].
  - intros f' Hf' Hlt. destruct (Hold f' Hf' ltac:(lia)) as (f & O). assert (O' := O). destruct O as (O1 & O2 & O3 & O4 & O5).
    rewrite O2 in *. destruct (zi_done _ _ _ _ Z f O1 Hlt) as (C1 & C2). split.
    + intros Hl. unfold full_synced. rewrite O3, (Hmx f f' O' Hf' Hl). apply C1, Hl.
    + intros Hl. rewrite O3. apply C2, Hl.
  - eapply marks_mono; [exact Hmono|]. apply Hmk, (zi_sy _ _ _ _ Z).
  - intros a f' Ha Hf' Hn. destruct (Hold f' Hf' ltac:(specialize (N2 ltac:(congruence)); lia)) as (f & O). assert (O' := O). destruct O as (O1 & O2 & O3 & O4 & O5).
    rewrite O2 in *. destruct (zi_mid _ _ _ _ Z a f Ha O1 Hn) as (C1 & C2). split.
    + intros Hl. rewrite (Hmx f f' O' Hf' Hl). apply C1, Hl.
    + intros Hl. destruct (C2 Hl) as (y & Y1 & Y2 & Y3 & Y4 & Y5). exists y. split.
      * assert (Y : In y (upto (lastseq h) (fh f))) by (apply upto_in; split; [exact Y1|lia]). rewrite <- O4 in Y. apply upto_in in Y. apply Y.
      * rewrite O3. split; [exact Y2|]. split; [lia|]. auto.
Qed.

(** Steps of the sync. *)
Lemma zi_step_bar : forall c h r d, ZI c h r d -> sr_bar r = None ->
  ZI c h (mkSR (sr_fsync r) (sr_to r) (sr_next r) (sr_last r) (Some (g_bar (d_log d))) None) d.
Proof.
  intros c h r d Z Eb. assert (B := zi_bar _ _ _ _ Z). rewrite Eb in B. destruct B as [B1 B2]. assert (Hne := zi_ne _ _ _ _ Z).
  constructor; cbn [sr_fsync sr_to sr_next sr_last sr_bar sr_after]; try (apply Z); try exact Hne.
  - destruct (zi_di _ _ _ _ Z) as [(n0 & pre & F & part & H & Ht & Hl & HF & HFl & HG & HB)].
    destruct (d_bat d) as [[todo done]|] eqn:Ebat.
    + destruct HB as [-> (P1 & P2 & _)]. right. rewrite P2.
      destruct (gi_last _ _ _ _ _ _ H) as (a & fl & Ea & En).
      assert (Hfl : In fl (g_files (d_log d))) by (rewrite Ea; apply in_or_app; right; left; reflexivity).
      destruct (di_top hash c h d fl (zi_di _ _ _ _ Z) Hne Hfl En) as (t & Ht1 & Et).
      assert (Hpos : 1 <= r_seq t).
      { apply (gi_pos _ _ _ _ _ _ H). rewrite (gi_hist _ _ _ _ _ _ H). apply in_or_app; right. apply in_flat_map. exists fl; auto. }
      split; [lia|]. split; [lia|]. split; [apply (zi_sy _ _ _ _ Z)|]. exists fl, t. split; [exact Hfl|]. split; [|auto].
      rewrite En. symmetry. apply (zi_bat _ _ _ _ Z). congruence.
    + destruct HB as [_ ->]. left. auto.
  - split; [lia|congruence].
  - discriminate.
Qed.

Lemma zi_step_flush : forall c h r p b r' p', ZI c h r (p_db p) -> sr_bar r = Some b -> sr_after r = None -> sr_next r <= sr_to r ->
  y_flush r b p = (r', p') -> ZI c h r' (p_db p').
Proof.
  intros c h r p b r' p' Z Eb Ea Hle E. assert (D := zi_di _ _ _ _ Z). assert (Hne := zi_ne _ _ _ _ Z).
  assert (D0 := D). destruct D as [(n0 & pre & F & part & H & Ht & Hl & HF & HFl & HG & HB)].
  unfold y_flush in E. set (g := d_log (p_db p)) in *. assert (BB := zi_bar _ _ _ _ Z). rewrite Eb in BB.
  destruct (file_at (sr_next r) (g_files g)) as [f|] eqn:Ef; injection E as <- <-; cbn [with_disk p_db].
  - apply file_at_in in Ef. destruct Ef as [Hf Hn].
    assert (FIf := gi_fi _ _ _ _ _ _ H f Hf). assert (NE : fh f <> []) by exact (di_ne hash c h (p_db p) n0 pre F part f D0 Hne H Hf).
    constructor; cbn [sr_fsync sr_to sr_next sr_last sr_bar sr_after]; try (apply Z); try exact Hne.
    + rewrite Eb. exact BB.
    + split; [lia|auto].
    + intros a f2 Ha Hf2 Hn2. injection Ha as <-. assert (f2 = f) by (apply (file_uniq hash _ _ _ _ _ f2 f H Hf2 Hf); congruence). subst f2. split.
      * intros Hlt. destruct (f_imm f && is_synced (f_mt f)) eqn:Ei; [right; unfold y_after; rewrite Ei; reflexivity|left].
        apply (after_all hash b f FIf NE); [|exact Ei]. destruct BB as [(-> & _)|(_ & _ & _ & fb & y & B4 & B5 & B6 & B7)]; [left; reflexivity|right].
        intros z Hz. assert (X := gi_order hash _ _ _ _ _ f fb z y H Hf B4 ltac:(lia) Hz B6). lia.
      * intros Heq. assert (Ii := zi_imm _ _ _ _ Z f Hf ltac:(lia)). destruct BB as [(-> & Bn)|(B1 & B2 & B3 & fb & y & B4 & B5 & B6 & B7)].
        -- rewrite (after_all hash 0 f FIf NE (or_introl eq_refl)) by (rewrite Ii; reflexivity).
           destruct (lastseq_in _ NE) as (z & Hz & Ez). rewrite <- (fi_max _ _ FIf NE) in Ez. exists z. split; [exact Hz|]. split; [exact Ez|].
           rewrite Bn in HB. destruct HB as [-> _]. rewrite app_nil_r in *. split.
           { rewrite <- Ez. apply lastseq_ge; [apply (gi_asc _ _ _ _ _ _ H)|]. rewrite (gi_hist _ _ _ _ _ _ H). apply in_or_app; right. apply in_flat_map. exists f; auto. }
           split; [|intros b0 Eb0; assert (b0 = 0) by congruence; congruence].
           intros Zs. destruct (fi_syn _ _ FIf Zs) as (w & Hw & Ew). destruct (fi_bnd hash f w FIf Hw). lia.
        -- assert (fb = f) by (apply (file_uniq hash _ _ _ _ _ fb f H B4 Hf); lia). subst fb.
           rewrite (after_rec hash b f y FIf B6 B7 B1 Ii). exists y. split; [exact B6|]. split; [exact B7|]. split; [exact B2|]. split; [apply (B3 f Hf)|].
           intros b0 Eb0 _. congruence.
  - (* no such file *)
    assert (Hno : forall f, In f (g_files g) -> f_num f <> sr_next r).
    { intros f Hf Hn. assert (X := file_here hash _ _ _ _ _ f H Hf). fold g in X. congruence. }
    constructor; cbn [sr_fsync sr_to sr_next sr_last sr_bar sr_after]; try (apply Z); try exact Hne.
    + destruct (zi_ls _ _ _ _ Z) as [X|[X Y]]; [left; exact X|right; split; [lia|exact Y]].
    + intros Hlt. destruct (zi_top _ _ _ _ Z) as (ft & T1 & T2). exfalso. apply (Hno ft T1). lia.
    + rewrite Eb. exact BB.
    + split; [lia|congruence].
    + intros f Hf Hlt. apply (zi_done _ _ _ _ Z f Hf). assert (X := Hno f Hf). lia.
    + discriminate.
Qed.

Lemma zi_step_mark : forall c h r p a r' p', ZI c h r (p_db p) -> sr_after r = Some a -> y_mark r a p = (r', p') -> ZI c h r' (p_db p').
Proof.
  intros c h r p a r' p' Z Ea E. assert (D := zi_di _ _ _ _ Z). assert (D0 := D). assert (Hne := zi_ne _ _ _ _ Z).
  destruct D as [(n0 & pre & F & part & H & Ht & Hl & HF & HFl & HG & HB)].
  unfold y_mark in E. injection E as <- <-. set (g := d_log (p_db p)) in *.
  destruct (zi_next _ _ _ _ Z) as [_ Hle]. specialize (Hle ltac:(congruence)).
  set (n := sr_next r) in *.
  set (st := fun f => let f' := with_mt f (lf_set_synced a (f_mt f)) in if n <? sr_to r then set_imm f' else f') in *.
  change (fun f => if n <? sr_to r then set_imm (with_mt f (lf_set_synced a (f_mt f))) else with_mt f (lf_set_synced a (f_mt f))) with st.
  assert (Hbar : exists b, sr_bar r = Some b).
  { assert (B := zi_bar _ _ _ _ Z). destruct (sr_bar r) as [b|]; [exists b; reflexivity|]. destruct B as [B _]. congruence. }
  destruct Hbar as (b & Eb).
  destruct (zi_top _ _ _ _ Z) as (ft & T1 & T2). fold g in T1.
  destruct (gi_last _ _ _ _ _ _ H) as (la & fl & Ela & Enl). fold g in Ela, Enl.
  assert (Hfl : In fl (g_files g)) by (rewrite Ela; apply in_or_app; right; left; reflexivity).
  destruct (di_top hash c h (p_db p) fl D0 Hne Hfl Enl) as (tl & Htl & Etl).
  (* the file *)
  assert (Hfile : forall f, In f (g_files g) -> f_num f = n -> exists s,
     FI (st f) /\ same_file f (st f) /\ m_synced (f_mt (st f)) = s /\ m_max (f_mt (st f)) = m_max (f_mt f) /\ s <> NIL /\ s <= lastseq h /\
     (forall b0, sr_bar r = Some b0 -> b0 <> 0 -> s <= b0) /\
     (n < sr_to r -> s = m_max (f_mt f)) /\ (n = sr_to r -> s = a /\ valid_number a = true)).
  { intros f Hf Hn. assert (FIf := gi_fi _ _ _ _ _ _ H f Hf). assert (NE : fh f <> []) by exact (di_ne hash c h (p_db p) n0 pre F part f D0 Hne H Hf).
    destruct (zi_mid _ _ _ _ Z a f Ea Hf Hn) as (M1 & M2).
    assert (Hs : exists s, (exists x, In x (fh f) /\ r_seq x = s) /\ (m_synced (f_mt f) <> NIL -> m_synced (f_mt f) <= s) /\
       lf_set_synced a (f_mt f) = lf_set_synced s (f_mt f) /\ s <= lastseq h /\ (forall b0, sr_bar r = Some b0 -> b0 <> 0 -> s <= b0) /\
       (n < sr_to r -> s = m_max (f_mt f)) /\ (n = sr_to r -> s = a)).
    { destruct (N.eq_dec n (sr_to r)) as [e|ne].
      - destruct (M2 ltac:(lia)) as (x & X1 & X2 & X3 & X4 & X5). exists a. split; [exists x; auto|]. split; [exact X4|]. split; [reflexivity|]. split; [exact X3|].
        split; [intros b0 E0 N0; rewrite (X5 b0 E0 N0); lia|]. split; [lia|auto].
      - destruct (lastseq_in _ NE) as (x & Hx & Ex). rewrite <- (fi_max _ _ FIf NE) in Ex. exists (m_max (f_mt f)). split; [exists x; auto|]. split.
        { intros Q. destruct (fi_syn _ _ FIf Q) as (y & Hy & Ey). destruct (fi_bnd hash f y FIf Hy). lia. }
        split; [destruct (M1 ltac:(lia)) as [->| ->]; [reflexivity|apply (set_synced_nil hash f FIf NE)]|]. split.
        { assert (X := file_le hash _ _ _ _ _ ft H T1). assert (Y := gi_order hash _ _ _ _ _ f fl x tl H Hf Hfl ltac:(lia) Hx Htl). lia. }
        split; [|split; [auto|lia]]. intros b0 E0 N0. assert (B := zi_bar _ _ _ _ Z). rewrite E0 in B.
        destruct B as [(B1 & _)|(B1 & B2 & B3 & fb & y & B4 & B5 & B6 & B7)]; [congruence|].
        assert (Y := gi_order hash _ _ _ _ _ f fb x y H Hf B4 ltac:(lia) Hx B6). lia. }
    destruct Hs as (s & Hr & Hm & El & Hsl & Hsb & C1 & C2). destruct (set_synced_fi hash f s FIf Hr Hm) as [G1 G2].
    assert (Est : f_mt (st f) = lf_set_synced s (f_mt f) /\ f_num (st f) = f_num f /\ f_start (st f) = f_start f).
    { unfold st. rewrite El. destruct (n <? sr_to r); auto. }
    destruct Est as (E1 & E2 & E3). destruct Hr as (x & Hx & Ex). destruct (fi_bnd hash f x FIf Hx) as [X1 X2].
    assert (Eset : lf_set_synced s (f_mt f) = set_marks (m_flushed (f_mt f)) s (f_mt f)).
    { unfold lf_set_synced, valid_number. replace (m_max (f_mt f) =? NIL) with false by lia. cbn [negb]. replace (m_max (f_mt f) <? s) with false by lia. reflexivity. }
    exists s. split.
    { unfold st. rewrite El. destruct (n <? sr_to r); [|exact G1]. destruct G1. constructor; assumption. }
    split; [unfold same_file, fh; rewrite E1, E2, E3, Eset; auto|]. rewrite E1, Eset. split; [reflexivity|]. split; [reflexivity|].
    split; [lia|]. split; [exact Hsl|]. split; [exact Hsb|]. split; [exact C1|]. intros Q. rewrite (C2 Q) in *. split; [reflexivity|]. unfold valid_number. lia. }
  set (gs := upd_file n st (g_files g)) in *.
  assert (Hgs : forall f', In f' gs -> exists f, In f (g_files g) /\ f_num f' = f_num f /\ fh f' = fh f /\ m_max (f_mt f') = m_max (f_mt f) /\
     ((f_num f <> n /\ f' = f) \/ (f_num f = n /\ f' = st f))).
  { intros f' Hf'. unfold gs, upd_file in Hf'. apply in_map_iff in Hf'. destruct Hf' as (f & E & Hf). exists f. split; [exact Hf|].
    destruct (f_num f =? n) eqn:En.
    - subst f'. destruct (Hfile f Hf ltac:(lia)) as (s & _ & (S1 & S2 & _) & _ & S6 & _). split; [exact S1|]. split; [exact S2|].
      split; [exact S6|]. right. split; [lia|reflexivity].
    - subst f'. split; [reflexivity|]. split; [reflexivity|]. split; [reflexivity|]. left. split; [lia|reflexivity]. }
  assert (Hgo : forall f, In f (g_files g) -> exists f', In f' gs /\ f_num f' = f_num f /\ fh f' = fh f).
  { intros f Hf. exists (if f_num f =? n then st f else f). split; [apply in_map_iff; exists f; auto|]. destruct (f_num f =? n) eqn:En; [|auto].
    destruct (Hfile f Hf ltac:(lia)) as (s & _ & (S1 & S2 & _) & _). auto. }
  assert (Hmk : forall s, marks_le s g -> (forall f, In f (g_files g) -> f_num f = n -> m_synced (f_mt (st f)) <= s) -> forall g', g_files g' = gs -> marks_le s g').
  { intros s M Hs g' Eg f' Hf' Hns. rewrite Eg in Hf'. destruct (Hgs f' Hf') as (f & Hf & _ & _ & _ & [[_ ->]|[En ->]]); [apply (M f Hf Hns)|apply (Hs f Hf En)]. }
  assert (D' : DI c h (mkDb (mkG gs (g_max g) (g_lf g) (g_ls g) (g_bar g)) (d_tab (p_db p)) (d_gone (p_db p)) (d_bat (p_db p)))).
  { apply di_replace; [exact D0|exact Hne| | |].
    - fold g. unfold gs, upd_file. assert (X : forall f, In f (g_files g) -> same_file f (if f_num f =? n then st f else f)).
      { intros f Hf. destruct (f_num f =? n) eqn:En; [|apply same_file_refl]. destruct (Hfile f Hf ltac:(lia)) as (s & _ & X & _). exact X. }
      clear -X. induction (g_files g) as [|f l IH]; cbn [map]; constructor; [apply X; left; reflexivity|]. apply IH. intros; apply X; right; assumption.
    - intros f' Hf'. destruct (Hgs f' Hf') as (f & Hf & _ & _ & _ & [[_ ->]|[En ->]]); [apply (gi_fi _ _ _ _ _ _ H f Hf)|].
      destruct (Hfile f Hf En) as (s & X & _). exact X.
    - intros m Em. fold g. fold g in Em. assert (m = n0).
      { unfold min_num in Em. assert (HN := gi_nums _ _ _ _ _ _ H). fold g in HN. destruct (g_files g); [discriminate|]. destruct HN as [HN _]. congruence. }
      subst m. assert (L := gi_ls _ _ _ _ _ _ H). fold g in L. destruct L as [L|(L1 & L2 & L3)]; [left; exact L|right]. split; [exact L1|].
      assert (Lle : g_ls g <= n).
      { destruct (zi_ls _ _ _ _ Z) as [X|[X _]]; [|exact X]. fold g in X. assert (Y := gi_few _ _ _ _ _ _ H). fold g in Y. lia. }
      split; intros f' Hf' K1; destruct (Hgs f' Hf') as (f & Hf & E1 & E2 & E3 & [[En ->]|[En ->]]); try (rewrite E1 in K1).
      + apply L2; assumption.
      + lia.
      + intros K2. apply (L3 f); assumption.
      + intros K2. destruct (Hfile f Hf En) as (s & _ & _ & Es & _ & Hsn & _). congruence. }
  constructor; cbn [sr_fsync sr_to sr_next sr_last sr_bar sr_after with_disk with_log with_files p_db p_disk p_dur d_log d_bat g_files g_max g_ls];
    change (mkG gs (g_max g) (g_lf g) (g_ls g) (g_bar g)) with (with_files g gs) in D'.
  - exact D'.
  - exact Hne.
  - destruct (Hgo ft T1) as (f' & G1 & G2 & G3). exists f'. rewrite G2. auto.
  - destruct (zi_ls _ _ _ _ Z) as [X|[X Y]]; [left; exact X|right; fold g n in X; split; [lia|exact Y]].
  - intros Q. assert (e : n = sr_to r) by lia.
    destruct (Hfile ft T1 ltac:(lia)) as (s & _ & _ & _ & _ & _ & _ & _ & _ & C). destruct (C e) as (_ & V). rewrite V. exact e.
  - intros f' Hf' L. destruct (Hgs f' Hf') as (f & Hf & E1 & _ & _ & [[En ->]|[En ->]]); [apply (zi_imm _ _ _ _ Z f Hf L)|].
    rewrite E1 in L. unfold st. replace (n <? sr_to r) with false by lia. cbn [with_mt f_imm]. apply (zi_imm _ _ _ _ Z f Hf L).
  - exact (zi_bat _ _ _ _ Z).
  - rewrite Eb. assert (B := zi_bar _ _ _ _ Z). rewrite Eb in B. destruct B as [B|(B1 & B2 & B3 & f & y & B4 & B5 & B6 & B7)]; [left; exact B|right].
    split; [exact B1|]. split; [exact B2|]. split.
    + apply (Hmk b B3); [|reflexivity]. intros f0 Hf0 En. destruct (Hfile f0 Hf0 En) as (s & _ & _ & -> & _ & _ & _ & Q & _). apply Q; assumption.
    + destruct (Hgo f B4) as (f' & G1 & G2 & G3). exists f', y. rewrite G2, G3. auto 10.
  - split; [lia|congruence].
  - intros f' Hf' L1. destruct (Hgs f' Hf') as (f & Hf & E1 & E2 & E3 & X). rewrite E1 in *. unfold full_synced. rewrite E3.
    destruct X as [[En ->]|[En ->]]; [apply (zi_done _ _ _ _ Z f Hf); fold n; lia|].
    destruct (Hfile f Hf En) as (s & _ & _ & Es & _ & Hsn & _ & _ & C & _). split; [intros Q; rewrite Es; apply C; lia|congruence].
  - apply (Hmk _ (zi_sy _ _ _ _ Z)); [|reflexivity]. intros f0 Hf0 En. destruct (Hfile f0 Hf0 En) as (s & _ & _ & -> & _ & _ & Q & _). exact Q.
  - discriminate.
Qed.

Lemma zi_step_end : forall c h r p, ZI c h r (p_db p) -> sr_after r = None -> sr_to r < sr_next r -> NI c h (p_db (y_end r p)).
Proof.
  intros c h r p Z Ea Hlt. assert (D := zi_di _ _ _ _ Z). assert (D0 := D). assert (Hne := zi_ne _ _ _ _ Z).
  destruct D as [(n0 & pre & F & part & H & Ht & Hl & HF & HFl & HG & HB)]. set (g := d_log (p_db p)) in *.
  destruct (zi_top _ _ _ _ Z) as (ft & T1 & T2). fold g in T1. assert (Hlast := zi_last _ _ _ _ Z Hlt). assert (X := file_le hash _ _ _ _ _ ft H T1).
  unfold y_end. fold g. cbn [p_store with_log p_db]. split; [|split].
  - apply di_replace; [exact D0|exact Hne|apply same_files_refl|apply (gi_fi _ _ _ _ _ _ H)|].
    intros m Em. fold g in Em. assert (m = n0).
    { unfold min_num in Em. assert (HN := gi_nums _ _ _ _ _ _ H). fold g in HN. destruct (g_files g); [discriminate|]. destruct HN as [HN _]. congruence. }
    subst m. right. rewrite Hlast. fold g. fold g in X. split; [lia|]. split.
    + intros f Hf L. apply (zi_done _ _ _ _ Z f Hf); lia.
    + intros f Hf L Q. exfalso. apply (zi_done _ _ _ _ Z f Hf); lia.
  - intros f Hf En. cbn [d_log g_files g_max] in *. apply (zi_imm _ _ _ _ Z f Hf). lia.
  - exact (zi_sy _ _ _ _ Z).
Qed.

(** Flushes. *)
Lemma flush_ls : forall fo seq g ro g', lm_flush fo seq g = (ro, g') -> o_beyond fo = false -> g_ls g' = g_ls g.
Proof.
  intros fo seq g ro g' E Hb. unfold lm_flush in E. rewrite Hb in E. cbn [andb] in E.
  repeat match type of E with
  | (if ?b then _ else _) = _ => destruct b
  | (let (_, _) := ?b in _) = _ => destruct b
  | match ?b with _ => _ end = _ => destruct b
  end; injection E as <- <-; reflexivity.
Qed.

Lemma mark_synced : forall bey s f, (m_synced (f_mt (mark_file bey s f)) <= s \/ m_synced (f_mt (mark_file bey s f)) = m_synced (f_mt f)) /\
  (bey = false -> m_synced (f_mt (mark_file bey s f)) = m_synced (f_mt f)) /\
  m_max (f_mt (mark_file bey s f)) = m_max (f_mt f) /\ fh (mark_file bey s f) = fh f /\ f_num (mark_file bey s f) = f_num f /\ f_imm (mark_file bey s f) = f_imm f.
Proof.
  intros bey s f. unfold mark_file, fh. cbn [with_mt f_mt f_num f_imm]. unfold lf_set_flushed, lf_set_synced.
  destruct bey; repeat match goal with |- context [if ?b then _ else _] => destruct b eqn:? end; cbn [set_marks m_synced m_max m_seq];
    repeat split; try (right; reflexivity); try (left; lia); try congruence.
Qed.

(** The files after a flush: the first ones are gone, the next one is marked. *)
Lemma flush_shape : forall c h d fo seq x d', cfg_ok c -> DI c h d -> allowed c h d (OFlush fo seq) -> step hash c (OFlush fo seq) d = Some (x, d') ->
  DI c h d' /\ x <> Undef /\ d_bat d' = d_bat d /\ g_max (d_log d') = g_max (d_log d) /\
  (o_beyond fo = false -> g_ls (d_log d') = g_ls (d_log d)) /\
  (g_files (d_log d') = g_files (d_log d) \/
   exists A ft B s, s <= lastseq h /\ g_files (d_log d) = A ++ ft :: B /\ g_files (d_log d') = mark_file (o_beyond fo) s ft :: B /\
     (g_ls (d_log d') = NIL \/ f_num ft <= g_ls (d_log d')) /\ (o_beyond fo = false -> g_ls (d_log d') <> NIL)).
Proof.
  intros c h d fo seq x d' Cok D Al E. destruct (step_flush hash c h d fo seq x d' Cok D Al E) as (D' & Hx & _).
  assert (Ha : acked x = []).
  { unfold step in E. repeat match type of E with
    | None = Some _ => discriminate E
    | Some _ = Some _ => injection E as <- <-; reflexivity
    | context [match ?z with _ => _ end] => destruct z
    end. }
  rewrite Ha, app_nil_r in D'. split; [exact D'|]. split; [exact Hx|]. destruct (flush_imm hash c d fo seq x d' E) as (Hm & _).
  assert (D0 := D). destruct D as [(n0 & pre & F & part & H & Ht & Hl & HF & HFl & HG & HB)].
  destruct (flush_facts hash c h d fo seq n0 pre F part H Hl HB Al) as (ro & g1 & Efl & R1).
  unfold step in E. rewrite Efl in E. destruct ro as [[rs cs]|e|]; [| |destruct R1].
  - destruct R1 as (n1 & pre1 & s & Hs & Hs1 & Hsl & Ers & H1 & Hseq & Hseq2 & (A & ft & B & EA & En1 & _ & EB)).
    injection E as <- <-. cbn [d_bat d_log] in *. split; [reflexivity|]. split; [exact Hm|].
    split; [intros Hb; apply (flush_ls fo seq (d_log d) _ _ Efl Hb)|]. right. exists A, ft, B, s. split; [exact Hsl|]. split; [exact EA|]. split; [exact EB|].
    split.
    + destruct (gi_ls _ _ _ _ _ _ H1) as [L|(L & _)]; [left; exact L|right; change (g_ls (with_bar g1 (g_bar (d_log d)))) with (g_ls g1); lia].
    + intros Hb. rewrite (flush_ls fo seq (d_log d) _ _ Efl Hb). intros Q. unfold lm_flush in Efl. rewrite Hb, Q in Efl. cbn [N.eqb] in Efl.
      rewrite N.eqb_refl in Efl. destruct (seq =? 0); discriminate.
  - injection E as <- <-. cbn [d_bat d_log] in *. rewrite R1. split; [reflexivity|]. split; [reflexivity|]. split; [reflexivity|]. left; reflexivity.
Qed.

Lemma ni_flush : forall c h d fo seq x d', cfg_ok c -> NI c h d -> allowed c h d (OFlush fo seq) -> step hash c (OFlush fo seq) d = Some (x, d') ->
  NI c h d' /\ x <> Undef.
Proof.
  intros c h d fo seq x d' Cok (D & Ho & Hm) Al E. destruct (flush_shape c h d fo seq x d' Cok D Al E) as (D' & Hx & _ & Hmx & _ & Hf).
  split; [|exact Hx]. split; [exact D'|]. destruct Hf as [Hf|(A & ft & B & s & Hs & E1 & E2 & _)].
  - unfold open_top, marks_le. rewrite Hf, Hmx. split; assumption.
  - destruct (mark_synced (o_beyond fo) s ft) as (M1 & _ & _ & _ & M2 & M3). unfold open_top, marks_le in *. rewrite E2, Hmx. rewrite E1 in *. split.
    + intros f [<-|Hf] En; [rewrite M3; rewrite M2 in En; apply Ho; [apply in_or_app; right; left; reflexivity|exact En]|].
      apply Ho; [apply in_or_app; right; right; exact Hf|exact En].
    + intros f [<-|Hf] En; [|apply Hm; [apply in_or_app; right; right; exact Hf|exact En]].
      destruct M1 as [M1|M1]; [lia|]. rewrite M1 in *. apply Hm; [apply in_or_app; right; left; reflexivity|exact En].
Qed.

Lemma zi_flush : forall c h r d fo seq x d', cfg_ok c -> ZI c h r d -> allowed c h d (OFlush fo seq) -> o_beyond fo = false ->
  step hash c (OFlush fo seq) d = Some (x, d') -> ZI c h r d' /\ x <> Undef.
Proof.
  intros c h r d fo seq x d' Cok Z Al Hbey E. assert (D := zi_di _ _ _ _ Z). assert (Hne := zi_ne _ _ _ _ Z).
  destruct (flush_shape c h d fo seq x d' Cok D Al E) as (D' & Hx & Hbt & Hmx & Hls & Hf).
  split; [|exact Hx]. specialize (Hls Hbey).
  (* files of the new state come from old ones; files from the first kept number on are there *)
  assert (Hsh : (forall f', In f' (g_files (d_log d')) -> exists f, In f (g_files (d_log d)) /\ f_num f' = f_num f /\ fh f' = fh f /\
                   m_synced (f_mt f') = m_synced (f_mt f) /\ m_max (f_mt f') = m_max (f_mt f) /\ f_imm f' = f_imm f) /\
                (forall f, In f (g_files (d_log d)) -> sr_to r <= f_num f -> exists f', In f' (g_files (d_log d')) /\ f_num f' = f_num f /\ fh f' = fh f)).
  { destruct Hf as [Hf|(A & ft & B & s & Hs & E1 & E2 & E3 & E4)].
    - rewrite Hf. split; [intros f' Hf'; exists f'; auto 10|intros f Hf' _; exists f; auto].
    - specialize (E4 Hbey). destruct (mark_synced (o_beyond fo) s ft) as (_ & M1 & M2 & M3 & M4 & M5). specialize (M1 Hbey).
      assert (D1 := D). destruct D1 as [(n0 & pre & F & part & H & _)].
      rewrite E2. split.
      + intros f' [<-|Hf']; [exists ft; split; [rewrite E1; apply in_or_app; right; left; reflexivity|auto 10]|].
        exists f'. split; [rewrite E1; apply in_or_app; right; right; exact Hf'|auto 10].
      + intros f Hf' Hle. assert (HN := gi_nums _ _ _ _ _ _ H). rewrite E1 in Hf', HN. apply nums_app in HN. destruct HN as [HN [N1 N2]].
        destruct E3 as [E3|E3]; [congruence|]. rewrite Hls in *.
        destruct (zi_ls _ _ _ _ Z) as [L|[_ L]]; [congruence|].
        apply in_app_or in Hf'. destruct Hf' as [Hf'|[<-|Hf']].
        * assert (X := nums_in _ _ _ HN Hf'). lia.
        * exists (mark_file (o_beyond fo) s ft). split; [left; reflexivity|auto].
        * exists f. split; [right; exact Hf'|auto]. }
  destruct Hsh as (S1 & S2). destruct (zi_top _ _ _ _ Z) as (ft & T1 & T2).
  assert (Hmk : forall s, marks_le s (d_log d) -> marks_le s (d_log d')).
  { intros s M f' Hf' Q. destruct (S1 f' Hf') as (f & F1 & F2 & F3 & F4 & F5 & F6). rewrite F4 in *. apply (M f F1 Q). }
  constructor.
  - exact D'.
  - exact Hne.
  - destruct (S2 ft T1 ltac:(lia)) as (f' & G1 & G2 & _). exists f'. split; [exact G1|congruence].
  - rewrite Hls. apply (zi_ls _ _ _ _ Z).
  - apply (zi_last _ _ _ _ Z).
  - intros f' Hf' Hle. destruct (S1 f' Hf') as (f & F1 & F2 & F3 & F4 & F5 & F6). rewrite F6. apply (zi_imm _ _ _ _ Z f F1). lia.
  - rewrite Hbt, Hmx. apply (zi_bat _ _ _ _ Z).
  - assert (B := zi_bar _ _ _ _ Z). destruct (sr_bar r) as [b|]; [|exact B]. rewrite Hbt. destruct B as [B|(B1 & B2 & B3 & f & y & B4 & B5 & B6 & B7)]; [left; exact B|right].
    split; [exact B1|]. split; [exact B2|]. split; [apply Hmk, B3|]. destruct (S2 f B4 ltac:(lia)) as (f' & G1 & G2 & G3). exists f', y. rewrite G2, G3. auto.
  - apply (zi_next _ _ _ _ Z).
  - intros f' Hf' Hlt. destruct (S1 f' Hf') as (f & F1 & F2 & F3 & F4 & F5 & F6). unfold full_synced. rewrite F2, F4, F5 in *. apply (zi_done _ _ _ _ Z f F1 Hlt).
  - apply Hmk, (zi_sy _ _ _ _ Z).
  - intros a f' Ha Hf' Hn. destruct (S1 f' Hf') as (f & F1 & F2 & F3 & F4 & F5 & F6). rewrite F2, F3, F4, F5 in *. apply (zi_mid _ _ _ _ Z a f Ha F1 Hn).
Qed.

(** ** The runs *)
Definition XI (c : cfg) (h : list rec) (y : ydb) : Prop :=
  match y_sync y with None => NI c h (p_db (y_p y)) | Some r => ZI c h r (p_db (y_p y)) end.

Lemma p_write_db : forall c o p x p', p_write hash c o p = Some (x, p') -> step hash c o (p_db p) = Some (x, p_db p').
Proof.
  intros c o p x p' E. unfold p_write in E. destruct (step hash c o (p_db p)) as [[x0 d']|]; [|discriminate].
  destruct (g_max (d_log d') =? g_max (d_log (p_db p))); [injection E as <- <-; reflexivity|].
  destruct (file_at _ _); [|discriminate]. injection E as <- <-. reflexivity.
Qed.
Lemma p_flush_db : forall c fo seq held p x p', p_flush hash c fo seq held p = Some (x, p') -> step hash c (OFlush fo seq) (p_db p) = Some (x, p_db p').
Proof.
  intros c fo seq held p x p' E. unfold p_flush in E. destruct (step hash c (OFlush fo seq) (p_db p)) as [[x0 d']|]; [|discriminate].
  injection E as <- <-. destruct x0; reflexivity.
Qed.

Theorem zreach_inv : forall c h xs y, cfg_ok c -> zreach hash c h xs y -> XI c h y /\ forall x, In x xs -> x <> Undef.
Proof.
  intros c h xs y Cok R. induction R as [|h xs y o x y' R IH Al Hb E|h xs y fsync x y' R IH Hne E|h xs y o x y' R IH Ho E|h xs y fo seq held x y' R IH Al Hbey E];
    try (destruct IH as [IH Hxs]).
  - split; [|intros x []]. unfold XI. cbn [y_new y_sync y_p]. assert (P := pi_new hash true c Cok). split; [exact (pi_di _ _ _ _ _ _ P)|].
    split; [intros f [<-|[]] _; reflexivity|]. intros f [<-|[]] Q. exfalso. apply Q. reflexivity.
  - assert (Hw : match o with OSync _ | OFlush _ _ => False | _ => True end) by (destruct o; try exact I; discriminate).
    assert (Ep : exists p', p_write hash c o (y_p y) = Some (x, p') /\ y' = mkY p' (y_sync y)).
    { destruct o; try destruct Hw; cbn [zstep ystep] in E;
        (destruct (p_write hash c _ (y_p y)) as [[x0 p0]|] eqn:Ew; [|discriminate]; injection E as <- <-; exists p0; split; reflexivity). }
    destruct Ep as (p' & Ep & ->). clear E. apply p_write_db in Ep. unfold XI in *. cbn [y_sync y_p].
    assert (G : match y_sync y with None => NI c (h ++ acked x) (p_db p') | Some r => ZI c (h ++ acked x) r (p_db p') end /\ x <> Undef).
    { destruct (y_sync y) as [r|]; [|eapply ni_write; eauto]. eapply zi_write; eauto. destruct (is_begin o); [|reflexivity]. specialize (Hb eq_refl). congruence. }
    destruct G as [G1 G2]. split; [exact G1|]. intros z [<-|Hz]; [exact G2|apply Hxs, Hz].
  - cbn [zstep ystep] in E. unfold XI in IH. destruct (y_sync y) as [r|]; [discriminate|].
    destruct (y_begin fsync (y_p y)) as [r|] eqn:Eb; [|discriminate]. injection E as <- <-. split; [eapply zi_begin; eauto|].
    intros z [<-|Hz]; [discriminate|apply Hxs, Hz].
  - unfold XI in IH. destruct Ho as [<-|[<-|[<-|[<-|[]]]]]; cbn [zstep ystep] in E; (destruct (y_sync y) as [r|]; [|discriminate]).
    + destruct (sr_bar r) eqn:Eb; [discriminate|]. injection E as <- <-. split; [apply zi_step_bar; assumption|]. intros z [<-|Hz]; [discriminate|apply Hxs, Hz].
    + destruct (sr_bar r) as [b|] eqn:Eb; [|discriminate]. destruct (sr_after r) eqn:Ea; [discriminate|].
      destruct (sr_to r <? sr_next r) eqn:El; [discriminate|]. destruct (y_flush r b (y_p y)) as [r' p'] eqn:Ef. injection E as <- <-.
      split; [eapply zi_step_flush; eauto; lia|]. intros z [<-|Hz]; [discriminate|apply Hxs, Hz].
    + destruct (sr_after r) as [a|] eqn:Ea; [|discriminate]. destruct (y_mark r a (y_p y)) as [r' p'] eqn:Em. injection E as <- <-.
      split; [eapply zi_step_mark; eauto|]. intros z [<-|Hz]; [discriminate|apply Hxs, Hz].
    + destruct (sr_bar r) as [b|] eqn:Eb; [|discriminate]. destruct (sr_after r) eqn:Ea; [discriminate|].
      destruct (sr_to r <? sr_next r) eqn:El; [|discriminate]. injection E as <- <-. split; [eapply zi_step_end; eauto; lia|].
      intros z [<-|Hz]; [discriminate|apply Hxs, Hz].
  - cbn [zstep] in E. destruct (p_flush hash c fo seq held (y_p y)) as [[x0 p']|] eqn:Ep; [|discriminate]. injection E as <- <-.
    apply p_flush_db in Ep. unfold XI in *. cbn [y_sync y_p].
    assert (G : match y_sync y with None => NI c h (p_db p') | Some r => ZI c h r (p_db p') end /\ x0 <> Undef).
    { destruct (y_sync y) as [r|]; [|eapply ni_flush; eauto]. eapply zi_flush; eauto. destruct (o_beyond fo); [|reflexivity]. specialize (Hbey eq_refl). congruence. }
    destruct G as [G1 G2]. split; [exact G1|]. intros z [<-|Hz]; [exact G2|apply Hxs, Hz].
Qed.

Lemma zreach_di : forall c h xs y, cfg_ok c -> zreach hash c h xs y -> DI c h (p_db (y_p y)).
Proof.
  intros c h xs y Cok R. destruct (zreach_inv c h xs y Cok R) as [I _]. unfold XI in I. destruct (y_sync y); [exact (zi_di _ _ _ _ I)|exact (proj1 I)].
Qed.

Theorem zreach_ok : forall c h xs y, cfg_ok c -> c_lso c = false -> zreach hash c h xs y ->
  (forall x, In x xs -> x <> Undef) /\ forall k, db_get hash c k (p_db (y_p y)) = spec_get h k.
Proof.
  intros c h xs y Cok Hl R. split; [apply (zreach_inv c h xs y Cok R)|]. intro k. apply (get_di hash c h); [exact Hl|]. exact (zreach_di c h xs y Cok R).
Qed.

(** A flush of any kind, started now. *)
Theorem zreach_flush : forall c h xs y fo seq held x y', cfg_ok c -> c_lso c = false -> zreach hash c h xs y ->
  allowed c h (p_db (y_p y)) (OFlush fo seq) -> zstep hash c (YTables fo seq held) y = Some (x, y') ->
  x <> Undef /\ y_sync y' = y_sync y /\ forall k, db_get hash c k (p_db (y_p y')) = spec_get h k.
Proof.
  intros c h xs y fo seq held x y' Cok Hl R Al E. assert (D := zreach_di c h xs y Cok R).
  cbn [zstep] in E. destruct (p_flush hash c fo seq held (y_p y)) as [[x0 p']|] eqn:Ep; [|discriminate]. injection E as <- <-.
  apply p_flush_db in Ep. destruct (flush_shape c h _ fo seq x0 _ Cok D Al Ep) as (D' & Hx & _). split; [exact Hx|]. split; [reflexivity|].
  intro k. apply (get_di hash c h); [exact Hl|exact D'].
Qed.
End Proofs.
