(** A sync with concurrent writers: the steps of the sync keep the invariant. *)
From Verif Require Import Base KeyModel KeyProofs LogFormatModel LogManifestModel BloomModel BloomProofs MemTableModel MemTableProofs
  LogMgrModel LogMgrProofs LogMgrProofs2 LogMgrProofs3 DbModel DbProofs DbProofs2 RecoverModel RecoverProofs RecoverProofs2 RecoverProofs3
  RecoverProofs5 RecoverProofs7 RecoverProofs9 SyncRaceModel SyncRaceSpec SyncRaceProofs SyncRaceProofs2.
From Coq Require Import Sorted ZifyBool.
Local Open Scope N_scope.

Section Proofs.
Variable hash : key -> N * N.
Notation GI := (GI hash).
Notation FI := (FI hash).
Notation DI := (DI hash).
Notation PI := (PI hash).
Notation SI := (SI hash).

(** *** The barrier *)
Lemma si_step_bar : forall pw c h hs h1 r p, SI pw c h hs h1 r p -> sr_bar r = None ->
  SI pw c h hs h1 (mkSR (sr_fsync r) (sr_to r) (sr_next r) (sr_last r) (Some (g_bar (d_log (p_db p)))) None) p.
Proof.
  intros pw c h hs h1 r p S Eb. assert (B := si_bar _ _ _ _ _ _ _ _ S). rewrite Eb in B. destruct B as [B1 B2].
  assert (Hne : h <> []) by (apply (starts_ne h1 h (si_h1 _ _ _ _ _ _ _ _ S)), (si_ne _ _ _ _ _ _ _ _ S)).
  constructor; cbn [sr_fsync sr_to sr_next sr_last sr_bar sr_after]; try (apply S); try exact (si_ne _ _ _ _ _ _ _ _ S).
  - destruct (si_di _ _ _ _ _ _ _ _ S) as [(n0 & pre & F & part & H & Ht & Hl & HF & HFl & HG & HB)].
    destruct (d_bat (p_db p)) as [[todo done]|] eqn:Ebat.
    + destruct HB as [-> (P1 & P2 & _)]. right. rewrite P2.
      destruct (gi_last _ _ _ _ _ _ H) as (a & fl & Ea & En).
      assert (Hfl : In fl (g_files (d_log (p_db p)))) by (rewrite Ea; apply in_or_app; right; left; reflexivity).
      destruct (di_top hash c h (p_db p) fl (si_di _ _ _ _ _ _ _ _ S) Hne Hfl En) as (t & Ht1 & Et).
      assert (Hpos : 1 <= r_seq t).
      { apply (gi_pos _ _ _ _ _ _ H). rewrite (gi_hist _ _ _ _ _ _ H). apply in_or_app; right. apply in_flat_map. exists fl; auto. }
      split; [lia|]. exists h, fl, t. split; [apply (si_h1 _ _ _ _ _ _ _ _ S)|]. split; [apply starts_refl|]. split; [reflexivity|].
      split; [exact Hfl|]. split; [|auto]. rewrite En. symmetry. apply (si_bat _ _ _ _ _ _ _ _ S). congruence.
    + destruct HB as [_ ->]. left. auto.
  - split; [lia|congruence].
  - intros f Hf Hn. destruct (si_todo _ _ _ _ _ _ _ _ S f Hf Hn) as (A1 & A2 & A3). split; [exact A1|]. split; [exact A2|]. intros _. apply A3. intros _; exact B1.
  - discriminate.
  - intros [Z|[_ Z]]; [lia|congruence].
Qed.

(** *** Writing a file *)
Lemma si_step_flush : forall pw c h hs h1 r p b r' p', SI pw c h hs h1 r p -> sr_bar r = Some b -> sr_after r = None -> sr_next r <= sr_to r ->
  y_flush r b p = (r', p') -> SI pw c h hs h1 r' p'.
Proof.
  intros pw c h hs h1 r p b r' p' S Eb Ea Hle E. assert (D := si_di _ _ _ _ _ _ _ _ S). assert (D0 := D).
  destruct D as [(n0 & pre & F & part & H & Ht & Hl & HF & HFl & HG & HB)].
  assert (Hne : h <> []) by (apply (starts_ne h1 h (si_h1 _ _ _ _ _ _ _ _ S)), (si_ne _ _ _ _ _ _ _ _ S)).
  assert (Hsort := di_sorted _ _ _ _ D0). unfold y_flush in E. set (g := d_log (p_db p)) in *.
  destruct (si_top _ _ _ _ _ _ _ _ S) as (ft & tt & T1 & T2 & T3 & T4). fold g in T1.
  assert (BB := si_bar _ _ _ _ _ _ _ _ S). rewrite Eb in BB.
  assert (Hl1 : lastseq h1 <= lastseq h) by (apply starts_le; [exact Hsort|apply (si_h1 _ _ _ _ _ _ _ _ S)]).
  assert (Hs1 : sorted_seq h1).
  { destruct (si_h1 _ _ _ _ _ _ _ _ S) as (t & ->). unfold sorted_seq in *. rewrite map_app in Hsort. apply SS_app_inv in Hsort. tauto. }
  assert (Hl0 : lastseq hs <= lastseq h1) by (apply starts_le; [exact Hs1|apply (si_hs _ _ _ _ _ _ _ _ S)]).
  destruct (file_at (sr_next r) (g_files g)) as [f|] eqn:Ef.
  - injection E as <- <-. apply file_at_in in Ef. destruct Ef as [Hf Hn]. set (a := y_after b f) in *.
    assert (FIf := gi_fi _ _ _ _ _ _ H f Hf). assert (NE : fh f <> []) by exact (di_ne hash c h (p_db p) n0 pre F part f D0 Hne H Hf).
    destruct (si_todo _ _ _ _ _ _ _ _ S f Hf ltac:(lia)) as (U1 & U2 & U3). specialize (U3 (fun _ => Ea)).
    (* the file in the middle *)
    assert (Hmid : f_num f < sr_to r -> upto (lastseq hs) (fh f) ++ to_write f (marked a f) = fh f /\ (a = m_max (f_mt f) \/ a = NIL)).
    { intros Hlt. destruct (f_imm f && is_synced (f_mt f)) eqn:Ei.
      - assert (Ha : a = NIL) by (unfold a, y_after; rewrite Ei; reflexivity). split; [|right; exact Ha]. rewrite Ha, append_none, app_nil_r.
        apply upto_all. apply (full_upto hash f (lastseq hs) FIf NE U1). apply andb_prop in Ei. apply (synced_full hash f FIf NE), Ei.
      - assert (Ha : a = m_max (f_mt f)).
        { apply (after_all hash b f FIf NE); [|exact Ei]. destruct BB as [[B1 _]|[B1 (hb & f2 & y & B2 & B3 & B4 & B5 & B6 & B7 & B8)]]; [left; exact B1|right].
          intros z Hz. assert (X := gi_order hash _ _ _ _ _ f f2 z y H Hf B5 ltac:(lia) Hz B7). lia. }
        split; [|left; exact Ha]. rewrite Ha. apply (append_all hash); assumption. }
    (* the last file *)
    assert (Hlast : f_num f = sr_to r -> exists hs1 x, starts h1 hs1 /\ starts hs1 h /\ In x (fh f) /\ r_seq x = lastseq hs1 /\ a = lastseq hs1 /\
        upto (lastseq hs) (fh f) ++ to_write f (marked a f) = upto (lastseq hs1) (fh f)).
    { intros En. assert (Hi := si_imm _ _ _ _ _ _ _ _ S f Hf ltac:(lia)).
      assert (f = ft) by (apply (file_uniq hash _ _ _ _ _ f ft H Hf T1); congruence). subst ft.
      assert (W : exists hs1 x, starts h1 hs1 /\ starts hs1 h /\ In x (fh f) /\ r_seq x = lastseq hs1 /\ a = lastseq hs1).
      { destruct BB as [[B1 B2]|[B1 (hb & f2 & y & B2 & B3 & B4 & B5 & B6 & B7 & B8)]].
        - rewrite B2 in HB. destruct HB as [-> _]. rewrite app_nil_r in H.
          assert (Ha : a = m_max (f_mt f)) by (apply (after_all hash b f FIf NE); [left; exact B1|rewrite Hi; reflexivity]).
          destruct (lastseq_in _ NE) as (x & Hx & Ex). rewrite <- (fi_max _ _ FIf NE), <- Ha in Ex.
          assert (Hxh : In x h) by (rewrite (gi_hist _ _ _ _ _ _ H); apply in_or_app; right; apply in_flat_map; exists f; auto).
          destruct (fi_bnd hash f tt FIf T3) as [X _].
          destruct (cut_at h1 h a x Hsort (si_h1 _ _ _ _ _ _ _ _ S) ltac:(lia) Hxh Ex) as (C1 & C2 & C3).
          exists (upto a h), x. split; [exact C1|]. split; [exact C2|]. split; [exact Hx|]. split; congruence.
        - assert (f2 = f) by (apply (file_uniq hash _ _ _ _ _ f2 f H B5 Hf); congruence). subst f2.
          exists hb, y. split; [exact B2|]. split; [exact B3|]. split; [exact B7|]. split; [congruence|].
          rewrite B4. apply (after_rec hash b f y FIf B7 B8 B1 Hi). }
      destruct W as (hs1 & x & W1 & W2 & W3 & W4 & W5). exists hs1, x. split; [exact W1|]. split; [exact W2|]. split; [exact W3|]. split; [exact W4|].
      split; [exact W5|]. rewrite W5. apply (append_upto hash f (lastseq hs) (lastseq hs1) FIf U1).
      - symmetry. apply (mark_rec hash f x _ FIf W3 W4).
      - assert (starts h1 hs1) by exact W1. assert (Hss : sorted_seq hs1).
        { destruct W2 as (t & Et). rewrite Et in Hsort. unfold sorted_seq in *. rewrite map_app in Hsort. apply SS_app_inv in Hsort. tauto. }
        assert (X := starts_le h1 hs1 Hss W1). lia. }
    set (rs := to_write f (marked a f)) in *. set (disk := map (append_dlog (sr_next r) rs) (p_disk p)) in *.
    assert (Hdn : dlog_at (f_num f) disk = Some (mkDL (f_num f) (upto (lastseq hs) (fh f) ++ rs) false)).
    { unfold disk. rewrite <- Hn. apply append_same. exact U3. }
    assert (Hdo : forall k, k <> f_num f -> dlog_at k disk = dlog_at k (p_disk p)) by (intros k Hk; apply append_other; lia).
    constructor; cbn [sr_fsync sr_to sr_next sr_last sr_bar sr_after with_disk p_db p_disk p_dur]; fold g; try (apply S).
    + rewrite Eb. exact BB.
    + split; [lia|]. intros _. exact Hle.
    + intros f2 Hf2 L1 L2. destruct (si_done _ _ _ _ _ _ _ _ S f2 Hf2 L1 L2) as (C1 & C2 & C3). split; [exact C1|]. split; [|exact C3].
      unfold complete. rewrite Hdo by lia. exact C2.
    + intros f2 Hf2 L1. destruct (si_todo _ _ _ _ _ _ _ _ S f2 Hf2 L1) as (C1 & C2 & C3). split; [exact C1|]. split; [exact C2|].
      intros Z. assert (f_num f2 <> sr_next r) by (intros Z2; specialize (Z Z2); discriminate). unfold disk_ok. rewrite Hdo by lia.
      apply C3. intros Z2; congruence.
    + intros a0 f2 Ea0 Hf2 L1 L2. injection Ea0 as <-. assert (f2 = f) by (apply (file_uniq hash _ _ _ _ _ f2 f H Hf2 Hf); congruence). subst f2.
      destruct (Hmid L2) as [M1 M2]. split; [|exact M2]. unfold complete. rewrite Hdn, M1. reflexivity.
    + intros Hcond. assert (Hn2 : f_num f = sr_to r) by (destruct Hcond as [Z|[Z _]]; lia).
      destruct (Hlast Hn2) as (hs1 & x & W1 & W2 & W3 & W4 & W5 & W6). exists f, hs1, x.
      split; [exact Hf|]. split; [exact Hn2|]. split; [exact W1|]. split; [exact W2|]. split; [exact W3|]. split; [exact W4|].
      split; [|exact W5]. unfold disk_ok. rewrite Hdn, W6. reflexivity.
    + intros d [Hd|Hd]; [|apply (si_nums _ _ _ _ _ _ _ _ S d); right; exact Hd]. unfold disk in Hd. apply in_map_iff in Hd.
      destruct Hd as (z & <- & Hz). rewrite append_num. apply (si_nums _ _ _ _ _ _ _ _ S z). left; exact Hz.
  - injection E as <- <-.
    assert (Hno : forall f, In f (g_files g) -> f_num f <> sr_next r).
    { intros f Hf Z. rewrite <- Z, (file_here hash _ _ _ _ _ f H Hf) in Ef. discriminate. }
    assert (Hlt : sr_next r < sr_to r) by (assert (X := Hno ft T1); lia).
    constructor; cbn [sr_fsync sr_to sr_next sr_last sr_bar sr_after]; fold g; try (apply S).
    + destruct (si_ls _ _ _ _ _ _ _ _ S) as [X|X]; [left; exact X|right; fold g in X; lia].
    + lia.
    + rewrite Eb. exact BB.
    + split; [lia|congruence].
    + intros f Hf L1 L2. apply (si_done _ _ _ _ _ _ _ _ S f Hf); [|exact L2]. assert (X := Hno f Hf). lia.
    + intros f Hf L1. destruct (si_todo _ _ _ _ _ _ _ _ S f Hf ltac:(lia)) as (C1 & C2 & C3). split; [exact C1|]. split; [exact C2|].
      intros _. apply C3. intros _; exact Ea.
    + discriminate.
    + intros [Z|[_ Z]]; [lia|congruence].
Qed.

(** *** Marking a file *)
Lemma si_step_mark : forall pw c h hs h1 r p a r' p', SI pw c h hs h1 r p -> sr_after r = Some a ->
  y_mark r a p = (r', p') -> SI pw c h hs h1 r' p'.
Proof.
  intros pw c h hs h1 r p a r' p' S Ea E. assert (D := si_di _ _ _ _ _ _ _ _ S). assert (D0 := D).
  destruct D as [(n0 & pre & F & part & H & Ht & Hl & HF & HFl & HG & HB)].
  assert (Hne : h <> []) by (apply (starts_ne h1 h (si_h1 _ _ _ _ _ _ _ _ S)), (si_ne _ _ _ _ _ _ _ _ S)).
  assert (Hsort := di_sorted _ _ _ _ D0). unfold y_mark in E. injection E as <- <-. set (g := d_log (p_db p)) in *.
  destruct (si_next _ _ _ _ _ _ _ _ S) as [_ Hle]. specialize (Hle ltac:(congruence)).
  set (n := sr_next r) in *.
  set (st := fun f => let f' := with_mt f (lf_set_synced a (f_mt f)) in if n <? sr_to r then set_imm f' else f') in *.
  change (fun f => if n <? sr_to r then set_imm (with_mt f (lf_set_synced a (f_mt f))) else with_mt f (lf_set_synced a (f_mt f))) with st.
  assert (Hbar : exists b, sr_bar r = Some b).
  { assert (B := si_bar _ _ _ _ _ _ _ _ S). destruct (sr_bar r) as [b|]; [exists b; reflexivity|]. destruct B as [B _]. congruence. }
  destruct Hbar as (b & Eb).
  assert (Hl0 : lastseq hs <= lastseq h1).
  { apply starts_le; [|apply (si_hs _ _ _ _ _ _ _ _ S)]. destruct (si_h1 _ _ _ _ _ _ _ _ S) as (t & Et). rewrite Et in Hsort.
    unfold sorted_seq in *. rewrite map_app in Hsort. apply SS_app_inv in Hsort. tauto. }
  assert (Hpart : forall hs1, starts hs1 h -> sorted_seq hs1).
  { intros hs1 (t & Et). rewrite Et in Hsort. unfold sorted_seq in *. rewrite map_app in Hsort. apply SS_app_inv in Hsort. tauto. }
  assert (Hsome : sr_after r <> None) by (rewrite Ea; discriminate).
  (* the file *)
  assert (Hfile : forall f, In f (g_files g) -> f_num f = n -> exists s,
     FI (st f) /\ same_file f (st f) /\ m_synced (f_mt (st f)) = s /\ m_max (f_mt (st f)) = m_max (f_mt f) /\ m_min (f_mt (st f)) = m_min (f_mt f) /\
     s <> NIL /\
     (n < sr_to r -> s = m_max (f_mt f) /\ complete f (p_disk p)) /\
     (n = sr_to r -> s = a /\ valid_number a = true /\ exists hs1 x, starts h1 hs1 /\ starts hs1 h /\ In x (fh f) /\ r_seq x = lastseq hs1 /\
         a = lastseq hs1 /\ disk_ok (lastseq hs1) f (p_disk p))).
  { intros f Hf Hn. assert (FIf := gi_fi _ _ _ _ _ _ H f Hf). assert (NE : fh f <> []) by exact (di_ne hash c h (p_db p) n0 pre F part f D0 Hne H Hf).
    destruct (si_todo _ _ _ _ _ _ _ _ S f Hf ltac:(fold n; lia)) as (U1 & _).
    assert (Hs : exists s, (exists x, In x (fh f) /\ r_seq x = s) /\ (m_synced (f_mt f) <> NIL -> m_synced (f_mt f) <= s) /\
       lf_set_synced a (f_mt f) = lf_set_synced s (f_mt f) /\
       (n < sr_to r -> s = m_max (f_mt f) /\ complete f (p_disk p)) /\
       (n = sr_to r -> s = a /\ exists hs1 x, starts h1 hs1 /\ starts hs1 h /\ In x (fh f) /\ r_seq x = lastseq hs1 /\
         a = lastseq hs1 /\ disk_ok (lastseq hs1) f (p_disk p))).
    { destruct (N.eq_dec n (sr_to r)) as [e|ne].
      - destruct (si_fin _ _ _ _ _ _ _ _ S (or_intror (conj e Hsome))) as (f2 & hs1 & x & T1 & T2 & T3 & T4 & T5 & T6 & T7 & T8).
        assert (f2 = f) by (apply (file_uniq hash _ _ _ _ _ f2 f H T1 Hf); congruence). subst f2. rewrite Ea in T8.
        exists a. split; [exists x; split; [exact T5|congruence]|]. split.
        + intros Z. rewrite U1 in *. destruct (mark_lt hash f (lastseq hs) FIf Z) as [X _]. assert (Y := starts_le h1 hs1 (Hpart hs1 T4) T3). lia.
        + split; [reflexivity|]. split; [lia|]. intros _. split; [reflexivity|]. exists hs1, x. auto 10.
      - destruct (si_mid _ _ _ _ _ _ _ _ S a f Ea Hf Hn ltac:(lia)) as [M1 M2]. destruct (lastseq_in _ NE) as (x & Hx & Ex).
        rewrite <- (fi_max _ _ FIf NE) in Ex. exists (m_max (f_mt f)). split; [exists x; auto|]. split.
        + intros Z. destruct (fi_syn _ _ FIf Z) as (y & Hy & Ey). destruct (fi_bnd hash f y FIf Hy). lia.
        + split; [|split; [auto|lia]]. destruct M2 as [->| ->]; [reflexivity|]. apply (set_synced_nil hash f FIf NE). }
    destruct Hs as (s & Hr & Hm & El & C1 & C2). destruct (set_synced_fi hash f s FIf Hr Hm) as [G1 G2].
    assert (Est : f_mt (st f) = lf_set_synced s (f_mt f) /\ f_num (st f) = f_num f /\ f_start (st f) = f_start f).
    { unfold st. rewrite El. destruct (n <? sr_to r); auto. }
    destruct Est as (E1 & E2 & E3). destruct Hr as (x & Hx & Ex). destruct (fi_bnd hash f x FIf Hx) as [X1 X2].
    assert (Eset : lf_set_synced s (f_mt f) = set_marks (m_flushed (f_mt f)) s (f_mt f)).
    { unfold lf_set_synced, valid_number. replace (m_max (f_mt f) =? NIL) with false by lia. cbn [negb]. replace (m_max (f_mt f) <? s) with false by lia. reflexivity. }
    exists s. split.
    { unfold st. rewrite El. destruct (n <? sr_to r); [|exact G1]. destruct G1. constructor; assumption. }
    split; [unfold same_file, fh; rewrite E1, E2, E3, Eset; auto|]. rewrite E1, Eset. split; [reflexivity|]. split; [reflexivity|]. split; [reflexivity|].
    split; [lia|]. split; [exact C1|]. intros Z. destruct (C2 Z) as (-> & Y). split; [reflexivity|]. split; [unfold valid_number; lia|exact Y]. }
  set (gs := upd_file n st (g_files g)) in *.
  assert (Hst : forall f, In f (g_files g) -> f_num (st f) = f_num f) by (intros f _; unfold st; destruct (n <? sr_to r); reflexivity).
  assert (Hgs : forall f', In f' gs -> exists f, In f (g_files g) /\ f_num f' = f_num f /\ fh f' = fh f /\ m_max (f_mt f') = m_max (f_mt f) /\
     m_min (f_mt f') = m_min (f_mt f) /\ ((f_num f <> n /\ f' = f) \/ (f_num f = n /\ f' = st f))).
  { intros f' Hf'. unfold gs, upd_file in Hf'. apply in_map_iff in Hf'. destruct Hf' as (f & E & Hf). exists f. split; [exact Hf|].
    destruct (f_num f =? n) eqn:En.
    - subst f'. destruct (Hfile f Hf ltac:(lia)) as (s & _ & (S1 & S2 & _) & _ & S6 & S7 & _). split; [exact S1|]. split; [exact S2|].
      split; [exact S6|]. split; [exact S7|]. right. split; [lia|reflexivity].
    - subst f'. split; [reflexivity|]. split; [reflexivity|]. split; [reflexivity|]. split; [reflexivity|]. left. split; [lia|reflexivity]. }
  assert (Hgo : forall f, In f (g_files g) -> exists f', In f' gs /\ f_num f' = f_num f /\ fh f' = fh f).
  { intros f Hf. exists (if f_num f =? n then st f else f). split; [apply in_map_iff; exists f; auto|]. destruct (f_num f =? n) eqn:En; [|auto].
    destruct (Hfile f Hf ltac:(lia)) as (s & _ & (S1 & S2 & _) & _). auto. }
  assert (D' : DI c h (mkDb (mkG gs (g_max g) (g_lf g) (g_ls g) (g_bar g)) (d_tab (p_db p)) (d_gone (p_db p)) (d_bat (p_db p)))).
  { apply di_replace; [exact D0|exact Hne| | |].
    - fold g. unfold gs, upd_file. assert (X : forall f, In f (g_files g) -> same_file f (if f_num f =? n then st f else f)).
      { intros f Hf. destruct (f_num f =? n) eqn:En; [|apply same_file_refl]. destruct (Hfile f Hf ltac:(lia)) as (s & _ & X & _). exact X. }
      clear -X. induction (g_files g) as [|f l IH]; cbn [map]; constructor; [apply X; left; reflexivity|]. apply IH. intros; apply X; right; assumption.
    - intros f' Hf'. destruct (Hgs f' Hf') as (f & Hf & _ & _ & _ & _ & [[_ ->]|[En ->]]); [apply (gi_fi _ _ _ _ _ _ H f Hf)|].
      destruct (Hfile f Hf En) as (s & X & _). exact X.
    - intros m Em. fold g. fold g in Em. assert (m = n0).
      { unfold min_num in Em. assert (HN := gi_nums _ _ _ _ _ _ H). fold g in HN. destruct (g_files g); [discriminate|]. destruct HN as [HN _]. congruence. }
      subst m. assert (L := gi_ls _ _ _ _ _ _ H). fold g in L. destruct L as [L|(L1 & L2 & L3)]; [left; exact L|right]. split; [exact L1|].
      assert (Lle : g_ls g <= n).
      { destruct (si_ls _ _ _ _ _ _ _ _ S) as [X|X]; [|exact X]. fold g in X. assert (Y := gi_few _ _ _ _ _ _ H). fold g in Y. lia. }
      split; intros f' Hf' K1; destruct (Hgs f' Hf') as (f & Hf & E1 & E2 & E3 & E4 & [[En ->]|[En ->]]); try (rewrite E1 in K1).
      + apply L2; assumption.
      + lia.
      + intros K2. apply (L3 f); assumption.
      + intros K2. destruct (Hfile f Hf En) as (s & _ & _ & Es & _ & _ & Hsn & _). congruence. }
  assert (Hdur : forall k, k <> n -> dlog_at k (if sr_fsync r then fsync_range n n (p_disk p) (p_dur p) else p_dur p) = dlog_at k (p_dur p)).
  { intros k Hk. destruct (sr_fsync r); [apply fsync_other; exact Hk|reflexivity]. }
  assert (Hdurn : pw = true -> forall f d, In f (g_files g) -> f_num f = n -> dlog_at n (p_disk p) = Some d ->
     dlog_at n (if sr_fsync r then fsync_range n n (p_disk p) (p_dur p) else p_dur p) = Some d).
  { intros Hp f d Hf Hn Ed. rewrite (si_fs _ _ _ _ _ _ _ _ S Hp). destruct (si_todo _ _ _ _ _ _ _ _ S f Hf ltac:(fold n; lia)) as (_ & U2 & _).
    specialize (U2 Hp). unfold disk_ok in U2. rewrite Hn in U2. apply (fsync_same n _ _ d _ Ed U2). }
  set (dur := if sr_fsync r then fsync_range n n (p_disk p) (p_dur p) else p_dur p) in *.
  constructor; cbn [sr_fsync sr_to sr_next sr_last sr_bar sr_after with_disk with_log with_files p_db p_disk p_dur d_log d_bat g_files g_max g_ls];
    change (mkG gs (g_max g) (g_lf g) (g_ls g) (g_bar g)) with (with_files g gs) in D'.
  - exact D'.
  - exact (si_hs _ _ _ _ _ _ _ _ S).
  - exact (si_h1 _ _ _ _ _ _ _ _ S).
  - exact (si_ne _ _ _ _ _ _ _ _ S).
  - exact (si_fs _ _ _ _ _ _ _ _ S).
  - exact (si_to _ _ _ _ _ _ _ _ S).
  - destruct (si_ls _ _ _ _ _ _ _ _ S) as [X|X]; [left; exact X|right; fold g n in X; lia].
  - intros Z. assert (e : n = sr_to r) by lia. destruct (si_top _ _ _ _ _ _ _ _ S) as (ft & tt & T1 & T2 & T3 & T4).
    destruct (Hfile ft T1 ltac:(lia)) as (s & _ & _ & _ & _ & _ & _ & _ & C). destruct (C e) as (_ & V & _). rewrite V. exact e.
  - intros f' Hf' L. destruct (Hgs f' Hf') as (f & Hf & E1 & _ & _ & _ & [[En ->]|[En ->]]); [apply (si_imm _ _ _ _ _ _ _ _ S f Hf L)|].
    rewrite E1 in L. unfold st. replace (n <? sr_to r) with false by lia. cbn [with_mt f_imm]. apply (si_imm _ _ _ _ _ _ _ _ S f Hf L).
  - exact (si_bat _ _ _ _ _ _ _ _ S).
  - destruct (si_top _ _ _ _ _ _ _ _ S) as (f & t & T1 & T2 & T3 & T4). destruct (Hgo f T1) as (f' & G1 & G2 & G3). exists f', t.
    rewrite G2, G3. auto.
  - rewrite Eb. assert (B := si_bar _ _ _ _ _ _ _ _ S). rewrite Eb in B. destruct B as [B|[B1 (hb & f & y & B2 & B3 & B4 & B5 & B6 & B7 & B8)]]; [left; exact B|right].
    split; [exact B1|]. destruct (Hgo f B5) as (f' & G1 & G2 & G3). exists hb, f', y. rewrite G2, G3. auto 10.
  - split; [lia|congruence].
  - intros f' Hf' L1 L2. destruct (Hgs f' Hf') as (f & Hf & E1 & E2 & E3 & E4 & X). rewrite E1 in *. unfold full_synced, complete. rewrite E1, E2, E3.
    destruct X as [[En ->]|[En ->]].
    + destruct (si_done _ _ _ _ _ _ _ _ S f Hf ltac:(fold n; lia) L2) as (C1 & C2 & C3). split; [exact C1|]. split; [exact C2|].
      intros Hp. rewrite Hdur by exact En. apply C3, Hp.
    + destruct (Hfile f Hf En) as (s & _ & _ & Es & _ & _ & _ & C & _). destruct (C ltac:(lia)) as [C1 C2]. split; [congruence|]. split; [exact C2|].
      intros Hp. unfold complete in C2. rewrite En in *. apply (Hdurn Hp f _ Hf En C2).
  - intros f' Hf' L1. destruct (Hgs f' Hf') as (f & Hf & E1 & E2 & E3 & E4 & [[En ->]|[En ->]]); [|lia].
    destruct (si_todo _ _ _ _ _ _ _ _ S f Hf ltac:(fold n; lia)) as (C1 & C2 & C3). split; [exact C1|]. split.
    + intros Hp. unfold disk_ok. rewrite Hdur by lia. apply C2, Hp.
    + intros _. apply C3. intros Z. fold n in Z. lia.
  - discriminate.
  - intros [Z|[_ Z]]; [|congruence]. assert (e : n = sr_to r) by lia. destruct (si_top _ _ _ _ _ _ _ _ S) as (f & t & T1 & T2 & T3 & T4).
    assert (En : f_num f = n) by lia.
    destruct (Hfile f T1 En) as (s & _ & _ & Es & _ & _ & _ & _ & C). destruct (C e) as (-> & V & hs1 & x & W1 & W2 & W3 & W4 & W5 & W6).
    destruct (Hgo f T1) as (f' & G1 & G2 & G3). exists f', hs1, x. unfold disk_ok in *. rewrite G2, G3.
    split; [exact G1|]. split; [exact T2|]. split; [exact W1|]. split; [exact W2|]. split; [exact W3|]. split; [exact W4|]. split; [exact W6|].
    destruct (Hgs f' G1) as (f2 & Hf2 & F1 & _ & _ & _ & [[Fn ->]|[Fn ->]]); [lia|].
    assert (f2 = f) by (apply (file_uniq hash _ _ _ _ _ f2 f H Hf2 T1); lia). subst f2. split; [congruence|].
    intros Hp. rewrite En in *. apply (Hdurn Hp f _ T1 En W6).
  - intros d [Hd|Hd]; [apply (si_nums _ _ _ _ _ _ _ _ S d); left; exact Hd|]. unfold dur in Hd. destruct (sr_fsync r).
    + exact (fsync_nums n _ _ _ (si_nums _ _ _ _ _ _ _ _ S) d Hd).
    + apply (si_nums _ _ _ _ _ _ _ _ S d); right; exact Hd.
  - intros f' Hf' Hfn. destruct (Hgs f' Hf') as (f & Hf & E1 & E2 & E3 & E4 & _). rewrite E1, E4. apply (si_few _ _ _ _ _ _ _ _ S f Hf). congruence.
Qed.

(** *** End *)
Lemma si_step_end : forall pw c h hs h1 r p, SI pw c h hs h1 r p -> sr_after r = None -> sr_to r < sr_next r ->
  exists hs1, starts h1 hs1 /\ PI pw c h hs1 (y_end r p) /\ open_top (d_log (p_db (y_end r p))).
Proof.
  intros pw c h hs h1 r p S Ea Hlt. assert (D := si_di _ _ _ _ _ _ _ _ S). assert (D0 := D).
  destruct D as [(n0 & pre & F & part & H & Ht & Hl & HF & HFl & HG & HB)].
  assert (Hne : h <> []) by (apply (starts_ne h1 h (si_h1 _ _ _ _ _ _ _ _ S)), (si_ne _ _ _ _ _ _ _ _ S)).
  assert (Hsort := di_sorted _ _ _ _ D0). set (g := d_log (p_db p)) in *.
  assert (Hpart : forall hs1, starts hs1 h -> sorted_seq hs1).
  { intros hs1 (t & Et). rewrite Et in Hsort. unfold sorted_seq in *. rewrite map_app in Hsort. apply SS_app_inv in Hsort. tauto. }
  destruct (si_fin _ _ _ _ _ _ _ _ S (or_introl Hlt)) as (ft & hs1 & x & T1 & T2 & T3 & T4 & T5 & T6 & T7 & T8). rewrite Ea in T8. destruct T8 as [T8 T9].
  assert (L01 : lastseq hs <= lastseq hs1).
  { apply starts_le; [apply Hpart, T4|]. eapply starts_trans; [apply (si_hs _ _ _ _ _ _ _ _ S)|exact T3]. }
  assert (Hlast := si_last _ _ _ _ _ _ _ _ S Hlt). destruct (si_next _ _ _ _ _ _ _ _ S) as [Hn1 _].
  (* every file *)
  assert (Hall : forall f, In f (g_files g) -> m_synced (f_mt f) = mark (lastseq hs1) f /\ disk_ok (lastseq hs1) f (p_disk p) /\
     (pw = true -> disk_ok (lastseq hs1) f (p_dur p)) /\ (f_num f < sr_to r -> full_synced f)).
  { intros f Hf. assert (FIf := gi_fi _ _ _ _ _ _ H f Hf). assert (NE : fh f <> []) by exact (di_ne hash c h (p_db p) n0 pre F part f D0 Hne H Hf).
    destruct (N.lt_trichotomy (f_num f) (sr_to r)) as [Hc|[Hc|Hc]].
    - destruct (si_done _ _ _ _ _ _ _ _ S f Hf ltac:(lia) Hc) as (C1 & C2 & C3).
      assert (A : forall y, In y (fh f) -> r_seq y <= lastseq hs1).
      { intros y Hy. assert (X := gi_order hash _ _ _ _ _ f ft y x H Hf T1 ltac:(lia) Hy T5). lia. }
      split; [rewrite (mark_all hash f _ FIf NE A); exact C1|]. unfold disk_ok. rewrite (upto_all _ _ A). auto.
    - assert (f = ft) by (apply (file_uniq hash _ _ _ _ _ f ft H Hf T1); congruence). subst f.
      split; [rewrite T8; symmetry; apply (mark_rec hash ft x _ FIf T5 T6)|]. split; [exact T7|]. split; [exact T9|]. lia.
    - destruct (si_todo _ _ _ _ _ _ _ _ S f Hf ltac:(lia)) as (C1 & C2 & C3). specialize (C3 (fun _ => Ea)).
      assert (A : forall y, In y (fh f) -> lastseq hs1 < r_seq y).
      { intros y Hy. assert (X := gi_order hash _ _ _ _ _ ft f x y H T1 Hf ltac:(lia) T5 Hy). lia. }
      assert (U1 : upto (lastseq hs1) (fh f) = []) by (apply upto_none, A).
      assert (U0 : upto (lastseq hs) (fh f) = []) by (apply upto_none; intros y Hy; specialize (A y Hy); lia).
      unfold disk_ok in *. rewrite U1. rewrite U0 in *. split; [rewrite C1; unfold mark; rewrite U0, U1; reflexivity|]. split; [exact C3|]. split; [exact C2|]. lia. }
  exists hs1. split; [exact T3|].
  assert (D' : DI c h (mkDb (mkG (g_files g) (g_max g) (g_lf g) (sr_last r) (g_bar g)) (d_tab (p_db p)) (d_gone (p_db p)) (d_bat (p_db p)))).
  { apply di_replace; [exact D0|exact Hne|apply same_files_refl|apply (gi_fi _ _ _ _ _ _ H)|].
    intros m Em. fold g in Em. assert (m = n0).
    { unfold min_num in Em. assert (HN := gi_nums _ _ _ _ _ _ H). fold g in HN. destruct (g_files g); [discriminate|]. destruct HN as [HN _]. congruence. }
    subst m. right. rewrite Hlast. fold g. assert (X := file_le hash _ _ _ _ _ ft H T1). fold g in X. split; [lia|]. split.
    - intros f Hf L. apply (Hall f Hf), L.
    - intros f Hf L Z. assert (f = ft) by (apply (file_uniq hash _ _ _ _ _ f ft H Hf T1); congruence). subst f.
      rewrite T8, <- T6 in Z. destruct (fi_bnd hash ft x (gi_fi _ _ _ _ _ _ H ft T1) T5). lia. }
  unfold y_end. fold g. split.
  - assert (D2 := D'). destruct D' as [(n0' & pre' & F' & part' & H' & _)]. cbn [d_log] in H'.
    constructor; cbn [p_store with_log p_db p_disk p_dur p_man p_old d_log g_files g_max].
    + exact D2.
    + exact T4.
    + intros f Hf. apply (Hall f Hf).
    + intros f Hf. apply (Hall f Hf).
    + intros Hp f Hf. apply (Hall f Hf), Hp.
    + split; [exact (man_of_ents (mkG (g_files g) (g_max g) (g_lf g) (sr_last r) (g_bar g)))|]. eapply man_of_ok; exact H'.
    + intros Hp M HM. rewrite (si_fs _ _ _ _ _ _ _ _ S Hp) in HM. destruct HM.
    + exact (si_nums _ _ _ _ _ _ _ _ S).
    + exact (si_few _ _ _ _ _ _ _ _ S).
  - cbn [p_store with_log p_db d_log]. intros f Hf Ef. cbn [g_files g_max] in *. apply (si_imm _ _ _ _ _ _ _ _ S f Hf).
    assert (X := si_to _ _ _ _ _ _ _ _ S). fold g in X. lia.
Qed.

End Proofs.
