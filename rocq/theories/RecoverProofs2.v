(** Crash recovery with tables: every operation of a guarded run keeps the invariant [PI]. *)
From Verif Require Import Base KeyModel KeyProofs LogFormatModel LogManifestModel BloomModel BloomProofs MemTableModel MemTableProofs
  LogMgrModel LogMgrProofs LogMgrProofs2 LogMgrProofs3 DbModel DbProofs RecoverModel RecoverProofs.
From Coq Require Import Sorted ZifyBool.
Local Open Scope N_scope.

Section Proofs.
Variable hash : key -> N * N.
Notation GI := (GI hash).
Notation FI := (FI hash).
Notation DI := (DI hash).
Notation PI := (PI hash).

(** ** Writes *)

Lemma mt_put_marks : forall ow r m r' m', mt_put hash ow r m = Ok (r', m') ->
  m_flushed m' = m_flushed m /\ m_synced m' = m_synced m /\ (m_alloc m <> NIL -> m_min m' = m_min m).
Proof.
  intros ow r m r' m' E. unfold mt_put in E. set (r1 := if is_del r then clear_val r else r) in *. clearbody r1.
  destruct (assign_seq ow (r_seq r1) m) as [[[s al] mn]| |] eqn:EA; try discriminate.
  assert (Hmn : m_alloc m <> NIL -> mn = m_min m).
  { intros Hn. unfold assign_seq in EA. replace (m_alloc m =? NIL) with false in EA by lia.
    destruct (r_seq r1 =? NIL); [congruence|].
    destruct (negb false && (r_seq r1 <=? m_alloc m) && negb ow); [discriminate|].
    destruct (negb (m_min m =? NIL) && (r_seq r1 <? m_min m)); [discriminate|]. congruence. }
  clear EA. destruct (is_cmd (with_seq r1 s)).
  - injection E as _ <-. cbn [m_flushed m_synced m_min]. auto.
  - destruct (add_key hash (with_seq r1 s) (m_key m) (m_bf m)) as [[k' b']| |]; try discriminate.
    injection E as _ <-. cbn [m_flushed m_synced m_min]. auto.
Qed.

Lemma lf_set_marks : forall r m r' m', lf_set hash false r m = (Ok r', m') ->
  m_flushed m' = m_flushed m /\ m_synced m' = m_synced m /\ (m_alloc m <> NIL -> m_min m' = m_min m).
Proof.
  intros r m r' m' E. unfold lf_set in E. rewrite andb_false_r in E. cbn [andb] in E.
  destruct (mt_put hash false r m) as [[x y]| |] eqn:EP; try discriminate. injection E as _ <-. eapply mt_put_marks; eauto.
Qed.

Lemma file_set_kept : forall n0 pre h F g c r r' g' s, GI n0 pre h F g -> c_ow c = false ->
  file_set hash c (g_max g) r g = (Ok r', g') -> GI n0 pre (h ++ [r']) F g' -> s < r_seq r' ->
  Forall2 (kept s) (g_files g) (g_files g') /\ g_max g' = g_max g /\ g_lf g' = g_lf g.
Proof.
  intros n0 pre h F g c r r' g' s H Co E H' Hlt.
  destruct (file_set_grow hash n0 pre h F g c r r' g' H E H') as (a & f & f' & E1 & E2 & E3 & E4).
  unfold file_set in E. assert (HN := gi_nums _ _ _ _ _ _ H).
  assert (EA := file_at_num _ _ _ _ _ HN E1).
  assert (En : f_num f = g_max g).
  { destruct (gi_last _ _ _ _ _ _ H) as (a2 & f2 & E5 & E6). rewrite E1 in E5. apply app_inj_tail in E5. destruct E5 as [_ ->]. exact E6. }
  rewrite En in EA. rewrite EA, Co in E. destruct (lf_set hash false r (f_mt f)) as [o m'] eqn:EL.
  assert (Eo : o = Ok r') by congruence. subst o.
  assert (Eg : g' = with_files g (upd_file (g_max g) (fun f => with_mt f m') (g_files g))) by congruence.
  assert (Ef' : f' = with_mt f m').
  { assert (X : g_files g' = a ++ [with_mt f m']).
    { rewrite Eg. cbn [with_files g_files]. rewrite E1 in *. rewrite <- En. apply (upd_file_app a f [] n0 (fun f0 => with_mt f0 m') HN). }
    rewrite X in E2. apply app_inj_tail in E2. destruct E2 as [_ E2]. symmetry; exact E2. }
  split; [|rewrite Eg; split; reflexivity].
  rewrite E1, E2. apply Forall2_app; [apply kept_refls|]. constructor; [|constructor].
  destruct (lf_set_marks _ _ _ _ EL) as (M1 & M2 & M3).
  assert (FIf : FI f) by (apply (gi_fi _ _ _ _ _ _ H); rewrite E1; apply in_or_app; right; left; reflexivity).
  unfold kept. split; [exact E3|]. rewrite Ef'. cbn [with_mt f_mt]. split; [exact M1|]. split; [exact M2|]. split.
  { rewrite Ef' in E4. rewrite E4, upto_app, (upto_none s [r']); [apply app_nil_r|]. intros x [<-|[]]; exact Hlt. }
  assert (Halloc : m_alloc (f_mt f) = NIL -> fh f = []).
  { intros A. rewrite (mw_alloc _ _ _ (fi_mw _ _ FIf)) in A. apply (mw_emp _ _ _ (fi_mw _ _ FIf)), A. }
  split.
  - destruct (N.eq_dec (m_alloc (f_mt f)) NIL) as [A|A]; [left; apply (fi_emp _ _ FIf), Halloc, A|right; apply M3, A].
  - intros Hsy. apply M3. intros A. destruct (fi_syn _ _ FIf Hsy) as (x & Hx & _). rewrite (Halloc A) in Hx. destruct Hx.
Qed.

(** What a write does to the files. *)
Definition grown (s : N) (c : cfg) (g g' : lmgr) : Prop :=
  g_lf g' = g_lf g /\
  ((Forall2 (kept s) (g_files g) (g_files g') /\ g_max g' = g_max g) \/
   (exists f', g_files g' = g_files g ++ [f'] /\ upto s (fh f') = [] /\ m_synced (f_mt f') = NIL /\ m_flushed (f_mt f') = NIL /\
      g_max g' = g_max g + 1 /\ f_num f' = g_max g' /\ g_max g' = (g_max g + 1) mod 2 ^ 64)).

Lemma grown_refl : forall s c g, grown s c g g.
Proof. intros s c g. split; [reflexivity|left]. split; [apply kept_refls|reflexivity]. Qed.

Lemma lm_set_grown : forall n0 pre h F g c full r r' g' s, GI n0 pre h F g -> c_ow c = false -> c_ro c = false -> 0 < c_maxent c ->
  lastseq h + 1 < NIL ->
  lm_set hash c full r g = (Ok r', g') -> GI n0 pre (h ++ [r']) F g' -> s < r_seq r' -> grown s c g g'.
Proof.
  intros n0 pre h F g c full r r' g' s H Ho Hr0 Hm Hl E H' Hlt. unfold lm_set in E. rewrite Hr0 in E.
  destruct (r_seq r =? 0); [discriminate|].
  rewrite (gi_max_num _ _ _ _ _ _ H Hl), Ho, andb_false_r in E.
  assert (HA := gi_newest _ _ _ _ _ _ H). rewrite HA in E. cbn [negb] in E.
  rewrite orb_true_l, andb_true_r in E.
  assert (HN := gi_nums _ _ _ _ _ _ H). assert (HG := gi_gmax _ _ _ _ _ _ H).
  destruct (negb (valid_to_write c full (newest_file g))) eqn:Er.
  - set (start := (m_max (f_mt (newest_file g)) + 1) mod 2 ^ 64) in *.
    assert (Hm0 : (g_max g + 1) mod 2 ^ 64 = g_max g + 1).
    { apply N.mod_small. assert (X := gi_few _ _ _ _ _ _ H). rewrite nil_val in Hl. lia. }
    set (nf := mkF (g_max g + 1) start false (mt_init (c_maxent c * 64) start)) in *.
    assert (Hg1 : add_new_file c (newest_file g) g = mkG (g_files g ++ [nf]) (g_max g + 1) (g_lf g) (g_ls g) (g_bar g)).
    { unfold add_new_file, nf, start. rewrite Hm0. reflexivity. }
    rewrite Hg1 in E. cbn [g_max] in E. unfold file_set in E. cbn [g_files] in E.
    assert (HNn : nums_from n0 (g_files g ++ [nf])).
    { apply nums_app. split; [exact HN|]. cbn [nums_from nf f_num]. split; [lia|exact I]. }
    assert (HAn : file_at (g_max g + 1) (g_files g ++ [nf]) = Some nf).
    { assert (X := file_at_num _ _ _ nf [] HNn eq_refl). exact X. }
    rewrite HAn, Ho in E. destruct (lf_set hash false r (f_mt nf)) as [o m'] eqn:EL. destruct o as [x| |]; [|discriminate|discriminate].
    cbn [with_files g_files g_max g_lf g_ls g_bar] in E.
    assert (Eu : upd_file (g_max g + 1) (fun f => with_mt f m') (g_files g ++ [nf]) = g_files g ++ [with_mt nf m']).
    { exact (upd_file_app (g_files g) nf [] n0 (fun f => with_mt f m') HNn). }
    rewrite Eu in E.
    assert (HAm : file_at (g_max g + 1) (g_files g ++ [with_mt nf m']) = Some (with_mt nf m')).
    { assert (HNm : nums_from n0 (g_files g ++ [with_mt nf m'])).
      { eapply nums_same; [|exact HNn]. rewrite !map_app. reflexivity. }
      exact (file_at_num _ _ _ (with_mt nf m') [] HNm eq_refl). }
    rewrite HAm in E. cbn [with_mt f_imm nf] in E.
    assert (Ex : x = r') by congruence. subst x.
    assert (Eg : g' = mkG (g_files g ++ [with_mt nf m']) (g_max g + 1) (g_lf g) (g_ls g) (g_bar g)) by (apply (f_equal snd) in E; cbn [snd] in E; symmetry; exact E).
    split; [rewrite Eg; reflexivity|right]. exists (with_mt nf m'). rewrite Eg. cbn [g_files g_max]. split; [reflexivity|].
    destruct (lf_set_marks _ _ _ _ EL) as (M1 & M2 & _). split.
    { assert (X := gi_hist _ _ _ _ _ _ H'). rewrite (gi_hist _ _ _ _ _ _ H), Eg in X. cbn [g_files] in X.
      rewrite all_h_app in X. cbn [all_h flat_map] in X. rewrite app_nil_r in X. rewrite <- !app_assoc in X.
      apply app_inv_head in X. apply app_inv_head in X. rewrite <- X. apply upto_none. intros y [<-|[]]; exact Hlt. }
    split; [exact M2|]. split; [exact M1|]. split; [reflexivity|]. split; [reflexivity|]. symmetry; exact Hm0.
  - destruct (file_set hash c (g_max g) r g) as [o g2] eqn:E2. destruct o as [x| |]; [|discriminate|discriminate].
    assert (Ex : x = r') by (apply (f_equal fst) in E; cbn [fst] in E; congruence). subst x.
    assert (Himm : f_imm (newest_file g) = false).
    { unfold valid_to_write in Er. destruct (f_imm (newest_file g)); [discriminate|reflexivity]. }
    destruct (file_set_files hash _ _ _ _ _ _ _ _ _ H E2) as (a & f & f' & E3 & E4 & E5).
    assert (Eg : g' = g2).
    { apply (f_equal snd) in E; cbn [snd] in E. rewrite <- E.
      destruct (file_at (g_max g) (g_files g2)) as [f2|] eqn:EF; [|reflexivity].
      assert (I2 : f_imm f2 = false); [|rewrite I2; reflexivity].
      unfold file_set in E2. rewrite HA in E2. destruct (lf_set hash (c_ow c) r (f_mt (newest_file g))) as [o1 m'].
      injection E2 as _ <-. cbn [with_files g_files] in EF.
      apply file_at_in in EF. destruct EF as [EF En]. unfold upd_file in EF. apply in_map_iff in EF. destruct EF as (y & Ey & Hy).
      destruct (f_num y =? g_max g) eqn:Eny.
      - subst f2. cbn [with_mt f_imm].
        assert (Yn : y = newest_file g).
        { assert (In (newest_file g) (g_files g)) by (apply (newest_file_in _ _ _ _ _ _ H)).
          apply in_split in Hy. destruct Hy as (u & v & Ey2). assert (Q := file_at_num _ _ _ _ _ HN Ey2).
          replace (f_num y) with (g_max g) in Q by lia. congruence. }
        rewrite Yn. exact Himm.
      - subst f2. lia. }
    subst g2. destruct (file_set_kept n0 pre h F g c r r' g' s H Ho E2 H' Hlt) as (K1 & K2 & K3).
    split; [exact K3|left]. split; [exact K1|exact K2].
Qed.

Lemma write_grown : forall c h d o x d' s, cfg_ok c -> DI c h d -> allowed c h d o -> step hash c o d = Some (x, d') ->
  match o with OSync _ | OFlush _ _ => False | _ => True end -> s <= lastseq h ->
  grown s c (d_log d) (d_log d').
Proof.
  intros c h d o x d' s Cok D Al E Ho Hs. assert (Cok0 := Cok). destruct Cok as [Co Cr Cm].
  assert (D0 := D). destruct D as [(n0 & pre & F & part & H & Ht & Hl & HF & HFl & HG & HB)].
  destruct o as [full r|b| | |bad|fo seq|out0]; try destruct Ho.
  - destruct Al as (A1 & A2 & A3 & A4 & A5).
    unfold step in E. destruct (d_bat d) as [[? ?]|] eqn:Eb; [discriminate|]. destruct HB as [-> Hbar]. rewrite app_nil_r in *.
    assert (Etop := top_last _ (gi_asc _ _ _ _ _ _ H)). rewrite Etop in *.
    destruct (lm_set hash c full r (d_log d)) as [o g'] eqn:Es.
    destruct (N.eq_dec (r_seq r) 0) as [E0|N0].
    { assert (Z : (o, g') = (Fail INVALID_SEQNUM, d_log d)).
      { rewrite <- Es. unfold lm_set. rewrite Cr, E0. reflexivity. }
      injection Z as -> ->. injection E as <- <-. apply grown_refl. }
    assert (S := lm_set_spec hash n0 pre h F (d_log d) c full r H Co Cr Cm A4 Hl). assert (Hr : 1 <= r_seq r <= NIL) by lia. specialize (S Hr).
    destruct ((r_seq r =? NIL) || (lastseq h <? r_seq r)) eqn:Eacc.
    + destruct S as (g2 & E2 & H2 & B2). rewrite Es in E2. injection E2 as -> ->. injection E as <- <-. cbn [d_log].
      apply (lm_set_grown n0 pre h F (d_log d) c full r _ g2 s H Co Cr Cm Hl Es H2).
      rewrite r_seq_stored. unfold numbered. destruct (r_seq r =? NIL) eqn:En; [lia|]. cbn [orb] in Eacc. lia.
    + rewrite S in Es; [|apply A5; lia]. injection Es as <- <-. injection E as <- <-. apply grown_refl.
  - unfold step in E. destruct (d_bat d) as [[? ?]|] eqn:Eb; [discriminate|]. rewrite Cr in E.
    destruct b as [|r0 b0]; [injection E as <- <-; apply grown_refl|]. cbv zeta in E.
    destruct (batch_valid c (r0 :: b0) (batch_begin (d_log d))); injection E as <- <-; cbn [d_log];
      (split; [reflexivity|left]; split; [apply kept_refls|reflexivity]).
  - unfold step in E. destruct (d_bat d) as [[[|r todo] done]|] eqn:Eb; try discriminate.
    destruct HB as [-> (B1 & B2 & B3 & B4 & B5 & B6)].
    unfold batch_put in E. rewrite (gi_max_num _ _ _ _ _ _ H Hl) in E.
    destruct B5 as [R1 R2]. cbn [length] in R1.
    assert (Hacc : (r_seq r =? NIL) || (lastseq (h ++ part) <? r_seq r) = true).
    { unfold batch_ok in B4. cbn [forallb rising] in B4. unfold auto at 1 in B4. destruct (r_seq r =? NIL); [reflexivity|].
      cbn [andb orb] in *. destruct (lastseq (h ++ part) <? r_seq r); [reflexivity|]. rewrite andb_false_r in B4. discriminate. }
    assert (Hr : 1 <= r_seq r <= NIL).
    { assert (X := R2 r (or_introl eq_refl)). apply orb_true_iff in Hacc. lia. }
    assert (S := file_set_spec hash n0 pre (h ++ part) F (d_log d) c r H Co Hl Hr). rewrite Hacc in S.
    destruct S as (g' & E2 & H2 & M2 & Ba2 & L2 & S2). rewrite E2 in E. injection E as <- <-. cbn [d_log].
    assert (Hhp : lastseq h <= lastseq (h ++ part)).
    { destruct part as [|y t]; [rewrite app_nil_r; lia|]. destruct (lastseq_in h B1) as (z & Hz & <-).
      apply lastseq_ge; [apply (gi_asc _ _ _ _ _ _ H)|apply in_or_app; left; exact Hz]. }
    destruct (file_set_kept n0 pre (h ++ part) F (d_log d) c r _ g' s H Co E2 H2) as (K1 & K2 & K3).
    { rewrite r_seq_stored. unfold numbered. destruct (r_seq r =? NIL) eqn:En; [lia|]. cbn [orb] in Hacc. lia. }
    split; [exact K3|left]. split; [exact K1|exact K2].
  - unfold step in E. destruct (d_bat d) as [[[|r todo] done]|] eqn:Eb; try discriminate. injection E as <- <-. cbn [d_log].
    split; [reflexivity|left]. split; [apply kept_refls|reflexivity].
  - unfold step in E. destruct (lm_checkpoint out0 (d_log d)) as [y g'] eqn:Ec. injection E as <- <-. cbn [d_log].
    unfold lm_checkpoint in Ec. rewrite (gi_max_num _ _ _ _ _ _ H Hl), (gi_newest _ _ _ _ _ _ H) in Ec.
    destruct (mt_checkpoint out0 (f_mt (newest_file (d_log d)))) as [q m'] eqn:Em. injection Ec as <- <-.
    split; [reflexivity|left]. split; [|reflexivity]. cbn [with_files g_files].
    destruct (newest_file_split _ _ _ _ _ _ H) as [a Ea].
    assert (En : f_num (newest_file (d_log d)) = g_max (d_log d)) by (apply (file_at_in _ _ _ (gi_newest _ _ _ _ _ _ H))).
    assert (HN := gi_nums _ _ _ _ _ _ H). set (f := newest_file (d_log d)) in *. clearbody f.
    rewrite Ea in HN |- *. rewrite <- En, (upd_file_app a f [] n0 (fun f0 => with_mt f0 m') HN).
    apply Forall2_app; [apply kept_refls|]. constructor; [|constructor].
    destruct (mt_checkpoint_same out0 (f_mt f)) as (E1 & E2 & E3 & E4 & E5 & E6). rewrite Em in *. cbn [snd] in *.
    unfold kept, fh. cbn [with_mt f_num f_mt]. rewrite E1, E3, E5, E6. auto 10.
Qed.


Lemma mark_upto : forall s f f', upto s (fh f') = upto s (fh f) -> mark s f' = mark s f.
Proof. intros s f f' E. unfold mark. rewrite E. reflexivity. Qed.

Lemma kept_nums : forall s a b, Forall2 (kept s) a b -> map f_num b = map f_num a.
Proof. intros s a b H; induction H as [|x y l l' Hxy Hl IH]; [reflexivity|]. cbn [map]. destruct Hxy as [-> _]. f_equal; exact IH. Qed.

Lemma dlog_at_app : forall n a b, dlog_at n (a ++ b) = match dlog_at n a with Some d => Some d | None => dlog_at n b end.
Proof. intros n a b; unfold dlog_at; induction a as [|x a IH]; [reflexivity|]. cbn [find app]. destruct (dl_num x =? n); auto. Qed.

Lemma dlog_at_in : forall n l d, dlog_at n l = Some d -> In d l /\ dl_num d = n.
Proof. intros n l d E. apply find_some in E. destruct E; split; [assumption|lia]. Qed.

Lemma dlog_at_none : forall n l, (forall d, In d l -> dl_num d <> n) -> dlog_at n l = None.
Proof.
  intros n l H. destruct (dlog_at n l) as [d|] eqn:E; [|reflexivity]. apply dlog_at_in in E. destruct E as [E1 E2].
  destruct (H d E1 E2).
Qed.

Lemma pi_prefix : forall pw c h hs p tl, PI pw c h hs p -> sorted_seq (h ++ tl) -> hs <> [] -> lastseq hs <= lastseq h.
Proof.
  intros pw c h hs p tl H Hs Hne. destruct (pi_pre _ _ _ _ _ _ H) as (t & ->). destruct t as [|x t]; [rewrite app_nil_r; lia|].
  destruct (lastseq_in hs Hne) as (z & Hz & <-). apply lastseq_ge.
  - unfold sorted_seq in *. rewrite map_app in Hs. apply SS_app_inv in Hs. tauto.
  - apply in_or_app; left; exact Hz.
Qed.

Lemma pi_le : forall pw c h hs p, PI pw c h hs p -> lastseq hs <= lastseq h.
Proof.
  intros pw c h hs p H. destruct hs as [|r t] eqn:E; [cbn; lia|]. rewrite <- E in *.
  apply (pi_prefix pw c h hs p [] H); [|rewrite E; discriminate]. rewrite app_nil_r. apply (di_sorted _ _ _ _ (pi_di _ _ _ _ _ _ H)).
Qed.

Lemma pi_new : forall pw c, cfg_ok c -> PI pw c [] [] (p_new c).
Proof.
  intros pw c [Co Cr Cm]. assert (D := di_new hash c Cm). constructor; cbn [p_new p_db p_disk p_dur p_man p_old].
  - exact D.
  - exists []; reflexivity.
  - intros f [<-|[]]. reflexivity.
  - intros f [<-|[]]. reflexivity.
  - intros _ f [<-|[]]. reflexivity.
  - split; [apply man_of_ents|]. apply (man_of_ok hash 0 [] [] 0). apply gi_new; exact Cm.
  - intros _ M [].
  - intros d [[<-|[]]|[<-|[]]]; cbn; lia.
  - intros f [<-|[]] Hf. exfalso; apply Hf; reflexivity.
Qed.

Lemma pi_write : forall pw c h hs p o x p', cfg_ok c -> PI pw c h hs p -> allowed c h (p_db p) o ->
  pstep hash c (PDb o) p = Some (x, p') -> PI pw c (h ++ acked x) hs p' /\ x <> Undef.
Proof.
  intros pw c h hs p o x p' Cok P Al E.
  assert (Ho : match o with OSync _ | OFlush _ _ => False | _ => True end) by (destruct o; try exact I; discriminate).
  assert (Ep : p_write hash c o p = Some (x, p')) by (destruct o; try destruct Ho; exact E). clear E.
  unfold p_write in Ep. destruct (step hash c o (p_db p)) as [[x0 d']|] eqn:E; [|discriminate].
  assert (D := pi_di _ _ _ _ _ _ P). assert (Hle := pi_le _ _ _ _ _ P).
  destruct (step_keeps hash c h (p_db p) o x0 d' Cok D Al E) as (D' & Hx & _).
  destruct (write_grown c h (p_db p) o x0 d' (lastseq hs) Cok D Al E Ho Hle) as (Hlf & Hg).
  set (g := d_log (p_db p)) in *. set (g' := d_log d') in *.
  assert (Hpre : exists tl, h ++ acked x0 = hs ++ tl).
  { destruct (pi_pre _ _ _ _ _ _ P) as (tl & ->). exists (tl ++ acked x0). rewrite app_assoc. reflexivity. }
  destruct Hg as [(K & Hmax)|(f' & Ef & U1 & U2 & U3 & Hmax & Hn & Hmod)].
  - rewrite Hmax, N.eqb_refl in Ep. injection Ep as <- <-. split; [|exact Hx].
    constructor; cbn [p_db p_disk p_dur p_man p_old]; fold g'.
    + exact D'.
    + exact Hpre.
    + intros f Hf. destruct (kept_in _ _ _ K f Hf) as (f0 & H0 & (K1 & K2 & K3 & K4 & K5 & K6)).
      rewrite K3, (pi_mark _ _ _ _ _ _ P f0 H0), (mark_upto _ _ _ K4). reflexivity.
    + intros f Hf. destruct (kept_in _ _ _ K f Hf) as (f0 & H0 & (K1 & K2 & K3 & K4 & K5 & K6)).
      unfold disk_ok. rewrite K1, K4. apply (pi_disk _ _ _ _ _ _ P f0 H0).
    + intros Hpw f Hf. destruct (kept_in _ _ _ K f Hf) as (f0 & H0 & (K1 & K2 & K3 & K4 & K5 & K6)).
      unfold disk_ok. rewrite K1, K4. apply (pi_dur _ _ _ _ _ _ P Hpw f0 H0).
    + destruct (pi_man _ _ _ _ _ _ P) as [A B]. split; [eapply ents_kept; eauto|]. eapply man_kept; eauto.
    + intros Hpw M HM. eapply man_kept; [apply (pi_old _ _ _ _ _ _ P Hpw M HM)|exact K|exact Hlf].
    + intros d Hd. rewrite Hmax. apply (pi_nums _ _ _ _ _ _ P d Hd).
    + intros f Hf Hfn. destruct (kept_in _ _ _ K f Hf) as (f0 & H0 & (K1 & K2 & K3 & K4 & K5 & K6)).
      destruct D as [(n0 & pre & F & part & H & _)]. assert (FI0 := gi_fi _ _ _ _ _ _ H f0 H0). rewrite K1.
      destruct (N.eq_dec (m_min (f_mt f0)) NIL) as [e|n].
      * assert (Z : fh f0 = []).
        { destruct (fh f0) as [|y t] eqn:Eh; [reflexivity|]. destruct (fi_min _ _ FI0) as (r & Hr & Er); [rewrite Eh; discriminate|].
          assert (X := mr_bnd _ _ _ (mw_mr _ _ _ (fi_mw _ _ FI0)) r Hr). lia. }
        assert (Zh : h ++ part = []).
        { destruct (h ++ part) as [|y t] eqn:Eh; [reflexivity|]. destruct (gi_nonemp _ _ _ _ _ _ H ltac:(discriminate) f0 H0 Z). }
        assert (X := gi_few _ _ _ _ _ _ H). rewrite Zh in X. cbn in X.
        assert (Y := nums_in _ _ _ (gi_nums _ _ _ _ _ _ H) H0). assert (W := gi_gmax _ _ _ _ _ _ H). lia.
      * destruct K5 as [K5|K5]; [congruence|]. rewrite K5. apply (pi_few _ _ _ _ _ _ P f0 H0).
        intros Z. apply n. apply (fi_emp _ _ FI0 Z).
  - destruct D as [(n0 & pre & F & part & H & _)]. fold g in H.
    destruct (g_max g' =? g_max g) eqn:Eq; [lia|].
    destruct (gi_last _ _ _ _ _ _ H) as (a & fl & Ea & En). assert (HA := file_at_num _ _ _ _ _ (gi_nums _ _ _ _ _ _ H) Ea).
    rewrite En in HA. rewrite HA in Ep. injection Ep as <- <-. split; [|exact Hx].
    assert (Hdisk : forall l, (forall d, In d l -> dl_num d <= g_max g) -> (forall f, In f (g_files g) -> disk_ok (lastseq hs) f l) ->
       forall f, In f (g_files g') -> disk_ok (lastseq hs) f (l ++ [mkDL (g_max g') [] false])).
    { intros l Hnum Hd f Hf. rewrite Ef in Hf. unfold disk_ok. rewrite dlog_at_app. apply in_app_or in Hf. destruct Hf as [Hf|[<-|[]]].
      - rewrite (Hd f Hf). reflexivity.
      - rewrite dlog_at_none; [|intros d Hd'; specialize (Hnum d Hd'); lia]. rewrite Hn, U1. unfold dlog_at. cbn [find dl_num].
        rewrite N.eqb_refl. reflexivity. }
    assert (Hno : forall f, In f [f'] -> upto (lastseq hs) (fh f) = []) by (intros f [<-|[]]; exact U1).
    constructor; cbn [p_store p_db p_disk p_dur p_man p_old]; fold g'.
    + exact D'.
    + exact Hpre.
    + intros f Hf. rewrite Ef in Hf. apply in_app_or in Hf. destruct Hf as [Hf|[<-|[]]]; [apply (pi_mark _ _ _ _ _ _ P f Hf)|].
      unfold mark. rewrite U1. exact U2.
    + apply Hdisk; [intros d Hd; apply (pi_nums _ _ _ _ _ _ P d); left; exact Hd|]. apply (pi_disk _ _ _ _ _ _ P).
    + intros Hpw. apply Hdisk; [intros d Hd; apply (pi_nums _ _ _ _ _ _ P d); right; exact Hd|]. apply (pi_dur _ _ _ _ _ _ P Hpw).
    + assert (Hents : Forall2 ent_ok (l_files (man_of (add_new_file c fl g))) (g_files g')).
      { unfold man_of, add_new_file. cbn [l_files g_files]. rewrite map_app, Ef. apply Forall2_app; [apply (man_of_ents g)|].
        cbn [map]. constructor; [|constructor]. unfold ent_ok. cbn [e_num e_flushed e_synced e_min f_num f_mt mt_init m_min m_flushed m_synced].
        rewrite <- Hmod. split; [symmetry; exact Hn|]. split; [symmetry; exact U3|]. split; [symmetry; exact U2|].
        split; [left; reflexivity|]. intros Z. congruence. }
      split; [exact Hents|]. exists (g_files g'), []. split; [rewrite app_nil_r; reflexivity|]. split; [intros f []|].
      split; [exact Hents|]. split; [exists (g_files g), f'; split; [exact Ef|]|].
      { unfold man_of, add_new_file. cbn [l_max g_max]. rewrite <- Hmod. symmetry; exact Hn. }
      unfold man_of, add_new_file. cbn [l_max l_flushed l_synced g_max g_lf g_ls]. split; [symmetry; exact Hlf|].
      destruct (gi_ls _ _ _ _ _ _ H) as [X|(X & _)]; [left; exact X|right; rewrite <- Hmod; lia].
    + intros Hpw M HM. apply in_app_or in HM. apply (man_more (lastseq hs) g g' M [f']); [|exact Ef|exact Hno|exact Hlf].
      destruct HM as [HM|[<-|[]]]; [apply (pi_old _ _ _ _ _ _ P Hpw M HM)|apply (pi_man _ _ _ _ _ _ P)].
    + intros d [Hd|Hd]; apply in_app_or in Hd; (destruct Hd as [Hd|[<-|[]]]; [|cbn; lia]).
      * assert (X := pi_nums _ _ _ _ _ _ P d (or_introl Hd)). fold g in X. lia.
      * assert (X := pi_nums _ _ _ _ _ _ P d (or_intror Hd)). fold g in X. lia.
    + intros f Hf Hfn. assert (Hf2 := Hf). rewrite Ef in Hf2. apply in_app_or in Hf2. destruct Hf2 as [Hf2|[E2|[]]]; [apply (pi_few _ _ _ _ _ _ P f Hf2 Hfn)|].
      subst f. destruct D' as [(n1 & pre1 & F1 & part1 & H1 & _)]. fold g' in H1.
      destruct (fi_min _ _ (gi_fi _ _ _ _ _ _ H1 f' Hf) Hfn) as (r & Hr & <-). rewrite Hn, Hmax.
      assert (Hin : In r (pre1 ++ all_h (g_files g'))) by (apply in_or_app; right; apply in_flat_map; exists f'; auto).
      destruct (h ++ part) as [|y t] eqn:Eh.
      * assert (X := gi_few _ _ _ _ _ _ H). cbn in X. assert (Y := gi_pos _ _ _ _ _ _ H1 r). rewrite (gi_hist _ _ _ _ _ _ H1) in Y. specialize (Y Hin). lia.
      * rewrite <- Eh in *. assert (NE : h ++ part <> []) by (rewrite Eh; discriminate).
        assert (Hfl : In fl (g_files g)) by (rewrite Ea; apply in_or_app; right; left; reflexivity).
        assert (Hml := gi_max_last _ _ _ _ _ _ H NE a fl Ea).
        assert (FIl := gi_fi _ _ _ _ _ _ H fl Hfl). assert (NEl := gi_nonemp _ _ _ _ _ _ H NE fl Hfl).
        rewrite (fi_max _ _ FIl NEl) in Hml. destruct (lastseq_in _ NEl) as (z & Hz & Ez).
        assert (Hs := gi_sorted_files _ _ _ _ _ _ H1). rewrite Ef, all_h_app in Hs.
        assert (Hlt := asc_app_lt _ _ z r Hs). assert (X := gi_few _ _ _ _ _ _ H).
        assert (z_lt : r_seq z < r_seq r).
        { apply Hlt; [apply in_flat_map; exists fl; auto|cbn [all_h flat_map]; rewrite app_nil_r; exact Hr]. }
        lia.
Qed.

(** ** Flush of synced records *)

Lemma mark_file_marks : forall s f, let f' := mark_file false s f in
  f_num f' = f_num f /\ fh f' = fh f /\ m_synced (f_mt f') = m_synced (f_mt f) /\ m_min (f_mt f') = m_min (f_mt f).
Proof.
  intros s f. unfold mark_file, lf_set_flushed, fh. cbn [with_mt f_num f_mt].
  destruct (negb (valid_number (m_synced (f_mt f)))); repeat split.
Qed.

Lemma dlog_at_filter : forall n l k d, dlog_at n l = Some d -> (forall d, dl_num d = n -> k d = true) -> dlog_at n (filter k l) = Some d.
Proof.
  intros n l k d; unfold dlog_at. induction l as [|x l IH]; intros E Hk; [discriminate|]. cbn [find filter] in *.
  destruct (dl_num x =? n) eqn:En.
  - rewrite (Hk x ltac:(lia)). cbn [find]. rewrite En. exact E.
  - destruct (k x); [cbn [find]; rewrite En|]; apply IH; assumption.
Qed.

Lemma pi_flush : forall pw c h hs p fo seq held x p', cfg_ok c -> PI pw c h hs p -> allowed c h (p_db p) (OFlush fo seq) ->
  o_beyond fo = false -> pstep hash c (PFlush fo seq held) p = Some (x, p') -> PI pw c h hs p' /\ acked x = [] /\ x <> Undef.
Proof.
  intros pw c h hs p fo seq held x p' Cok P Al Hbey E. cbn [pstep] in E. unfold p_flush in E.
  assert (D := pi_di _ _ _ _ _ _ P). set (d := p_db p) in *.
  destruct (step hash c (OFlush fo seq) d) as [[x0 d']|] eqn:Est; [|discriminate].
  destruct (step_keeps hash c h d (OFlush fo seq) x0 d' Cok D Al Est) as (D' & Hx & _).
  destruct D as [(n0 & pre & F & part & H & Ht & Hl & HF & HFl & HG & HB)].
  destruct (flush_facts hash c h d fo seq n0 pre F part H Hl HB Al) as (ro & g1 & Efl & R1).
  unfold step in Est. rewrite Efl in Est. destruct ro as [[rs cs]|e|]; [| |destruct R1].
  - destruct R1 as (n1 & pre1 & s & Hs & Hs1 & Hsl & Ers & H1 & Hseq & Hseq2 & (A & ft & B & EA & En1 & _ & EB)).
    rewrite Hbey in EB. injection Est as <- <-. injection E as <- <-. cbn [acked] in D'. rewrite app_nil_r in D'.
    split; [|split; [reflexivity|discriminate]].
    set (g := d_log d) in *. set (g' := with_bar g1 (g_bar g)) in *.
    assert (H1' : GI n1 pre1 (h ++ part) s g') by (apply gi_bar; exact H1).
    destruct (mark_file_marks s ft) as (M1 & M2 & M3 & M4). set (ft' := mark_file false s ft) in *.
    assert (EB' : g_files g' = ft' :: B) by exact EB.
    assert (Hold : forall f, In f (g_files g') -> exists f0, In f0 (g_files g) /\ f_num f = f_num f0 /\ fh f = fh f0 /\ m_synced (f_mt f) = m_synced (f_mt f0) /\ m_min (f_mt f) = m_min (f_mt f0)).
    { intros f Hf. rewrite EB' in Hf. destruct Hf as [<-|Hf].
      - exists ft. split; [rewrite EA; apply in_or_app; right; left; reflexivity|]. auto.
      - exists f. split; [rewrite EA; apply in_or_app; right; right; exact Hf|]. auto. }
    assert (Hat : forall f, In f (g_files g') -> file_at (f_num f) (g_files g') <> None).
    { intros f Hf Hn. apply in_split in Hf. destruct Hf as (u & v & Ef). rewrite (file_at_num _ _ _ _ _ (gi_nums _ _ _ _ _ _ H1') Ef) in Hn. discriminate. }
    assert (Hgm : g_max g' = g_max g).
    { assert (X := gi_gmax _ _ _ _ _ _ H). assert (Y := gi_gmax _ _ _ _ _ _ H1'). rewrite EB' in Y. rewrite EA in X.
      assert (N1 := gi_nums _ _ _ _ _ _ H). rewrite EA in N1. apply nums_app in N1. destruct N1 as [_ [N1 _]].
      unfold len in *. rewrite app_length in X. cbn [length] in X, Y. lia. }
    assert (Hdisk : forall l, (forall f, In f (g_files g) -> disk_ok (lastseq hs) f l) ->
       forall f, In f (g_files g') -> disk_ok (lastseq hs) f (filter (fun d0 => negb (dropped g g' (dl_num d0) && negb (held (dl_num d0)))) l)).
    { intros l Hd f Hf. destruct (Hold f Hf) as (f0 & H0 & O1 & O2 & O3 & O4). assert (X := Hd f0 H0). unfold disk_ok in *. rewrite O1, O2.
      apply dlog_at_filter; [exact X|]. intros y Ey. unfold dropped. rewrite Ey, <- O1.
      assert (Z := Hat f Hf). destruct (file_at (f_num f) (g_files g')); [|congruence]. destruct (file_at (f_num f) (g_files g)); reflexivity. }
    constructor; cbn [p_store p_db p_disk p_dur p_man p_old d_log]; fold g'.
    + exact D'.
    + apply (pi_pre _ _ _ _ _ _ P).
    + intros f Hf. destruct (Hold f Hf) as (f0 & H0 & O1 & O2 & O3 & O4). rewrite O3, (pi_mark _ _ _ _ _ _ P f0 H0). unfold mark. rewrite O2. reflexivity.
    + apply Hdisk, (pi_disk _ _ _ _ _ _ P).
    + intros Hpw. apply Hdisk, (pi_dur _ _ _ _ _ _ P Hpw).
    + split; [apply man_of_ents|]. eapply man_of_ok; exact H1'.
    + intros _ M [].
    + intros y [Hy|Hy]; apply filter_In in Hy; rewrite Hgm; apply (pi_nums _ _ _ _ _ _ P y); [left|right]; apply Hy.
    + intros f Hf Hfn. destruct (Hold f Hf) as (f0 & H0 & O1 & O2 & O3 & O4). rewrite O1, O4. rewrite O2 in Hfn. apply (pi_few _ _ _ _ _ _ P f0 H0 Hfn).
  - injection Est as <- <-. injection E as <- <-. cbn [acked] in D'. rewrite app_nil_r in D'.
    split; [|split; [reflexivity|discriminate]]. rewrite R1 in *.
    assert (Ed : mkDb (d_log d) (d_tab d) (d_gone d) (d_bat d) = d) by (destruct d; reflexivity). rewrite Ed in *.
    destruct P as [P1 P2 P3 P4 P5 P6 P7 P8 P9]. constructor; cbn [p_db p_disk p_dur p_man p_old]; assumption.
Qed.

End Proofs.
