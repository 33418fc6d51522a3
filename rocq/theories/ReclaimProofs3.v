(** Log-store mode: the theorems. *)
From Verif Require Import Base KeyModel LogFormatModel LogManifestModel BloomModel MemTableModel MemTableProofs LogMgrModel LogMgrProofs
  LogMgrProofs2 DbModel DbProofs RecoverModel RecoverProofs RecoverProofs2 RecoverProofs3 RecoverProofs4 ReclaimModel ReclaimSpec
  ReclaimProofs ReclaimProofs2.
From Coq Require Import Sorted ZifyBool.
Local Open Scope N_scope.

Section Proofs.
Variable hash : key -> N * N.
Notation GI := (GI hash).
Notation FI := (FI hash).
Notation DI := (DI hash).
Notation PI := (PI hash).
Notation Rel := (Rel hash).
Notation view := (view hash).

Lemma file_set_gls : forall c n r g, g_ls (snd (file_set hash c n r g)) = g_ls g /\ g_max (snd (file_set hash c n r g)) = g_max g.
Proof. intros c n r g. unfold file_set. destruct (file_at n (g_files g)); [|split; reflexivity]. destruct (lf_set _ _ _ _). split; reflexivity. Qed.

Lemma lm_set_gls : forall c full r g, c_ow c = false -> (g_ls g = NIL \/ g_ls g <= g_max g) -> g_ls (snd (lm_set hash c full r g)) = g_ls g.
Proof.
  intros c full r g Ow Hls. unfold lm_set. destruct (c_ro c); [reflexivity|]. destruct (r_seq r =? 0); [reflexivity|].
  unfold max_num. destruct (g_max g =? NIL) eqn:EM; [reflexivity|]. rewrite Ow, !andb_false_r. cbv zeta.
  destruct (file_at (g_max g) (g_files g)) as [f|]; [|reflexivity].
  match goal with |- context [if ?b then add_new_file c f g else g] => set (roll := b) end.
  set (g1 := if roll then add_new_file c f g else g). set (n1 := if roll then g_max g1 else g_max g).
  assert (E1 : g_ls g1 = g_ls g) by (unfold g1; destruct roll; reflexivity).
  assert (E2 := file_set_gls c n1 r g1). destruct (file_set hash c n1 r g1) as [o g2]. cbn [snd] in E2. destruct E2 as [E2 _].
  destruct o as [r'|e|]; cbn [snd]; [|congruence|congruence].
  destruct (file_at n1 (g_files g2)) as [f2|]; [|cbn [snd]; congruence]. destruct (f_imm f2); [|cbn [snd]; congruence].
  cbn [snd g_ls]. unfold last_synced. rewrite E2, E1. destruct (g_ls g =? NIL) eqn:E; [reflexivity|].
  destruct (g_max g <? g_ls g) eqn:E3; [lia|reflexivity].
Qed.

Lemma step_gls : forall c o d x d', c_ow c = false -> write_op o -> (g_ls (d_log d) = NIL \/ g_ls (d_log d) <= g_max (d_log d)) ->
  step hash c o d = Some (x, d') -> g_ls (d_log d') = g_ls (d_log d) /\ d_tab d' = d_tab d.
Proof.
  intros c o d x d' Ow Ho Hls E. destruct d as [g tab gone bat]. cbn [d_log d_tab] in *.
  destruct o as [full r|b| | | | |]; try destruct Ho; cbn [step d_log d_tab d_gone d_bat] in E.
  - destruct bat; [discriminate|]. assert (X := lm_set_gls c full r g Ow Hls). destruct (lm_set hash c full r g) as [y g'].
    injection E as _ <-. split; [exact X|reflexivity].
  - destruct bat; [discriminate|]. destruct (c_ro c); [injection E as _ <-; split; reflexivity|].
    destruct b; [injection E as _ <-; split; reflexivity|]. destruct (batch_valid _ _ _); injection E as _ <-; split; reflexivity.
  - destruct bat as [[[|r t] done]|]; [discriminate| |discriminate].
    assert (X : g_ls (snd (batch_put hash c r g)) = g_ls g).
    { unfold batch_put. destruct (max_num g); [apply file_set_gls|reflexivity]. }
    destruct (batch_put hash c r g) as [[r'|e|] g']; cbn [snd] in X; injection E as _ <-; split; (exact X || reflexivity).
  - destruct bat as [[[|r t] done]|]; [|discriminate|discriminate]. injection E as _ <-. split; reflexivity.
Qed.

Lemma pi_bounds : forall c h hs q, PI false c h hs q ->
  (g_ls (d_log (p_db q)) = NIL \/ g_ls (d_log (p_db q)) <= g_max (d_log (p_db q))) /\ g_max (d_log (p_db q)) + 1 < NIL /\
  p_files q <> [].
Proof.
  intros c h hs q P. destruct (pi_di _ _ _ _ _ _ P) as [(n0 & pre & F & part & H & Ht & Hl & _)].
  split; [|split; [|apply (gi_ne _ _ _ _ _ _ H)]].
  - destruct (gi_ls _ _ _ _ _ _ H) as [A|(A & _)]; [left; exact A|right; apply A].
  - assert (X := gi_few _ _ _ _ _ _ H). lia.
Qed.

Lemma rel_live : forall c kd h hs s q, Rel c kd h hs s q ->
  kd (g_max (d_log (p_db q))) = Live /\ kd ((g_max (d_log (p_db q)) + 1) mod 2 ^ 64) = Live /\
  (forall m, sync_from (d_log (p_db q)) <= m -> kd m = Live).
Proof.
  intros c kd h hs s q R. destruct (pi_bounds _ _ _ _ (rl_pi _ _ _ _ _ _ _ R)) as (A & B & _).
  assert (Low := rl_low _ _ _ _ _ _ _ R).
  assert (X : forall m, g_max (d_log (p_db q)) <= m -> kd m = Live).
  { intros m Hm. destruct (kd m) eqn:E; [reflexivity| |]; destruct (Low m ltac:(congruence)) as [L1 L2]; destruct A; lia. }
  split; [apply X; lia|]. split.
  - apply X. rewrite N.mod_small; [lia|]. rewrite nil_val in B. change (2 ^ 64) with 18446744073709551616. lia.
  - intros m Hm. destruct (kd m) eqn:E; [reflexivity| |]; destruct (Low m ltac:(congruence)) as [L1 L2];
      unfold sync_from, last_synced in Hm; destruct (g_ls (d_log (p_db q)) =? NIL) eqn:EN; lia.
Qed.

Lemma newest_view : forall c kd h hs s q, Rel c kd h hs s q -> newest_file (Vg (view c kd) (d_log (p_db q))) = newest_file (d_log (p_db q)).
Proof.
  intros c kd h hs s q R. destruct (pi_di _ _ _ _ _ _ (rl_pi _ _ _ _ _ _ _ R)) as [(n0 & pre & F & part & H & _)].
  destruct (gi_last _ _ _ _ _ _ H) as (a & f & E & En). unfold newest_file. cbn [Vg with_files g_files]. rewrite E, map_app. cbn [map].
  rewrite !last_last. apply view_live. rewrite En. exact (proj1 (rel_live _ _ _ _ _ _ R)).
Qed.

Lemma allowed_view : forall c kd h hs s q o, Rel c kd h hs s q -> write_op o -> allowed c h (p_db (l_p s)) o -> allowed c h (p_db q) o.
Proof.
  intros c kd h hs s q o R Ho A. rewrite (rl_p _ _ _ _ _ _ _ R) in A. destruct o as [full r|b| | | | |]; try destruct Ho; try exact A.
  cbn [allowed] in *. change (d_log (p_db (Vp (view c kd) q))) with (Vg (view c kd) (d_log (p_db q))) in A.
  rewrite (newest_view _ _ _ _ _ _ R) in A. exact A.
Qed.
Lemma allowed_view' : forall c kd h hs s q o, Rel c kd h hs s q -> write_op o -> allowed c h (p_db (l_p s)) o -> allowed c h (p_db (l_p (plainly q))) o.
Proof. exact allowed_view. Qed.

Lemma l_write_op : forall c o s x s', l_write hash c o s = Some (x, s') -> write_op o.
Proof. intros c o s x s' E. destruct o; try exact I; discriminate. Qed.

Lemma sim_write : forall c kd h hs s q o x s', cfg_ok c -> Rel c kd h hs s q -> allowed c h (p_db (l_p s)) o ->
  l_write hash c o s = Some (x, s') ->
  exists q', l_write hash c o (plainly q) = Some (x, plainly q') /\ Rel c kd (h ++ acked x) hs s' q' /\ x <> Undef.
Proof.
  intros c kd h hs s q o x s' Cok R Al E. assert (Ho := l_write_op _ _ _ _ _ E).
  assert (P := rl_pi _ _ _ _ _ _ _ R). destruct (rel_live _ _ _ _ _ _ R) as (L1 & L2 & _).
  assert (Al' := allowed_view _ _ _ _ _ _ _ R Ho Al).
  assert (El : l_load hash c (g_max (d_log (p_db (l_p s)))) s = Some s).
  { unfold l_load. rewrite (rl_out _ _ _ _ _ _ _ R), (rl_p _ _ _ _ _ _ _ R).
    change (g_max (d_log (p_db (Vp (view c kd) q)))) with (g_max (d_log (p_db q))). rewrite L1. reflexivity. }
  assert (E2 : match p_write hash c o (l_p s) with Some (y, p) => Some (y, mkLS p (l_out s)) | None => None end = Some (x, s')).
  { unfold l_write in E. destruct o; try destruct Ho; rewrite El in E; exact E. }
  rewrite (rl_p _ _ _ _ _ _ _ R) in E2.
  rewrite (p_write_view hash (view c kd) (fun n => kd n = Live) (view_num hash c kd) (view_live hash c kd) c o q (co_ow _ Cok) Ho) in E2;
    [|intros f Hf; exact (view_marks hash _ _ _ _ _ _ _ Cok R Hf)|exact L1|exact L2].
  destruct (p_write hash c o q) as [[y q']|] eqn:Eq; [|discriminate]. injection E2 as -> <-.
  exists q'. split.
  { unfold l_write. destruct o; try destruct Ho; unfold l_load; cbn [plainly l_out l_p]; rewrite Eq; reflexivity. }
  assert (Es : pstep hash c (PDb o) q = Some (x, q')) by (destruct o; try destruct Ho; exact Eq).
  destruct (pi_write hash false c h hs q o x q' Cok P Al' Es) as (P' & Hx). split; [|exact Hx].
  assert (G : g_ls (d_log (p_db q')) = g_ls (d_log (p_db q)) /\ d_tab (p_db q') = d_tab (p_db q)).
  { unfold p_write in Eq. destruct (step hash c o (p_db q)) as [[y d']|] eqn:Ed; [|discriminate].
    destruct (pi_bounds _ _ _ _ P) as (B & _). assert (X := step_gls c o (p_db q) y d' (co_ow _ Cok) Ho B Ed).
    destruct (g_max (d_log d') =? g_max (d_log (p_db q))); [injection Eq as _ <-; exact X|].
    destruct (file_at _ _); [|discriminate]. injection Eq as _ <-. exact X. }
  destruct G as [G1 G2]. constructor; cbn [l_p l_out].
  - reflexivity.
  - apply (rl_out _ _ _ _ _ _ _ R).
  - rewrite G1. apply (rl_low _ _ _ _ _ _ _ R).
  - exact P'.
  - rewrite G2. apply (rl_tab _ _ _ _ _ _ _ R).
Qed.

Lemma l_loads_none : forall c ns s, (forall n, In n ns -> l_out s n = false) -> l_loads hash c ns s = Some s.
Proof.
  intros c ns s. induction ns as [|n ns IH]; intros H; [reflexivity|]. cbn [l_loads]. unfold l_load. rewrite (H n (or_introl eq_refl)).
  apply IH. intros m Hm; apply H; right; exact Hm.
Qed.

Lemma sim_sync : forall c kd h hs s q b x s', cfg_ok c -> Rel c kd h hs s q -> l_sync hash c b s = Some (x, s') ->
  exists q', l_sync hash c b (plainly q) = Some (x, plainly q') /\ Rel c kd h h s' q' /\ x = Ok [].
Proof.
  intros c kd h hs s q b x s' Cok R E. assert (P := rl_pi _ _ _ _ _ _ _ R). destruct (rel_live _ _ _ _ _ _ R) as (_ & _ & L3).
  unfold l_sync in E. rewrite l_loads_none in E.
  2:{ intros n Hn. apply in_map_iff in Hn. destruct Hn as (f & <- & Hf). apply filter_In in Hf. destruct Hf as [_ Hb].
      rewrite (rl_p _ _ _ _ _ _ _ R) in Hb. change (d_log (p_db (Vp (view c kd) q))) with (Vg (view c kd) (d_log (p_db q))) in Hb.
      rewrite (sync_from_view _ (view_num hash c kd)) in Hb. unfold between in Hb. rewrite (rl_out _ _ _ _ _ _ _ R), L3; [reflexivity|lia]. }
  rewrite (rl_p _ _ _ _ _ _ _ R) in E.
  assert (Low' : forall y q', p_sync hash c b q = Some (y, q') -> forall n, kd n <> Live ->
            g_ls (d_log (p_db q')) <> NIL /\ n < g_ls (d_log (p_db q'))).
  { intros y q' Eq n Hn. destruct (rl_low _ _ _ _ _ _ _ R n Hn) as [L1 L2]. destruct (pi_bounds _ _ _ _ P) as (B & B2 & _).
    unfold p_sync in Eq. cbn [step] in Eq. destruct (lm_sync no_fault (d_log (p_db q))) as [z g'] eqn:Es.
    assert (G : g_ls g' <> NIL /\ g_ls (d_log (p_db q)) <= g_ls g').
    { unfold lm_sync, max_num, last_synced in Es. destruct (g_max (d_log (p_db q)) =? NIL) eqn:E1; [lia|].
      destruct (g_ls (d_log (p_db q)) =? NIL) eqn:E2; [lia|].
      destruct (sync_loop _ _ _ _ _ _ _) as [[l|e|] fs] eqn:El.
      - apply sync_loop_last in El. injection Es as _ <-. cbn [g_ls]. destruct B as [B|B]; [lia|]. destruct El as [->|El]; lia.
      - injection Es as _ <-. cbn [with_files g_ls]. lia.
      - injection Es as _ <-. cbn [with_files g_ls]. lia. }
    destruct z as [[]|e|]; injection Eq as _ <-; cbn [p_store p_db d_log]; lia. }
  rewrite (p_sync_view hash (view c kd) (fun n => kd n = Live) (view_num hash c kd) (view_live hash c kd) c b q L3) in E.
  2:{ intros y q' Eq f Hf. destruct (pi_sync hash false c h hs q b y q' Cok P ltac:(discriminate) Eq) as (P' & _).
      exact (pi_marks hash _ _ _ _ _ _ Cok P' (Low' _ _ Eq) Hf). }
  destruct (p_sync hash c b q) as [[y q']|] eqn:Eq; [|discriminate]. injection E as -> <-.
  destruct (pi_sync hash false c h hs q b x q' Cok P ltac:(discriminate) Eq) as (P' & Hx & Ht & _).
  exists q'. split.
  { unfold l_sync. rewrite l_loads_none by reflexivity. cbn [plainly l_p]. rewrite Eq. reflexivity. }
  split; [|exact Hx]. constructor; cbn [l_p l_out].
  - reflexivity.
  - apply (rl_out _ _ _ _ _ _ _ R).
  - apply (Low' _ _ eq_refl).
  - exact P'.
  - rewrite Ht. apply (rl_tab _ _ _ _ _ _ _ R).
Qed.

Lemma tab_nil : forall k, tab_get [] k = Fail KEY_NOT_FOUND. Proof. reflexivity. Qed.

(** The answers of the reference. *)
Lemma ref_get : forall c h hs q k, c_lso c = true -> PI false c h hs q -> d_tab (p_db q) = [] ->
  db_get hash c k (p_db q) <> Undef /\ (d_bat (p_db q) = None -> db_get hash c k (p_db q) = spec_get h k).
Proof.
  intros c h hs q k Hlso P Ht. destruct (pi_di _ _ _ _ _ _ P) as [(n0 & pre & F & part & H & Htab & Hl & HF & HFl & _ & HB)].
  unfold db_get. rewrite (lm_get_lso_spec hash _ _ _ _ _ c k H Hl Hlso). split.
  - rewrite Ht, tab_nil. unfold log_answer. destruct (newest _ _ _) as [r|]; [|discriminate]. destruct (F <? r_seq r); [|discriminate].
    unfold found. destruct (is_ins r); discriminate.
  - intros Hb. rewrite Hb in HB. destruct HB as [-> _]. rewrite app_nil_r in *. rewrite Htab.
    apply (log_plus_tab hash). apply (gi_asc _ _ _ _ _ _ H).
Qed.

Lemma ref_seq : forall c h hs q r, PI false c h hs q -> d_tab (p_db q) = [] -> In r h -> d_bat (p_db q) = None ->
  lm_get_seq (r_seq r) (d_log (p_db q)) = Ok r.
Proof.
  intros c h hs q r P Ht Hr Hb. destruct (pi_di _ _ _ _ _ _ P) as [(n0 & pre & F & part & H & Htab & Hl & HF & HFl & _ & HB)].
  rewrite Hb in HB. destruct HB as [-> Hbar]. rewrite app_nil_r in *.
  assert (HFr : F < r_seq r).
  { destruct (N.lt_ge_cases F (r_seq r)) as [X|X]; [exact X|]. exfalso. rewrite Htab in Ht.
    assert (Y : In r (filter (fun x => r_seq x <=? F) h)) by (apply filter_In; split; [exact Hr|lia]). rewrite Ht in Y. destruct Y. }
  apply (lm_get_seq_hit hash _ _ _ _ _ _ H Hr HFr); rewrite Hbar; [|rewrite nil_val; lia].
  unfold visible, limit, valid_number. rewrite N.eqb_refl. change (NIL =? NIL) with true. reflexivity.
Qed.

Definition fine (x : lans) : Prop := x <> AWrite Undef /\ x <> ARead Undef.

Lemma lm_get_seq_def : forall n g, lm_get_seq n g <> Undef.
Proof.
  intros n g. unfold lm_get_seq. destruct (file_by_seq n false (g_files g)) as [f|]; [|discriminate].
  destruct (_ || _); [discriminate|]. unfold mt_get_seq. destruct (_ && _); [discriminate|]. destruct (seq_find _ _); discriminate.
Qed.

Lemma lreach_sim : forall c tr h s, cfg_ok c -> c_lso c = true -> lreach hash c tr h s ->
  exists kd hs q, Rel c kd h hs s q /\ lreach hash c (calls tr) h (plainly q) /\ (forall o x, In (o, x) tr -> fine x).
Proof.
  intros c tr h s Cok Hlso L. induction L as [|tr h s o x s' L (kd & hs & q & R & L0 & Hfine) G E].
  - exists (fun _ => Live), [], (p_new c). split; [apply rel_new, Cok|]. split; [constructor|]. intros o x [].
  - assert (Ec : calls (tr ++ [(o, x)]) = calls tr ++ (if is_evict o then [] else [(o, x)])).
    { unfold calls. rewrite filter_app. cbn [filter fst]. destruct (is_evict o); reflexivity. }
    rewrite Ec.
    assert (Go : forall hs' kd' q', Rel c kd' (h ++ acks o x) hs' s' q' -> l_step hash c o (plainly q) = Some (x, plainly q') ->
       fine x -> is_evict o = false -> guard c h (plainly q) o ->
       exists kd hs q, Rel c kd (h ++ acks o x) hs s' q /\ lreach hash c (calls tr ++ (if is_evict o then [] else [(o, x)])) (h ++ acks o x) (plainly q) /\
         (forall o' x', In (o', x') (tr ++ [(o, x)]) -> fine x')).
    { intros hs' kd' q' R' E' Hx Hev Hg. exists kd', hs', q'. split; [exact R'|]. rewrite Hev. split; [econstructor; eassumption|].
      intros o' x' Hin. apply in_app_or in Hin. destruct Hin as [Hin|[Hin|[]]]; [eapply Hfine; exact Hin|]. injection Hin as <- <-. exact Hx. }
    destruct o as [o|b|k|n|n]; cbn [l_step] in E.
    + destruct (l_write hash c o s) as [[y s1]|] eqn:Ew; [|discriminate]. injection E as <- <-.
      destruct (sim_write c kd h hs s q o y s1 Cok R G Ew) as (q' & E1 & R1 & Hy).
      apply (Go hs kd q'); [exact R1|cbn [l_step]; rewrite E1; reflexivity| |reflexivity|].
      * split; congruence.
      * cbn [guard]. apply (allowed_view' c kd h hs s q o R (l_write_op _ _ _ _ _ Ew) G).
    + destruct (l_sync hash c b s) as [[y s1]|] eqn:Ew; [|discriminate]. injection E as <- <-.
      destruct (sim_sync c kd h hs s q b y s1 Cok R Ew) as (q' & E1 & R1 & Hy).
      apply (Go h kd q'); [cbn [acks]; rewrite app_nil_r; exact R1|cbn [l_step]; rewrite E1; reflexivity| |reflexivity|exact I].
      subst y. split; congruence.
    + destruct (sim_get hash c kd h hs s q k Cok Hlso R) as (y & s1 & kd1 & E1 & E2 & R1 & Ey). rewrite E1 in E. injection E as <- <-.
      apply (Go hs kd1 q); [cbn [acks]; rewrite app_nil_r; exact R1|cbn [l_step]; rewrite E2; reflexivity| |reflexivity|exact I].
      assert (X := proj1 (ref_get c h hs q k Hlso (rl_pi _ _ _ _ _ _ _ R) (rl_tab _ _ _ _ _ _ _ R))). split; congruence.
    + destruct (sim_seq hash c kd h hs s q n Cok R) as (y & s1 & kd1 & E1 & E2 & R1 & Ey). rewrite E1 in E. injection E as <- <-.
      apply (Go hs kd1 q); [cbn [acks]; rewrite app_nil_r; exact R1|cbn [l_step]; rewrite E2; reflexivity| |reflexivity|exact I].
      assert (X := lm_get_seq_def n (d_log (p_db q))). split; congruence.
    + destruct (l_evict n s) as [s1|] eqn:Ew; [|discriminate]. injection E as <- <-. cbn [is_evict acks]. rewrite !app_nil_r.
      exists (set_kind n Out kd), hs, q. split; [exact (sim_evict hash c kd h hs s q n s1 Cok R Ew)|]. split; [exact L0|].
      intros o' x' Hin. apply in_app_or in Hin. destruct Hin as [Hin|[Hin|[]]]; [eapply Hfine; exact Hin|]. injection Hin as <- <-. split; discriminate.
Qed.

Theorem reclaim_invisible : forall c tr h s, cfg_ok c -> c_lso c = true -> lreach hash c tr h s ->
  exists s0, lreach hash c (calls tr) h s0 /\ none_freed s0 /\ same_disk s0 s.
Proof.
  intros c tr h s Cok Hlso L. destruct (lreach_sim c tr h s Cok Hlso L) as (kd & hs & q & R & L0 & _).
  exists (plainly q). split; [exact L0|]. split; [intros n; reflexivity|]. unfold same_disk. rewrite (rl_p _ _ _ _ _ _ _ R). repeat split.
Qed.

Theorem reclaim_defined : forall c tr h s, cfg_ok c -> c_lso c = true -> lreach hash c tr h s ->
  forall o x, In (o, x) tr -> x <> AWrite Undef /\ x <> ARead Undef.
Proof. intros c tr h s Cok Hlso L. destruct (lreach_sim c tr h s Cok Hlso L) as (kd & hs & q & _ & _ & H). exact H. Qed.

Theorem reclaim_get : forall c tr h s k, cfg_ok c -> c_lso c = true -> lreach hash c tr h s -> idle s ->
  fst (l_get hash c k s) = spec_get h k.
Proof.
  intros c tr h s k Cok Hlso L Hb. destruct (lreach_sim c tr h s Cok Hlso L) as (kd & hs & q & R & _).
  destruct (sim_get hash c kd h hs s q k Cok Hlso R) as (y & s1 & kd1 & E1 & _ & _ & ->). rewrite E1. cbn [fst].
  unfold idle in Hb. rewrite (rl_p _ _ _ _ _ _ _ R) in Hb.
  exact (proj2 (ref_get c h hs q k Hlso (rl_pi _ _ _ _ _ _ _ R) (rl_tab _ _ _ _ _ _ _ R)) Hb).
Qed.

Theorem reclaim_get_seq : forall c tr h s r, cfg_ok c -> c_lso c = true -> lreach hash c tr h s -> idle s -> In r h ->
  fst (l_get_seq hash c (r_seq r) s) = Ok r.
Proof.
  intros c tr h s r Cok Hlso L Hb Hr. destruct (lreach_sim c tr h s Cok Hlso L) as (kd & hs & q & R & _).
  destruct (sim_seq hash c kd h hs s q (r_seq r) Cok R) as (y & s1 & kd1 & E1 & _ & _ & ->). rewrite E1. cbn [fst].
  unfold idle in Hb. rewrite (rl_p _ _ _ _ _ _ _ R) in Hb.
  exact (ref_seq c h hs q r (rl_pi _ _ _ _ _ _ _ R) (rl_tab _ _ _ _ _ _ _ R) Hr Hb).
Qed.

(** A snapshot none of whose files has been freed. *)
Lemma snap_walk_sim : forall c kd h hs s q chk k ns, cfg_ok c -> Rel c kd h hs s q -> (forall n, In n ns -> l_out s n = false) ->
  l_snap_walk hash chk k ns s = l_snap_walk hash chk k ns (plainly q).
Proof.
  intros c kd h hs s q chk k ns Cok R. induction ns as [|n ns IH]; intros H; [reflexivity|]. cbn [l_snap_walk].
  assert (Hn := H n (or_introl eq_refl)). rewrite Hn. cbn [plainly l_out l_p].
  rewrite (rl_p _ _ _ _ _ _ _ R). unfold Vp at 1, with_p_files at 1, p_files at 1. cbn [p_db d_log with_files g_files].
  rewrite (file_at_view _ (view_num hash c kd)). fold (p_files q). destruct (file_at n (p_files q)) as [f|] eqn:Ef; [|reflexivity]. cbn [option_map].
  apply file_at_in in Ef. destruct Ef as [Hin En].
  rewrite (view_get hash c kd h hs s q f chk k true true Cok R Hin).
  - destruct (mt_get hash chk k true true (f_mt f)); [reflexivity| |reflexivity]. apply IH. intros m Hm; apply H; right; exact Hm.
  - rewrite En. rewrite (rl_out _ _ _ _ _ _ _ R) in Hn. destruct (kd n); congruence.
Qed.

Theorem reclaim_snapshot : forall c tr h s, cfg_ok c -> c_lso c = true -> lreach hash c tr h s ->
  exists s0, lreach hash c (calls tr) h s0 /\ none_freed s0 /\
    forall chk k ns, (forall n, In n ns -> l_out s n = false) -> l_snap_get hash chk k ns s = l_snap_get hash chk k ns s0.
Proof.
  intros c tr h s Cok Hlso L. destruct (lreach_sim c tr h s Cok Hlso L) as (kd & hs & q & R & L0 & _).
  exists (plainly q). split; [exact L0|]. split; [intros n; reflexivity|]. intros chk k ns H. unfold l_snap_get.
  apply (snap_walk_sim c kd h hs s q chk k (rev ns) Cok R). intros n Hn. apply H, in_rev, Hn.
Qed.

End Proofs.
