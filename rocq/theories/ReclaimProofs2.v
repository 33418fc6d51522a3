(** Log-store mode: a run with freed memtables against the same run without. *)
From Verif Require Import Base KeyModel LogFormatModel LogManifestModel BloomModel MemTableModel MemTableProofs LogMgrModel LogMgrProofs
  LogMgrProofs2 DbModel DbProofs RecoverModel RecoverProofs RecoverProofs2 RecoverProofs3 RecoverProofs4 ReclaimModel ReclaimProofs.
From Coq Require Import Sorted ZifyBool.
Local Open Scope N_scope.

Section Proofs.
Variable hash : key -> N * N.
Notation GI := (GI hash).
Notation FI := (FI hash).
Notation DI := (DI hash).
Notation PI := (PI hash).

Definition re (c : cfg) (f : lgf) : lgf := match reloaded hash c (fh f) f with Some f' => f' | None => f end.
Definition view (c : cfg) (kd : N -> kind) (f : lgf) : lgf :=
  match kd (f_num f) with Live => f | Out => purged f | Re => re c f end.

Lemma re_num : forall c f, f_num (re c f) = f_num f.
Proof. intros c f. unfold re, reloaded. destruct (mt_load _ _ _ _ _ _); reflexivity. Qed.
Lemma re_start : forall c f, f_start (re c f) = f_start f.
Proof. intros c f. unfold re, reloaded. destruct (mt_load _ _ _ _ _ _); reflexivity. Qed.
Lemma re_imm : forall c f, f_imm (re c f) = f_imm f.
Proof. intros c f. unfold re, reloaded. destruct (mt_load _ _ _ _ _ _); reflexivity. Qed.
Lemma view_num : forall c kd f, f_num (view c kd f) = f_num f.
Proof. intros c kd f. unfold view. destruct (kd (f_num f)); try reflexivity. apply re_num. Qed.
Lemma view_start : forall c kd f, f_start (view c kd f) = f_start f.
Proof. intros c kd f. unfold view. destruct (kd (f_num f)); try reflexivity. apply re_start. Qed.
Lemma view_imm : forall c kd f, f_imm (view c kd f) = f_imm f.
Proof. intros c kd f. unfold view. destruct (kd (f_num f)); try reflexivity. apply re_imm. Qed.
Lemma view_live : forall c kd f, kd (f_num f) = Live -> view c kd f = f.
Proof. intros c kd f H. unfold view. rewrite H. reflexivity. Qed.

(** A file that has been written completely is loaded again with the same contents. *)
Lemma reload_ok : forall c f, 0 < c_maxent c -> FI f -> fh f <> [] -> full_synced f ->
  exists f', reloaded hash c (fh f) f = Some f' /\ re c f = f' /\ marks f f' /\ MR hash (fh f) (f_mt f').
Proof.
  intros c f Hc Hf Hne Hfs. unfold full_synced in Hfs.
  assert (Hmax := fi_max _ _ Hf Hne). assert (Hs := mw_asc _ _ _ (fi_mw _ _ Hf)).
  destruct (load_mt hash (c_maxent c * 64) (m_min (f_mt f)) (m_flushed (f_mt f)) (m_synced (f_mt f)) (fh f)) as (m & E & HW & M1 & M2 & M3 & M4 & M5).
  - lia.
  - exact Hs.
  - exact Hne.
  - intros r Hr. rewrite Hfs, Hmax. apply lastseq_ge; [exact Hs|exact Hr].
  - rewrite Hfs, Hmax. destruct (lastseq_in _ Hne) as (y & Hy & <-). apply (mr_bnd _ _ _ (mw_mr _ _ _ (fi_mw _ _ Hf)) y Hy).
  - intros r Hr. apply (mw_min _ _ _ (fi_mw _ _ Hf)), Hr.
  - exists (with_mt f m). unfold re, reloaded. rewrite E. split; [reflexivity|]. split; [reflexivity|].
    split; [|exact (mw_mr _ _ _ HW)]. repeat split; cbn [with_mt f_mt]; congruence.
Qed.

(** The relation: [s] is [q] seen through the kinds. *)
Record Rel (c : cfg) (kd : N -> kind) (h hs : list rec) (s : lsdb) (q : pdb) : Prop := {
  rl_p : l_p s = Vp (view c kd) q;
  rl_out : forall n, l_out s n = match kd n with Out => true | _ => false end;
  rl_low : forall n, kd n <> Live -> g_ls (d_log (p_db q)) <> NIL /\ n < g_ls (d_log (p_db q));
  rl_pi : PI false c h hs q;
  rl_tab : d_tab (p_db q) = []
}.

Lemma low_good : forall c h hs q f, PI false c h hs q -> In f (p_files q) -> g_ls (d_log (p_db q)) <> NIL ->
  f_num f < g_ls (d_log (p_db q)) ->
  FI f /\ fh f <> [] /\ full_synced f /\ dlog_at (f_num f) (p_disk q) = Some (mkDL (f_num f) (fh f) false).
Proof.
  intros c h hs q f P Hf Hls Hlt. destruct (pi_di _ _ _ _ _ _ P) as [(n0 & pre & F & part & H & Ht & Hl & _)].
  assert (FIf := gi_fi _ _ _ _ _ _ H f Hf).
  destruct (gi_ls _ _ _ _ _ _ H) as [A|(A & B & _)]; [congruence|].
  assert (Hne : fh f <> []).
  { apply (gi_nonemp _ _ _ _ _ _ H); [|exact Hf]. intros E. assert (X := gi_few _ _ _ _ _ _ H). rewrite E in X.
    change (lastseq []) with 0 in X. lia. }
  assert (Hfs := B f Hf Hlt). split; [exact FIf|]. split; [exact Hne|]. split; [exact Hfs|].
  rewrite (pi_disk _ _ _ _ _ _ P f Hf). f_equal. f_equal. apply upto_all. intros r Hr.
  assert (Hm := pi_mark _ _ _ _ _ _ P f Hf). unfold full_synced in Hfs. rewrite (fi_max _ _ FIf Hne) in Hfs.
  assert (Hs := mw_asc _ _ _ (fi_mw _ _ FIf)).
  assert (X := lastseq_ge _ _ Hs Hr). destruct (lastseq_in _ Hne) as (y & Hy & Ey).
  assert (Hu : upto (lastseq hs) (fh f) <> []).
  { intros E. assert (Q : mark (lastseq hs) f = NIL) by (apply (mark_nil hash (lastseq hs) f FIf); exact E).
    assert (Z := mr_bnd _ _ _ (mw_mr _ _ _ (fi_mw _ _ FIf)) y Hy). lia. }
  rewrite (mark_some _ _ Hu) in Hm. destruct (lastseq_in _ Hu) as (z & Hz & Ez). apply upto_in in Hz. lia.
Qed.

Lemma pi_marks : forall c kd h hs q f, cfg_ok c -> PI false c h hs q ->
  (forall n, kd n <> Live -> g_ls (d_log (p_db q)) <> NIL /\ n < g_ls (d_log (p_db q))) -> In f (p_files q) -> marks f (view c kd f).
Proof.
  intros c kd h hs q f Cok P Low Hf. unfold view. destruct (kd (f_num f)) eqn:E; try (repeat split; fail).
  destruct (Low (f_num f)) as [A B]; [congruence|].
  destruct (low_good _ _ _ _ _ P Hf A B) as (G1 & G2 & G3 & _).
  destruct (reload_ok c f (co_max _ Cok) G1 G2 G3) as (f' & _ & -> & M & _). exact M.
Qed.
Lemma view_marks : forall c kd h hs s q f, cfg_ok c -> Rel c kd h hs s q -> In f (p_files q) -> marks f (view c kd f).
Proof. intros c kd h hs s q f Cok R Hf. exact (pi_marks _ _ _ _ _ _ Cok (rl_pi _ _ _ _ _ _ R) (rl_low _ _ _ _ _ _ R) Hf). Qed.

Lemma rel_new : forall c, cfg_ok c -> Rel c (fun _ => Live) [] [] (l_new c) (p_new c).
Proof.
  intros c Cok. constructor.
  - unfold l_new, Vp, with_p_files, p_files, with_files. cbn [l_p]. unfold p_new. cbn [p_db p_disk p_dur p_man p_old].
    unfold db_new, lm_new. cbn [d_log d_tab d_gone d_bat g_files g_max g_lf g_ls g_bar map]. reflexivity.
  - reflexivity.
  - intros n X; congruence.
  - apply pi_new, Cok.
  - reflexivity.
Qed.

Lemma nums_at : forall n0 fs f, nums_from n0 fs -> In f fs -> file_at (f_num f) fs = Some f.
Proof. intros n0 fs f H Hin. apply in_split in Hin. destruct Hin as (a & b & E). eapply file_at_num; eassumption. Qed.

Lemma pi_at : forall c h hs q f, PI false c h hs q -> In f (p_files q) -> file_at (f_num f) (p_files q) = Some f.
Proof.
  intros c h hs q f P Hf. destruct (pi_di _ _ _ _ _ _ P) as [(n0 & pre & F & part & H & _)].
  eapply nums_at; [apply (gi_nums _ _ _ _ _ _ H)|exact Hf].
Qed.

Definition set_kind (n : N) (k : kind) (kd : N -> kind) (m : N) : kind := if m =? n then k else kd m.

(** Freeing a memtable. *)
Lemma sim_evict : forall c kd h hs s q n s', cfg_ok c -> Rel c kd h hs s q -> l_evict n s = Some s' ->
  Rel c (set_kind n Out kd) h hs s' q.
Proof.
  intros c kd h hs s q n s' Cok R E. unfold l_evict in E. destruct (evictable n s) eqn:Ev; [|discriminate]. injection E as <-.
  unfold evictable in Ev. rewrite (rl_p _ _ _ _ _ _ R) in Ev. change (last_synced _) with (last_synced (d_log (p_db q))) in Ev.
  assert (Hn : g_ls (d_log (p_db q)) <> NIL /\ n < g_ls (d_log (p_db q)) /\ l_out s n = false).
  { unfold last_synced in Ev. destruct (g_ls (d_log (p_db q)) =? NIL) eqn:E; [discriminate|].
    destruct (p_files (Vp (view c kd) q)); [discriminate|]. split; [lia|].
    apply andb_true_iff in Ev. destruct Ev as [Ev _]. apply andb_true_iff in Ev. destruct Ev as [Ev Eo]. split; [lia|]. destruct (l_out s n); [discriminate|reflexivity]. }
  destruct Hn as (H1 & H2 & H3). constructor; cbn [l_p l_out].
  - rewrite (rl_p _ _ _ _ _ _ R). unfold Vp, with_p_files, p_files. cbn [p_db d_log d_tab d_gone d_bat with_files g_files g_max g_lf g_ls g_bar p_disk p_dur p_man p_old].
    unfold with_files. cbn [g_max g_lf g_ls g_bar].
    assert (X : upd_file n purged (map (view c kd) (g_files (d_log (p_db q)))) = map (view c (set_kind n Out kd)) (g_files (d_log (p_db q))));
      [|rewrite X; reflexivity].
    unfold upd_file. rewrite map_map. apply map_ext_in. intros f Hf. rewrite view_num.
    unfold view at 3. unfold set_kind. destruct (f_num f =? n) eqn:En; [|reflexivity].
    destruct (view_marks c kd h hs s q f Cok R Hf) as (A & B & C & D). unfold purged at 1.
    rewrite A, B, C, D, view_num, view_start, view_imm. reflexivity.
  - intros m. unfold set_kind. destruct (m =? n); [reflexivity|]. cbn [orb]. apply (rl_out _ _ _ _ _ _ R).
  - intros m Hm. unfold set_kind in Hm. destruct (m =? n) eqn:E; [|apply (rl_low _ _ _ _ _ _ R); exact Hm].
    apply N.eqb_eq in E. subst m. split; assumption.
  - apply (rl_pi _ _ _ _ _ _ R).
  - apply (rl_tab _ _ _ _ _ _ R).
Qed.

(** Loading one again, if it is registered. *)
Lemma sim_load : forall c kd h hs s q n f, cfg_ok c -> Rel c kd h hs s q -> file_at n (p_files q) = Some f ->
  exists s' kd', l_load hash c n s = Some s' /\ Rel c kd' h hs s' q /\ kd' n <> Out /\ (forall m, kd' m = Live <-> kd m = Live).
Proof.
  intros c kd h hs s q n f Cok R Hf. unfold l_load. rewrite (rl_out _ _ _ _ _ _ R). assert (P := rl_pi _ _ _ _ _ _ R).
  destruct (kd n) eqn:Ek; [exists s, kd; split; [reflexivity|]; split; [exact R|]; split; [congruence|tauto]| |exists s, kd; split; [reflexivity|]; split; [exact R|]; split; [congruence|tauto]].
  destruct (rl_low _ _ _ _ _ _ R n ltac:(congruence)) as [L1 L2].
  assert (Hin := Hf). apply file_at_in in Hin. destruct Hin as [Hin En]. subst n.
  destruct (low_good _ _ _ _ _ P Hin L1 L2) as (G1 & G2 & G3 & G4).
  destruct (reload_ok c f (co_max _ Cok) G1 G2 G3) as (f' & E1 & E2 & M & _).
  rewrite (rl_p _ _ _ _ _ _ R). unfold Vp at 1, with_p_files at 1, p_files at 1. cbn [p_db d_log with_files g_files].
  rewrite (file_at_view (view c kd) (view_num c kd)). fold (p_files q). rewrite Hf. cbn [option_map].
  change (p_disk (Vp (view c kd) q)) with (p_disk q). rewrite G4. cbn [dl_recs].
  assert (E3 : reloaded hash c (fh f) (view c kd f) = Some f').
  { unfold view. rewrite Ek. exact E1. }
  destruct (fh f) as [|r0 l0] eqn:Efh; [congruence|]. rewrite E3. eexists. exists (set_kind (f_num f) Re kd). split; [reflexivity|].
  split; [|split].
  - constructor; cbn [l_p l_out].
    + unfold Vp, with_p_files, p_files. cbn [p_db d_log d_tab d_gone d_bat with_files g_files g_max g_lf g_ls g_bar p_disk p_dur p_man p_old].
      unfold with_files. cbn [g_max g_lf g_ls g_bar].
      assert (X : upd_file (f_num f) (fun _ => f') (map (view c kd) (g_files (d_log (p_db q)))) = map (view c (set_kind (f_num f) Re kd)) (g_files (d_log (p_db q))));
        [|rewrite X; reflexivity].
      unfold upd_file. rewrite map_map. apply map_ext_in. intros x Hx. rewrite view_num.
      unfold view at 2. unfold set_kind. destruct (f_num x =? f_num f) eqn:Ex; [|reflexivity]. apply N.eqb_eq in Ex.
      assert (Z := pi_at _ _ _ _ _ P Hx). rewrite Ex, Hf in Z. injection Z as <-. symmetry; exact E2.
    + intros m. unfold set_kind. destruct (m =? f_num f) eqn:Em; [reflexivity|]. cbn [negb andb]. apply (rl_out _ _ _ _ _ _ R).
    + intros m Hm. unfold set_kind in Hm. destruct (m =? f_num f) eqn:Em; [apply N.eqb_eq in Em; subst m; split; assumption|].
      apply (rl_low _ _ _ _ _ _ R); exact Hm.
    + exact P.
    + apply (rl_tab _ _ _ _ _ _ R).
  - unfold set_kind. rewrite N.eqb_refl. discriminate.
  - intros m. unfold set_kind. destruct (m =? f_num f) eqn:Em; [|tauto]. apply N.eqb_eq in Em. subst m. rewrite Ek. split; discriminate.
Qed.

(** A loaded file answers like the original. *)
Lemma view_get : forall c kd h hs s q f chk k af at_, cfg_ok c -> Rel c kd h hs s q -> In f (p_files q) -> kd (f_num f) <> Out ->
  mt_get hash chk k af at_ (f_mt (view c kd f)) = mt_get hash chk k af at_ (f_mt f).
Proof.
  intros c kd h hs s q f chk k af at_ Cok R Hf Hk. unfold view. destruct (kd (f_num f)) eqn:E; [reflexivity|congruence|].
  destruct (rl_low _ _ _ _ _ _ R (f_num f)) as [A B]; [congruence|].
  destruct (low_good _ _ _ _ _ (rl_pi _ _ _ _ _ _ R) Hf A B) as (G1 & G2 & G3 & _).
  destruct (reload_ok c f (co_max _ Cok) G1 G2 G3) as (f' & _ & -> & (_ & M & _) & HR).
  rewrite (mt_get_spec hash _ _ _ _ _ _ HR), (mt_get_spec hash _ _ _ _ _ _ (mw_mr _ _ _ (fi_mw _ _ G1))), M. reflexivity.
Qed.
Lemma view_get_seq : forall c kd h hs s q f n, cfg_ok c -> Rel c kd h hs s q -> In f (p_files q) -> kd (f_num f) <> Out ->
  mt_get_seq n (f_mt (view c kd f)) = mt_get_seq n (f_mt f).
Proof.
  intros c kd h hs s q f n Cok R Hf Hk. unfold view. destruct (kd (f_num f)) eqn:E; [reflexivity|congruence|].
  destruct (rl_low _ _ _ _ _ _ R (f_num f)) as [A B]; [congruence|].
  destruct (low_good _ _ _ _ _ (rl_pi _ _ _ _ _ _ R) Hf A B) as (G1 & G2 & G3 & _).
  destruct (reload_ok c f (co_max _ Cok) G1 G2 G3) as (f' & _ & -> & (_ & M & _) & HR).
  rewrite (mt_get_seq_spec hash _ _ _ HR), (mt_get_seq_spec hash _ _ _ (mw_mr _ _ _ (fi_mw _ _ G1))), M. reflexivity.
Qed.

Definition plainly (q : pdb) : lsdb := mkLS q (fun _ => false).

Lemma sim_walk : forall c k ns kd h hs s q, cfg_ok c -> Rel c kd h hs s q -> (forall n, In n ns -> exists f, file_at n (p_files q) = Some f) ->
  exists x s' kd', l_walk hash c k ns s = (x, s') /\ l_walk hash c k ns (plainly q) = (x, plainly q) /\ Rel c kd' h hs s' q /\
    x = first_ok (fun f => mt_get hash NIL k false true (f_mt f))
          (flat_map (fun n => match file_at n (p_files q) with Some f => [f] | None => [] end) ns).
Proof.
  intros c k ns. induction ns as [|n ns IH]; intros kd h hs s q Cok R Hns.
  - exists (Fail KEY_NOT_FOUND), s, kd. split; [reflexivity|]. split; [reflexivity|]. split; [exact R|reflexivity].
  - destruct (Hns n (or_introl eq_refl)) as (f & Hf).
    destruct (sim_load c kd h hs s q n f Cok R Hf) as (s1 & kd1 & E1 & R1 & K1 & _).
    cbn [l_walk flat_map]. rewrite E1. unfold l_load. cbn [plainly l_out l_p]. rewrite (rl_p _ _ _ _ _ _ R1).
    unfold Vp at 1, with_p_files at 1, p_files at 1. cbn [p_db d_log with_files g_files].
    rewrite (file_at_view _ (view_num c kd1)). fold (p_files q). rewrite Hf. cbn [option_map app first_ok].
    assert (Hin := Hf). apply file_at_in in Hin. destruct Hin as [Hin En].
    rewrite (view_get c kd1 h hs s1 q f NIL k false true Cok R1 Hin) by (rewrite En; exact K1).
    destruct (mt_get hash NIL k false true (f_mt f)) as [r|e|].
    + exists (Ok r), s1, kd1. split; [reflexivity|]. split; [reflexivity|]. split; [exact R1|reflexivity].
    + apply (IH kd1 h hs s1 q Cok R1). intros m Hm; apply Hns; right; exact Hm.
    + exists Undef, s1, kd1. split; [reflexivity|]. split; [reflexivity|]. split; [exact R1|reflexivity].
Qed.

Lemma flat_at : forall c h hs q l, PI false c h hs q -> incl l (p_files q) ->
  flat_map (fun n => match file_at n (p_files q) with Some f => [f] | None => [] end) (map f_num l) = l.
Proof.
  intros c h hs q l P. induction l as [|f l IH]; intros Hl; [reflexivity|]. cbn [map flat_map].
  rewrite (pi_at _ _ _ _ _ P (Hl f (or_introl eq_refl))). cbn [app]. f_equal. apply IH. intros x Hx; apply Hl; right; exact Hx.
Qed.

(** get *)
Lemma sim_get : forall c kd h hs s q k, cfg_ok c -> c_lso c = true -> Rel c kd h hs s q ->
  exists x s' kd', l_get hash c k s = (x, s') /\ l_get hash c k (plainly q) = (x, plainly q) /\ Rel c kd' h hs s' q /\
    x = db_get hash c k (p_db q).
Proof.
  intros c kd h hs s q k Cok Hlso R. unfold l_get. rewrite (rl_p _ _ _ _ _ _ R). cbn [plainly l_p].
  change (d_log (p_db (Vp (view c kd) q))) with (Vg (view c kd) (d_log (p_db q))).
  rewrite (last_flushed_view _ (view_num c kd)). change (max_num (Vg (view c kd) (d_log (p_db q)))) with (max_num (d_log (p_db q))).
  change (d_tab (p_db (Vp (view c kd) q))) with (d_tab (p_db q)).
  unfold db_get, lm_get. rewrite Hlso.
  destruct (last_flushed (d_log (p_db q))) as [mn|];
    [|eexists _, s, kd; split; [reflexivity|]; split; [reflexivity|]; split; [exact R|reflexivity]].
  destruct (max_num (d_log (p_db q))) as [mx|];
    [|eexists _, s, kd; split; [reflexivity|]; split; [reflexivity|]; split; [exact R|reflexivity]].
  set (sel := fun f => (mn <=? f_num f) && (f_num f <=? mx)).
  assert (En : map f_num (filter sel (g_files (Vg (view c kd) (d_log (p_db q))))) = map f_num (filter sel (g_files (d_log (p_db q))))).
  { cbn [Vg with_files g_files]. induction (g_files (d_log (p_db q))) as [|f l IH]; [reflexivity|]. cbn [map filter].
    assert (Es : sel (view c kd f) = sel f) by (unfold sel; rewrite view_num; reflexivity). rewrite Es.
    destruct (sel f); [|exact IH]. cbn [map]. rewrite view_num, IH. reflexivity. }
  rewrite En. assert (P := rl_pi _ _ _ _ _ _ R). rewrite <- map_rev.
  assert (Hincl : incl (rev (filter sel (g_files (d_log (p_db q))))) (p_files q)).
  { intros f Hf. apply in_rev in Hf. apply filter_In in Hf. apply Hf. }
  destruct (sim_walk c k (map f_num (rev (filter sel (g_files (d_log (p_db q)))))) kd h hs s q Cok R) as (x & s' & kd' & E1 & E2 & R' & Ex).
  { intros n Hn. apply in_map_iff in Hn. destruct Hn as (f & <- & Hf). exists f. apply (pi_at _ _ _ _ _ P), Hincl, Hf. }
  rewrite (flat_at _ _ _ _ _ P Hincl) in Ex. rewrite E1, E2, <- Ex.
  destruct x as [r|e|].
  - eexists _, s', kd'. split; [reflexivity|]. split; [reflexivity|]. split; [exact R'|reflexivity].
  - rewrite (rl_p _ _ _ _ _ _ R'). eexists _, s', kd'. split; [reflexivity|]. split; [reflexivity|]. split; [exact R'|reflexivity].
  - eexists _, s', kd'. split; [reflexivity|]. split; [reflexivity|]. split; [exact R'|reflexivity].
Qed.

(** getSN *)
Lemma by_start_view : forall c kd s fs, by_start s (map (view c kd) fs) = option_map (view c kd) (by_start s fs).
Proof.
  intros c kd s fs. induction fs as [|f fs IH]; [reflexivity|]. cbn [map by_start]. rewrite IH, view_start.
  destruct (by_start s fs) as [x|]; cbn [option_map].
  - rewrite view_start. destruct (_ && _); reflexivity.
  - destruct (f_start f <=? s); reflexivity.
Qed.
Lemma by_start_in : forall s fs x, by_start s fs = Some x -> In x fs.
Proof.
  intros s fs. induction fs as [|f fs IH]; intros x E; [discriminate|]. cbn [by_start] in E.
  destruct (by_start s fs) as [y|] eqn:Ey.
  - destruct (_ && _); injection E as <-; [left; reflexivity|right; apply IH; reflexivity].
  - destruct (f_start f <=? s); [injection E as <-; left; reflexivity|discriminate].
Qed.
Lemma file_by_seq_view : forall c kd h hs s q n, cfg_ok c -> Rel c kd h hs s q ->
  file_by_seq n false (map (view c kd) (p_files q)) = option_map (view c kd) (file_by_seq n false (p_files q)).
Proof.
  intros c kd h hs s q n Cok R. unfold file_by_seq. rewrite by_start_view.
  destruct (by_start n (p_files q)) as [f|] eqn:E; [|reflexivity]. cbn [option_map]. apply by_start_in in E.
  destruct (view_marks c kd h hs s q f Cok R E) as (A & _ & _ & D). rewrite A, D.
  destruct (valid_number _ && _); [reflexivity|]. rewrite !orb_true_r.
  destruct ((m_max (f_mt f) <? n) && true); reflexivity.
Qed.
Lemma file_by_seq_in : forall n b fs f, file_by_seq n b fs = Some f -> In f fs.
Proof.
  intros n b fs f E. unfold file_by_seq in E. destruct (by_start n fs) as [x|] eqn:Ex; [|discriminate].
  destruct (_ && _); [discriminate|]. destruct (_ && _); [discriminate|]. injection E as <-. eapply by_start_in; exact Ex.
Qed.

Lemma sim_seq : forall c kd h hs s q n, cfg_ok c -> Rel c kd h hs s q ->
  exists x s' kd', l_get_seq hash c n s = (x, s') /\ l_get_seq hash c n (plainly q) = (x, plainly q) /\ Rel c kd' h hs s' q /\
    x = lm_get_seq n (d_log (p_db q)).
Proof.
  intros c kd h hs s q n Cok R. unfold l_get_seq. rewrite (rl_p _ _ _ _ _ _ R). cbn [plainly l_p].
  change (p_files (Vp (view c kd) q)) with (map (view c kd) (p_files q)). rewrite (file_by_seq_view c kd h hs s q n Cok R).
  unfold lm_get_seq. change (g_files (d_log (p_db q))) with (p_files q).
  destruct (file_by_seq n false (p_files q)) as [f|] eqn:E; cbn [option_map].
  2:{ eexists _, s, kd. split; [reflexivity|]. split; [reflexivity|]. split; [exact R|reflexivity]. }
  assert (Hin := file_by_seq_in _ _ _ _ E). assert (P := rl_pi _ _ _ _ _ _ R). rewrite view_num.
  destruct (sim_load c kd h hs s q (f_num f) f Cok R (pi_at _ _ _ _ _ P Hin)) as (s1 & kd1 & E1 & R1 & K1 & _).
  rewrite E1. unfold l_load. cbn [plainly l_out]. rewrite (rl_p _ _ _ _ _ _ R1).
  change (g_files (d_log (p_db (Vp (view c kd1) q)))) with (map (view c kd1) (p_files q)).
  rewrite (file_by_seq_view c kd1 h hs s1 q n Cok R1). change (g_files (d_log (p_db (l_p (plainly q))))) with (p_files q).
  rewrite !E. cbn [option_map]. destruct (view_marks c kd1 h hs s1 q f Cok R1 Hin) as (_ & _ & _ & D). rewrite D.
  rewrite (view_get_seq c kd1 h hs s1 q f n Cok R1 Hin K1).
  eexists _, s1, kd1. split; [reflexivity|]. split; [reflexivity|]. split; [exact R1|reflexivity].
Qed.

End Proofs.
