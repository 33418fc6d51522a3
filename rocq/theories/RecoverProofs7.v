(** Crash recovery with tables: guarded runs, and what holds of them. *)
From Verif Require Import Base KeyModel KeyProofs LogFormatModel LogManifestModel BloomModel BloomProofs MemTableModel MemTableProofs
  LogMgrModel LogMgrProofs LogMgrProofs2 LogMgrProofs3 DbModel DbProofs DbProofs2 RecoverModel RecoverProofs RecoverProofs2 RecoverProofs3
  RecoverProofs4 RecoverProofs5 RecoverProofs6.
From Coq Require Import Sorted ZifyBool.
Local Open Scope N_scope.

(** The end of the process considered: it dies between two operations, or (if [pw]) the machine loses
    power, which leaves a disk and a manifest that [survives] allows. *)
Definition crashes (pw : bool) (p : pdb) (x : xkind) : Prop :=
  match x with
  | XKill => True
  | XPower disk m => pw = true /\ survives p disk m
  | _ => False
  end.

(** The manifest that the next opening reads, and no log file ends in an incomplete record. *)
Definition read_man (p : pdb) (x : xkind) : lman := match x with XPower _ m => m | _ => p_man p end.
Definition no_torn (x : xkind) : Prop := match x with XPower disk _ => whole disk | _ => True end.

Section Proofs.
Variable hash : key -> N * N.
Notation GI := (GI hash).
Notation FI := (FI hash).
Notation DI := (DI hash).
Notation PI := (PI hash).
Notation RI := (RI hash).

(** Guarded runs of a database with closing, crashing and reopening.  [h]: the acknowledged writes
    that have not been lost in a crash, in order; [hs]: those of them acknowledged before the last
    sync.  [pw = true]: power failures happen, and every sync asks for fsync; [pw = false]: only the
    process dies.  The guards beyond those of [reach] (DbProofs.v):
    - flushes do not go beyond the last sync ([C70_number_reused_refuted]);
    - a database is closed with something in it, and not in the middle of a batch;
    - a crash happens when every log file listed in the manifest has a synced record
      ([C74_number_not_found_refuted]) and leaves no incomplete record
      ([C71_synced_batch_lost_refuted]). *)
Inductive preach (pw : bool) (c : cfg) : list rec -> list rec -> pdb -> Prop :=
| pr_new : preach pw c [] [] (p_new c)
| pr_db : forall h hs p o x p', preach pw c h hs p -> allowed c h (p_db p) o ->
    pstep hash c (PDb o) p = Some (x, p') -> preach pw c (h ++ acked x) hs p'
| pr_sync : forall h hs p fsync x p', preach pw c h hs p -> (pw = true -> fsync = true) ->
    pstep hash c (PSync fsync) p = Some (x, p') -> preach pw c h h p'
| pr_flush : forall h hs p fo seq held x p', preach pw c h hs p -> allowed c h (p_db p) (OFlush fo seq) -> o_beyond fo = false ->
    pstep hash c (PFlush fo seq held) p = Some (x, p') -> preach pw c h hs p'
| pr_close : forall h hs p x p', preach pw c h hs p -> h <> [] -> d_bat (p_db p) = None ->
    pstep hash c (PReopen XClean) p = Some (x, p') -> preach pw c h h p'
| pr_crash : forall h hs p k x p', preach pw c h hs p -> crashes pw p k -> settled (read_man p k) -> no_torn k ->
    pstep hash c (PReopen k) p = Some (x, p') -> preach pw c hs hs p'.

(** What is on the disk after a crash. *)
Lemma survive_fill : forall c h hs p disk m, PI true c h hs p -> survives p disk m -> filled (lastseq hs) (d_log (p_db p)) disk.
Proof.
  intros c h hs p disk m P (S1 & S2 & _) f Hf.
  assert (D1 := pi_disk _ _ _ _ _ _ P f Hf). assert (D2 := pi_dur _ _ _ _ _ _ P eq_refl f Hf). unfold disk_ok in *.
  destruct (dlog_at (f_num f) disk) as [x|] eqn:Ex.
  - exists x. split; [reflexivity|]. apply dlog_at_in in Ex. destruct Ex as [X1 X2]. rewrite <- X2 in D1, D2.
    destruct (S2 x _ _ X1 D1 D2) as (a & b & Ea & Eb). cbn [dl_recs] in Ea, Eb. rewrite Ea in Eb. rewrite <- app_assoc in Eb.
    assert (Q : a ++ b = []) by (apply (app_inv_head (upto (lastseq hs) (fh f))); rewrite app_nil_r; symmetry; exact Eb).
    apply app_eq_nil in Q. destruct Q as [-> _]. rewrite app_nil_r in Ea. exact Ea.
  - exfalso. apply dlog_at_in in D1. destruct D1 as [D1 _]. assert (Hn : In (f_num f) (map dl_num disk)).
    { rewrite S1. apply in_map_iff. eexists. split; [|exact D1]. reflexivity. }
    apply in_map_iff in Hn. destruct Hn as (y & Ey & Hy). unfold dlog_at in Ex. assert (Z := find_none _ _ Ex y Hy). cbn beta in Z. lia.
Qed.

Lemma disk_filled : forall s g disk, (forall f, In f (g_files g) -> disk_ok s f disk) -> filled s g disk.
Proof. intros s g disk H f Hf. eexists. split; [apply (H f Hf)|reflexivity]. Qed.

(** What a reopened database answers. *)
Definition answers (c : cfg) (hs : list rec) (p : pdb) : Prop :=
  (forall k, db_get hash c k (p_db p) = spec_get hs k) /\
  (forall full r, r_seq r = NIL -> exists p', pstep hash c (PDb (OSet full r)) p = Some (Ok [as_written r (top hs + 1)], p')).

Lemma open_answers : forall pw c h hs p disk dur M old, cfg_ok c -> c_lso c = false -> PI pw c h hs p ->
  man_ok (lastseq hs) (d_log (p_db p)) M -> filled (lastseq hs) (d_log (p_db p)) disk ->
  exists p', p_open hash c (d_tab (p_db p)) disk dur M old = Some p' /\ answers c hs p'.
Proof.
  intros pw c h hs p disk dur M old Cok Hlso P HM Hfil. destruct (pi_good _ _ _ _ _ _ P) as (n0 & pre & F & part & G). set (d := p_db p) in *.
  destruct (open_ok hash c h hs d n0 pre F part disk dur M old Cok Hlso G HM Hfil)
    as (a & b & fs & X & q & Eab & Hb & He & (a' & fl & Ea & Emax) & RA & HX & Hmx & Eq & Edb & _).
  exists q. split; [exact Eq|].
  assert (Hane : a <> []) by (rewrite Ea; destruct a'; discriminate).
  assert (H := go_gi _ _ _ _ _ _ _ _ _ G).
  assert (HN := gi_nums _ _ _ _ _ _ H). rewrite Eab in HN. apply nums_app in HN. destruct HN as [HN _].
  assert (Hmxa : l_max M + 1 = n0 + len a).
  { rewrite Emax, Ea in *. apply nums_app in HN. destruct HN as [_ [Q _]]. unfold len in *. rewrite app_length. cbn [length]. lia. }
  split.
  - intros k. rewrite Edb. apply (recovered_get hash c h hs d n0 pre F part a b fs X (l_max M) k Hlso G Eab Hb Hane Hmxa RA).
  - intros full r Hr. destruct (good_hs hash _ _ _ _ _ _ _ _ a b G Eab Hb) as (HF & Hhs & Hs & Hpos & Ht & Hl & Hemp).
    rewrite (top_last hs Hs), <- stored_as.
    assert (HNf : nums_from n0 fs) by (eapply nums_same; [|exact HN]; symmetry; eapply ri_nums; exact RA).
    assert (Hlen : len fs = len a).
    { unfold len. f_equal. rewrite <- (map_length f_num fs), (ri_nums _ _ _ _ RA), map_length. reflexivity. }
    assert (Hlim : l_max M + 1 < NIL).
    { assert (A := gi_gmax _ _ _ _ _ _ H). assert (B := gi_few _ _ _ _ _ _ H). assert (C := go_lim _ _ _ _ _ _ _ _ _ G).
      fold d in A, B. rewrite Eab in A. unfold len in *. rewrite app_length in A. lia. }
    destruct q as [qd q1 q2 q3 q4]. cbn [p_db] in Edb. rewrite Edb.
    apply (recovered_next hash c fs n0 (l_max M) (g_lf (d_log d)) X (d_tab d) q1 q2 q3 q4 full r (lastseq hs) Cok HNf ltac:(lia) Hlim); [|exact Hl|exact Hr].
    rewrite Ea in RA. apply Forall2_app_inv_l in RA. destruct RA as (f1 & f2 & R1 & R2 & Ef). inversion R2 as [|? y ? ? Ry Rn]; subst. inversion Rn; subst.
    exists f1, y. split; [reflexivity|]. split; [apply (ri_imm _ _ _ _ Ry)|]. rewrite (Hmx f1 y eq_refl).
    destruct (upto (lastseq hs) (all_h (a' ++ [fl]))) as [|r0 t0] eqn:Eu.
    + rewrite (Hemp eq_refl). reflexivity.
    + rewrite <- Eu in *. assert (NE : upto (lastseq hs) (all_h (a' ++ [fl])) <> []) by (rewrite Eu; discriminate).
      assert (Q : lastseq hs = lastseq (upto (lastseq hs) (all_h (a' ++ [fl])))) by (rewrite Hhs at 1; apply lastseq_app; exact NE).
      rewrite <- Q. assert (Hin : In r0 hs) by (rewrite Hhs, Eu; apply in_or_app; right; left; reflexivity).
      assert (P1 := Hpos r0 Hin). assert (P2 := lastseq_ge hs r0 Hs Hin). replace (lastseq hs =? 0) with false by lia. reflexivity.
Qed.

(** A crash, from any state that satisfies the invariant. *)
Lemma crash_answers : forall pw c h hs p x, cfg_ok c -> c_lso c = false -> PI pw c h hs p -> crashes pw p x ->
  exists p', pstep hash c (PReopen x) p = Some (Ok [], p') /\ answers c hs p'.
Proof.
  intros pw c h hs p x Cok Hlso P Hx. destruct x as [| | | |disk m]; try destruct Hx.
  - destruct (open_answers pw c h hs p (p_disk p) (p_dur p) (p_man p) (p_old p) Cok Hlso P (proj2 (pi_man _ _ _ _ _ _ P))
      (disk_filled _ _ _ (pi_disk _ _ _ _ _ _ P))) as (p' & E & A). exists p'. split; [|exact A]. cbn [pstep]. unfold p_reopen. rewrite E. reflexivity.
  - subst pw. assert (Hm : man_ok (lastseq hs) (d_log (p_db p)) m).
    { destruct H0 as (_ & _ & [-> |Hm]); [apply (pi_man _ _ _ _ _ _ P)|apply (pi_old _ _ _ _ _ _ P eq_refl m Hm)]. }
    destruct (open_answers true c h hs p disk disk m [] Cok Hlso P Hm (survive_fill _ _ _ _ _ _ P H0)) as (p' & E & A).
    exists p'. split; [|exact A]. cbn [pstep]. unfold p_reopen. rewrite E. reflexivity.
Qed.

Lemma sync_total : forall pw c h hs p fsync, cfg_ok c -> PI pw c h hs p -> (pw = true -> fsync = true) ->
  exists p', p_sync hash c fsync p = Some (Ok [], p') /\ PI pw c h h p'.
Proof.
  intros pw c h hs p fsync Cok P Hpw.
  destruct (p_sync hash c fsync p) as [[x p']|] eqn:E.
  - destruct (pi_sync hash pw c h hs p fsync x p' Cok P Hpw E) as (P' & -> & _). exists p'. auto.
  - unfold p_sync, step in E. destruct (lm_sync no_fault (d_log (p_db p))); discriminate.
Qed.

(** Closing and reopening. *)
Lemma close_answers : forall pw c h hs p, cfg_ok c -> c_lso c = false -> PI pw c h hs p ->
  exists p', pstep hash c (PReopen XClean) p = Some (Ok [], p') /\ answers c h p'.
Proof.
  intros pw c h hs p Cok Hlso P. destruct (sync_total pw c h hs p true Cok P ltac:(auto)) as (p1 & E1 & P1).
  destruct (open_answers pw c h h p1 (p_disk p1) (p_dur p1) (p_man p1) (p_old p1) Cok Hlso P1 (proj2 (pi_man _ _ _ _ _ _ P1))
    (disk_filled _ _ _ (pi_disk _ _ _ _ _ _ P1))) as (p' & E & A). exists p'. split; [|exact A]. cbn [pstep]. unfold p_reopen. rewrite E1, E. reflexivity.
Qed.

(** The invariant of guarded runs. *)
Lemma preach_inv : forall pw c h hs p, cfg_ok c -> c_lso c = false -> preach pw c h hs p -> PI pw c h hs p.
Proof.
  intros pw c h hs p Cok Hlso R. induction R as [|h hs p o x p' R IH Al E|h hs p fsync x p' R IH Hf E|h hs p fo seq held x p' R IH Al Hb E
    |h hs p x p' R IH Hne Hbat E|h hs p k x p' R IH Hk Hset Hnt E].
  - apply pi_new, Cok.
  - apply (pi_write hash pw c h hs p o x p' Cok IH Al E).
  - apply (pi_sync hash pw c h hs p fsync x p' Cok IH Hf E).
  - apply (pi_flush hash pw c h hs p fo seq held x p' Cok IH Al Hb E).
  - cbn [pstep] in E. destruct (p_reopen hash c XClean p) as [q|] eqn:Eq; [|discriminate]. injection E as _ <-.
    unfold p_reopen in Eq. destruct (sync_total pw c h hs p true Cok IH ltac:(auto)) as (p1 & E1 & P1). rewrite E1 in Eq.
    assert (Hb1 : d_bat (p_db p1) = None).
    { destruct (pi_sync hash pw c h hs p true (Ok []) p1 Cok IH ltac:(auto) E1) as (_ & _ & _ & -> & _). exact Hbat. }
    apply (pi_open hash pw c h h p1 (p_disk p1) (p_dur p1) (p_man p1) (p_old p1) q Cok Hlso P1).
    + apply (pi_man _ _ _ _ _ _ P1).
    + destruct (pi_di _ _ _ _ _ _ P1) as [(n0 & pre & F & part & H & _ & _ & _ & _ & _ & HB)]. rewrite Hb1 in HB. destruct HB as [-> _]. rewrite app_nil_r in H.
      assert (Hents := proj1 (pi_man _ _ _ _ _ _ P1)). intros e He. unfold settled.
      assert (Hex : exists f, In f (g_files (d_log (p_db p1))) /\ e_synced e = m_synced (f_mt f)).
      { clear -Hents He. induction Hents as [|e0 f es a (A1 & A2 & A3 & _) Hl IH]; [destruct He|].
        destruct He as [<-|He]; [exists f; split; [left; reflexivity|exact A3]|]. destruct (IH He) as (y & Hy & Ey). exists y. split; [right; exact Hy|exact Ey]. }
      destruct Hex as (f & Hf & ->). rewrite (pi_mark _ _ _ _ _ _ P1 f Hf). intros Z.
      apply (mark_nil hash _ f (gi_fi _ _ _ _ _ _ H f Hf)) in Z. assert (NE := gi_nonemp _ _ _ _ _ _ H Hne f Hf).
      rewrite upto_all in Z; [congruence|]. intros r Hr. apply lastseq_ge; [apply (gi_asc _ _ _ _ _ _ H)|].
      rewrite (gi_hist _ _ _ _ _ _ H). apply in_or_app; right. apply in_flat_map. exists f; auto.
    + apply disk_filled, (pi_disk _ _ _ _ _ _ P1).
    + apply (pi_disk _ _ _ _ _ _ P1).
    + apply (pi_dur _ _ _ _ _ _ P1).
    + apply (pi_old _ _ _ _ _ _ P1).
    + intros _ _. apply (pi_man _ _ _ _ _ _ P1).
    + exact Eq.
  - cbn [pstep] in E. destruct (p_reopen hash c k p) as [q|] eqn:Eq; [|discriminate]. injection E as _ <-.
    destruct k as [| | | |disk m]; try destruct Hk; cbn [read_man no_torn p_reopen] in *.
    + apply (pi_open hash pw c h hs p (p_disk p) (p_dur p) (p_man p) (p_old p) q Cok Hlso IH).
      * apply (pi_man _ _ _ _ _ _ IH).
      * exact Hset.
      * apply disk_filled, (pi_disk _ _ _ _ _ _ IH).
      * apply (pi_disk _ _ _ _ _ _ IH).
      * apply (pi_dur _ _ _ _ _ _ IH).
      * apply (pi_old _ _ _ _ _ _ IH).
      * intros _ _. apply (pi_man _ _ _ _ _ _ IH).
      * exact Eq.
    + subst pw. assert (Hm : man_ok (lastseq hs) (d_log (p_db p)) m).
      { destruct H0 as (_ & _ & [-> |Hm]); [apply (pi_man _ _ _ _ _ _ IH)|apply (pi_old _ _ _ _ _ _ IH eq_refl m Hm)]. }
      assert (Hfil := survive_fill _ _ _ _ _ _ IH H0).
      apply (pi_open hash true c h hs p disk disk m [] q Cok Hlso IH); try assumption.
      * intros f Hf. apply (filled_ok _ _ _ _ Hfil Hnt Hf).
      * intros _ f Hf. apply (filled_ok _ _ _ _ Hfil Hnt Hf).
      * intros _ N0 [].
      * intros _ Z; congruence.
Qed.

(** ** Conclusions *)

Theorem preach_reads : forall pw c h hs p k, cfg_ok c -> c_lso c = false -> preach pw c h hs p -> db_get hash c k (p_db p) = spec_get h k.
Proof.
  intros pw c h hs p k Cok Hlso R. apply get_di; [exact Hlso|]. apply (pi_di _ _ _ _ _ _ (preach_inv _ _ _ _ _ Cok Hlso R)).
Qed.

Theorem preach_crash : forall pw c h hs p x, cfg_ok c -> c_lso c = false -> preach pw c h hs p -> crashes pw p x ->
  exists p', pstep hash c (PReopen x) p = Some (Ok [], p') /\ answers c hs p'.
Proof. intros pw c h hs p x Cok Hlso R Hx. eapply crash_answers; eauto. apply preach_inv; eassumption. Qed.

Theorem preach_close : forall pw c h hs p, cfg_ok c -> c_lso c = false -> preach pw c h hs p ->
  exists p', pstep hash c (PReopen XClean) p = Some (Ok [], p') /\ answers c h p'.
Proof. intros pw c h hs p Cok Hlso R. eapply close_answers; eauto. apply preach_inv; eassumption. Qed.

Theorem preach_sync : forall pw c h hs p fsync, cfg_ok c -> c_lso c = false -> preach pw c h hs p -> (pw = true -> fsync = true) ->
  exists p', pstep hash c (PSync fsync) p = Some (Ok [], p').
Proof.
  intros pw c h hs p fsync Cok Hlso R Hf. destruct (sync_total pw c h hs p fsync Cok (preach_inv _ _ _ _ _ Cok Hlso R) Hf) as (p' & E & _).
  exists p'. exact E.
Qed.

(** The outcome of a write, in every state. *)
Theorem preach_next : forall pw c h hs p full r, cfg_ok c -> c_lso c = false -> preach pw c h hs p -> d_bat (p_db p) = None ->
  allowed c h (p_db p) (OSet full r) ->
  exists x p', pstep hash c (PDb (OSet full r)) p = Some (x, p') /\
    (r_seq r = NIL -> x = Ok [as_written r (top h + 1)]) /\
    (top h < r_seq r -> r_seq r <> NIL -> x = Ok [as_written r (r_seq r)]) /\
    (r_seq r <= top h -> x = Fail INVALID_SEQNUM).
Proof.
  intros pw c h hs p full r Cok Hlso R Hb Al.
  destruct (set_outcome_di hash c h (p_db p) full r Cok (pi_di _ _ _ _ _ _ (preach_inv _ _ _ _ _ Cok Hlso R)) Hb Al) as (x & d' & E & A1 & A2 & A3).
  assert (Hf : exists f, file_at (g_max (d_log (p_db p))) (g_files (d_log (p_db p))) = Some f).
  { destruct (pi_di _ _ _ _ _ _ (preach_inv _ _ _ _ _ Cok Hlso R)) as [(n0 & pre & F & part & H & _)].
    assert (Hl := gi_gmax _ _ _ _ _ _ H). assert (HN := gi_nums _ _ _ _ _ _ H). assert (Hne := gi_ne _ _ _ _ _ _ H).
    destruct (file_at_split _ _ (g_max (d_log (p_db p))) HN) as (a & f & b & Ef & En & _).
    { unfold len in *. destruct (g_files (d_log (p_db p))); [congruence|cbn [length] in *; lia]. }
    exists f. rewrite <- En. eapply file_at_num; [exact HN|exact Ef]. }
  destruct Hf as (f & Hf). exists x. cbn [pstep]. unfold p_write. rewrite E, Hf.
  destruct (g_max (d_log d') =? g_max (d_log (p_db p))); eexists; (split; [reflexivity|]; split; [exact A1|]; split; [exact A2|]; intros H; apply (A3 H)).
Qed.

(** The numbers of the writes that were not lost are distinct and ascending. *)
Theorem preach_numbers : forall pw c h hs p, cfg_ok c -> c_lso c = false -> preach pw c h hs p -> sorted_seq h /\ exists tl, h = hs ++ tl.
Proof.
  intros pw c h hs p Cok Hlso R. assert (P := preach_inv _ _ _ _ _ Cok Hlso R). split; [apply (di_sorted _ _ _ _ (pi_di _ _ _ _ _ _ P))|].
  apply (pi_pre _ _ _ _ _ _ P).
Qed.

Theorem preach_distinct : forall pw c h hs p, cfg_ok c -> c_lso c = false -> preach pw c h hs p -> NoDup (map r_seq h).
Proof.
  intros pw c h hs p Cok Hlso R. destruct (preach_numbers pw c h hs p Cok Hlso R) as [Hs _]. unfold sorted_seq in Hs.
  induction (map r_seq h) as [|x l IH]; [constructor|]. apply StronglySorted_inv in Hs. destruct Hs as [Hs Hx]. constructor; [|apply IH, Hs].
  intros Hin. rewrite Forall_forall in Hx. specialize (Hx x Hin). lia.
Qed.

End Proofs.
