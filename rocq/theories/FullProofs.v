(** The whole database: the two sections together (proofs; statements in FullProps.v). *)
From Verif Require Import Base KeyModel KeyProofs LogFormatModel BloomModel MemTableModel MemTableProofs
  LogMgrModel LogMgrProofs LogMgrProofs2 LogMgrProofs3 DbModel DbProofs LsmModel LsmProofs LsmProofs2 LsmProofs5 FullModel.
From Coq Require Import Sorted.
Local Open Scope N_scope.

Section Full.
Variable hash : key -> N * N.
Variable part : key -> N.
Notation f_step := (f_step hash part).

(** Executions with the acknowledged writes.  [tab_ok]: every table that must be created can be
    created (property C47 has the other case), and numbers of tables do not run out. *)
Definition tab_ok (o : fop) : Prop := match o with FTab o' => lop_ok o' | FOp _ => True end.
Definition f_allowed (c : cfg) (h : list rec) (f : fdb) (o : fop) : Prop :=
  match o with FOp o' => allowed c h (fd_db f) o' | FTab o' => lop_ok o' end.

Inductive freach (c : cfg) (tc : tcfg) : list rec -> fdb -> Prop :=
| fr_new : freach c tc [] (f_new c tc)
| fr_step : forall h f o x f', freach c tc h f -> f_allowed c h f o -> f_step c tc o f = Some (x, f') ->
    l_next (fd_lsm f') <= NIL -> freach c tc (h ++ acked x) f'.

Lemma flush_appends : forall c fo seq d x d', step hash c (OFlush fo seq) d = Some (x, d') -> exists rs, d_tab d' = d_tab d ++ rs.
Proof.
  intros c fo seq d x d' H. cbn [step] in H. destruct (lm_flush fo seq (d_log d)) as [[[rs cs]|e|] g]; injection H as <- <-; cbn [d_tab];
    [now exists rs|exists []; now rewrite app_nil_r|exists []; now rewrite app_nil_r].
Qed.
Lemma step_tab_same : forall c o d x d', step hash c o d = Some (x, d') -> (forall fo seq, o <> OFlush fo seq) -> d_tab d' = d_tab d.
Proof.
  intros c o d x d' H Hn. destruct o as [full r|b| | |bad|fo seq|o0]; cbn [step] in H; [| | | | |now destruct (Hn fo seq)|].
  - destruct (d_bat d); [discriminate|]. destruct (lm_set hash c full r (d_log d)). injection H as <- <-. reflexivity.
  - destruct (d_bat d); [discriminate|]. destruct (c_ro c); [now injection H as <- <-|]. destruct b; [now injection H as <- <-|].
    cbv zeta in H. destruct (batch_valid _ _ _); injection H as <- <-; reflexivity.
  - destruct (d_bat d) as [[[|r t] done]|]; try discriminate. destruct (batch_put hash c r (d_log d)) as [[| |] g]; injection H as <- <-; reflexivity.
  - destruct (d_bat d) as [[[|r t] done]|]; try discriminate. injection H as <- <-. reflexivity.
  - destruct (lm_sync bad (d_log d)). injection H as <- <-. reflexivity.
  - destruct (lm_checkpoint o0 (d_log d)). injection H as <- <-. reflexivity.
Qed.

Lemma freach_both : forall c tc h f, freach c tc h f -> reach hash c h (fd_db f) /\ lreach hash part tc (d_tab (fd_db f)) (fd_lsm f).
Proof.
  intros c tc h f H. induction H as [|h f o x f' H [IH1 IH2] Ha Hs Hn].
  - split; [apply reach_new|apply lr_new].
  - destruct o as [o|o]; cbn [FullModel.f_step] in Hs.
    + destruct (step hash c o (fd_db f)) as [[y d]|] eqn:E; [|discriminate]. cbv zeta in Hs. injection Hs as <- <-. cbn [fd_db fd_lsm f_allowed] in *. split.
      * eapply reach_step; eauto.
      * destruct o as [full r|b| | |bad|fo seq|o0]; try (rewrite (step_tab_same _ _ _ _ _ E) by discriminate; exact IH2).
        destruct (flush_appends _ _ _ _ _ _ E) as [rs Er]. rewrite Er. rewrite Er in Hn. rewrite skipn_app in *. rewrite skipn_all in *. rewrite Nat.sub_diag in *. cbn [skipn app] in *.
        change rs with (lflushed (LFlush no_error rs)) at 1. eapply lr_step; [exact IH2| |reflexivity|exact Hn]. intros r _. reflexivity.
    + assert (E : exists s, lstep hash part tc o (fd_lsm f) = Some s /\ lflushed o = [] /\ x = Ok [] /\ f' = mkFD (fd_db f) s).
      { destruct o; try discriminate; (destruct (lstep _ _ _ _ _) as [s|] eqn:E; [|discriminate]; injection Hs as <- <-; exists s; repeat split; reflexivity). }
      destruct E as (s & E & El & -> & ->). cbn [fd_db fd_lsm acked f_allowed] in *. rewrite app_nil_r. split; [exact IH1|].
      rewrite <- (app_nil_r (d_tab (fd_db f))). rewrite <- El. eapply lr_step; eauto.
Qed.

(** A record with a key read from the log. *)
Theorem full_get_latest : forall c tc h f k, cfg_ok c -> c_lso c = false -> tcfg_ok part tc -> freach c tc h f -> bf_safe tc h -> k <> [] ->
  f_get hash part c tc k f = spec_get h k.
Proof.
  intros c tc h f k Cok Hl Tok H Hbf Hk. destruct (freach_both _ _ _ _ H) as [H1 H2].
  pose proof (get_latest hash c h (fd_db f) k Cok Hl H1) as G. unfold db_get in G. unfold f_get.
  destruct (lm_get hash c k (d_log (fd_db f))) as [r|e|]; [exact G| |exact G].
  assert (Hbf' : bf_safe tc (d_tab (fd_db f))).
  { destruct Hbf as [Hb|[Hb|Hb]]; [now left|right; now left|right; right]. intros r Hr. apply Hb.
    destruct (reach_inv hash c h _ Cok H1) as [(n0 & pre & F & p & _ & Et & _)]. rewrite Et in Hr. apply filter_In in Hr. tauto. }
  pose proof (tables_answer hash part tc (d_tab (fd_db f)) (fd_lsm f) k Tok H2 Hbf' Hk) as A.
  unfold tab_get in G. fold (newest_write (d_tab (fd_db f)) k) in G. destruct (newest_write (d_tab (fd_db f)) k) as [r|]; cbn [table_answer] in A.
  - destruct A as [-> |[D ->]]; [exact G|]. rewrite <- G. unfold found. unfold is_del in D. unfold is_ins. apply N.eqb_eq in D. rewrite D. reflexivity.
  - rewrite A. exact G.
Qed.
End Full.
