(** Proofs for C135. *)
From Verif Require Import Base KeyModel LogFormatModel LogManifestModel BloomModel MemTableModel LogMgrModel DbModel DbProofs DbProofs2
  RecoverModel RecoverProofs6 RecoverProofs7 RecoverProofs9 RecoverProofs10 RecoverSpec DupOpenModel DupOpenSpec.
Local Open Scope N_scope.

Section Proofs.
Variable hash : key -> N * N.

Definition is_reopen (o : pop) : bool := match o with PReopen _ => true | _ => false end.

(** Answers and memory depend on the memory only. *)
Lemma pstep_same : forall c o p q x p', is_reopen o = false -> p_db q = p_db p ->
  pstep hash c o p = Some (x, p') -> exists q', pstep hash c o q = Some (x, q') /\ p_db q' = p_db p'.
Proof.
  intros c o p q x p' N E H. destruct o as [o|fs|fo sq held|k]; [| | |discriminate].
  - assert (W : forall o, p_write hash c o p = Some (x, p') -> exists q', p_write hash c o q = Some (x, q') /\ p_db q' = p_db p').
    { clear H. intros o' H. unfold p_write in *. rewrite E. destruct (step hash c o' (p_db p)) as [[y d']|]; [|discriminate].
      destruct (g_max (d_log d') =? g_max (d_log (p_db p))).
      - injection H as <- <-. eexists. split; reflexivity.
      - destruct (file_at _ _); [|discriminate]. injection H as <- <-. eexists. split; reflexivity. }
    destruct o; cbn [pstep] in *; try discriminate; apply W; exact H.
  - cbn [pstep] in *. unfold p_sync in *. rewrite E. destruct (step hash c (OSync no_fault) (p_db p)) as [[y d']|]; [|discriminate].
    injection H as <- <-. eexists. split; [reflexivity|]. destruct y; reflexivity.
  - cbn [pstep] in *. unfold p_flush in *. rewrite E. destruct (step hash c (OFlush fo sq) (p_db p)) as [[y d']|]; [|discriminate].
    injection H as <- <-. eexists. split; [reflexivity|]. destruct y; reflexivity.
Qed.

Lemma undisturbed : forall c os s xs s' p, stays_up os -> p_db p = p_db (t_p s) ->
  drun hash c os s = Some (xs, s') ->
  exists p', prun hash c (first_calls os) p = Some (first_answers os xs, p') /\ p_db (t_p s') = p_db p'.
Proof.
  induction os as [|o os IH]; intros s xs s' p U E H; cbn [drun] in H.
  - injection H as <- <-. exists p. split; [reflexivity|]. symmetry. exact E.
  - destruct (dstep hash c o s) as [[x s1]|] eqn:D; [|discriminate].
    destruct (drun hash c os s1) as [[l s2]|] eqn:D2; [|discriminate]. injection H as <- <-.
    assert (U2 : stays_up os) by (intros k Hk; apply (U k); right; exact Hk).
    destruct o as [o| |]; cbn [dstep] in D.
    + destruct (pstep hash c o (t_p s)) as [[y p1]|] eqn:P; [|discriminate]. injection D as <- <-.
      assert (NR : is_reopen o = false).
      { destruct o; try reflexivity. exfalso. apply (U x). left. reflexivity. }
      destruct (pstep_same c o (t_p s) p y p1 NR E P) as (q & Q & QE).
      destruct (IH (mkTwo p1 (t_dup s)) _ _ q U2 QE D2) as (p' & R1 & R2).
      exists p'. cbn [first_calls first_answers prun]. rewrite Q, R1. split; [reflexivity|exact R2].
    + destruct (t_dup s); [discriminate|]. unfold dup_load in D. destruct (p_open _ _ _ _ _ _ _) as [q|]; [|discriminate].
      injection D as <- <-. cbn [first_calls first_answers]. eapply IH; [exact U2| |exact D2]. exact E.
    + destruct (t_dup s); [|discriminate]. unfold dup_drop in D. destruct (p_sync _ _ _ _) as [[y q]|]; [|discriminate].
      injection D as <- <-. cbn [first_calls first_answers]. eapply IH; [exact U2| |exact D2]. exact E.
Qed.

(** What an opening finds does not depend on the durable part and the older manifests. *)
Lemma open_same : forall c tab disk dur1 dur2 m old1 old2 p1,
  p_open hash c tab disk dur1 m old1 = Some p1 ->
  exists p2, p_open hash c tab disk dur2 m old2 = Some p2 /\ p_db p2 = p_db p1.
Proof.
  intros c tab disk dur1 dur2 m old1 old2 p1 H. unfold p_open in *. cbv zeta in *.
  set (ld := load_files _ _ _ _ _ _) in *. destruct (load_all hash c disk (d_new ld) (d_files ld)) as [fs|]; [|discriminate].
  set (b := negb (forallb _ _)) in *. destruct fs as [|f fs].
  - injection H as <-. eexists. split; reflexivity.
  - injection H as <-. eexists. split; [reflexivity|]. destruct b; reflexivity.
Qed.

Lemma kill_same : forall c p q r, d_tab (p_db q) = d_tab (p_db p) -> p_disk q = p_disk p -> p_man q = p_man p ->
  pstep hash c (PReopen XKill) p = Some (Ok [], r) ->
  exists r', pstep hash c (PReopen XKill) q = Some (Ok [], r') /\ p_db r' = p_db r.
Proof.
  intros c p q r T D M H. cbn [pstep p_reopen] in *. rewrite T, D, M.
  destruct (p_open hash c (d_tab (p_db p)) (p_disk p) (p_dur p) (p_man p) (p_old p)) as [p1|] eqn:E; [|discriminate].
  injection H as <-. destruct (open_same _ _ _ _ (p_dur q) _ _ (p_old q) _ E) as (p2 & E2 & E3).
  rewrite E2. exists p2. split; [reflexivity|exact E3].
Qed.

Lemma sync_tab : forall c fs p x p', p_sync hash c fs p = Some (x, p') -> d_tab (p_db p') = d_tab (p_db p).
Proof.
  intros c fs p x p' H. unfold p_sync in H. destruct (step hash c (OSync no_fault) (p_db p)) as [[y d']|] eqn:S; [|discriminate].
  assert (T : d_tab d' = d_tab (p_db p)).
  { cbn [step] in S. repeat match type of S with
      | context[match ?a with _ => _ end] => destruct a; try discriminate end; injection S as _ <-; reflexivity. }
  injection H as _ <-. destruct y; exact T.
Qed.

Lemma idle : forall pw c h hs p, cfg_ok c -> c_lso c = false -> preach hash pw c h hs p ->
  exists p1 p', dup_drop hash c (p_db p) p = Some (Ok [], p1) /\ p_db p1 = p_db p /\
    pstep hash c (PReopen XKill) p1 = Some (Ok [], p') /\ forall k, db_get hash c k (p_db p') = spec_get h k.
Proof.
  intros pw c h hs p A B R. destruct (preach_sync hash pw c h hs p true A B R (fun _ => eq_refl)) as (q & S).
  assert (R2 : preach hash pw c h h q) by (eapply pr_sync; [exact R|intros _; reflexivity|exact S]).
  destruct (preach_crash hash pw c h h q XKill A B R2 I) as (r & K & G & _).
  cbn [pstep] in S.
  assert (F : files_of p (p_db p) = p) by (destruct p; reflexivity).
  exists (files_of q (p_db p)).
  destruct (kill_same c q (files_of q (p_db p)) r) as (r' & K' & E); auto.
  - cbn. symmetry. exact (sync_tab _ _ _ _ _ S).
  - exists r'. split; [unfold dup_drop; rewrite F, S; reflexivity|]. split; [reflexivity|]. split; [exact K'|].
    intro k. rewrite E. apply G.
Qed.

Lemma next_sync : forall pw c h hs p b x p1 fs, cfg_ok c -> c_lso c = false -> preach hash pw c h hs p ->
  dup_drop hash c b p = Some (x, p1) -> p_disk p1 = p_disk p -> (pw = true -> fs = true) ->
  exists q p', pstep hash c (PSync fs) p1 = Some (Ok [], q) /\
    pstep hash c (PReopen XKill) q = Some (Ok [], p') /\ forall k, db_get hash c k (p_db p') = spec_get h k.
Proof.
  intros pw c h hs p b x p1 fs A B R D DK FS.
  destruct (preach_sync hash pw c h hs p fs A B R FS) as (q & S).
  assert (R2 : preach hash pw c h h q) by (eapply pr_sync; [exact R|exact FS|exact S]).
  destruct (preach_crash hash pw c h h q XKill A B R2 I) as (r & K & G & _).
  assert (E : p_db p1 = p_db p).
  { unfold dup_drop in D. destruct (p_sync _ _ _ _) as [[y z]|]; [|discriminate]. injection D as _ <-. reflexivity. }
  cbn [pstep] in S |- *. unfold p_sync in S |- *. rewrite E, DK.
  destruct (step hash c (OSync no_fault) (p_db p)) as [[y d']|]; [|discriminate].
  injection S as -> <-. cbv zeta. eexists.
  match goal with |- exists _, Some (Ok [], ?q2) = _ /\ _ => destruct (kill_same c (p_store fs (man_of (d_log d')) (mkP d' (map (write_file (g_files (d_log (p_db p))) (g_files (d_log d'))) (p_disk p)) (if fs then fsync_range (sync_from (d_log (p_db p))) (g_max (d_log (p_db p))) (map (write_file (g_files (d_log (p_db p))) (g_files (d_log d'))) (p_disk p)) (p_dur p) else p_dur p) (p_man p) (p_old p))) q2 r) as (r' & K' & E') end; auto.
  exists r'. split; [reflexivity|]. split; [exact K'|]. intro k. rewrite E'. apply G.
Qed.

End Proofs.
