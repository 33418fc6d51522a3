(** Checkpoints, second part: the list (proofs; statements in CheckpointProps.v). *)
From Verif Require Import Base KeyModel KeyProofs LogFormatModel BloomModel BloomProofs MemTableModel MemTableProofs
  LogMgrModel LogMgrProofs LogMgrProofs2 LogMgrProofs3 DbModel DbProofs DbProofs2 CheckpointModel CheckpointSpec CheckpointProofs.
From Coq Require Import Sorted.
Local Open Scope N_scope.

Section Proofs.
Variable hash : key -> N * N.
Variable part : key -> N -> N.
Notation GI := (GI hash).
Notation step := (step hash).
Notation reach := (reach hash).
Notation creach := (creach hash part).
Notation qreach := (qreach hash part).
Notation c_step := (c_step hash part).
Notation flushed d := (match lm_flushed_seq (d_log d) with Ok F => F | _ => 0 end).

(** * The tables of a flush *)

(** A step of the whole database is a step of the handle, or leaves it alone. *)
Definition tab_rec (d : db) (k : N) : Prop := exists r, In r (d_tab d) /\ r_seq r = k.

Lemma tab_le : forall c h d r, cfg_ok c -> reach c h d -> In r (d_tab d) -> r_seq r <= flushed d.
Proof.
  intros c h d r Cok R Hr. destruct (reach_inv _ _ _ _ Cok R) as [(n0 & pre & F & pt & H & Ht & Hl & HF & HFl & HG & HB)].
  rewrite (flushed_is hash part _ _ _ _ _ H (di_F_lt hash c h d _ _ _ _ H HFl)). rewrite Ht in Hr. apply filter_In in Hr. destruct Hr as [_ Hr]. lia.
Qed.

(** Marks only grow, and so do the tables. *)
Lemma step_grows : forall c h d o x d', cfg_ok c -> reach c h d -> allowed c h d o -> step c o d = Some (x, d') ->
  (forall r, In r (d_tab d) -> In r (d_tab d')) /\ flushed d <= flushed d'.
Proof.
  intros c h d o x d' Cok R A E. assert (R' : reach c (h ++ acked x) d') by (eapply reach_step; eassumption).
  assert (T : forall r, In r (d_tab d) -> In r (d_tab d')).
  { destruct o as [full r|b| | |bad|fo seq|out0]; unfold DbModel.step in E.
    - destruct (d_bat d); [discriminate|]. destruct (lm_set hash c full r (d_log d)) as [y g]. injection E as _ <-. auto.
    - destruct (d_bat d); [discriminate|]. destruct (c_ro c); [injection E as _ <-; auto|]. destruct b; [injection E as _ <-; auto|].
      destruct (batch_valid _ _ _); injection E as _ <-; auto.
    - destruct (d_bat d) as [[[|r t] done]|]; try discriminate. destruct (batch_put hash c r (d_log d)) as [y g].
      destruct y; injection E as _ <-; auto.
    - destruct (d_bat d) as [[[|r t] done]|]; try discriminate. injection E as _ <-. auto.
    - destruct (lm_sync bad (d_log d)) as [y g]. injection E as _ <-. auto.
    - destruct (lm_flush fo seq (d_log d)) as [y g]. destruct y as [[rs cs]|e|]; injection E as _ <-; auto. cbn [d_tab]. intros r Hr. apply in_or_app; left; exact Hr.
    - destruct (lm_checkpoint out0 (d_log d)) as [y g]. injection E as _ <-. auto. }
  split; [exact T|].
  destruct (reach_inv _ _ _ _ Cok R) as [(n0 & pre & F & pt & H & Ht & Hl & HF & HFl & HG & HB)].
  rewrite (flushed_is hash part _ _ _ _ _ H (di_F_lt hash c h d _ _ _ _ H HFl)).
  destruct (N.eq_dec F 0) as [->|n]; [lia|].
  (* F is the number of a record of the tables *)
  assert (Hex : exists r, In r (d_tab d) /\ r_seq r = F).
  { destruct (gi_F _ _ _ _ _ _ H n) as (r & Hr & Er). assert (Hh : In r (h ++ pt)) by (rewrite (gi_hist _ _ _ _ _ _ H); apply in_or_app; right; exact Hr).
    exists r. split; [|exact Er]. rewrite Ht. apply filter_In. split; [|lia]. apply (in_part hash _ _ _ _ _ _ _ H Hh). lia. }
  destruct Hex as (r & Hr & <-). apply (tab_le _ _ _ r Cok R'), T, Hr.
Qed.

(** Checkpoints of the log stay there until they are flushed. *)
Definition in_log (d : db) (k : N) : Prop := exists f, In f (g_files (d_log d)) /\ In k (m_chks (f_mt f)).

Lemma upd_keeps_chk : forall n fn fs f k, (forall x, In x fs -> f_num x = n -> In k (m_chks (f_mt x)) -> In k (m_chks (f_mt (fn x)))) ->
  In f fs -> In k (m_chks (f_mt f)) -> exists f', In f' (upd_file n fn fs) /\ In k (m_chks (f_mt f')).
Proof.
  intros n fn fs f k Hfn Hf Hk. exists (if f_num f =? n then fn f else f). split.
  - unfold upd_file. apply in_map_iff. exists f. split; [reflexivity|exact Hf].
  - destruct (f_num f =? n) eqn:E; [|exact Hk]. apply Hfn; [exact Hf|lia|exact Hk].
Qed.

Lemma file_at_same : forall n0 pre h F g n f x, GI n0 pre h F g -> file_at n (g_files g) = Some f -> In x (g_files g) -> f_num x = n -> x = f.
Proof.
  intros n0 pre h F g n f x H Ef Hx En. apply in_split in Hx. destruct Hx as (a & b & Es).
  assert (Y := file_at_num _ _ _ _ _ (gi_nums _ _ _ _ _ _ H) Es). rewrite En, Ef in Y. congruence.
Qed.

Lemma file_set_keeps_chk : forall n0 pre h F c n r g o g' f k, GI n0 pre h F g -> c_ow c = false -> file_set hash c n r g = (o, g') ->
  In f (g_files g) -> In k (m_chks (f_mt f)) -> exists f', In f' (g_files g') /\ In k (m_chks (f_mt f')).
Proof.
  intros n0 pre h F c n r g o g' f k H Ho E Hf Hk. unfold file_set in E. destruct (file_at n (g_files g)) as [f0|] eqn:Ea; [|injection E as _ <-; eauto].
  rewrite Ho in E. destruct (lf_set hash false r (f_mt f0)) as [o1 m'] eqn:El. injection E as _ <-. cbn [with_files g_files].
  apply upd_keeps_chk with (f := f); [|exact Hf|exact Hk]. intros x Hx En Hkx. cbn [with_mt f_mt].
  destruct (lf_set_eff _ _ _ _ _ El) as (-> & _). rewrite <- (file_at_same _ _ _ _ _ _ _ _ H Ea Hx En). exact Hkx.
Qed.

(** On lists of files with the numbers [n0 ..]. *)
Lemma sync_loop_keeps_chk : forall fuel n to bar bad last fs o fs' n0 f k, nums_from n0 fs ->
  sync_loop fuel n to bar bad last fs = (o, fs') -> In f fs -> In k (m_chks (f_mt f)) -> exists f', In f' fs' /\ In k (m_chks (f_mt f')).
Proof.
  induction fuel as [|fuel IH]; intros n to bar bad last fs o fs' n0 f k HN E Hf Hk; cbn [sync_loop] in E; [injection E as _ <-; eauto|].
  destruct (to <? n); [injection E as _ <-; eauto|]. destruct (file_at n fs) as [f0|] eqn:Ea; [|apply (IH _ _ _ _ _ _ _ _ n0 f k HN E Hf Hk)].
  destruct (bad n); [injection E as _ <-; eauto|].
  set (fn := fun _ : lgf => _) in E. assert (Hnum : forall x, f_num (fn x) = f_num f0) by (intros x; unfold fn; destruct (n <? to); reflexivity).
  assert (Hchk : forall x, m_chks (f_mt (fn x)) = m_chks (f_mt f0)).
  { intros x. unfold fn. destruct (n <? to); cbn [set_imm with_mt f_mt]; unfold lf_set_synced; destruct (negb _); reflexivity. }
  destruct (file_at_in _ _ _ Ea) as [Hf0 En0].
  assert (HN' : nums_from n0 (upd_file n fn fs)).
  { clear - HN Hnum En0. revert n0 HN. induction fs as [|y fs IH]; intros n0 HN; [exact HN|]. destruct HN as [H1 H2]. cbn [upd_file map].
    split; [|apply IH; exact H2]. destruct (f_num y =? n) eqn:E; [rewrite Hnum; lia|exact H1]. }
  destruct (upd_keeps_chk n fn fs f k) as (f' & Hf' & Hk'); [|exact Hf|exact Hk|].
  - intros x Hx Enx Hkx. rewrite Hchk. apply in_split in Hx. destruct Hx as (a & b & Es).
    assert (Y := file_at_num _ _ _ _ _ HN Es). rewrite Enx, Ea in Y. injection Y as ->. exact Hkx.
  - apply (IH _ _ _ _ _ _ _ _ n0 f' k HN' E Hf' Hk').
Qed.

Lemma log_kept : forall c h d o x d' k, cfg_ok c -> reach c h d -> allowed c h d o -> step c o d = Some (x, d') ->
  each (fun m => SS (m_chks m)) (g_files (d_log d)) ->
  in_log d k -> in_log d' k \/ k <= flushed d'.
Proof.
  intros c h d o x d' k Cok R A E Hss (f & Hf & Hk). assert (Ho := co_ow _ Cok).
  assert (Hid : in_log d k) by (exists f; auto).
  destruct (reach_inv _ _ _ _ Cok R) as [(n0 & pre & F & pt & H & Ht & Hl & HF & HFl & HG & HB)].
  destruct o as [full r|b| | |bad|fo seq|out0]; unfold DbModel.step in E.
  - left. destruct (d_bat d); [discriminate|]. destruct HB as [-> Hbar]. rewrite app_nil_r in *.
    destruct (lm_set hash c full r (d_log d)) as [y g] eqn:Es. injection E as _ <-. unfold in_log. cbn [d_log].
    unfold lm_set in Es. destruct (c_ro c); [injection Es as _ <-; exact Hid|]. destruct (r_seq r =? 0); [injection Es as _ <-; exact Hid|].
    destruct (max_num (d_log d)) as [mx|] eqn:Em; [|injection Es as _ <-; exact Hid]. rewrite Ho, andb_false_r in Es.
    destruct (file_at mx (g_files (d_log d))) as [f0|] eqn:Ea; [|injection Es as _ <-; exact Hid].
    cbn [negb] in Es. rewrite orb_true_l, andb_true_r in Es.
    set (g1 := if negb (valid_to_write c full f0) then add_new_file c f0 (d_log d) else d_log d) in *.
    set (n1 := if negb (valid_to_write c full f0) then g_max g1 else mx) in *.
    (* one of the files of g1 is written; the numbers are distinct *)
    assert (N1 : nums_from n0 (g_files g1)).
    { unfold g1. destruct (negb (valid_to_write c full f0)); [|apply (gi_nums _ _ _ _ _ _ H)]. cbn [add_new_file g_files].
      apply nums_app. split; [apply (gi_nums _ _ _ _ _ _ H)|]. split; [|exact I]. cbn [f_num]. assert (Y := gi_gmax _ _ _ _ _ _ H).
      assert (Z := gi_few _ _ _ _ _ _ H). rewrite nil_val in Hl. rewrite N.mod_small by lia. exact Y. }
    assert (I1 : In f (g_files g1)).
    { unfold g1. destruct (negb (valid_to_write c full f0)); [|exact Hf]. cbn [add_new_file g_files]. apply in_or_app; left; exact Hf. }
    clearbody g1 n1. destruct (file_set hash c n1 r g1) as [o1 g2] eqn:Efs.
    assert (Q : exists f', In f' (g_files g2) /\ In k (m_chks (f_mt f'))).
    { unfold file_set in Efs. destruct (file_at n1 (g_files g1)) as [f1|] eqn:Ea1; [|injection Efs as _ <-; eauto].
      rewrite Ho in Efs. destruct (lf_set hash false r (f_mt f1)) as [o2 m'] eqn:El. injection Efs as _ <-. cbn [with_files g_files].
      apply upd_keeps_chk with (f := f); [|exact I1|exact Hk]. intros z Hz En Hkz. cbn [with_mt f_mt].
      destruct (lf_set_eff _ _ _ _ _ El) as (-> & _). apply in_split in Hz. destruct Hz as (a & b & Ez).
      assert (Y := file_at_num _ _ _ _ _ N1 Ez). rewrite En, Ea1 in Y. injection Y as ->. exact Hkz. }
    destruct o1 as [r'| |]; [|injection Es as _ <-; exact Q|injection Es as _ <-; exact Q].
    apply (f_equal snd) in Es; cbn [snd] in Es. rewrite <- Es. destruct (file_at n1 (g_files g2)) as [f2|]; [|exact Q].
    destruct (f_imm f2); exact Q.
  - left. destruct (d_bat d); [discriminate|]. destruct (c_ro c); [injection E as _ <-; exact Hid|]. destruct b; [injection E as _ <-; exact Hid|].
    destruct (batch_valid _ _ _); injection E as _ <-; exact Hid.
  - left. destruct (d_bat d) as [[[|r t] done]|]; try discriminate. destruct (batch_put hash c r (d_log d)) as [y g] eqn:Ep. unfold batch_put in Ep.
    assert (Q : exists f', In f' (g_files g) /\ In k (m_chks (f_mt f'))).
    { destruct (max_num (d_log d)); [|injection Ep as _ <-; eauto]. apply (file_set_keeps_chk _ _ _ _ _ _ _ _ _ _ f k H Ho Ep Hf Hk). }
    destruct y; injection E as _ <-; exact Q.
  - left. destruct (d_bat d) as [[[|r t] done]|]; try discriminate. injection E as _ <-. exact Hid.
  - left. destruct (lm_sync bad (d_log d)) as [y g] eqn:Es. injection E as _ <-. unfold in_log. cbn [d_log].
    unfold lm_sync in Es. destruct (max_num (d_log d)) as [to|]; [|injection Es as _ <-; eauto].
    destruct (match last_synced (d_log d) with Some x => Some x | None => min_num (d_log d) end) as [from|]; [|injection Es as _ <-; eauto].
    destruct (sync_loop _ _ _ _ _ _ _) as [z fs] eqn:El. assert (Q := sync_loop_keeps_chk _ _ _ _ _ _ _ _ _ _ f k (gi_nums _ _ _ _ _ _ H) El Hf Hk).
    destruct z as [l| |]; injection Es as _ <-; exact Q.
  - destruct (lm_flush fo seq (d_log d)) as [y g] eqn:Ef. destruct y as [[rs cs]|e|].
    + destruct (flush_checkpoints hash part c h d fo seq rs cs g Cok R A Ef Hss) as (s & _ & Es & _ & _ & _ & _ & _ & Hkeep).
      injection E as _ <-. unfold in_log. cbn [d_log]. rewrite Es. destruct (N.le_gt_cases k s) as [L|L]; [right; exact L|left].
      apply (Hkeep f k Hf Hk L).
    + destruct (flush_facts hash c h d fo seq n0 pre F pt H Hl HB A) as (ro & g1 & Efl & R1). rewrite Ef in Efl. injection Efl as <- ->.
      injection E as _ <-. left. unfold in_log. cbn [d_log]. rewrite R1. exact Hid.
    + destruct (flush_facts hash c h d fo seq n0 pre F pt H Hl HB A) as (ro & g1 & Efl & R1). rewrite Ef in Efl. injection Efl as <- ->. destruct R1.
  - left. destruct (lm_checkpoint out0 (d_log d)) as [y g] eqn:Ec. injection E as _ <-. unfold in_log. cbn [d_log].
    unfold lm_checkpoint in Ec. destruct (max_num (d_log d)) as [mx|]; [|injection Ec as _ <-; eauto].
    destruct (file_at mx (g_files (d_log d))) as [f0|] eqn:Ea; [|injection Ec as _ <-; eauto].
    destruct (mt_checkpoint out0 (f_mt f0)) as [s m'] eqn:Em. injection Ec as _ <-. cbn [with_files g_files].
    apply upd_keeps_chk with (f := f); [|exact Hf|exact Hk]. intros z Hz En Hkz. cbn [with_mt f_mt].
    rewrite (file_at_same _ _ _ _ _ _ _ _ H Ea Hz En) in Hkz.
    unfold mt_checkpoint in Em. destruct (negb _); [injection Em as _ <-; exact Hkz|].
    destruct (match rev _ with [] => false | _ => _ end); injection Em as _ <-; [exact Hkz|]. cbn [m_chks]. apply in_or_app; left; exact Hkz.
Qed.

(** A checkpoint that checkpoint() delivers is in the log, once something has been written. *)
Lemma chk_made : forall c h d out0 k, cfg_ok c -> reach c h d -> h <> [] -> In k (new_chk (OChk out0) d) ->
  forall x d', step c (OChk out0) d = Some (x, d') -> in_log d' k.
Proof.
  intros c h d out0 k Cok R Hne Hk x d' E. unfold DbModel.step in E. unfold new_chk in Hk.
  destruct (reach_inv _ _ _ _ Cok R) as [(n0 & pre & F & pt & H & Ht & Hl & HF & HFl & HG & HB)].
  destruct (lm_checkpoint out0 (d_log d)) as [y g] eqn:Ec. injection E as _ <-. unfold in_log. cbn [d_log].
  unfold lm_checkpoint in Ec. destruct (max_num (d_log d)) as [mx|]; [|injection Ec as <- <-; destruct Hk].
  destruct (file_at mx (g_files (d_log d))) as [f0|] eqn:Ea; [|injection Ec as <- <-; destruct Hk].
  destruct (mt_checkpoint out0 (f_mt f0)) as [s m'] eqn:Em. injection Ec as <- <-. destruct Hk as [<-|[]]. cbn [with_files g_files].
  destruct (file_at_in _ _ _ Ea) as [Hf0 En0]. exists (with_mt f0 m'). split.
  - unfold upd_file. apply in_map_iff. exists f0. split; [|exact Hf0]. rewrite En0, N.eqb_refl. reflexivity.
  - cbn [with_mt f_mt]. assert (Hfn := gi_nonemp _ _ _ _ _ _ H ltac:(destruct h; [congruence|discriminate]) f0 Hf0).
    assert (FIf := gi_fi _ _ _ _ _ _ H f0 Hf0). destruct (fi_max_in hash f0 FIf Hfn) as (r & Hr & Er).
    assert (Hb := mr_bnd _ _ _ (mw_mr _ _ _ (fi_mw _ _ FIf)) r Hr).
    unfold mt_checkpoint, valid_number in Em. replace (m_max (f_mt f0) =? NIL) with false in Em by lia. cbn [negb] in Em.
    destruct (rev (m_chks (f_mt f0))) as [|z t] eqn:Erv.
    + injection Em as <- <-. cbn [m_chks]. apply in_or_app; right; left; reflexivity.
    + destruct (z =? m_max (f_mt f0)) eqn:Ez; injection Em as <- <-; [|cbn [m_chks]; apply in_or_app; right; left; reflexivity].
      assert (z = m_max (f_mt f0)) by lia. subst z. apply in_rev. rewrite Erv. left; reflexivity.
Qed.

(** * The invariant *)

Record CI (lim : nat) (c : cfg) (np : nat) (h : list rec) (ks : list (N * N)) (x : cdb) : Prop := {
  ci_reach : reach c h (cd_db x);
  ci_log : each (G_ok (fun k => exists F, In (k, F) ks /\ F <= flushed (cd_db x))) (g_files (d_log (cd_db x)));
  ci_len : length (cd_parts x) = np;
  ci_tab : parts_ok lim (fun k => (exists F, In (k, F) ks /\ F < k) /\ tab_rec (cd_db x) k) (cd_parts x)
}.

Lemma new_parts_ok : forall lim K n id, parts_ok lim K (new_parts n id).
Proof.
  intros lim K n; induction n as [|n IH]; intros id q t Hq Ht; cbn [new_parts] in Hq; [destruct Hq|]. destruct Hq as [<-|Hq]; [|apply (IH (id + 1) q t Hq Ht)].
  destruct Ht as [<-|[]]. split; [constructor|]. split; [cbn; lia|]. intros c [].
Qed.
Lemma new_parts_len : forall n id, length (new_parts n id) = n.
Proof. induction n as [|n IH]; intros id; cbn [new_parts length]; [reflexivity|]. rewrite IH; reflexivity. Qed.

Lemma ci_new : forall lim c np, CI lim c np [] [] (cdb_new c np).
Proof.
  intros lim c np. constructor; cbn [cdb_new cd_db cd_parts].
  - constructor.
  - intros f [<-|[]]. split; [constructor|]. intros k [].
  - apply new_parts_len.
  - apply new_parts_ok.
Qed.

Lemma db_step_ci : forall lim c np h ks d o y d' ps nx lw mark, cfg_ok c ->
  CI lim c np h ks (mkCD d nx ps lw) -> allowed c h d o -> step c o d = Some (y, d') ->
  forall ps', (ps' = ps \/ exists fo seq rs cs, o = OFlush fo seq /\ fst (lm_flush fo seq (d_log d)) = Ok (rs, cs) /\
      ps' = set_parts lim (mine_of part (N.of_nat (length ps))) mark cs rs 0 ps) ->
  CI lim c np (h ++ acked y) (ks ++ map (fun k => (k, flushed d)) (new_chk o d)) (mkCD d' nx ps' lw).
Proof.
  intros lim c np h ks d o y d' ps nx lw mark Cok [R L Le T] A E ps' Hps. cbn [cd_db cd_parts] in *.
  destruct (step_grows _ _ _ _ _ _ Cok R A E) as [Tg Fg].
  assert (Hss : each (fun m => SS (m_chks m)) (g_files (d_log d))) by (intros f Hf; apply (L f Hf)).
  constructor; cbn [cd_db cd_parts].
  - eapply reach_step; eassumption.
  - assert (Q := chks_step hash part c h d o y d' _ Cok R A E L). intros f Hf. destruct (Q f Hf) as [Q1 Q2]. split; [exact Q1|].
    intros k Hk. destruct (Q2 k Hk) as [(F & HF & HF2)|Hn]; [exists F; split; [apply in_or_app; left; exact HF|lia]|].
    exists (flushed d). split; [|exact Fg]. apply in_or_app; right. apply in_map_iff. exists k. split; [reflexivity|exact Hn].
  - destruct Hps as [->|(fo & seq & rs & cs & _ & _ & ->)]; [exact Le|rewrite set_parts_len; exact Le].
  - assert (Up : forall k, ((exists F, In (k, F) ks /\ F < k) /\ tab_rec d k) ->
      (exists F, In (k, F) (ks ++ map (fun k => (k, flushed d)) (new_chk o d)) /\ F < k) /\ tab_rec d' k).
    { intros k ((F & HF & HF2) & (r & Hr & Er)). split; [exists F; split; [apply in_or_app; left; exact HF|exact HF2]|]. exists r. split; [apply Tg; exact Hr|exact Er]. }
    destruct Hps as [->|(fo & seq & rs & cs & -> & Efl & ->)].
    + intros q t Hq Ht. destruct (T q t Hq Ht) as (A1 & A2 & A3). split; [exact A1|]. split; [exact A2|]. intros k Hk. apply Up, A3, Hk.
    + destruct (lm_flush fo seq (d_log d)) as [z g] eqn:Ef. cbn [fst] in Efl. subst z.
      destruct (flush_checkpoints hash part c h d fo seq rs cs g Cok R A Ef Hss) as (s & _ & Es & S1 & S2 & S3 & S4 & S5 & S6).
      apply set_parts_ok with (K := fun k => (exists F, In (k, F) ks /\ F < k) /\ tab_rec d k); [exact T|exact S1|exact Up|].
      intros k Hk. assert (Hk2 := proj1 (S2 k) Hk). destruct Hk2 as ((f & Hf & Hkf) & HFk & _). destruct (L f Hf) as [_ L2].
      destruct (L2 k Hkf) as (F0 & HF0 & HF02). split; [exists F0; split; [apply in_or_app; left; exact HF0|lia]|].
      destruct (S3 k Hk) as (r & Hr & Er). exists r. split; [|exact Er].
      unfold DbModel.step in E. rewrite Ef in E. injection E as _ <-. cbn [d_tab]. apply in_or_app; right; exact Hr.
Qed.

Lemma c_chk_is : forall o mark x, c_chk (CDb o mark) x = new_chk o (cd_db x).
Proof. intros [ | | | | | |out0] mark x; reflexivity. Qed.

Lemma ci_step : forall lim c np h ks x o y x', cfg_ok c -> CI lim c np h ks x -> callowed c h x o ->
  c_step lim c o x = Some (y, x') -> CI lim c np (h ++ acked y) (ks ++ map (fun k => (k, flushed_of x)) (c_chk o x)) x'.
Proof.
  intros lim c np h ks [d nx ps lw] o y x' Cok I A E. unfold flushed_of. cbn [cd_db] in *.
  destruct o as [o mark|p|p fresh].
  - rewrite c_chk_is. cbn [cd_db]. cbn [callowed cd_db] in A. unfold CheckpointModel.c_step in E. cbn [cd_db cd_next cd_parts cd_low] in E.
    destruct o as [full r|b| | |bad|fo seq|out0];
      match type of E with context [DbModel.step hash c ?o d] => destruct (DbModel.step hash c o d) as [[y0 d']|] eqn:Es; [|discriminate] end;
      injection E as <- <-; try (apply (db_step_ci lim c np h ks d _ y0 d' ps nx lw mark Cok I A Es); left; reflexivity).
    apply (db_step_ci lim c np h ks d _ y0 d' ps nx lw mark Cok I A Es).
    destruct (lm_flush fo seq (d_log d)) as [z g] eqn:Ef. cbn [fst]. destruct z as [[[|r rs] cs]|e|]; try (left; reflexivity).
    right. exists fo, seq, (r :: rs), cs. rewrite Ef. split; [reflexivity|]. split; [reflexivity|]. reflexivity.
  - cbn [c_chk map]. rewrite app_nil_r. unfold CheckpointModel.c_step in E. cbn [cd_db cd_next cd_parts cd_low] in E.
    destruct (nth_error ps p) as [[|t [|? ?]]|] eqn:En; try discriminate. injection E as <- <-. cbn [acked]. rewrite app_nil_r.
    destruct I as [R L Le T]. cbn [cd_db cd_parts] in *. constructor; cbn [cd_db cd_parts]; [exact R|exact L|rewrite upd_length; exact Le|].
    intros q u Hq Hu. apply upd_in_list in Hq. destruct Hq as [Hq|(q0 & Eq & ->)]; [apply (T q); assumption|].
    destruct Hu as [<-|Hu]; [split; [constructor|split; [cbn; lia|intros ? []]]|]. apply (T q0); [eapply nth_error_In; exact Eq|exact Hu].
  - cbn [c_chk map]. rewrite app_nil_r. unfold CheckpointModel.c_step in E. cbn [cd_db cd_next cd_parts cd_low] in E.
    destruct (nth_error ps p) as [[|t [|o0 [|? ?]]]|] eqn:En; try discriminate. injection E as <- <-. cbn [acked]. rewrite app_nil_r.
    destruct I as [R L Le T]. cbn [cd_db cd_parts] in *. constructor; cbn [cd_db cd_parts]; [exact R|exact L|rewrite upd_length; exact Le|].
    intros q u Hq Hu. apply upd_in_list in Hq. destruct Hq as [Hq|(q0 & Eq & ->)]; [apply (T q); assumption|].
    destruct Hu as [<-|[]]. apply (T [t; o0]); [eapply nth_error_In; exact En|left; reflexivity].
Qed.

Lemma creach_inv : forall lim c np h ks x, cfg_ok c -> creach lim c np h ks x -> CI lim c np h ks x.
Proof.
  intros lim c np h ks x Cok R. induction R as [|h ks x o y x' R IH A E]; [apply ci_new|]. apply (ci_step lim c np h ks x o y x' Cok IH A E).
Qed.
Lemma qreach_creach : forall lim c np h ks x, qreach lim c np h ks x -> creach lim c np h ks x.
Proof. intros lim c np h ks x R. induction R as [|h ks x o y x' R IH A Q E]; [constructor|]. econstructor; eassumption. Qed.

(** * The list *)

Lemma log_list : forall c h d, cfg_ok c -> reach c h d -> each (fun m => SS (m_chks m)) (g_files (d_log d)) ->
  exists l, lm_checkpoints (d_log d) = Ok l /\ SS l /\ (forall k, In k l <-> in_log d k /\ flushed d < k).
Proof.
  intros c h d Cok R Hss. assert (X := reach_extra _ _ _ _ Cok R).
  destruct (reach_inv _ _ _ _ Cok R) as [(n0 & pre & F & pt & H & Ht & Hl & HF & HFl & HG & HB)].
  rewrite (flushed_is hash part _ _ _ _ _ H (di_F_lt hash c h d _ _ _ _ H HFl)).
  unfold lm_checkpoints. rewrite (gi_last_flushed hash _ _ _ _ _ H), (gi_max_num hash _ _ _ _ _ H Hl).
  assert (HN := gi_nums _ _ _ _ _ _ H). assert (HM := gi_gmax _ _ _ _ _ _ H).
  rewrite (filter_all (fun f => between n0 (g_max (d_log d)) (f_num f))).
  - eexists. split; [reflexivity|]. split.
    + apply chks_sorted; [|apply (xi_chk _ X)|exact Hss].
      assert (Y := gi_asc _ _ _ _ _ _ H). rewrite (gi_hist _ _ _ _ _ _ H) in Y. unfold sorted_seq in *. rewrite map_app in Y. apply SS_app_inv in Y. apply Y.
    + intros k. rewrite in_flat_map. assert (Hpos : forall f, In f (g_files (d_log d)) -> In k (m_chks (f_mt f)) ->
        negb (valid_number (m_flushed (f_mt f)) && (k <=? m_flushed (f_mt f))) = (F <? k)).
      { intros f Hf Hk. destruct (xi_chk _ X f Hf k Hk) as (r & Hr & <-). rewrite <- (gi_flu _ _ _ _ _ _ H f r Hf Hr). unfold unflushed.
        destruct (valid_number (m_flushed (f_mt f))); cbn [negb andb orb]; [|reflexivity]. lia. }
      split.
      * intros (f & Hf & Hk). unfold mt_checkpoints in Hk. apply filter_In in Hk. destruct Hk as [Hk Hc]. apply andb_true_iff in Hc. destruct Hc as [Hc _].
        rewrite (Hpos f Hf Hk) in Hc. split; [exists f; auto|lia].
      * intros ((f & Hf & Hk) & HFk). exists f. split; [exact Hf|]. unfold mt_checkpoints. apply filter_In. split; [exact Hk|].
        rewrite (Hpos f Hf Hk). unfold valid_number. rewrite N.eqb_refl. cbn [negb]. rewrite orb_true_r, andb_true_r. lia.
  - intros f Hf. assert (Y := nums_in _ _ _ HN Hf). unfold between. lia.
Qed.

Lemma pending_is : forall c h x k, cfg_ok c -> reach c h (cd_db x) -> in_log (cd_db x) k ->
  (pending x k <-> flushed (cd_db x) < k).
Proof.
  intros c h x k Cok R Hin. destruct (reach_inv _ _ _ _ Cok R) as [(n0 & pre & F & pt & H & Ht & Hl & HF & HFl & HG & HB)].
  assert (M := flushed_mark hash _ _ _ _ _ H (di_F_lt hash c h (cd_db x) _ _ _ _ H HFl)). unfold pending.
  assert (X := reach_extra _ _ _ _ Cok R). destruct Hin as (f & Hf & Hk).
  assert (Kp : 1 <= k).
  { destruct (xi_chk _ X f Hf k Hk) as (r & Hr & <-). apply (gi_pos _ _ _ _ _ _ H). rewrite (gi_hist _ _ _ _ _ _ H). apply in_or_app; right. apply in_flat_map. exists f; auto. }
  destruct (F =? 0) eqn:E; rewrite M.
  - split; [intros _; lia|intros _; split; [exists f; auto|discriminate]].
  - split; [intros [_ Y]; apply Y; reflexivity|intros Y; split; [exists f; auto|intros F' E'; injection E' as <-; exact Y]].
Qed.

Lemma list_newest : forall lim c np h ks x, cfg_ok c -> creach lim c np h ks x -> (0 < np)%nat ->
  exists l, db_checkpoints lim x = Ok l /\ newest_n lim (fun k => pending x k \/ in_tables x k) l.
Proof.
  intros lim c np h ks x Cok R Hnp. destruct (creach_inv _ _ _ _ _ _ Cok R) as [Rd L Le T].
  assert (Hss : each (fun m => SS (m_chks m)) (g_files (d_log (cd_db x)))) by (intros f Hf; apply (L f Hf)).
  destruct (log_list c h (cd_db x) Cok Rd Hss) as (l & El & Sl & Il). unfold db_checkpoints. rewrite El.
  assert (Hps : cd_parts x <> []) by (intros e; rewrite e in Le; cbn in Le; lia).
  assert (Pend : forall k, In k l <-> pending x k).
  { intros k. rewrite Il. split.
    - intros [H1 H2]. apply (proj2 (pending_is c h x k Cok Rd H1) H2).
    - intros H. assert (H1 : in_log (cd_db x) k) by (destruct H as [(f & Hf & Hk) _]; exists f; auto). split; [exact H1|]. apply (proj1 (pending_is c h x k Cok Rd H1) H). }
  assert (Tin : forall k, in_tables x k -> (exists F, In (k, F) ks /\ F < k) /\ tab_rec (cd_db x) k).
  { intros k Hk. destruct (cd_parts x) as [|q ps] eqn:Eq; [congruence|]. unfold in_tables in Hk. rewrite Eq in Hk.
    destruct (Hk q (or_introl eq_refl)) as (t & s & Ht & Hks). destruct (T q t (or_introl eq_refl) Ht) as (_ & _ & A3). apply A3. apply in_map_iff. exists (k, s). auto. }
  assert (Tle : forall k, in_tables x k -> k <> 0 /\ k <= flushed (cd_db x)).
  { intros k Hk. destruct (Tin k Hk) as ((F0 & _ & HF0) & (r & Hr & Er)). split; [lia|]. rewrite <- Er. apply (tab_le c h (cd_db x) r Cok Rd Hr). }
  eexists. split; [reflexivity|]. destruct (Nat.ltb (length l) lim) eqn:Elt.
  - apply newest_last; [apply sort_uniq_sorted|]. intros k. rewrite sort_uniq_in, in_app_iff, Pend. split.
    + intros [H|H]; [left; exact H|right]. destruct (N.eq_dec k 0) as [->|nz].
      * exfalso. destruct (cd_parts x) as [|q ps]; [destruct H|]. cbn [tm_checkpoints] in H. apply filter_In in H. destruct H as [_ H]. discriminate.
      * intros q Hq. apply (proj1 (tm_checkpoints_spec _ k Hps nz) H q Hq).
    + intros [H|H]; [left; exact H|right]. apply tm_checkpoints_spec; [exact Hps|apply Tle; exact H|exact H].
  - assert (Hlen : (lim <= length (sort_uniq l))%nat) by (rewrite (sort_uniq_len l Sl); apply Nat.ltb_ge; exact Elt).
    destruct (newest_last lim (pending x) (sort_uniq l) (sort_uniq_sorted l)) as (B1 & B2 & B3 & B4); [intros k; rewrite sort_uniq_in; apply Pend|].
    split; [exact B1|]. split; [exact B2|]. split; [intros k Hk; left; apply B3, Hk|]. intros k [Hk|Hk]; [apply B4, Hk|right].
    split; [unfold last_n; rewrite skipn_length; lia|]. intros z Hz. assert (Y := B3 z Hz). apply Pend, Il in Y. destruct (Tle k Hk) as [_ Z]. lia.
Qed.

Lemma list_made : forall lim c np h ks x l, cfg_ok c -> creach lim c np h ks x -> (0 < np)%nat -> db_checkpoints lim x = Ok l ->
  forall k, In k l -> exists F, In (k, F) ks /\ F < k.
Proof.
  intros lim c np h ks x l Cok R Hnp El k Hk. destruct (list_newest _ _ _ _ _ _ Cok R Hnp) as (l' & El' & (_ & _ & B3 & _)).
  assert (l' = l) by congruence. subst l'. destruct (creach_inv _ _ _ _ _ _ Cok R) as [Rd L Le T].
  destruct (B3 k Hk) as [H|H].
  - destruct H as [(f & Hf & Hkf) HF]. destruct (L f Hf) as [_ L2]. destruct (L2 k Hkf) as (F & HF1 & HF2). exists F. split; [exact HF1|].
    assert (Hl : in_log (cd_db x) k) by (exists f; auto). assert (Y := proj1 (pending_is c h x k Cok Rd Hl)). assert (Z : pending x k) by (split; [exists f; auto|exact HF]). specialize (Y Z). lia.
  - destruct (cd_parts x) as [|q ps] eqn:Eq; [cbn in Le; lia|]. unfold in_tables in H. rewrite Eq in H.
    destruct (H q (or_introl eq_refl)) as (t & s & Ht & Hks). destruct (T q t (or_introl eq_refl) Ht) as (_ & _ & A3).
    apply (A3 k). apply in_map_iff. exists (k, s). auto.
Qed.

(** * Without compactions nothing is lost *)

(** [made k]: delivered by checkpoint() when its record was not flushed. *)
Definition made (ks : list (N * N)) (k : N) : Prop := exists F, In (k, F) ks /\ F < k.

Record QI (lim : nat) (c : cfg) (np : nat) (h : list rec) (ks : list (N * N)) (x : cdb) : Prop := {
  qi_ci : CI lim c np h ks x;
  qi_all : forall k, made ks k -> in_log (cd_db x) k \/ k <= flushed (cd_db x);
  qi_one : forall q, In q (cd_parts x) -> exists t, q = [t] /\ newest_n lim (fun k => made ks k /\ k <= flushed (cd_db x)) (keys t)
}.

Lemma tab_batch_newest : forall lim mine mark cs b P t, newest_n lim P (keys t) -> SS cs -> mark = 0 ->
  newest_n lim (fun k => P k \/ In k cs) (keys (tab_batch lim mine mark cs b t)).
Proof.
  intros lim mine mark cs b P t H Hs ->. destruct (set_docs_spec lim mine cs b 0 P t H Hs) as (Q & J1 & J2 & J3 & J4).
  unfold tab_batch, drop_old. cbn [t_chk]. rewrite (filter_all (fun e => negb ((fst e <? 0) || (snd e <? 0)))); [|intros e _; lia].
  apply newest_ext with (P := Q); [|exact J1]. intros k. split; [apply J3|]. intros [Hk|Hk]; [apply J2, Hk|apply J4; [exact Hk|lia]].
Qed.

Lemma qi_step : forall lim c np h ks x o y x', cfg_ok c -> QI lim c np h ks x -> callowed c h x o -> quiet h o ->
  c_step lim c o x = Some (y, x') -> QI lim c np (h ++ acked y) (ks ++ map (fun k => (k, flushed_of x)) (c_chk o x)) x'.
Proof.
  intros lim c np h ks x o y x' Cok [I A1 A2] A Q E. assert (I' := ci_step _ _ _ _ _ _ _ _ _ Cok I A E).
  destruct o as [o mark|p|p fresh]; [|destruct Q|destruct Q]. destruct x as [d nx ps lw]. unfold flushed_of in *.
  rewrite c_chk_is in *. cbn [cd_db callowed] in *. destruct I as [R L Le T]. cbn [cd_db cd_parts] in *.
  assert (Hss : each (fun m => SS (m_chks m)) (g_files (d_log d))) by (intros f Hf; apply (L f Hf)).
  assert (Es : exists d', step c o d = Some (y, d') /\ cd_db x' = d' /\
    (cd_parts x' = ps /\ (forall fo seq, o = OFlush fo seq -> flushed d' = flushed d) \/
     exists fo seq rs cs, o = OFlush fo seq /\ (forall p, mark p = 0) /\ fst (lm_flush fo seq (d_log d)) = Ok (rs, cs) /\
       cd_parts x' = set_parts lim (mine_of part (N.of_nat (length ps))) mark cs rs 0 ps)).
  { unfold CheckpointModel.c_step in E. cbn [cd_db cd_next cd_parts cd_low] in E.
    destruct o as [full r|b| | |bad|fo seq|out0];
      match type of E with context [DbModel.step hash c ?o d] => destruct (DbModel.step hash c o d) as [[y0 d']|] eqn:Es; [|discriminate] end;
      injection E as <- <-; exists d'; (split; [first [exact Es | reflexivity]|]); (split; [reflexivity|]);
      try (left; split; [reflexivity|intros; discriminate]).
    destruct (lm_flush fo seq (d_log d)) as [z g] eqn:Ef. cbn [fst cd_parts]. destruct z as [[[|r rs] cs]|e|].
    - left. split; [reflexivity|]. intros fo' seq' Eo. injection Eo as <- <-.
      destruct (reach_inv _ _ _ _ Cok R) as [(n0 & pre & F & pt & H & Ht & Hl & HF & HFl & HG & HB)].
      destruct (flush_facts hash c h d fo seq n0 pre F pt H Hl HB A) as (ro & g1 & Efl & R1). rewrite Ef in Efl. injection Efl as <- ->.
      destruct R1 as (n1 & pre1 & s & Hs & Hs1 & Hsl & Ers & H1 & _).
      unfold DbModel.step in Es. rewrite Ef in Es. injection Es as _ <-. cbn [d_log].
      rewrite (flushed_is hash part _ _ _ _ _ H (di_F_lt hash c h d _ _ _ _ H HFl)).
      rewrite (flushed_is hash part _ _ _ _ _ (gi_bar hash _ _ _ _ _ (g_bar (d_log d)) H1)) by (assert (Y := gi_lastseq_lt hash c h d _ _ _ _ H); lia).
      destruct (N.eq_dec s F) as [e|n]; [exact e|exfalso].
      destruct (gi_F _ _ _ _ _ _ H1) as (z & Hz & Ez); [lia|].
      assert (Hin : In z (h ++ pt)) by (rewrite (gi_hist _ _ _ _ _ _ H1); apply in_or_app; right; exact Hz).
      assert (Hz2 : In z (filter (fun r => (F <? r_seq r) && (r_seq r <=? s)) (h ++ pt))) by (apply filter_In; split; [exact Hin|lia]).
      rewrite <- Ers in Hz2. destruct Hz2.
    - right. exists fo, seq, (r :: rs), cs. split; [reflexivity|]. split; [exact Q|]. rewrite Ef. split; reflexivity.
    - left. split; [reflexivity|]. intros fo' seq' Eo. injection Eo as <- <-. unfold DbModel.step in Es. rewrite Ef in Es. injection Es as _ <-. cbn [d_log].
      destruct (reach_inv _ _ _ _ Cok R) as [(n0 & pre & F & pt & H & Ht & Hl & HF & HFl & HG & HB)].
      destruct (flush_facts hash c h d fo seq n0 pre F pt H Hl HB A) as (ro & g1 & Efl & R1). rewrite Ef in Efl. injection Efl as <- ->. rewrite R1. reflexivity.
    - left. split; [reflexivity|]. intros fo' seq' Eo. injection Eo as <- <-.
      destruct (reach_inv _ _ _ _ Cok R) as [(n0 & pre & F & pt & H & Ht & Hl & HF & HFl & HG & HB)].
      destruct (flush_facts hash c h d fo seq n0 pre F pt H Hl HB A) as (ro & g1 & Efl & R1). rewrite Ef in Efl. injection Efl as <- ->. destruct R1. }
  destruct Es as (d' & Es & Ed & Hcase). destruct (step_grows _ _ _ _ _ _ Cok R A Es) as [Tg Fg].
  constructor; [exact I'| |].
  - rewrite Ed. intros k (F0 & HF0 & HF02). apply in_app_or in HF0. destruct HF0 as [HF0|HF0].
    + destruct (A1 k (ex_intro _ F0 (conj HF0 HF02))) as [Hl|Hl]; [apply (log_kept c h d o y d' k Cok R A Es Hss Hl)|right; lia].
    + apply in_map_iff in HF0. destruct HF0 as (k' & Ek & Hk'). injection Ek as -> <-.
      left. destruct o as [full r|b| | |bad|fo seq|out0]; try destruct Hk'. apply (chk_made c h d out0 k Cok R Q Hk' y d' Es).
  - rewrite Ed.
    (* flushed mark unchanged except by a flush *)
    assert (Fl : (forall fo seq, o <> OFlush fo seq) -> flushed d' = flushed d).
    { intros Hno. assert (Htab : d_tab d' = d_tab d).
      { destruct o as [full r|b| | |bad|fo seq|out0]; unfold DbModel.step in Es.
        - destruct (d_bat d); [discriminate|]. destruct (lm_set hash c full r (d_log d)) as [z g]. injection Es as _ <-. reflexivity.
        - destruct (d_bat d); [discriminate|]. destruct (c_ro c); [injection Es as _ <-; reflexivity|]. destruct b; [injection Es as _ <-; reflexivity|].
          destruct (batch_valid _ _ _); injection Es as _ <-; reflexivity.
        - destruct (d_bat d) as [[[|r t] done]|]; try discriminate. destruct (batch_put hash c r (d_log d)) as [z g]. destruct z; injection Es as _ <-; reflexivity.
        - destruct (d_bat d) as [[[|r t] done]|]; try discriminate. injection Es as _ <-. reflexivity.
        - destruct (lm_sync bad (d_log d)) as [z g]. injection Es as _ <-. reflexivity.
        - exfalso. apply (Hno fo seq). reflexivity.
        - destruct (lm_checkpoint out0 (d_log d)) as [z g]. injection Es as _ <-. reflexivity. }
      assert (R' : reach c (h ++ acked y) d') by (eapply reach_step; eassumption).
      apply N.le_antisymm; [|exact Fg].
      destruct (reach_inv _ _ _ _ Cok R') as [(n0 & pre & F & pt & H & Ht & Hl & HF & HFl & HG & HB)].
      rewrite (flushed_is hash part _ _ _ _ _ H (di_F_lt hash c _ d' _ _ _ _ H HFl)). destruct (N.eq_dec F 0) as [->|n]; [lia|].
      destruct (gi_F _ _ _ _ _ _ H n) as (r & Hr & Er). assert (Hh : In r ((h ++ acked y) ++ pt)) by (rewrite (gi_hist _ _ _ _ _ _ H); apply in_or_app; right; exact Hr).
      assert (Hin : In r (d_tab d')) by (rewrite Ht; apply filter_In; split; [apply (in_part hash _ _ _ _ _ _ _ H Hh); lia|lia]).
      rewrite Htab in Hin. rewrite <- Er. apply (tab_le c h d r Cok R Hin). }
    destruct Hcase as [[Ep Hfl]|(fo & seq & rs & cs & Eo & Hm & Efl & Ep)]; rewrite Ep.
    + (* the tables are as before *)
      assert (Ef : flushed d' = flushed d).
      { destruct o as [full r|b| | |bad|fo seq|out0]; try (apply Fl; intros; discriminate). apply (Hfl fo seq eq_refl). }
      intros q Hq. destruct (A2 q Hq) as (t & -> & Ht). exists t. split; [reflexivity|]. rewrite Ef. apply newest_ext with (2 := Ht).
      intros k. split; intros [(F0 & HF0 & HF02) Hle]; (split; [|exact Hle]).
      * exists F0. split; [apply in_or_app; left; exact HF0|exact HF02].
      * apply in_app_or in HF0. destruct HF0 as [HF0|HF0]; [exists F0; auto|]. apply in_map_iff in HF0. destruct HF0 as (k' & Ek & _). injection Ek as -> <-. lia.
    + subst o. cbn [new_chk map]. rewrite app_nil_r.
      destruct (lm_flush fo seq (d_log d)) as [z g] eqn:Ef. cbn [fst] in Efl. subst z.
      destruct (flush_checkpoints hash part c h d fo seq rs cs g Cok R A Ef Hss) as (s & S0 & Es2 & S1 & S2 & S3 & S4 & S5 & S6).
      assert (Edl : flushed d' = s) by (unfold DbModel.step in Es; rewrite Ef in Es; injection Es as _ <-; exact Es2).
      rewrite Edl. unfold flushed_of in S0. cbn [cd_db] in S0.
      assert (W : forall ps0 p, (forall q, In q ps0 -> exists t, q = [t] /\ newest_n lim (fun k => made ks k /\ k <= flushed d) (keys t)) ->
        forall q, In q (set_parts lim (mine_of part (N.of_nat (length ps))) mark cs rs p ps0) ->
        exists t, q = [t] /\ newest_n lim (fun k => made ks k /\ k <= s) (keys t)).
      { induction ps0 as [|q0 ps0 IH]; intros p H0 q Hq; cbn [set_parts] in Hq; [destruct Hq|]. destruct Hq as [<-|Hq].
        - destruct (H0 q0 (or_introl eq_refl)) as (t & -> & Ht). exists (tab_batch lim (mine_of part (N.of_nat (length ps)) p) (mark p) cs rs t). split; [reflexivity|].
          apply newest_ext with (2 := tab_batch_newest lim (mine_of part (N.of_nat (length ps)) p) (mark p) cs rs _ t Ht S1 (Hm p)).
          intros k. split.
          + intros [[H1 H2]|H1]; [split; [exact H1|lia]|]. apply S2 in H1. destruct H1 as ((f & Hf & Hk) & HFk & Hks). split; [|exact Hks].
            destruct (L f Hf) as [_ L2]. destruct (L2 k Hk) as (F0 & HF0 & HF02). exists F0. split; [exact HF0|lia].
          + intros [H1 H2]. destruct (N.le_gt_cases k (flushed d)) as [Hle|Hgt]; [left; split; assumption|right]. apply S2.
            destruct (A1 k H1) as [Hl|Hl]; [|lia]. split; [exact Hl|lia].
        - apply (IH (p + 1)); [intros q1 Hq1; apply H0; right; exact Hq1|exact Hq]. }
      apply W. exact A2.
Qed.

Lemma qi_new : forall lim c np, QI lim c np [] [] (cdb_new c np).
Proof.
  intros lim c np. constructor; [apply ci_new|intros k (F & [] & _)|]. cbn [cdb_new cd_parts cd_db].
  assert (W : forall n id q, In q (new_parts n id) -> exists t, q = [t] /\ t_chk t = []).
  { induction n as [|n IH]; intros id q Hq; cbn [new_parts] in Hq; [destruct Hq|]. destruct Hq as [<-|Hq]; [eexists; split; reflexivity|apply (IH _ _ Hq)]. }
  intros q Hq. destruct (W _ _ _ Hq) as (t & -> & Et). exists t. split; [reflexivity|]. rewrite Et. split; [constructor|]. split; [cbn; lia|].
  split; [intros k []|]. intros k [(F & [] & _) _].
Qed.
Lemma qreach_inv : forall lim c np h ks x, cfg_ok c -> qreach lim c np h ks x -> QI lim c np h ks x.
Proof.
  intros lim c np h ks x Cok R. induction R as [|h ks x o y x' R IH A Q E]; [apply qi_new|]. apply (qi_step lim c np h ks x o y x' Cok IH A Q E).
Qed.

Lemma list_complete : forall lim c np h ks x, cfg_ok c -> qreach lim c np h ks x -> (0 < np)%nat ->
  exists l, db_checkpoints lim x = Ok l /\ newest_n lim (fun k => exists F, In (k, F) ks /\ F < k) l.
Proof.
  intros lim c np h ks x Cok R Hnp. assert (R2 := qreach_creach _ _ _ _ _ _ R). destruct (qreach_inv _ _ _ _ _ _ Cok R) as [I A1 A2].
  destruct (list_newest _ _ _ _ _ _ Cok R2 Hnp) as (l & El & (B1 & B2 & B3 & B4)). exists l. split; [exact El|].
  split; [exact B1|]. split; [exact B2|]. split; [intros k Hk; apply (list_made _ _ _ _ _ _ _ Cok R2 Hnp El k Hk)|].
  intros k Hk. destruct I as [Rd L Le T]. destruct (N.le_gt_cases k (flushed (cd_db x))) as [Hle|Hgt].
  - (* flushed *)
    destruct (cd_parts x) as [|q0 ps] eqn:Eps; [cbn in Le; lia|].
    destruct (A2 q0 (or_introl eq_refl)) as (t0 & E0 & N0).
    assert (Same : forall q, In q (q0 :: ps) -> exists t, q = [t] /\ keys t = keys t0).
    { intros q Hq. destruct (A2 q Hq) as (t & -> & Nt). exists t. split; [reflexivity|]. apply (newest_unique _ _ _ _ Nt N0). }
    assert (Tab : forall z, In z (keys t0) -> in_tables x z).
    { intros z Hz q Hq. rewrite Eps in Hq. destruct (Same q Hq) as (t & -> & Et). rewrite <- Et in Hz. apply in_map_iff in Hz. destruct Hz as ([z' s] & Ez & Hzs).
      cbn [fst] in Ez. subst z'. exists t, s. split; [left; reflexivity|exact Hzs]. }
    destruct N0 as (C1 & C2 & C3 & C4). destruct (C4 k (conj Hk Hle)) as [Hin|[Hful Hgr]]; [apply B4; right; apply Tab, Hin|].
    (* the tables are full of newer ones *)
    right. destruct (Forall_Exists_dec (fun z => In z l) (fun z => in_dec N.eq_dec z l) (keys t0)) as [All|Ex].
    + rewrite Forall_forall in All. assert (ND := SS_nodup _ C1).
      assert (Hlen := NoDup_incl_length ND All). split; [lia|]. intros z Hz. apply Hgr.
      apply (NoDup_length_incl ND (l' := l)); [lia|exact All|exact Hz].
    + apply Exists_exists in Ex. destruct Ex as (z & Hz & Hnz). destruct (B4 z (or_intror (Tab z Hz))) as [Hin|[Hl2 Hg2]]; [congruence|].
      split; [exact Hl2|]. intros u Hu. assert (Y := Hgr z Hz). specialize (Hg2 u Hu). lia.
  - apply B4. left. destruct (A1 k Hk) as [Hl|Hl]; [|lia]. apply (proj2 (pending_is c h x k Cok Rd Hl) Hgt).
Qed.

End Proofs.
