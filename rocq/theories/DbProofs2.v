(** The database handle, second part: checkpoints, marks, snapshots, numbers (proofs; statements
    in DbProps.v). *)
From Verif Require Import Base KeyModel KeyProofs LogFormatModel BloomModel BloomProofs MemTableModel MemTableProofs
  LogMgrModel LogMgrProofs LogMgrProofs2 LogMgrProofs3 DbModel DbProofs.
From Coq Require Import Sorted.
Local Open Scope N_scope.

Section Proofs.
Variable hash : key -> N * N.
Notation GI := (GI hash).
Notation FI := (FI hash).
Notation DI := (DI hash).
Notation step := (step hash).
Notation reach := (reach hash).
Notation cont := (cont hash).

(** * Checkpoints are numbers of records; marks stay below the barrier *)

Definition chk_in (f : lgf) : Prop := forall c, In c (m_chks (f_mt f)) -> exists r, In r (fh f) /\ r_seq r = c.

Lemma add_seq_keeps : forall r mx l x, In x l -> exists y, In y (add_seq r mx l) /\ r_seq y = r_seq x.
Proof.
  intros r mx l x Hx.
  assert (I1 : exists y, In y (seq_insert r l) /\ r_seq y = r_seq x).
  { exists x. split; [|reflexivity]. induction l as [|z l IH]; [destruct Hx|]. cbn [seq_insert].
    destruct (r_seq z <? r_seq r); [|right; exact Hx]. destruct Hx as [->|Hx]; [left; reflexivity|right; apply IH; exact Hx]. }
  assert (I2 : exists y, In y (seq_replace r l) /\ r_seq y = r_seq x).
  { clear I1. induction l as [|z l IH]; [destruct Hx|]. cbn [seq_replace]. destruct (r_seq z =? r_seq r) eqn:E.
    - destruct Hx as [->|Hx]; [exists r; split; [left; reflexivity|lia]|exists x; split; [right; exact Hx|reflexivity]].
    - destruct Hx as [->|Hx]; [exists x; split; [left; reflexivity|reflexivity]|]. destruct (IH Hx) as (y & H1 & H2). exists y. split; [right; exact H1|exact H2]. }
  unfold add_seq. destruct (negb (r_seq r =? NIL) && (r_seq r <=? mx)); [|exact I1]. destruct (seq_find (r_seq r) l); assumption.
Qed.

Lemma lf_set_eff : forall r m o m', lf_set hash false r m = (o, m') ->
  m_chks m' = m_chks m /\ m_synced m' = m_synced m /\ m_flushed m' = m_flushed m /\
  forall x, In x (m_seq m) -> exists y, In y (m_seq m') /\ r_seq y = r_seq x.
Proof.
  intros r m o m' E. unfold lf_set in E. rewrite andb_false_r in E. cbn [andb] in E.
  assert (D0 : forall x, In x (m_seq m) -> exists y, In y (m_seq m) /\ r_seq y = r_seq x) by (intros x Hx; exists x; auto).
  destruct (mt_put hash false r m) as [[r' m2]|e|] eqn:Ep; injection E as _ <-; [|tauto|tauto].
  unfold mt_put in Ep. destruct (assign_seq false _ m) as [[[s al] mi]| |]; try discriminate.
  destruct (is_cmd _); [|destruct (add_key _ _ _ _) as [[? ?]| |]; try discriminate]; injection Ep as <- <-; cbn;
    (split; [reflexivity|]; split; [reflexivity|]; split; [reflexivity|]; intros x Hx; apply add_seq_keeps; exact Hx).
Qed.

Lemma upd_in : forall n fn fs x, In x (upd_file n fn fs) -> In x fs \/ exists y, In y fs /\ f_num y = n /\ x = fn y.
Proof.
  intros n fn fs x H. apply in_map_iff in H. destruct H as (y & E & Hy). destruct (f_num y =? n) eqn:En; [right|left; congruence].
  exists y. split; [exact Hy|]. split; [lia|congruence].
Qed.


(** A property of in-memory tables kept by every write. *)
Definition put_stable (P : mt -> Prop) : Prop := forall m r o m', P m -> lf_set hash false r m = (o, m') -> P m'.
Definition each (P : mt -> Prop) (fs : list lgf) : Prop := forall f, In f fs -> P (f_mt f).

Lemma each_upd : forall P n fn fs, each P fs -> (forall f, In f fs -> f_num f = n -> P (f_mt (fn f))) -> each P (upd_file n fn fs).
Proof.
  intros P n fn fs H Hn f Hf. apply upd_in in Hf. destruct Hf as [Hf|(y & Hy & En & ->)]; [apply H; exact Hf|apply Hn; assumption].
Qed.

Lemma file_set_keeps : forall P c n r g o g', put_stable P -> c_ow c = false -> each P (g_files g) ->
  file_set hash c n r g = (o, g') -> each P (g_files g').
Proof.
  intros P c n r g o g' HP Ho H E. unfold file_set in E. destruct (file_at n (g_files g)) as [f0|] eqn:Ea; [|injection E as _ <-; exact H].
  rewrite Ho in E. destruct (lf_set hash false r (f_mt f0)) as [o1 m'] eqn:El. injection E as _ <-. cbn [with_files g_files].
  apply each_upd; [exact H|]. intros f _ _. cbn [with_mt f_mt]. exact (HP _ r o1 m' (H f0 (proj1 (file_at_in _ _ _ Ea))) El).
Qed.

Lemma file_set_bar : forall c n r g o g', file_set hash c n r g = (o, g') -> g_bar g' = g_bar g.
Proof.
  intros c n r g o g' E. unfold file_set in E. destruct (file_at n (g_files g)); [|injection E as _ <-; reflexivity].
  destruct (lf_set _ _ _ _). injection E as _ <-. reflexivity.
Qed.

Lemma lm_set_keeps : forall P c full r g o g', put_stable P -> (forall nb s, P (mt_init nb s)) -> c_ow c = false ->
  each P (g_files g) -> lm_set hash c full r g = (o, g') -> each P (g_files g').
Proof.
  intros P c full r g o g' HP HI Ho H E. unfold lm_set in E.
  destruct (c_ro c); [injection E as _ <-; exact H|]. destruct (r_seq r =? 0); [injection E as _ <-; exact H|].
  destruct (max_num g) as [mx|]; [|injection E as _ <-; exact H].
  rewrite Ho, andb_false_r in E.
  destruct (file_at mx (g_files g)) as [f|]; [|injection E as _ <-; exact H].
  cbn [negb] in E. rewrite orb_true_l, andb_true_r in E.
  set (g1 := if negb (valid_to_write c full f) then add_new_file c f g else g) in *.
  assert (H1 : each P (g_files g1)).
  { unfold g1. destruct (negb (valid_to_write c full f)); [|exact H]. intros x Hx. cbn [add_new_file g_files] in Hx.
    apply in_app_or in Hx. destruct Hx as [Hx|[<-|[]]]; [apply H; exact Hx|apply HI]. }
  clearbody g1. set (n1 := if negb (valid_to_write c full f) then g_max g1 else mx) in *. clearbody n1.
  destruct (file_set hash c n1 r g1) as [o1 g2] eqn:Es. assert (H2 := file_set_keeps P c n1 r g1 o1 g2 HP Ho H1 Es).
  destruct o1 as [r'| |]; [|injection E as _ <-; exact H2|injection E as _ <-; exact H2].
  apply (f_equal snd) in E; cbn [snd] in E. rewrite <- E. destruct (file_at n1 (g_files g2)) as [f2|]; [|exact H2].
  destruct (f_imm f2); exact H2.
Qed.

Lemma sync_loop_keeps : forall P fuel n to bar bad last fs o fs', each P fs ->
  (forall m s, P m -> (s = NIL /\ is_synced m = true \/ s = flush_out (if bar =? 0 then NIL else bar) m) -> P (lf_set_synced s m)) ->
  sync_loop fuel n to bar bad last fs = (o, fs') -> each P fs'.
Proof.
  intros P fuel. induction fuel as [|fuel IH]; intros n to bar bad last fs o fs' H HP E; cbn [sync_loop] in E; [injection E as _ <-; exact H|].
  destruct (to <? n); [injection E as _ <-; exact H|]. destruct (file_at n fs) as [f|] eqn:Ea; [|apply (IH _ _ _ _ _ _ _ _ H HP E)].
  destruct (bad n); [injection E as _ <-; exact H|]. apply IH in E; [exact E| |exact HP]. apply each_upd; [exact H|]. intros y _ _.
  assert (X : P (lf_set_synced (if f_imm f && is_synced (f_mt f) then NIL else flush_out (if bar =? 0 then NIL else bar) (f_mt f)) (f_mt f))).
  { apply HP; [apply H, (proj1 (file_at_in _ _ _ Ea))|]. destruct (f_imm f && is_synced (f_mt f)) eqn:Ei; [left|right; reflexivity]. apply andb_true_iff in Ei. tauto. }
  destruct (n <? to); exact X.
Qed.

Lemma lm_sync_keeps : forall P bad g o g', each P (g_files g) ->
  (forall m s, P m -> (s = NIL /\ is_synced m = true \/ s = flush_out (if g_bar g =? 0 then NIL else g_bar g) m) -> P (lf_set_synced s m)) ->
  lm_sync bad g = (o, g') -> each P (g_files g') /\ g_bar g' = g_bar g.
Proof.
  intros P bad g o g' H HP E. unfold lm_sync in E. destruct (max_num g) as [to|]; [|injection E as _ <-; auto].
  destruct (match last_synced g with Some x => Some x | None => min_num g end) as [from|]; [|injection E as _ <-; auto].
  destruct (sync_loop _ _ _ _ _ _ _) as [x fs] eqn:Es. assert (H1 := sync_loop_keeps P _ _ _ _ _ _ _ _ _ H HP Es).
  destruct x as [l| |]; injection E as _ <-; auto.
Qed.

Lemma lm_flush_keeps : forall P o seq g x g', each P (g_files g) ->
  (forall m s, P m -> P (lf_set_flushed s m)) -> (o_beyond o = true -> forall m, P m -> P (lf_set_synced seq m)) ->
  (seq <> NIL \/ forall m s, P m -> P (lf_set_synced s m)) ->
  g_bar g < NIL -> lm_flush o seq g = (x, g') -> each P (g_files g') /\ g_bar g' = g_bar g.
Proof.
  intros P o seq g x g' H HF HS Hn Hbar E. unfold lm_flush in E. destruct (seq =? 0); [injection E as _ <-; auto|].
  set (to0 := if o_beyond o then g_max g else g_ls g) in *. destruct (to0 =? NIL); [injection E as _ <-; auto|].
  destruct (last_flushed g) as [from|]; [|injection E as _ <-; auto].
  set (to1 := if negb (o_limit o =? 0) && (o_limit o <? to0 - from + 1) then from + o_limit o - 1 else to0) in *. clearbody to1.
  match type of E with context [match ?q with Ok _ => _ | Fail _ => _ | Undef => _ end = _] => destruct q as [[s to]|e|] eqn:Eq end;
    [|injection E as _ <-; auto|injection E as _ <-; auto].
  assert (Hs : seq <> NIL -> s = seq).
  { intros Hne. replace ((if negb (g_bar g =? 0) && (g_bar g <? seq) then g_bar g else seq) =? NIL) with false in Eq.
    - injection Eq as <- _. reflexivity.
    - destruct (negb (g_bar g =? 0) && (g_bar g <? seq)); lia. }
  destruct (file_at from (g_files g)) as [ff|]; [|injection E as _ <-; auto].
  destruct (valid_number (m_flushed (f_mt ff)) && (seq <=? m_flushed (f_mt ff))); [injection E as _ <-; auto|].
  match type of E with context [match ?q with Some _ => _ | None => _ end = _] => destruct q as [[rs cs]|] end; [|injection E as _ <-; auto].
  apply (f_equal snd) in E; cbn [snd] in E. subst g'. cbn [g_files g_bar]. split; [|reflexivity].
  intros f Hf. apply filter_In in Hf. destruct Hf as [Hf _]. destruct (o_purge o).
  - revert f Hf. apply each_upd; [exact H|]. intros f Hf _. apply HF, H, Hf.
  - apply in_map_iff in Hf. destruct Hf as (y & Ey & Hy). destruct (between from to (f_num y)); [|subst; apply H; exact Hy].
    subst f. cbn [mark_file with_mt f_mt]. apply HF. destruct (o_beyond o) eqn:Eb; [|apply H; exact Hy].
    destruct Hn as [Hn|Hn]; [rewrite (Hs Hn); apply HS; [reflexivity|apply H; exact Hy]|apply Hn, H, Hy].
Qed.

(** Checkpoints. *)
Definition chk_ok (m : mt) : Prop := forall c, In c (m_chks m) -> exists r, In r (m_seq m) /\ r_seq r = c.
(** Synced marks under a barrier. *)
Definition syn_le (b : N) (m : mt) : Prop := m_synced m = NIL \/ m_synced m <= b.

Lemma chk_put : put_stable chk_ok.
Proof.
  intros m r o m' H E. destruct (lf_set_eff _ _ _ _ E) as (E1 & _ & _ & E2). intros c Hc. rewrite E1 in Hc.
  destruct (H c Hc) as (x & Hx & <-). destruct (E2 x Hx) as (y & H1 & H2). exists y. auto.
Qed.
Lemma syn_put : forall b, put_stable (syn_le b).
Proof. intros b m r o m' H E. destruct (lf_set_eff _ _ _ _ E) as (_ & E1 & _). unfold syn_le. rewrite E1. exact H. Qed.
Lemma chk_synced : forall m s, chk_ok m -> chk_ok (lf_set_synced s m).
Proof. intros m s H. unfold lf_set_synced. destruct (negb _); exact H. Qed.
Lemma chk_flushed : forall m s, chk_ok m -> chk_ok (lf_set_flushed s m).
Proof. intros m s H. unfold lf_set_flushed. destruct (negb _); exact H. Qed.
Lemma syn_flushed : forall b m s, syn_le b m -> syn_le b (lf_set_flushed s m).
Proof. intros b m s H. unfold lf_set_flushed. destruct (negb _); exact H. Qed.
Lemma syn_synced : forall b m s, syn_le b m -> s <= b -> syn_le b (lf_set_synced s m).
Proof.
  intros b m s H Hs. unfold lf_set_synced. destruct (negb _); [exact H|]. right. cbn [set_marks m_synced].
  destruct (m_max m <? s) eqn:E; lia.
Qed.

Record XI (d : db) : Prop := {
  xi_chk : each chk_ok (g_files (d_log d));
  xi_syn : d_bat d <> None -> each (syn_le (g_bar (d_log d))) (g_files (d_log d))
}.

Lemma xi_new : forall c, XI (db_new c).
Proof. intros c. constructor; [|cbn; congruence]. intros f [<-|[]] x []. Qed.

Lemma step_extra : forall c h d o x d', cfg_ok c -> DI c h d -> XI d -> allowed c h d o -> step c o d = Some (x, d') -> XI d'.
Proof.
  intros c h d o x d' Cok D X A E. assert (Ho := co_ow _ Cok). destruct X as [X1 X2].
  destruct D as [(n0 & pre & F & part & H & Ht & Hl & HF & HFl & HG & HB)].
  assert (Hll := gi_lastseq_lt hash c h d _ _ _ _ H).
  assert (Hsort := proj1 (gi_pre_part _ _ _ _ _ _ _ H)).
  destruct o as [full r|b| | |bad|fo seq|out0].
  - unfold DbModel.step in E. destruct (d_bat d) as [[? ?]|] eqn:Eb; [discriminate|].
    destruct (lm_set hash c full r (d_log d)) as [y g] eqn:Es. injection E as _ <-. constructor; cbn [d_log d_bat]; [|congruence].
    apply (lm_set_keeps chk_ok c full r (d_log d) y g chk_put (fun _ _ x => fun e => match e with end) Ho X1 Es).
  - unfold DbModel.step in E. destruct (d_bat d) as [[? ?]|] eqn:Eb; [discriminate|]. rewrite (co_ro _ Cok) in E.
    destruct HB as [-> Hbar]. rewrite app_nil_r in *.
    destruct b as [|r0 b0] eqn:Ebb; [injection E as _ <-; constructor; [exact X1|congruence]|].
    destruct (batch_valid _ _ _); injection E as _ <-; constructor; cbn [d_log d_bat]; try congruence; try exact X1.
    intros _ f Hf. cbn [batch_begin with_bar g_bar g_files] in *.
    rewrite (lm_max_seq_spec hash _ _ _ _ _ H Hl), Hbar. change (0 =? 0) with true. cbn [negb].
    destruct A as (A1 & _). destruct h as [|z t] eqn:Eh; [congruence|]. rewrite <- Eh in *.
    destruct (N.eq_dec (m_synced (f_mt f)) NIL) as [e|n]; [left; exact e|right].
    destruct (fi_syn _ _ (gi_fi _ _ _ _ _ _ H f Hf) n) as (y & Hy & <-). apply lastseq_ge; [exact Hsort|].
    rewrite (gi_hist _ _ _ _ _ _ H). apply in_or_app; right. apply in_flat_map. exists f; auto.
  - unfold DbModel.step in E. destruct (d_bat d) as [[[|r t] done]|] eqn:Eb; try discriminate.
    destruct (batch_put hash c r (d_log d)) as [y g] eqn:Ep. unfold batch_put in Ep.
    assert (Q : each chk_ok (g_files g) /\ each (syn_le (g_bar g)) (g_files g)).
    { destruct (max_num (d_log d)) as [mx|]; [|injection Ep as _ <-; split; [exact X1|apply X2; congruence]].
      split; [apply (file_set_keeps _ _ _ _ _ _ _ chk_put Ho X1 Ep)|]. rewrite (file_set_bar _ _ _ _ _ _ Ep).
      apply (file_set_keeps _ _ _ _ _ _ _ (syn_put _) Ho (X2 ltac:(congruence)) Ep). }
    destruct Q as [Q1 Q2].
    destruct y as [r'|e|]; injection E as _ <-; constructor; cbn [d_log d_bat]; try congruence; try exact Q1. intros _; exact Q2.
  - unfold DbModel.step in E. destruct (d_bat d) as [[[|r t] done]|] eqn:Eb; try discriminate. injection E as _ <-.
    constructor; cbn [d_log d_bat]; [exact X1|congruence].
  - unfold DbModel.step in E. destruct (lm_sync bad (d_log d)) as [y g] eqn:Es. injection E as _ <-. constructor; cbn [d_log d_bat].
    + apply (lm_sync_keeps chk_ok bad (d_log d) y g X1); [intros m s Hm _; apply chk_synced; exact Hm|exact Es].
    + intros Hb. specialize (X2 Hb).
      destruct (d_bat d) as [[todo done]|]; [|congruence]. destruct HB as [-> (B1 & B2 & B3 & B4 & B5 & B6)].
      assert (Hbp : g_bar (d_log d) <> 0).
      { rewrite B2. destruct (lastseq_in h B1) as (z & Hz & <-). assert (Y := gi_pos _ _ _ _ _ _ H z ltac:(apply in_or_app; left; exact Hz)). lia. }
      set (b := g_bar (d_log d)) in *. assert (Hbl : b < NIL) by (unfold b; lia).
      destruct (lm_sync_keeps (fun m => syn_le b m /\ (m_min m = NIL -> m_max m = NIL) /\ m_max m <= NIL) bad (d_log d) y g) as [Y1 Y2]; [..|rewrite Y2; intros f Hf; apply Y1, Hf].
      * intros f Hf. split; [apply X2; exact Hf|]. assert (FIf := gi_fi _ _ _ _ _ _ H f Hf).
        split; [intros Hm|apply (mw_lim _ _ _ (fi_mw _ _ FIf))].
        destruct (fh f) as [|z t] eqn:Ez; [apply (fi_emp _ _ FIf Ez)|]. exfalso. destruct (fi_min _ _ FIf) as (w & Hw & Ew); [rewrite Ez; discriminate|].
        assert (Y := mr_bnd _ _ _ (mw_mr _ _ _ (fi_mw _ _ FIf)) w Hw). lia.
      * fold b. intros m s (Hm & Hmm & Hle) Hs. split; [|unfold lf_set_synced; destruct (negb _); auto].
        destruct (N.eq_dec (m_max m) NIL) as [e|Hv]; [unfold lf_set_synced; rewrite e; exact Hm|].
        destruct Hs as [[-> Hs]| ->].
        -- unfold is_synced, valid_number in Hs. unfold syn_le, lf_set_synced, valid_number in *.
           destruct (m_max m =? NIL) eqn:E1; [lia|]. cbn [negb andb set_marks m_synced] in *.
           destruct (m_synced m =? NIL) eqn:E2; [discriminate|]. cbn [negb orb] in Hs.
           destruct (m_max m <? NIL) eqn:E3; lia.
        -- replace (b =? 0) with false by lia. apply syn_synced; [exact Hm|]. unfold flush_out, valid_number.
           destruct (m_min m =? NIL) eqn:E1; [lia|]. replace (b =? NIL) with false by lia. cbn [negb andb].
           destruct (b <? m_max m) eqn:E2; lia.
      * exact Es.
  - unfold DbModel.step in E. destruct A as (A1 & A2 & A3).
    destruct (lm_flush fo seq (d_log d)) as [y g] eqn:Ef.
    assert (Hbar : g_bar (d_log d) < NIL).
    { destruct (d_bat d) as [[todo done]|]; [destruct HB as [_ (_ & -> & _)]; exact Hll|destruct HB as [_ ->]; rewrite nil_val; lia]. }
    destruct (lm_flush_keeps chk_ok fo seq (d_log d) y g X1 chk_flushed (fun _ m => chk_synced m seq) (or_intror chk_synced) Hbar Ef) as [Y1 Y2].
    assert (Q : d_bat d <> None -> each (syn_le (g_bar g)) (g_files g)).
    { intros Hb. rewrite Y2. apply (lm_flush_keeps (syn_le (g_bar (d_log d))) fo seq (d_log d) y g (X2 Hb)); [apply syn_flushed| |left; auto|exact Hbar|exact Ef].
      intros _ m Hm. apply syn_synced; [exact Hm|].
      destruct (A3 (A2 Hb)) as [(r & Hr & <-) _]. destruct (d_bat d) as [[todo done]|]; [|congruence].
      destruct HB as [_ (_ & -> & _)]. apply lastseq_ge; assumption. }
    destruct y as [[rs cs]|e|]; injection E as _ <-; constructor; cbn [d_log d_bat]; assumption.
  - unfold DbModel.step in E. destruct (lm_checkpoint out0 (d_log d)) as [y g] eqn:Ec. injection E as _ <-.
    unfold lm_checkpoint in Ec. destruct (max_num (d_log d)) as [mx|]; [|injection Ec as _ <-; constructor; assumption].
    destruct (file_at mx (g_files (d_log d))) as [f|] eqn:Ea; [|injection Ec as _ <-; constructor; assumption].
    destruct (mt_checkpoint out0 (f_mt f)) as [s m'] eqn:Em. injection Ec as _ <-.
    apply file_at_in in Ea. destruct Ea as [Ea _]. assert (FIf := gi_fi _ _ _ _ _ _ H f Ea).
    constructor; cbn [d_log d_bat with_files g_files g_bar].
    + apply each_upd; [exact X1|]. intros ? ? ?. cbn [with_mt f_mt].
      unfold mt_checkpoint in Em. destruct (negb (valid_number (m_max (f_mt f)))) eqn:Ev; [injection Em as _ <-; apply X1; exact Ea|].
      destruct (match rev _ with [] => false | _ => _ end); injection Em as _ <-; [apply X1; exact Ea|].
      intros z Hz. cbn [m_chks m_seq] in *. apply in_app_or in Hz. destruct Hz as [Hz|[<-|[]]]; [apply X1; assumption|].
      destruct (fh f) as [|w t] eqn:Ew.
      * assert (Y := fi_emp _ _ FIf Ew). destruct Y as [Y _]. rewrite Y in Ev. discriminate.
      * destruct (fi_max_in hash f FIf) as (v & Hv & Ev2); [rewrite Ew; discriminate|]. exists v. split; [exact Hv|exact Ev2].
    + intros Hb. apply each_upd; [apply X2; exact Hb|]. intros ? ? ?. cbn [with_mt f_mt].
      assert (Y := X2 Hb f Ea). unfold mt_checkpoint in Em. destruct (negb (valid_number (m_max (f_mt f)))); [injection Em as _ <-; exact Y|].
      destruct (match rev _ with [] => false | _ => _ end); injection Em as _ <-; exact Y.
Qed.

Lemma reach_extra : forall c h d, cfg_ok c -> reach c h d -> XI d.
Proof.
  intros c h d Cok R. induction R as [|h d o x d' R IH A E]; [apply xi_new|].
  eapply step_extra; eauto. apply (reach_inv _ _ _ _ Cok R).
Qed.

(** * The marks *)

Lemma first_file : forall n0 pre h F g, GI n0 pre h F g -> exists f t, g_files g = f :: t /\ f_num f = n0 /\ file_at n0 (g_files g) = Some f.
Proof.
  intros n0 pre h F g H. assert (N := gi_nums _ _ _ _ _ _ H). destruct (g_files g) as [|f t] eqn:E; [exfalso; apply (gi_ne _ _ _ _ _ _ H), E|].
  destruct N as [N _]. exists f, t. split; [reflexivity|]. split; [exact N|]. unfold file_at. cbn [find]. rewrite N, N.eqb_refl. reflexivity.
Qed.

(** The flushed mark of the log. *)
Lemma flushed_mark : forall n0 pre h F g, GI n0 pre h F g -> F < NIL ->
  if F =? 0 then lm_flushed_seq g = Fail INVALID_SEQNUM else lm_flushed_seq g = Ok F.
Proof.
  intros n0 pre h F g H HFn. unfold lm_flushed_seq. rewrite (gi_last_flushed _ _ _ _ _ _ H).
  destruct (first_file _ _ _ _ _ H) as (f & t & Ef & En & Ea). rewrite Ea.
  assert (Hf : In f (g_files g)) by (rewrite Ef; left; reflexivity).
  assert (Hin : forall x r, In x (g_files g) -> In r (fh x) -> In r h).
  { intros x r Hx Hr. rewrite (gi_hist _ _ _ _ _ _ H). apply in_or_app; right. apply in_flat_map. exists x; auto. }
  assert (Hle : m_flushed (f_mt f) <> NIL -> m_flushed (f_mt f) <= F /\ 1 <= m_flushed (f_mt f)).
  { intros Hv. destruct (fi_flu _ _ (gi_fi _ _ _ _ _ _ H f Hf) Hv) as (z & Hz & Ez).
    assert (U := gi_flu _ _ _ _ _ _ H f z Hf Hz). unfold unflushed, valid_number in U. replace (m_flushed (f_mt f) =? NIL) with false in U by lia.
    cbn [negb orb] in U. assert (P := gi_pos _ _ _ _ _ _ H z (Hin f z Hf Hz)). lia. }
  unfold valid_number. destruct (F =? 0) eqn:E0.
  - destruct (m_flushed (f_mt f) =? NIL) eqn:En2; [reflexivity|]. assert (X := Hle ltac:(lia)). lia.
  - destruct (gi_F _ _ _ _ _ _ H) as (r & Hr & Er); [lia|]. apply in_flat_map in Hr. destruct Hr as (x & Hx & Hr).
    assert (U := gi_flu _ _ _ _ _ _ H x r Hx Hr). rewrite Er in U. replace (F <? F) with false in U by lia. unfold unflushed, valid_number in U.
    assert (Hv : m_flushed (f_mt x) <> NIL) by (intros e; rewrite e in U; discriminate).
    replace (m_flushed (f_mt x) =? NIL) with false in U by lia. cbn [negb orb] in U.
    assert (x = f) as ->.
    { assert (Hx2 := Hx). apply in_split in Hx2. destruct Hx2 as (a & b & Es). assert (a = []) by (apply (gi_first _ _ _ _ _ _ H a x b Es Hv)).
      subst a. rewrite Ef in Es. injection Es as -> _. reflexivity. }
    replace (m_flushed (f_mt f) =? NIL) with false by lia. cbn [negb]. assert (X := Hle Hv). f_equal. rewrite Er in U. lia.
Qed.

Lemma di_F_lt : forall (c : cfg) h d n0 pre F part, GI n0 pre (h ++ part) F (d_log d) -> F <= lastseq h -> F < NIL.
Proof. intros c h d n0 pre F part H HF. assert (X := gi_lastseq_lt hash c h d _ _ _ _ H). lia. Qed.

Lemma in_part : forall n0 pre h part F g r, GI n0 pre (h ++ part) F g -> In r (h ++ part) -> r_seq r <= lastseq h -> In r h.
Proof.
  intros n0 pre h part F g r H Hr Hle. apply in_app_or in Hr. destruct Hr as [Hr|Hr]; [exact Hr|exfalso].
  destruct (proj2 (gi_pre_part _ _ _ _ _ _ _ H) r Hr) as [X| ->]; [lia|].
  cbn [lastseq rev] in Hle. assert (Y := gi_pos _ _ _ _ _ _ H r ltac:(apply in_or_app; right; exact Hr)). lia.
Qed.

Lemma max_visible : forall c h d, DI c h d -> h <> [] -> lm_max_seq (d_log d) = Some (lastseq h).
Proof.
  intros c h d [(n0 & pre & F & part & H & Ht & Hl & HF & HFl & HG & HB)] Hne. rewrite (lm_max_seq_spec hash _ _ _ _ _ H Hl).
  destruct (d_bat d) as [[todo done]|].
  - destruct HB as [-> (B1 & B2 & _)]. rewrite B2. destruct (lastseq_in h B1) as (z & Hz & Ez).
    assert (Y := gi_pos _ _ _ _ _ _ H z ltac:(apply in_or_app; left; exact Hz)). replace (lastseq h =? 0) with false by lia. reflexivity.
  - destruct HB as [-> ->]. rewrite app_nil_r. change (0 =? 0) with true. cbn [negb]. destruct h; [congruence|reflexivity].
Qed.

Lemma marks_order : forall c h d, cfg_ok c -> reach c h d ->
  (forall s, lm_synced_seq (d_log d) = Ok s -> (exists r, In r h /\ r_seq r = s) /\ lm_max_seq (d_log d) = Some (top h) /\ s <= top h) /\
  (forall s, lm_flushed_seq (d_log d) = Ok s -> (exists r, In r h /\ r_seq r = s) /\
     forall s', lm_synced_seq (d_log d) = Ok s' -> s <= s').
Proof.
  intros c h d Cok R. assert (D := reach_inv _ _ _ _ Cok R). assert (X := reach_extra _ _ _ Cok R). assert (Hsort := di_sorted _ _ _ _ D).
  rewrite (top_last _ Hsort). assert (MV := max_visible _ _ _ D).
  destruct D as [(n0 & pre & F & part & H & Ht & Hl & HF & HFl & HG & HB)].
  assert (Hin : forall x r, In x (g_files (d_log d)) -> In r (fh x) -> In r (h ++ part)).
  { intros x r Hx Hr. rewrite (gi_hist _ _ _ _ _ _ H). apply in_or_app; right. apply in_flat_map. exists x; auto. }
  split.
  - intros s E. unfold lm_synced_seq in E. destruct (last_synced (d_log d)) as [n|]; [|discriminate].
    destruct (file_at n (g_files (d_log d))) as [f|] eqn:Ea; [|discriminate]. apply file_at_in in Ea. destruct Ea as [Ea _].
    destruct (valid_number (m_synced (f_mt f))) eqn:Ev; [|discriminate]. injection E as <-.
    assert (Hv : m_synced (f_mt f) <> NIL) by (intros e; rewrite e in Ev; discriminate).
    destruct (fi_syn _ _ (gi_fi _ _ _ _ _ _ H f Ea) Hv) as (r & Hr & Er).
    assert (Hle : m_synced (f_mt f) <= lastseq h).
    { destruct (d_bat d) as [[todo done]|] eqn:Eb.
      - destruct HB as [-> (B1 & B2 & _)]. destruct (xi_syn _ X ltac:(congruence) f Ea) as [Y|Y]; [congruence|lia].
      - destruct HB as [-> _]. rewrite app_nil_r in *. rewrite <- Er. apply lastseq_ge; [exact Hsort|apply (Hin f); assumption]. }
    assert (Hrh : In r h) by (apply (in_part _ _ _ _ _ _ _ H); [apply (Hin f); assumption|lia]).
    split; [exists r; auto|]. split; [apply MV; intros e; subst h; destruct Hrh|exact Hle].
  - intros s E. assert (M := flushed_mark _ _ _ _ _ H (di_F_lt c h d _ _ _ _ H HFl)). destruct (F =? 0) eqn:E0; [congruence|].
    assert (s = F) by congruence. subst s. destruct (gi_F _ _ _ _ _ _ H) as (r & Hr & Er); [lia|]. split.
    { exists r. split; [|exact Er]. apply (in_part _ _ _ _ _ _ _ H); [rewrite (gi_hist _ _ _ _ _ _ H); apply in_or_app; right; exact Hr|lia]. }
    intros s' E'. unfold lm_synced_seq in E'. destruct (last_synced (d_log d)) as [n|] eqn:El; [|discriminate].
    unfold last_synced in El. destruct (g_ls (d_log d) =? NIL) eqn:Els; [discriminate|]. injection El as El.
    destruct (file_at n (g_files (d_log d))) as [f|] eqn:Ea; [|discriminate]. apply file_at_in in Ea. destruct Ea as [Ea En].
    destruct (valid_number (m_synced (f_mt f))) eqn:Ev; [|discriminate]. injection E' as <-.
    assert (Hv : m_synced (f_mt f) <> NIL) by (intros e; rewrite e in Ev; discriminate).
    destruct (first_file _ _ _ _ _ H) as (f0 & t & Ef & En0 & Ea0).
    unfold lm_flushed_seq in E. rewrite (gi_last_flushed _ _ _ _ _ _ H), Ea0 in E.
    destruct (valid_number (m_flushed (f_mt f0))) eqn:Ev0; [|discriminate]. assert (EF : m_flushed (f_mt f0) = F) by congruence.
    assert (Hv0 : m_flushed (f_mt f0) <> NIL) by (intros e; rewrite e in Ev0; discriminate).
    assert (Hf0 : In f0 (g_files (d_log d))) by (rewrite Ef; left; reflexivity).
    assert (FI0 := gi_fi _ _ _ _ _ _ H f0 Hf0).
    rewrite Ef in Ea. destruct Ea as [<-|Ea].
    + assert (Y := fi_ord _ _ FI0 Hv0). rewrite EF in Y. lia.
    + destruct (fi_syn _ _ (gi_fi _ _ _ _ _ _ H f ltac:(rewrite Ef; right; exact Ea)) Hv) as (y & Hy & Ey).
      destruct (fi_flu _ _ FI0 Hv0) as (z & Hz & Ez). rewrite EF in Ez.
      assert (S := gi_sorted_files _ _ _ _ _ _ H). rewrite Ef in S. unfold sorted_seq in S. cbn [all_h flat_map] in S. rewrite map_app in S.
      apply SS_app_inv in S. destruct S as (_ & _ & S). rewrite <- Ez, <- Ey. apply N.lt_le_incl. apply S; apply in_map; [exact Hz|].
      apply in_flat_map. exists f; auto.
Qed.

(** * Snapshots *)

(** Executions that go on from a state. *)
Inductive later (c : cfg) (h : list rec) (d : db) : list rec -> db -> Prop :=
| later_now : later c h d h d
| later_step : forall h1 d1 o x d2, later c h d h1 d1 -> allowed c h1 d1 o -> step c o d1 = Some (x, d2) ->
    later c h d (h1 ++ acked x) d2.

Lemma later_reach : forall c h d h' d', reach c h d -> later c h d h' d' -> reach c h' d'.
Proof. intros c h d h' d' R L. induction L; [exact R|]. econstructor; eauto. Qed.

Lemma later_di : forall c h d h' d', cfg_ok c -> DI c h d -> later c h d h' d' -> DI c h' d'.
Proof. intros c h d h' d' Cok D L. induction L as [|h1 d1 o x d2 L IH A E2]; [exact D|]. apply (step_keeps hash c h1 d1 o x d2 Cok IH A E2). Qed.

Lemma step_ext : forall c o d x d' h, step c o d = Some (x, d') -> (o = OPut -> x = Ok []) -> 
  exists e, (h ++ acked x) ++ written d' = (h ++ written d) ++ e.
Proof.
  intros c o d x d' h E Hput. unfold written.
  destruct o; unfold DbModel.step in E.
  - destruct (d_bat d) as [[? ?]|]; [discriminate|]. destruct (lm_set _ _ _ _ _) as [y g]. injection E as <- <-.
    destruct y as [r'|e|]; [exists [r']|exists []|exists []]; cbv iota; cbn [acked d_bat]; rewrite !app_nil_r; reflexivity.
  - destruct (d_bat d) as [[? ?]|] eqn:Eb; [discriminate|]. destruct (c_ro c); [injection E as <- <-; exists []; rewrite Eb; cbn [acked]; rewrite !app_nil_r; reflexivity|].
    destruct b as [|r0 b0]; [injection E as <- <-; exists []; rewrite Eb; cbn [acked]; rewrite !app_nil_r; reflexivity|].
    destruct (batch_valid _ _ _); injection E as <- <-; exists []; cbn [acked d_bat]; rewrite !app_nil_r; reflexivity.
  - specialize (Hput eq_refl). subst x. destruct (d_bat d) as [[[|r t] done]|]; try discriminate.
    destruct (batch_put _ _ _ _) as [[r'|e|] g]; try discriminate. injection E as <-.
    exists [r']. cbn [acked d_bat]. rewrite app_nil_r, app_assoc. reflexivity.
  - destruct (d_bat d) as [[[|r t] done]|]; try discriminate. injection E as <- <-. exists []. reflexivity.
  - destruct (lm_sync _ _) as [[u|e|] g]; injection E as <- <-; exists []; cbn [acked d_bat]; rewrite !app_nil_r; reflexivity.
  - destruct (lm_flush _ _ _) as [[[? ?]|e|] g]; injection E as <- <-; exists []; cbn [acked d_bat]; rewrite !app_nil_r; reflexivity.
  - destruct (lm_checkpoint _ _) as [[u|e|] g]; injection E as <- <-; exists []; cbn [acked d_bat]; rewrite !app_nil_r; reflexivity.
Qed.

Lemma lastseq_ext : forall l e, sorted_seq (l ++ e) -> lastseq l <= lastseq (l ++ e).
Proof.
  intros l e H. destruct l as [|x t] eqn:El; [cbn [lastseq rev]; lia|]. rewrite <- El in *.
  destruct (lastseq_in l) as (z & Hz & <-); [rewrite El; discriminate|]. apply lastseq_ge; [exact H|apply in_or_app; left; exact Hz].
Qed.

Lemma di_sorted_all : forall c h d, DI c h d -> sorted_seq (h ++ written d).
Proof.
  intros c h d [(n0 & pre & F & part & H & Ht & Hl & HF & HFl & HG & HB)]. unfold written.
  assert (X := gi_asc _ _ _ _ _ _ H). destruct (d_bat d) as [[todo done]|]; destruct HB as [-> _]; exact X.
Qed.

Lemma cont_trans : forall lim a b x, cont lim a b -> cont lim b x -> cont lim a x.
Proof.
  intros lim a b x (A1 & A2 & n1 & A3 & A4) (B1 & B2 & n2 & B3 & B4). split; [congruence|]. split; [exact B2|].
  exists (n1 ++ n2). split; [rewrite B3, A3, app_assoc; reflexivity|]. intros r Hr. apply in_app_or in Hr. destruct Hr; auto.
Qed.

Lemma held_later : forall c h d h' d', cfg_ok c -> DI c h d -> later c h d h' d' ->
  forall lim n f, lim <= lastseq (h ++ written d) -> held d n = Some f -> exists f', held d' n = Some f' /\ cont lim f f'.
Proof.
  intros c h d h' d' Cok R L lim n f Hlim E.
  assert (Q : lim <= lastseq (h' ++ written d') /\ exists f', held d' n = Some f' /\ cont lim f f'); [|tauto].
  induction L as [|h1 d1 o x d2 L IH A E2].
  - split; [exact Hlim|]. apply (frame_id hash c h d R lim n f Hlim E).
  - destruct IH as (IH1 & f1 & IH2 & IH3). assert (D1 := later_di _ _ _ _ _ Cok R L).
    destruct (step_keeps hash c h1 d1 o x d2 Cok D1 A E2) as (D2 & _ & Fr). split.
    + destruct (step_ext c o d1 x d2 h1 E2) as (e & Ee).
      { intros ->. apply (step_put hash c h1 d1 x d2 Cok D1 E2). }
      assert (S2 := di_sorted_all _ _ _ D2). rewrite Ee in *. assert (Y := lastseq_ext _ _ S2). lia.
    + destruct (Fr lim n f1 IH1 IH2) as (f2 & F1 & F2). exists f2. split; [exact F1|]. apply (cont_trans _ _ _ _ IH3 F2).
Qed.

Lemma files_between_spec : forall f B A P n0, nums_from n0 (P ++ A ++ f :: B) ->
  files_between (S (length A)) (n0 + len P) (f_num f) (P ++ A ++ f :: B) = Some (A ++ [f]).
Proof.
  intros f B A. induction A as [|x A IH]; intros P n0 H.
  - cbn [app length files_between]. cbn [app] in H. assert (H' := H). apply nums_app in H'. destruct H' as (_ & H1 & _).
    replace (f_num f <? n0 + len P) with false by lia. rewrite <- H1, (file_at_num _ _ _ _ _ H eq_refl). reflexivity.
  - assert (H' := H). apply nums_app in H'. destruct H' as (_ & H1 & H2). fold (nums_from (n0 + len P + 1) (A ++ f :: B)) in H2.
    assert (Hf : n0 + len P + 1 <= f_num f) by (apply (nums_in _ _ _ H2); apply in_or_app; right; left; reflexivity).
    cbn [length]. change (files_between (S (S (length A))) (n0 + len P) (f_num f) (P ++ (x :: A) ++ f :: B)) with
      (if f_num f <? n0 + len P then Some [] else match file_at (n0 + len P) (P ++ (x :: A) ++ f :: B) with None => None
       | Some f0 => match files_between (S (length A)) (n0 + len P + 1) (f_num f) (P ++ (x :: A) ++ f :: B) with Some l => Some (f0 :: l) | None => None end end).
    replace (f_num f <? n0 + len P) with false by lia. rewrite <- H1 at 1. rewrite (file_at_num _ _ P x (A ++ f :: B) H eq_refl).
    assert (Ep : P ++ (x :: A) ++ f :: B = (P ++ [x]) ++ A ++ f :: B) by (rewrite <- app_assoc; reflexivity).
    assert (El : n0 + len P + 1 = n0 + len (P ++ [x])) by (unfold len; rewrite app_length; cbn [length]; lia).
    rewrite Ep in *. rewrite El, (IH _ _ H). reflexivity.
Qed.

Lemma snapshot_files : forall n0 pre h F g f r, GI n0 pre h F g -> In f (g_files g) -> In r (fh f) ->
  exists A B, g_files g = A ++ f :: B /\ lm_snapshot (r_seq r) false g = Ok (A ++ [f]).
Proof.
  intros n0 pre h F g f r H Hf Hr. assert (Hs := Hf). apply in_split in Hs. destruct Hs as (A & B & E). exists A, B. split; [exact E|].
  unfold lm_snapshot. assert (HN := gi_nums _ _ _ _ _ _ H). destruct (first_file _ _ _ _ _ H) as (f0 & t & Ef & En & _).
  unfold min_num. rewrite Ef, En, <- Ef. rewrite (file_by_seq_hit hash _ _ _ _ _ _ _ _ H Hf Hr).
  rewrite E in *. assert (H1 := proj1 (proj2 (proj1 (nums_app _ _ _) HN))).
  replace (N.to_nat (f_num f - n0)) with (length A) by (unfold len in H1; lia).
  assert (X := files_between_spec f B A [] n0 HN). unfold len in X. cbn [app length] in X. rewrite N.add_0_r in X. rewrite X. reflexivity.
Qed.

Lemma pinned_spec : forall lim l d', (forall x, In x l -> exists x', held d' (f_num x) = Some x' /\ cont lim x x') ->
  exists l', pinned (map f_num l) (g_files (d_log d') ++ d_gone d') = Some l' /\ Forall2 (cont lim) l l'.
Proof.
  induction l as [|x l IH]; intros d' H; [exists []; split; [reflexivity|constructor]|].
  destruct (H x (or_introl eq_refl)) as (x' & E1 & E2). destruct (IH d' (fun y Hy => H y (or_intror Hy))) as (l' & E3 & E4).
  exists (x' :: l'). cbn [map pinned]. unfold held in E1. rewrite E1, E3. split; [reflexivity|constructor; assumption].
Qed.

Lemma newest_above : forall l chk k, chk < NIL -> (forall r, In r l -> chk < r_seq r) -> newest l chk k = None.
Proof.
  intros l chk k Hc H. rewrite (newest_filter hash) by exact Hc. rewrite filter_none; [reflexivity|]. intros r Hr. specialize (H r Hr). lia.
Qed.

Lemma snap_log : forall chk k fs fs', chk < NIL -> Forall2 (cont chk) fs fs' ->
  lm_get_snap hash chk fs' k = match newest (all_h fs) chk k with Some r => Ok r | None => Fail KEY_NOT_FOUND end.
Proof.
  intros chk k fs. induction fs as [|f fs IH] using rev_ind; intros fs' Hc H.
  - inversion H; subst. reflexivity.
  - apply Forall2_app_inv_l in H. destruct H as (l1 & l2 & H1 & H2 & ->). inversion H2 as [|? f' ? l3 S Hn]; subst. inversion Hn; subst.
    unfold lm_get_snap. rewrite rev_app_distr. cbn [rev app first_ok]. rewrite all_h_app. cbn [all_h flat_map]. rewrite app_nil_r, newest_app.
    destruct S as (S1 & S2 & new & S3 & S4). rewrite (mt_get_spec hash _ _ _ _ _ _ S2), S3, newest_app, (newest_above new) by assumption.
    specialize (IH l1 Hc H1). unfold lm_get_snap in IH.
    destruct (newest (fh f) chk k) as [r|]; cbn [answer].
    + rewrite andb_false_r. cbn [negb andb]. reflexivity.
    + exact IH.
Qed.

Lemma newest_none_le : forall l a b k, b <= a -> a < NIL -> newest l a k = None -> newest l b k = None.
Proof.
  intros l a b k Hab Ha H. rewrite (newest_filter hash) in * by lia. unfold last_write in *.
  destruct (find _ (rev (filter (fun r => r_seq r <=? b) l))) as [x|] eqn:E; [exfalso|reflexivity].
  apply find_some in E. destruct E as [E1 E2]. apply in_rev, filter_In in E1. destruct E1 as [E1 E3].
  assert (Y := find_none _ _ H x). rewrite <- in_rev, filter_In in Y. specialize (Y ltac:(split; [exact E1|lia])). congruence.
Qed.

(** Reading through a snapshot, whatever happens after it was opened. *)
Lemma snap_read : forall c h d h' d' chk f r k, cfg_ok c -> DI c h d -> later c h d h' d' ->
  In f (g_files (d_log d)) -> In r (fh f) -> r_seq r = chk -> chk <= lastseq h ->
  (forall n0 pre F part, GI n0 pre (h ++ part) F (d_log d) -> F <= lastseq h -> F <= chk) ->
  exists A, lm_snapshot chk false (d_log d) = Ok A /\
    snap_get hash (mkSnap chk (Some (map f_num A)) (d_tab d)) k d' = spec_get (filter (fun x => r_seq x <=? chk) h) k.
Proof.
  intros c h d h' d' chk f r k Cok R L Hf Hr Er Hchk HFc. assert (D := R).
  assert (Hmono : lastseq h <= lastseq (h ++ written d)) by (apply lastseq_ext, (di_sorted_all c), D).
  destruct D as [(n0 & pre & F & part & H & Ht & Hl & HF & HFl & HG & HB)].
  assert (Hll := gi_lastseq_lt hash c h d _ _ _ _ H).
  destruct (snapshot_files _ _ _ _ _ _ _ H Hf Hr) as (A & B & E & ES). rewrite Er in ES. exists (A ++ [f]). split; [exact ES|].
  assert (Hc : chk < NIL) by lia. specialize (HFc _ _ _ _ H HFl).
  unfold snap_get. cbn [sn_files sn_chk sn_tab].
  assert (HP : forall x, In x (A ++ [f]) -> exists x', held d' (f_num x) = Some x' /\ cont chk x x').
  { intros x Hx. apply (held_later c h d h' d' Cok R L); [lia|]. unfold held. apply file_at_app_l.
    assert (Hx' : In x (g_files (d_log d))) by (rewrite E; change (A ++ f :: B) with (A ++ [f] ++ B); rewrite app_assoc; apply in_or_app; left; exact Hx).
    apply in_split in Hx'. destruct Hx' as (a & b & Eab). apply (file_at_num _ _ a x b (gi_nums _ _ _ _ _ _ H) Eab). }
  destruct (pinned_spec chk (A ++ [f]) d' HP) as (l' & EP & FP). rewrite EP, (snap_log chk k _ _ Hc FP).
  assert (EB : newest (all_h (A ++ [f])) chk k = newest (all_h (g_files (d_log d))) chk k).
  { rewrite E. change (A ++ f :: B) with (A ++ [f] ++ B). rewrite app_assoc, (all_h_app (A ++ [f]) B), newest_app, (newest_above (all_h B)); [reflexivity|exact Hc|].
    intros x Hx. assert (S := gi_sorted_files _ _ _ _ _ _ H). rewrite E in S. unfold sorted_seq in S.
    change (A ++ f :: B) with (A ++ [f] ++ B) in S. rewrite app_assoc, all_h_app, map_app in S. apply SS_app_inv in S. destruct S as (_ & _ & S).
    rewrite <- Er. apply S; apply in_map; [|exact Hx]. apply in_flat_map. exists f. split; [apply in_or_app; right; left; reflexivity|exact Hr]. }
  rewrite EB, Ht.
  assert (Hh : newest h chk k = newest (h ++ part) chk k).
  { rewrite newest_app, (newest_above part); [reflexivity|exact Hc|]. intros x Hx.
    destruct (proj2 (gi_pre_part _ _ _ _ _ _ _ H) x Hx) as [X|X]; [lia|]. subst h. cbn [lastseq rev] in Hchk.
    assert (Y := gi_pos _ _ _ _ _ _ H x ltac:(apply in_or_app; right; exact Hx)). lia. }
  assert (HhF : newest h F k = newest (h ++ part) F k).
  { rewrite newest_app, (newest_above part); [reflexivity|lia|]. intros x Hx.
    destruct (proj2 (gi_pre_part _ _ _ _ _ _ _ H) x Hx) as [X|X]; [lia|]. subst h. cbn [lastseq rev] in HFl.
    assert (Y := gi_pos _ _ _ _ _ _ H x ltac:(apply in_or_app; right; exact Hx)). lia. }
  unfold spec_get. rewrite <- (newest_filter hash) by exact Hc.
  unfold tab_get. change (find (fun r0 => keqb (r_key r0) k && negb (is_cmd r0)) (rev (filter (fun r0 => r_seq r0 <=? F) h)))
    with (last_write (filter (fun r0 => r_seq r0 <=? F) h) k). rewrite <- (newest_filter hash) by lia.
  rewrite Hh, HhF, (gi_hist _ _ _ _ _ _ H), !newest_app.
  destruct (newest (all_h (g_files (d_log d))) chk k) as [x|] eqn:Ex; [reflexivity|].
  rewrite (newest_none_le _ chk F k HFc Hc Ex).
  assert (Epre : newest pre F k = newest pre chk k).
  { rewrite !(newest_filter hash) by lia. f_equal. rewrite !filter_all; [reflexivity|..]; intros x Hx; assert (Y := gi_pre _ _ _ _ _ _ H x Hx); lia. }
  rewrite Epre. destruct (newest pre chk k) as [x|]; reflexivity.
Qed.

(** The newest record is in the newest file. *)
Lemma newest_record : forall c h d, DI c h d -> h <> [] -> exists f r, In f (g_files (d_log d)) /\ In r (fh f) /\ r_seq r = lastseq h.
Proof.
  intros c h d [(n0 & pre & F & part & H & Ht & Hl & HF & HFl & HG & HB)] Hne.
  destruct (d_bat d) as [[todo done]|].
  - destruct HB as [-> (B1 & B2 & B3 & B4 & B5 & (a & f & u & B6 & B7 & B8))].
    assert (Hh : h = pre ++ all_h a ++ u).
    { assert (X := gi_hist _ _ _ _ _ _ H). rewrite B6, all_h_app in X. cbn [all_h flat_map] in X. rewrite app_nil_r, B7 in X.
      rewrite !app_assoc in X. apply app_inv_tail in X. rewrite <- app_assoc in X. exact X. }
    assert (Hlu : lastseq h = lastseq u) by (rewrite Hh, app_assoc; apply lastseq_app; exact B8).
    destruct (lastseq_in u B8) as (z & Hz & Ez). exists f, z. split; [rewrite B6; apply in_or_app; right; left; reflexivity|].
    split; [rewrite B7; apply in_or_app; left; exact Hz|congruence].
  - destruct HB as [-> _]. rewrite app_nil_r in *. exists (newest_file (d_log d)).
    assert (Hin := newest_file_in _ _ _ _ _ _ H). assert (FIf := gi_fi _ _ _ _ _ _ H _ Hin).
    destruct (fi_max_in hash _ FIf (gi_nonemp _ _ _ _ _ _ H Hne _ Hin)) as (z & Hz & Ez). exists z. split; [exact Hin|]. split; [exact Hz|].
    rewrite Ez, (newest_file_max _ _ _ _ _ _ H). destruct h; [congruence|reflexivity].
Qed.

Lemma snap_latest_di : forall c h d h' d' k, cfg_ok c -> DI c h d -> later c h d h' d' ->
  exists sn, open_snap 0 d = Ok sn /\ snap_get hash sn k d' = spec_get h k.
Proof.
  intros c h d h' d' k Cok R L. assert (D := R). assert (Hsort := di_sorted _ _ _ _ D).
  unfold open_snap. change (0 =? 0) with true. cbv iota.
  destruct h as [|x0 t0] eqn:Eh.
  - destruct D as [(n0 & pre & F & part & H & Ht & Hl & HF & HFl & HG & HB)].
    destruct (d_bat d) as [[todo done]|]; [destruct HB as [-> (B1 & _)]; congruence|]. destruct HB as [-> Hb]. cbn [app] in *.
    rewrite (lm_max_seq_spec hash _ _ _ _ _ H Hl), Hb. change (0 =? 0) with true. cbn [negb].
    assert (F = 0) by (destruct (N.eq_dec F 0) as [e|n]; [exact e|exfalso; apply (HF n); reflexivity]). subst F.
    assert (M := flushed_mark _ _ _ _ _ H ltac:(rewrite nil_val; lia)). change (0 =? 0) with true in M. cbv iota in M. rewrite M.
    change (0 =? 0) with true. cbn [andb]. eexists. split; [reflexivity|]. cbn. rewrite Ht. reflexivity.
  - rewrite <- Eh in *. assert (Hne : h <> []) by (rewrite Eh; discriminate).
    rewrite (max_visible _ _ _ D Hne). destruct (newest_record _ _ _ D Hne) as (f & r & Hf & Hr & Er).
    assert (Hz : lastseq h <> 0).
    { destruct D as [(n0 & pre & F & part & H & _)]. destruct (lastseq_in h Hne) as (z & Hz & <-).
      assert (Y := gi_pos _ _ _ _ _ _ H z ltac:(apply in_or_app; left; exact Hz)). lia. }
    replace (lastseq h =? 0) with false by lia. cbn [andb].
    destruct (snap_read c h d h' d' (lastseq h) f r k Cok R L Hf Hr Er) as (A & EA & EG); [lia|intros; assumption|].
    rewrite EA. eexists. split; [reflexivity|]. rewrite EG, filter_le_all; [reflexivity|exact Hsort|lia].
Qed.

Lemma snap_latest : forall c h d h' d' k, cfg_ok c -> reach c h d -> later c h d h' d' ->
  exists sn, open_snap 0 d = Ok sn /\ snap_get hash sn k d' = spec_get h k.
Proof. intros c h d h' d' k Cok R L. apply (snap_latest_di c h d h' d' k Cok (reach_inv _ _ _ _ Cok R) L). Qed.

Lemma snap_checkpoint : forall c h d h' d' chk k sn, cfg_ok c -> reach c h d -> later c h d h' d' ->
  chk <> 0 -> open_snap chk d = Ok sn -> chk <= top h -> snap_get hash sn k d' = spec_get (filter (fun r => r_seq r <=? chk) h) k.
Proof.
  intros c h d h' d' chk k sn Cok R L Hz E Htop. assert (D := reach_inv _ _ _ _ Cok R). assert (X := reach_extra _ _ _ Cok R).
  rewrite (top_last _ (di_sorted _ _ _ _ D)) in Htop.
  unfold open_snap in E. replace (chk =? 0) with false in E by lia. cbn [andb] in E.
  destruct (lm_checkpoints (d_log d)) as [l| |] eqn:El; try discriminate. destruct (existsb (N.eqb chk) l) eqn:Ex; [|discriminate].
  apply existsb_exists in Ex. destruct Ex as (c' & Hc' & Ec'). assert (c' = chk) by lia. subst c'.
  unfold lm_checkpoints in El. destruct (last_flushed (d_log d)); [|discriminate]. destruct (max_num (d_log d)); [|discriminate].
  injection El as <-. apply in_flat_map in Hc'. destruct Hc' as (f & Hf & Hcf). apply filter_In in Hf. destruct Hf as [Hf _].
  unfold mt_checkpoints in Hcf. apply filter_In in Hcf. destruct Hcf as [Hcf Hcc].
  destruct (xi_chk _ X f Hf chk Hcf) as (r & Hr & Er).
  destruct (snap_read c h d h' d' chk f r k Cok D L Hf Hr Er Htop) as (A & EA & EG).
  { intros ? ? F ? H _. assert (U := gi_flu _ _ _ _ _ _ H f r Hf Hr). unfold unflushed in U. rewrite Er in U.
    apply andb_true_iff in Hcc. destruct Hcc as [Hcc _]. destruct (valid_number (m_flushed (f_mt f))) eqn:Ev; cbn [negb andb orb] in *; lia. }
  rewrite EA in E. injection E as <-. exact EG.
Qed.


(** * Numbers *)

(** The record as the database stores it under a number: a deletion carries no value. *)
Definition as_written (r : rec) (n : N) : rec := mkRec n (r_type r) (r_key r) (r_meta r) (if is_del r then [] else r_val r).

Lemma stored_as : forall r n, stored r n = as_written r n.
Proof. intros r n. unfold stored, as_written. destruct (is_del r); reflexivity. Qed.

Lemma set_outcome_di : forall c h d full r, cfg_ok c -> DI c h d -> d_bat d = None -> allowed c h d (OSet full r) ->
  exists x d', step c (OSet full r) d = Some (x, d') /\
    (r_seq r = NIL -> x = Ok [as_written r (top h + 1)]) /\
    (top h < r_seq r -> r_seq r <> NIL -> x = Ok [as_written r (r_seq r)]) /\
    (r_seq r <= top h -> x = Fail INVALID_SEQNUM /\ d' = d).
Proof.
  intros c h d full r [Co Cr Cm] D Eb (A1 & A2 & A3 & A4 & A5).
  destruct D as [(n0 & pre & F & part & H & Ht & Hl & HF & HFl & HG & HB)].
  unfold DbModel.step. rewrite Eb in *. destruct HB as [-> Hbar]. rewrite app_nil_r in *.
  rewrite (top_last _ (gi_asc _ _ _ _ _ _ H)) in *.
  assert (Hlt := gi_lastseq _ _ _ _ _ _ H).
  destruct (lm_set hash c full r (d_log d)) as [o g'] eqn:Es. eexists; eexists; split; [reflexivity|].
  destruct (N.eq_dec (r_seq r) 0) as [E0|N0].
  { assert (Z : (o, g') = (Fail INVALID_SEQNUM, d_log d)).
    { rewrite <- Es. unfold lm_set. rewrite Cr, E0. reflexivity. }
    injection Z as -> ->. rewrite E0. split; [intros e; rewrite nil_val in e; discriminate|]. split; [lia|]. intros _. split; [reflexivity|].
    destruct d; cbn in *; congruence. }
  assert (S := lm_set_spec hash n0 pre h F (d_log d) c full r H Co Cr Cm A4 Hl). specialize (S ltac:(lia)).
  destruct ((r_seq r =? NIL) || (lastseq h <? r_seq r)) eqn:Eacc.
  - destruct S as (g2 & E2 & _). rewrite Es in E2. injection E2 as -> ->. unfold numbered.
    split; [intros e; rewrite e, N.eqb_refl, stored_as; reflexivity|].
    split; [intros _ n; replace (r_seq r =? NIL) with false by lia; rewrite stored_as; reflexivity|].
    intros Hle. apply orb_true_iff in Eacc. lia.
  - apply orb_false_iff in Eacc. destruct Eacc as [Ea1 Ea2]. split; [lia|]. split; [lia|]. intros Hle.
    rewrite S in Es by (apply A5; exact Hle). injection Es as <- <-. split; [reflexivity|]. destruct d; cbn in *; congruence.
Qed.

Lemma set_outcome : forall c h d full r, cfg_ok c -> reach c h d -> d_bat d = None -> allowed c h d (OSet full r) ->
  exists x d', step c (OSet full r) d = Some (x, d') /\
    (r_seq r = NIL -> x = Ok [as_written r (top h + 1)]) /\
    (top h < r_seq r -> r_seq r <> NIL -> x = Ok [as_written r (r_seq r)]) /\
    (r_seq r <= top h -> x = Fail INVALID_SEQNUM /\ d' = d).
Proof. intros c h d full r Cok R. apply set_outcome_di; [exact Cok|apply reach_inv; assumption]. Qed.

(** Operations that never give a number. *)
Definition auto_op (o : op) : Prop :=
  match o with OSet _ r => r_seq r = NIL | OBegin b => forall r, In r b -> r_seq r = NIL | _ => True end.
Inductive reach_auto (c : cfg) : list rec -> db -> Prop :=
| ra_new : reach_auto c [] (db_new c)
| ra_step : forall h d o x d', reach_auto c h d -> auto_op o -> allowed c h d o -> step c o d = Some (x, d') ->
    reach_auto c (h ++ acked x) d'.

Lemma ra_reach : forall c h d, reach_auto c h d -> reach c h d.
Proof. intros c h d R. induction R; [constructor|]. econstructor; eauto. Qed.

Lemma numbers_snoc : forall (l : list rec) r n, map r_seq l = map N.of_nat (seq 1 (length l)) -> n = N.of_nat (length l) + 1 -> r_seq r = n ->
  map r_seq (l ++ [r]) = map N.of_nat (seq 1 (length (l ++ [r]))).
Proof.
  intros l r n H Hn Er. rewrite map_app, app_length, H. cbn [length map]. rewrite seq_app, map_app. cbn [seq map].
  f_equal. f_equal. lia.
Qed.

Lemma numbers_last : forall l : list rec, map r_seq l = map N.of_nat (seq 1 (length l)) -> lastseq l = N.of_nat (length l).
Proof.
  intros l. induction l as [|x l IH] using rev_ind; intros H; [reflexivity|].
  rewrite lastseq_snoc. rewrite map_app, app_length in H. cbn [length map] in H. rewrite seq_app, map_app in H. cbn [seq map] in H.
  apply app_inj_tail in H. destruct H as [_ H]. rewrite app_length. cbn [length]. lia.
Qed.

Lemma auto_numbers : forall c h d, cfg_ok c -> reach_auto c h d ->
  map r_seq (h ++ written d) = map N.of_nat (seq 1 (length (h ++ written d))) /\
  match d_bat d with Some (todo, _) => forall r, In r todo -> r_seq r = NIL | None => True end.
Proof.
  intros c h d Cok R. induction R as [|h d o x d' R IH Ao A E]; [split; [reflexivity|exact I]|].
  assert (RR := ra_reach _ _ _ R). assert (D := reach_inv _ _ _ _ Cok RR). destruct IH as [IH1 IH2].
  destruct (step_keeps hash c h d o x d' Cok D A E) as (D' & Hu & _).
  destruct o as [full r|b| | |bad|fo sq|out0].
  - assert (Eb : d_bat d = None) by (unfold DbModel.step in E; destruct (d_bat d) as [[? ?]|]; [discriminate|reflexivity]).
    assert (Eb' : d_bat d' = None).
    { unfold DbModel.step in E. rewrite Eb in E. destruct (lm_set _ _ _ _ _). injection E as _ <-. reflexivity. }
    destruct (set_outcome c h d full r Cok RR Eb A) as (x1 & d1 & E1 & O1 & _). rewrite E in E1. injection E1 as <- <-.
    cbn [auto_op] in Ao. rewrite (O1 Ao). unfold written in *. rewrite Eb, Eb' in *. rewrite !app_nil_r in *. split; [|exact I]. cbn [acked].
    apply (numbers_snoc h _ (top h + 1) IH1); [|reflexivity]. rewrite (top_last _ (di_sorted _ _ _ _ D)), (numbers_last _ IH1). reflexivity.
  - unfold DbModel.step in E. destruct (d_bat d) as [[? ?]|] eqn:Eb; [discriminate|]. rewrite (co_ro _ Cok) in E.
    unfold written in *. rewrite Eb in IH1. rewrite app_nil_r in IH1.
    destruct b as [|r0 b0] eqn:Ebb; [injection E as <- <-; cbn [acked]; rewrite Eb, !app_nil_r; auto|]. rewrite <- Ebb in *.
    destruct (batch_valid _ _ _); injection E as <- <-; cbn [acked d_bat]; rewrite !app_nil_r; split; auto.
  - destruct (step_put hash c h d x d' Cok D E) as (_ & -> & _). cbn [acked]. rewrite app_nil_r.
    unfold DbModel.step in E. destruct D as [(n0 & pre & F & part & H & Ht & Hl & HF & HFl & HG & HB)].
    unfold written in *. destruct (d_bat d) as [[[|r t] done]|] eqn:Eb; try discriminate. destruct HB as [-> (B1 & B2 & B3 & B4 & B5 & B6)].
    unfold batch_put in E. rewrite (gi_max_num _ _ _ _ _ _ H Hl) in E.
    assert (En := IH2 r (or_introl eq_refl)).
    assert (S := file_set_spec hash n0 pre (h ++ part) F (d_log d) c r H (co_ow _ Cok) Hl ltac:(rewrite En, nil_val; lia)).
    rewrite En, N.eqb_refl in S. cbn [orb] in S. destruct S as (g' & E2 & _). rewrite E2 in E. injection E as <-. cbn [d_bat].
    split; [|intros y Hy; apply IH2; right; exact Hy]. rewrite app_assoc.
    apply (numbers_snoc (h ++ part) _ (lastseq (h ++ part) + 1) IH1); [rewrite (numbers_last _ IH1); reflexivity|].
    rewrite r_seq_stored. unfold numbered. rewrite En, N.eqb_refl. reflexivity.
  - unfold DbModel.step in E. unfold written in *. destruct (d_bat d) as [[[|r t] done]|] eqn:Eb; try discriminate. injection E as <- <-. cbn [acked d_bat].
    rewrite app_nil_r. split; [exact IH1|exact I].
  - assert (Q : acked x = [] /\ d_bat d' = d_bat d).
    { unfold DbModel.step in E. destruct (lm_sync _ _) as [[u|e|] g]; injection E as <- <-; auto. }
    destruct Q as [-> Q]. unfold written in *. rewrite Q, app_nil_r. auto.
  - assert (Q : acked x = [] /\ d_bat d' = d_bat d).
    { unfold DbModel.step in E. destruct (lm_flush _ _ _) as [[[? ?]|e|] g]; injection E as <- <-; auto. }
    destruct Q as [-> Q]. unfold written in *. rewrite Q, app_nil_r. auto.
  - assert (Q : acked x = [] /\ d_bat d' = d_bat d).
    { unfold DbModel.step in E. destruct (lm_checkpoint _ _) as [[u|e|] g]; injection E as <- <-; auto. }
    destruct Q as [-> Q]. unfold written in *. rewrite Q, app_nil_r. auto.
Qed.

(** * Batches *)

(** Acceptable: no record has a number, or every record has one, going up from the newest. *)
Definition acceptable (h b : list rec) : Prop :=
  (forall r, In r b -> r_seq r = NIL) \/
  ((forall r, In r b -> r_seq r <> NIL /\ top h < r_seq r) /\ StronglySorted N.lt (map r_seq b)).

Lemma rising_spec : forall b p, (forall r, In r b -> r_seq r <= NIL) ->
  (rising p b = true <-> (forall r, In r b -> r_seq r <> NIL /\ p < r_seq r) /\ StronglySorted N.lt (map r_seq b)).
Proof.
  induction b as [|r b IH]; intros p Hle; cbn [rising map].
  - split; [intros _; split; [intros ? []|constructor]|reflexivity].
  - rewrite !andb_true_iff, IH by (intros x Hx; apply Hle; right; exact Hx). split.
    + intros ((H1 & H2) & H3 & H4). split.
      * intros x [<-|Hx]; [split; lia|]. specialize (H3 x Hx). split; lia.
      * constructor; [exact H4|]. apply Forall_forall. intros z Hz. apply in_map_iff in Hz. destruct Hz as (y & <- & Hy). apply H3, Hy.
    + intros (H1 & H2). inversion H2 as [|? ? S1 S2]; subst. assert (Q := H1 r (or_introl eq_refl)).
      assert (Qle := Hle r (or_introl eq_refl)). split; [split; lia|]. split; [|exact S1].
      intros x Hx. split; [apply H1; right; exact Hx|]. rewrite Forall_forall in S2. apply S2, in_map, Hx.
Qed.

Lemma acceptable_ok : forall h b, sorted_seq h -> (forall r, In r b -> r_seq r <= NIL) -> (batch_ok h b = true <-> acceptable h b).
Proof.
  intros h b Hs Hle. unfold batch_ok, acceptable. rewrite orb_true_iff, (rising_spec b _ Hle), (top_last _ Hs), forallb_forall. unfold auto.
  split; (intros [H|H]; [left; intros r Hr; specialize (H r Hr); lia|right; exact H]).
Qed.

Lemma batch_outcome : forall c h d b, cfg_ok c -> reach c h d -> d_bat d = None -> b <> [] -> allowed c h d (OBegin b) ->
  exists x d', step c (OBegin b) d = Some (x, d') /\
    (acceptable h b -> x = Ok [] /\ d_bat d' = Some (b, [])) /\
    (~ acceptable h b -> x = Fail INVALID_SEQNUM /\ d' = d).
Proof.
  intros c h d b Cok R Eb Hbne (A1 & A2 & A3 & A4). assert (D := reach_inv _ _ _ _ Cok R).
  destruct D as [(n0 & pre & F & part & H & Ht & Hl & HF & HFl & HG & HB)]. rewrite Eb in HB. destruct HB as [-> Hbar]. rewrite app_nil_r in *.
  assert (Ok1 := acceptable_ok h b (gi_asc _ _ _ _ _ _ H) A2).
  unfold DbModel.step. rewrite Eb, (co_ro _ Cok). destruct b as [|r0 b0] eqn:Ebb; [congruence|]. rewrite <- Ebb in *. clear Ebb r0 b0.
  rewrite (batch_begin_bar hash _ _ _ _ _ H Hl Hbar).
  assert (Hm : match h with [] => 0 | _ => lastseq h end = lastseq h) by (destruct h; reflexivity).
  rewrite Hm. set (g0 := with_bar (d_log d) (lastseq h)) in *.
  assert (H0 : GI n0 pre h F g0) by (apply gi_bar; exact H).
  rewrite (batch_valid_spec hash n0 pre h F g0 c b H0 (co_ow _ Cok) Hl); [|cbn; destruct h; reflexivity|exact A2|exact Hbne].
  destruct (batch_ok h b) eqn:Eok; eexists; eexists; (split; [reflexivity|]).
  - split; [auto|]. intros Hn. exfalso. apply Hn, Ok1. reflexivity.
  - split; [intros Ha; apply Ok1 in Ha; discriminate|]. intros _. split; [reflexivity|].
    assert (Eg : batch_end g0 = d_log d) by (unfold batch_end, g0, with_bar; cbn; destruct (d_log d); cbn in *; congruence).
    rewrite Eg. destruct d; cbn in *; congruence.
Qed.

(** The batch run step by step is LogMgr::setMulti. *)
Fixpoint puts (c : cfg) (n : nat) (d : db) : option db :=
  match n with
  | O => Some d
  | S n' => match step c OPut d with Some (Ok _, d') => puts c n' d' | _ => None end
  end.

Lemma puts_run : forall c b g0 t go done l g1, batch_puts hash c b g0 = (Ok l, g1) ->
  puts c (length b) (mkDb g0 t go (Some (b, done))) = Some (mkDb g1 t go (Some ([], done ++ l))).
Proof.
  intros c b. induction b as [|r b IH]; intros g0 t go done l g1 E.
  - injection E as <- <-. rewrite app_nil_r. reflexivity.
  - cbn [batch_puts] in E. destruct (batch_put hash c r g0) as [[r'|e|] g2] eqn:Ep; try discriminate.
    destruct (batch_puts hash c b g2) as [[l2|e|] g3] eqn:E2; try discriminate. injection E as <- <-.
    cbn [length puts]. unfold DbModel.step. cbn [d_bat d_log d_tab d_gone]. rewrite Ep. rewrite (IH _ _ _ _ _ _ E2), <- app_assoc. reflexivity.
Qed.

Lemma batch_is_set_multi : forall c b d l g', b <> [] -> d_bat d = None -> lm_set_multi hash c b (d_log d) = (Ok l, g') ->
  exists d1 d2, step c (OBegin b) d = Some (Ok [], d1) /\ puts c (length b) d1 = Some d2 /\
    step c OEnd d2 = Some (Ok l, mkDb g' (d_tab d) (d_gone d) None).
Proof.
  intros c b d l g' Hne Eb E. unfold lm_set_multi in E. destruct (c_ro c) eqn:Er; [discriminate|].
  destruct b as [|r0 b0] eqn:Ebb; [congruence|]. rewrite <- Ebb in *.
  destruct (batch_valid c b (batch_begin (d_log d))) eqn:Ev; [|discriminate].
  destruct (batch_puts hash c b (batch_begin (d_log d))) as [o g1] eqn:Ep.
  assert (o = Ok l) by congruence. subst o. assert (g' = batch_end g1) by congruence. subst g'.
  assert (P := puts_run c b _ (d_tab d) (d_gone d) [] _ _ Ep).
  eexists; eexists. split; [|split; [exact P|]].
  - unfold DbModel.step. rewrite Eb, Er, Ebb, <- Ebb, Ev. reflexivity.
  - reflexivity.
Qed.

(** * Flush *)

Lemma flush_outcome : forall c h d fo seq x d', cfg_ok c -> reach c h d -> allowed c h d (OFlush fo seq) ->
  step c (OFlush fo seq) d = Some (x, d') ->
  (x = Ok [] /\ exists F s, F <= s /\ d_tab d = filter (fun r => r_seq r <=? F) h /\ d_tab d' = filter (fun r => r_seq r <=? s) h /\
     lm_flushed_seq (d_log d') = Ok s /\ (lm_flushed_seq (d_log d) = Ok F \/ F = 0 /\ lm_flushed_seq (d_log d) = Fail INVALID_SEQNUM) /\
     (seq <> NIL -> s = seq) /\
     (seq = NIL -> o_limit fo = 0 -> if o_beyond fo then s = top h else forall y, lm_synced_seq (d_log d) = Ok y -> s = y))
  \/ ((exists e, x = Fail e) /\ d' = d).
Proof.
  intros c h d fo seq x d' Cok R Al E. assert (D := reach_inv _ _ _ _ Cok R). rewrite (top_last _ (di_sorted _ _ _ _ D)).
  destruct D as [(n0 & pre & F & part & H & Ht & Hl & HF & HFl & HG & HB)].
  destruct (flush_facts hash c h d fo seq n0 pre F part H Hl HB Al) as (ro & g1 & Efl & R1).
  assert (Hll := gi_lastseq_lt hash c h d _ _ _ _ H).
  unfold DbModel.step in E. rewrite Efl in E. destruct ro as [[rs cs]|e|]; [left|right|destruct R1].
  - destruct R1 as (n1 & pre1 & s & Hs & Hs1 & Hsl & Ers & H1 & Hseq & Hseq2 & _).
    injection E as <- <-. split; [reflexivity|]. exists F, s. split; [exact Hs|]. split; [exact Ht|]. split.
    { cbn [d_tab]. rewrite Ht, Ers, filter_app, (filter_none _ part); [rewrite app_nil_r; apply filter_cut; [|exact Hs]; apply (proj1 (gi_pre_part _ _ _ _ _ _ _ H))|].
      intros r Hr. destruct (proj2 (gi_pre_part _ _ _ _ _ _ _ H) r Hr) as [X|X]; [lia|]. subst h. cbn [lastseq rev] in Hsl. lia. }
    cbn [d_log]. split.
    { assert (M := flushed_mark _ _ _ _ _ (gi_bar _ _ _ _ _ _ (g_bar (d_log d)) H1) ltac:(lia)). replace (s =? 0) with false in M by lia. exact M. }
    split; [|split; [exact Hseq|exact Hseq2]].
    assert (M := flushed_mark _ _ _ _ _ H ltac:(lia)). destruct (F =? 0) eqn:E0; [right; split; [lia|exact M]|left; exact M].
  - injection E as <- <-. split; [eauto|]. rewrite R1. destruct d; reflexivity.
Qed.

(** What the tables hold. *)
Lemma tables_hold : forall c h d, cfg_ok c -> reach c h d ->
  (d_tab d = [] /\ lm_flushed_seq (d_log d) = Fail INVALID_SEQNUM) \/
  (exists F, lm_flushed_seq (d_log d) = Ok F /\ d_tab d = filter (fun r => r_seq r <=? F) h).
Proof.
  intros c h d Cok R. destruct (reach_inv _ _ _ _ Cok R) as [(n0 & pre & F & part & H & Ht & Hl & HF & HFl & HG & HB)].
  assert (M := flushed_mark _ _ _ _ _ H (di_F_lt c h d _ _ _ _ H HFl)). destruct (F =? 0) eqn:E0; [left|right; eauto].
  split; [|exact M]. rewrite Ht. apply filter_none. intros r Hr.
  assert (Y := gi_pos _ _ _ _ _ _ H r ltac:(apply in_or_app; left; exact Hr)). lia.
Qed.

End Proofs.
