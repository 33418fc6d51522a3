(** A sync with concurrent writers: the runs. *)
From Verif Require Import Base KeyModel KeyProofs LogFormatModel LogManifestModel BloomModel BloomProofs MemTableModel MemTableProofs
  LogMgrModel LogMgrProofs LogMgrProofs2 LogMgrProofs3 DbModel DbProofs DbProofs2 RecoverModel RecoverProofs RecoverProofs2 RecoverProofs3
  RecoverProofs5 RecoverProofs7 RecoverProofs8 RecoverProofs9 SyncRaceModel SyncRaceSpec SyncRaceProofs SyncRaceProofs2 SyncRaceProofs3 SyncRaceProofs4.
From Coq Require Import Sorted ZifyBool.
Local Open Scope N_scope.

Section Proofs.
Variable hash : key -> N * N.
Notation GI := (GI hash).
Notation FI := (FI hash).
Notation DI := (DI hash).
Notation PI := (PI hash).
Notation SI := (SI hash).


Definition YI (pw : bool) (c : cfg) (h0 h : list rec) (h1 : option (list rec)) (y : ydb) : Prop :=
  match y_sync y, h1 with
  | None, None => exists hs, starts h0 hs /\ PI pw c h hs (y_p y) /\ open_top (d_log (p_db (y_p y)))
  | Some r, Some h1 => exists hs, starts h0 hs /\ SI pw c h hs h1 r (y_p y) /\ MX hs (y_p y)
  | _, _ => False
  end.

Theorem yreach_inv : forall pw c h0 h h1 y, cfg_ok c -> yreach hash pw c h0 h h1 y -> YI pw c h0 h h1 y.
Proof.
  intros pw c h0 h h1 y Cok R. induction R as [|h0 h h1 y o x y' R IH Al Hb E|h0 h h1 y fsync x y' R IH Hne Hf E|h0 h h1 y o x y' R IH Ho E|h0 h h1 y x y' R IH E|h0 h h1 y fo seq held x y' R IH Al Hbey E].
  - unfold YI. cbn [y_new y_sync y_p]. exists []. split; [apply starts_refl|]. split; [apply pi_new; exact Cok|].
    intros f [<-|[]] _. reflexivity.
  - assert (Ho : match o with OSync _ | OFlush _ _ => False | _ => True end) by (destruct o; try exact I; discriminate).
    assert (Ep : exists p', p_write hash c o (y_p y) = Some (x, p') /\ y' = mkY p' (y_sync y)).
    { destruct o; try destruct Ho; cbn [ystep] in E;
        (destruct (p_write hash c _ (y_p y)) as [[x0 p0]|] eqn:Ew; [|discriminate]; injection E as <- <-; exists p0; split; reflexivity). }
    destruct Ep as (p' & Ep & ->). clear E. unfold YI in *. cbn [y_sync y_p]. destruct (y_sync y) as [r|] eqn:Es; destruct h1 as [h1|]; try destruct IH as [].
    + destruct H as (Hh & S & M). exists x0. split; [exact Hh|]. split; [|eapply mx_write; eauto; apply (si_di _ _ _ _ _ _ _ _ S)].
      eapply si_write; eauto. destruct (is_begin o); [|reflexivity]. specialize (Hb eq_refl). congruence.
    + destruct H as (Hh & P & Ht). exists x0. split; [exact Hh|]. 
      assert (Eq : pstep hash c (PDb o) (y_p y) = Some (x, p')) by (destruct o; try destruct Ho; exact Ep).
      destruct (pi_write hash pw c h x0 (y_p y) o x p' Cok P Al Eq) as [P' _]. split; [exact P'|].
      unfold p_write in Ep. destruct (step hash c o (p_db (y_p y))) as [[x1 d']|] eqn:Est; [|discriminate].
      assert (Ed : x1 = x /\ p_db p' = d').
      { destruct (g_max (d_log d') =? g_max (d_log (p_db (y_p y)))); [injection Ep as <- <-; auto|].
        destruct (file_at _ _); [|discriminate]. injection Ep as <- <-. auto. }
      destruct Ed as [-> Ed]. rewrite Ed. assert (D := pi_di _ _ _ _ _ _ P).
      destruct (write_imm_ls hash c h (p_db (y_p y)) o x d' Cok D Est Ho) as (_ & Himm).
      assert (Hmax : g_max (d_log (p_db (y_p y))) <= g_max (d_log d')).
      { destruct (write_grown hash c h (p_db (y_p y)) o x d' 0 Cok D Al Est Ho ltac:(lia)) as (_ & [(_ & A)|(nf & _ & _ & _ & _ & A & _)]); lia. }
      intros f' Hf' En. destruct (f_imm f') eqn:Ei; [|reflexivity]. destruct (Himm f' Hf' Ei) as (f & Hf & En2 & Ef).
      destruct D as [(n0 & pre & F & part & H & _)]. assert (X := file_le hash _ _ _ _ _ f H Hf). rewrite (Ht f Hf ltac:(lia)) in Ef. discriminate.
  - cbn [ystep] in E. unfold YI in IH. destruct (y_sync y) as [r|]; [discriminate|]. destruct h1; [destruct IH|]. destruct IH as (hs & Hh & P & Ht).
    destruct (y_begin fsync (y_p y)) as [r|] eqn:Eb; [|discriminate]. injection E as <- <-. unfold YI. cbn [y_sync y_p]. exists hs. split; [exact Hh|].
    split; [eapply si_begin; eauto|eapply mx_pi; eauto].
  - unfold YI in IH. destruct Ho as [<-|[<-|[<-|[]]]]; cbn [ystep] in E; (destruct (y_sync y) as [r|]; [|discriminate]);
      (destruct h1 as [h1|]; [|destruct IH]); destruct IH as (hs & Hh & S & M).
    + destruct (sr_bar r) eqn:Eb; [discriminate|]. injection E as <- <-. exists hs. split; [exact Hh|]. cbn [y_p]. split; [apply si_step_bar; assumption|exact M].
    + destruct (sr_bar r) as [b|] eqn:Eb; [|discriminate]. destruct (sr_after r) eqn:Ea; [discriminate|].
      destruct (sr_to r <? sr_next r) eqn:El; [discriminate|]. destruct (y_flush r b (y_p y)) as [r' p'] eqn:Ef. injection E as <- <-.
      exists hs. split; [exact Hh|]. cbn [y_p]. split; [eapply si_step_flush; eauto; lia|eapply mx_flush; eauto].
    + destruct (sr_after r) as [a|] eqn:Ea; [|discriminate]. destruct (y_mark r a (y_p y)) as [r' p'] eqn:Em. injection E as <- <-.
      exists hs. split; [exact Hh|]. cbn [y_p]. split; [eapply si_step_mark; eauto|eapply mx_mark; eauto].
  - cbn [ystep] in E. unfold YI in IH. destruct (y_sync y) as [r|]; [|discriminate]. destruct IH as (hs & Hh & S & M).
    destruct (sr_bar r) as [b|] eqn:Eb; [|discriminate]. destruct (sr_after r) eqn:Ea; [discriminate|].
    destruct (sr_to r <? sr_next r) eqn:El; [|discriminate]. injection E as <- <-. unfold YI. cbn [y_sync y_p].
    apply (si_step_end hash pw c h hs h1 r (y_p y) S Ea). lia.
  - cbn [ystep] in E. unfold YI in IH. destruct (y_sync y) as [r|]; [discriminate|]. destruct h1; [destruct IH|]. destruct IH as (hs & Hh & P & Ht).
    destruct (p_flush hash c fo seq held (y_p y)) as [[x0 p']|] eqn:Ef; [|discriminate]. injection E as <- <-. unfold YI. cbn [y_sync y_p].
    exists hs. split; [exact Hh|]. destruct (pi_flush hash pw c h hs (y_p y) fo seq held x0 p' Cok P Al Hbey Ef) as [P' _]. split; [exact P'|].
    unfold p_flush in Ef. destruct (step hash c (OFlush fo seq) (p_db (y_p y))) as [[x1 d']|] eqn:Est; [|discriminate].
    assert (Ed : p_db p' = d') by (injection Ef as <- <-; destruct x1; reflexivity). rewrite Ed.
    destruct (flush_imm hash c (p_db (y_p y)) fo seq x1 d' Est) as [Hm Hi]. intros f' Hf' En. destruct (Hi f' Hf') as (f & Hf & E1 & E2).
    rewrite <- E2. apply Ht; [exact Hf|]. congruence.
Qed.

(** Reads see every acknowledged write, also during a sync. *)
Theorem yreach_reads : forall pw c h0 h h1 y k, cfg_ok c -> c_lso c = false -> yreach hash pw c h0 h h1 y ->
  db_get hash c k (p_db (y_p y)) = spec_get h k.
Proof.
  intros pw c h0 h h1 y k Cok Hl R. apply (get_di hash c h); [exact Hl|]. assert (I := yreach_inv _ _ _ _ _ _ Cok R). unfold YI in I.
  destruct (y_sync y) as [r|]; destruct h1 as [h1|]; try destruct I as []; [apply H|]. apply (pi_di _ _ _ _ _ _ (proj1 (proj2 H))).
Qed.

(** What was acknowledged when the last finished sync began survives a crash. *)
Theorem yreach_crash : forall pw c h0 h y x, cfg_ok c -> c_lso c = false -> yreach hash pw c h0 h None y -> crashes pw (y_p y) x ->
  exists hs, starts h0 hs /\ starts hs h /\
  exists p', pstep hash c (PReopen x) (y_p y) = Some (Ok [], p') /\ answers hash c hs p'.
Proof.
  intros pw c h0 h y x Cok Hl R X. assert (I := yreach_inv _ _ _ _ _ _ Cok R). unfold YI in I. destruct (y_sync y); [destruct I|].
  destruct I as (hs & Hh & P & _). exists hs. split; [exact Hh|]. split; [exact (pi_pre _ _ _ _ _ _ P)|].
  eapply crash_answers; eauto.
Qed.

(** The process dies, possibly in the middle of a sync. *)
Theorem yreach_dies : forall pw c h0 h h1 y disk, cfg_ok c -> c_lso c = false -> yreach hash pw c h0 h h1 y -> y_left y disk ->
  exists hs p', starts h0 hs /\ starts hs h /\
    p_open hash c (d_tab (p_db (y_p y))) disk (p_dur (y_p y)) (p_man (y_p y)) (p_old (y_p y)) = Some p' /\
    (forall k, db_get hash c k (p_db p') = spec_get hs k).
Proof.
  intros pw c h0 h h1 y disk Cok Hl R L. assert (I := yreach_inv _ _ _ _ _ _ Cok R). unfold YI in I.
  destruct (y_sync y) as [r|] eqn:Es.
  - destruct h1 as [h1|]; [|destruct I]. destruct I as (hs & Hh & S & M).
    assert (G : forall r' p', SI pw c h hs h1 r' p' -> MX hs p' -> found hs r' p' disk -> d_tab (p_db p') = d_tab (p_db (y_p y)) -> p_dur p' = p_dur (y_p y) ->
      p_man p' = p_man (y_p y) -> p_old p' = p_old (y_p y) -> exists hs p', starts h0 hs /\ starts hs h /\
      p_open hash c (d_tab (p_db (y_p y))) disk (p_dur (y_p y)) (p_man (y_p y)) (p_old (y_p y)) = Some p' /\
      (forall k, db_get hash c k (p_db p') = spec_get hs k)).
    { intros r' p' S' M' Fd E1 E2 E3 E4. destruct (crash_si hash pw c h hs h1 r' p' disk Cok Hl S' M' Fd) as (q & h' & Eo & A & B & C).
      rewrite E1, E2, E3, E4 in Eo. exists h', q. split; [eapply starts_trans; eassumption|]. split; [exact B|]. split; [exact Eo|exact C]. }
    destruct L as [|r0 b f j torn Er Eb Ea Hle Ef].
    + apply (G r (y_p y) S M); try reflexivity. intros f x Hf Ex. exists x. split; [exact Ex|left; reflexivity].
    + assert (r0 = r) by congruence. subst r0. destruct (y_flush r b (y_p y)) as [r' p'] eqn:Efl.
      assert (S' := si_step_flush hash pw c h hs h1 r (y_p y) b r' p' S Eb Ea Hle Efl). assert (M' := mx_flush hs r b (y_p y) r' p' Efl M).
      unfold y_flush in Efl. rewrite Ef in Efl. injection Efl as <- <-. apply (G _ _ S' M'); try reflexivity.
      intros f0 x Hf0 Ex. cbn [with_disk p_db p_disk] in Hf0, Ex. cbn [sr_next sr_after].
      assert (Hpn : forall d, dl_num (append_part (sr_next r) (firstn j (to_write f (marked (y_after b f) f))) torn d) = dl_num d).
      { intros d. unfold append_part. destruct (_ && _); reflexivity. }
      rewrite dlog_at_map by exact Hpn.
      destruct (si_di _ _ _ _ _ _ _ _ S) as [(n0 & pre & F & part & H & _)].
      destruct (N.eq_dec (f_num f0) (sr_next r)) as [e|n].
      * assert (f0 = f) by (rewrite <- e, (file_here hash _ _ _ _ _ f0 H Hf0) in Ef; congruence). subst f0.
        destruct (si_todo _ _ _ _ _ _ _ _ S f Hf0 ltac:(lia)) as (_ & _ & Dk). specialize (Dk (fun _ => Ea)). unfold disk_ok in Dk.
        rewrite e in Dk. rewrite e, (append_same _ _ _ _ Dk) in Ex. injection Ex as <-. rewrite e, Dk. eexists. split; [reflexivity|].
        right. split; [reflexivity|]. split; [discriminate|]. unfold append_part. cbn [dl_num dl_torn dl_recs]. rewrite N.eqb_refl. cbn [andb negb dl_recs].
        split; [eexists; reflexivity|]. set (tw := to_write f (marked (y_after b f) f)). exists (skipn j tw). rewrite <- app_assoc, firstn_skipn. reflexivity.
      * rewrite (append_other _ _ _ _ n) in Ex. rewrite Ex. eexists. split; [reflexivity|]. left. unfold append_part.
        apply dlog_at_in in Ex. destruct Ex as [_ Ex]. replace (dl_num x =? sr_next r) with false by lia. reflexivity.
  - destruct h1; [destruct I|]. destruct I as (hs & Hh & P & _). destruct L as [|r0 b f j torn Er]; [|congruence].
    destruct (crash_answers hash pw c h hs (y_p y) XKill Cok Hl P I) as (p' & E & A & _). exists hs, p'. split; [exact Hh|]. split; [exact (pi_pre _ _ _ _ _ _ P)|].
    split; [|exact A]. cbn [pstep p_reopen] in E. destruct (p_open hash c _ _ _ _ _); [injection E as ->; reflexivity|discriminate].
Qed.

End Proofs.
