(** Crash recovery with tables: what a recovered database answers, and that it can go on. *)
From Verif Require Import Base KeyModel KeyProofs LogFormatModel LogManifestModel BloomModel BloomProofs MemTableModel MemTableProofs
  LogMgrModel LogMgrProofs LogMgrProofs2 LogMgrProofs3 DbModel DbProofs RecoverModel RecoverProofs RecoverProofs2 RecoverProofs3 RecoverProofs4.
From Coq Require Import Sorted ZifyBool.
Local Open Scope N_scope.

Lemma upto_self : forall hs x, sorted_seq (hs ++ x) -> (forall r, In r x -> 1 <= r_seq r) -> upto (lastseq hs) (hs ++ x) = hs.
Proof.
  intros hs x Hs Hp. assert (H1 := Hs). unfold sorted_seq in H1. rewrite map_app in H1. apply SS_app_inv in H1. destruct H1 as (H1 & H2 & H3).
  rewrite upto_app, upto_all, upto_none; [apply app_nil_r| |intros r Hr; apply lastseq_ge; assumption].
  intros r Hr. destruct hs as [|y t] eqn:E; [specialize (Hp r Hr); cbn; lia|]. rewrite <- E in *.
  destruct (lastseq_in hs) as (z & Hz & <-); [rewrite E; discriminate|]. apply (asc_app_lt _ _ z r Hs Hz Hr).
Qed.

Lemma all_h_upto : forall hash s a fs, Forall2 (RI hash s) a fs -> all_h fs = upto s (all_h a).
Proof.
  intros hash s a fs H; induction H as [|f f' a fs R H IH]; [reflexivity|]. cbn [all_h flat_map]. rewrite upto_app, (ri_fh _ _ _ _ R).
  f_equal. exact IH.
Qed.

Lemma ri_nums : forall hash s a fs, Forall2 (RI hash s) a fs -> map f_num fs = map f_num a.
Proof. intros hash s a fs H; induction H as [|f f' a fs R H IH]; [reflexivity|]. cbn [map]. rewrite (ri_num _ _ _ _ R), IH. reflexivity. Qed.

Lemma ri_in : forall hash s a fs, Forall2 (RI hash s) a fs -> forall f', In f' fs -> exists f, In f a /\ RI hash s f f'.
Proof.
  intros hash s a fs H; induction H as [|x y l l' Hxy Hl IH]; intros f' []; [subst; exists x; split; [left; reflexivity|assumption]|].
  destruct (IH _ H) as (f & Hf & Hs). exists f; split; [right; exact Hf|exact Hs].
Qed.

Lemma ri_in2 : forall hash s a fs, Forall2 (RI hash s) a fs -> forall f, In f a -> exists f', In f' fs /\ RI hash s f f'.
Proof.
  intros hash s a fs H; induction H as [|x y l l' Hxy Hl IH]; intros f []; [subst; exists y; split; [left; reflexivity|assumption]|].
  destruct (IH _ H) as (f' & Hf & Hs). exists f'; split; [right; exact Hf|exact Hs].
Qed.

Lemma f2_len : forall {A B} (R : A -> B -> Prop) l l', Forall2 R l l' -> length l = length l'.
Proof. intros A B R l l' H; induction H; cbn [length]; congruence. Qed.

Section Proofs.
Variable hash : key -> N * N.
Notation GI := (GI hash).
Notation FI := (FI hash).
Notation DI := (DI hash).
Notation PI := (PI hash).
Notation RI := (RI hash).

(** What was handed to the tables was synced. *)
Lemma flushed_synced : forall n0 pre h F g s, GI n0 pre h F g -> (forall f, In f (g_files g) -> m_synced (f_mt f) = mark s f) -> F <= s.
Proof.
  intros n0 pre h F g s H Hm. destruct (N.eq_dec F 0) as [->|n]; [lia|].
  destruct (gi_F _ _ _ _ _ _ H n) as (r & Hr & Er). apply in_flat_map in Hr. destruct Hr as (f & Hf & Hr).
  assert (U := gi_flu _ _ _ _ _ _ H f r Hf Hr). assert (FIf := gi_fi _ _ _ _ _ _ H f Hf). unfold unflushed, valid_number in U.
  destruct (m_flushed (f_mt f) =? NIL) eqn:E; [cbn [negb orb] in U; lia|]. cbn [negb orb] in U.
  destruct (fi_ord _ _ FIf) as [A B]; [lia|]. rewrite (Hm f Hf) in A, B.
  assert (NE : upto s (fh f) <> []) by (intros Z; apply A; unfold mark; rewrite Z; reflexivity).
  rewrite (mark_some _ _ NE) in B. destruct (lastseq_in _ NE) as (y & Hy & Ey). apply upto_in in Hy. lia.
Qed.

(** The facts about the running database that opening relies on. *)
Record good (c : cfg) (h hs : list rec) (d : db) (n0 : N) (pre : list rec) (F : N) (part : list rec) : Prop := {
  go_gi : GI n0 pre (h ++ part) F (d_log d);
  go_tab : d_tab d = filter (fun r => r_seq r <=? F) h;
  go_lim : lastseq (h ++ part) + 1 < NIL;
  go_pre : exists tl, h = hs ++ tl;
  go_mark : forall f, In f (g_files (d_log d)) -> m_synced (f_mt f) = mark (lastseq hs) f
}.

Lemma pi_good : forall pw c h hs p, PI pw c h hs p -> exists n0 pre F part, good c h hs (p_db p) n0 pre F part.
Proof.
  intros pw c h hs p P. destruct (pi_di _ _ _ _ _ _ P) as [(n0 & pre & F & part & H & Ht & Hl & _)].
  exists n0, pre, F, part. constructor; try assumption; [apply (pi_pre _ _ _ _ _ _ P)|apply (pi_mark _ _ _ _ _ _ P)].
Qed.

Lemma good_hs : forall c h hs d n0 pre F part a b, good c h hs d n0 pre F part ->
  g_files (d_log d) = a ++ b -> (forall f, In f b -> upto (lastseq hs) (fh f) = []) ->
  F <= lastseq hs /\ hs = pre ++ upto (lastseq hs) (all_h a) /\ sorted_seq hs /\ (forall r, In r hs -> 1 <= r_seq r) /\
  d_tab d = filter (fun r => r_seq r <=? F) hs /\ lastseq hs + 1 < NIL /\
  (upto (lastseq hs) (all_h a) = [] -> hs = []).
Proof.
  intros c h hs d n0 pre F part a b G E Hb. destruct G as [H Ht Hl (tl & ->) Hm].
  assert (HF := flushed_synced _ _ _ _ _ _ H Hm). rewrite <- app_assoc in *.
  assert (Hs := gi_asc _ _ _ _ _ _ H). assert (Hp := gi_pos _ _ _ _ _ _ H).
  assert (Hs1 : sorted_seq hs) by (unfold sorted_seq in *; rewrite map_app in Hs; apply SS_app_inv in Hs; tauto).
  assert (Hself := upto_self hs (tl ++ part) Hs ltac:(intros r Hr; apply Hp; apply in_or_app; right; exact Hr)).
  assert (Hub : upto (lastseq hs) (all_h b) = []).
  { destruct (upto (lastseq hs) (all_h b)) as [|r t] eqn:Eb; [reflexivity|].
    assert (X : In r (upto (lastseq hs) (all_h b))) by (rewrite Eb; left; reflexivity). apply upto_in in X. destruct X as [X Y].
    apply in_flat_map in X. destruct X as (f & Hf & X). assert (Z : In r (upto (lastseq hs) (fh f))) by (apply upto_in; auto).
    rewrite (Hb f Hf) in Z. destruct Z. }
  assert (Hpre : upto (lastseq hs) pre = pre) by (apply upto_all; intros r Hr; assert (X := gi_pre _ _ _ _ _ _ H r Hr); lia).
  assert (Hhs : hs = pre ++ upto (lastseq hs) (all_h a)).
  { rewrite <- Hself at 1. rewrite (gi_hist _ _ _ _ _ _ H), E, all_h_app, !upto_app, Hub, Hpre, app_nil_r. reflexivity. }
  split; [exact HF|]. split; [exact Hhs|]. split; [exact Hs1|]. split; [intros r Hr; apply Hp; apply in_or_app; left; exact Hr|]. split.
  { rewrite Ht, filter_app, (filter_none _ tl); [apply app_nil_r|]. intros r Hr.
    assert (X : lastseq hs < r_seq r).
    { destruct hs as [|y t] eqn:Eh; [assert (Y := Hp r ltac:(apply in_or_app; right; apply in_or_app; left; exact Hr)); cbn; lia|]. rewrite <- Eh in *.
      destruct (lastseq_in hs) as (z & Hz & <-); [rewrite Eh; discriminate|].
      apply (asc_app_lt _ _ z r Hs Hz). apply in_or_app; left; exact Hr. }
    lia. }
  split.
  { destruct hs as [|y t] eqn:Eh; [cbn; rewrite nil_val; lia|]. rewrite <- Eh in *. destruct (lastseq_in hs) as (z & Hz & Ez); [rewrite Eh; discriminate|].
    assert (X := lastseq_ge _ z Hs ltac:(apply in_or_app; left; exact Hz)). lia. }
  intros Z. rewrite Hhs, Z, app_nil_r. destruct pre as [|y t] eqn:Ep; [reflexivity|exfalso]. rewrite <- Ep in *.
  assert (Hy : In y pre) by (rewrite Ep; left; reflexivity). assert (X := gi_pre _ _ _ _ _ _ H y Hy).
  assert (Y : 1 <= r_seq y) by (apply Hp; rewrite (gi_hist _ _ _ _ _ _ H); apply in_or_app; left; exact Hy).
  destruct (gi_F _ _ _ _ _ _ H ltac:(lia)) as (r & Hr & Er).
  assert (Hu : In r (upto (lastseq hs) (all_h (g_files (d_log d))))) by (apply upto_in; split; [exact Hr|lia]).
  rewrite E, all_h_app, upto_app, Z, Hub in Hu. destruct Hu.
Qed.

(** What opening makes of the disk. *)
Lemma open_ok : forall c h hs d n0 pre F part disk dur M old, cfg_ok c -> c_lso c = false -> good c h hs d n0 pre F part ->
  man_ok (lastseq hs) (d_log d) M ->
  (forall f, In f (g_files (d_log d)) -> exists x, dlog_at (f_num f) disk = Some x /\ dl_recs x = upto (lastseq hs) (fh f)) ->
  exists a b fs X p', g_files (d_log d) = a ++ b /\ (forall f, In f b -> upto (lastseq hs) (fh f) = []) /\ Forall2 ent_ok (l_files M) a /\
    (exists a' f, a = a' ++ [f] /\ l_max M = f_num f) /\
    Forall2 (RI (lastseq hs)) a fs /\ n0 <= X <= l_max M /\
    (forall fs1 f', fs = fs1 ++ [f'] -> m_max (f_mt f') = match upto (lastseq hs) (all_h a) with [] => NIL | _ => lastseq (upto (lastseq hs) (all_h a)) end) /\
    p_open hash c (d_tab d) disk dur M old = Some p' /\
    p_db p' = mkDb (mkG fs (l_max M) (g_lf (d_log d)) X 0) (d_tab d) [] None /\
    p_disk p' = filter (fun y => match file_at (dl_num y) fs with Some _ => true | None => false end) disk /\
    p_dur p' = filter (fun y => match file_at (dl_num y) fs with Some _ => true | None => false end) dur /\
    ((p_man p' = M /\ p_old p' = old) \/ (p_man p' = man_of (d_log (p_db p')) /\ p_old p' = [])).
Proof.
  intros c h hs d n0 pre F part disk dur M old [Co Cr Cm] Hlso G (a & b & E & Hb & He & (a' & fl & Ea & Emax) & Hlf & Hls) Hdisk.
  destruct G as [H Ht Hl Hpre Hm].
  assert (HN := gi_nums _ _ _ _ _ _ H). assert (HG := gi_gmax _ _ _ _ _ _ H). rewrite E in HN, HG, Hm, Hdisk.
  assert (HNa := HN). apply nums_app in HNa. destruct HNa as [HNa _].
  assert (Hfl : In fl a) by (rewrite Ea; apply in_or_app; right; left; reflexivity).
  assert (Hmaxb : l_max M + 1 = n0 + len a).
  { rewrite Emax, Ea in *. apply nums_app in HNa. destruct HNa as [_ [X _]]. unfold len in *. rewrite app_length. cbn [length]. lia. }
  assert (Hll := gi_few _ _ _ _ _ _ H).
  assert (Hlm : l_max M < NIL) by (unfold len in *; rewrite app_length in HG; lia).
  assert (Hina : forall f, In f a -> In f (a ++ b)) by (intros f Hf; apply in_or_app; left; exact Hf).
  assert (Hfi : forall f, In f a -> FI f) by (intros f Hf; apply (gi_fi _ _ _ _ _ _ H); rewrite E; auto).
  assert (Hent : forall e, In e (l_files M) -> exists f, In f a /\ e_num e = f_num f).
  { clear -He. induction He as [|e f es a (A1 & _) He IH]; intros x []; [subst; exists f; split; [left; reflexivity|exact A1]|].
    destruct (IH x H) as (y & Hy & Ey). exists y. split; [right; exact Hy|exact Ey]. }
  destruct (load_files_fills {| c_section_only := c_lso c; c_truncate_inconsecutive := true |} (disk_status disk) (l_files M) NIL false
             (mkLoad (l_max M) (l_flushed M) (l_synced M) [] None) n0 (l_max M)) as (X & EL & _ & HX).
  - exact Hlso.
  - intros e Hee. destruct (Hent e Hee) as (f & Hf & ->). destruct (Hdisk f (Hina f Hf)) as (x & Ex & _). unfold disk_status. rewrite Ex. destruct (dl_torn x); auto.
  - intros e Hee. destruct (Hent e Hee) as (f & Hf & ->). assert (Y := nums_in _ _ _ HNa Hf). lia.
  - cbn [d_flushed]. rewrite Hlf. apply (gi_lf _ _ _ _ _ _ H).
  - cbn [d_synced]. exact Hls.
  - exact Hlm.
  - cbn [d_max d_flushed d_files d_new app] in EL.
    destruct (load_all_ri hash c disk (lastseq hs) (l_files M) a Cm He Hfi (fun f Hf => Hm f (Hina f Hf)) (fun f Hf => Hdisk f (Hina f Hf))) as (fs & EA & RA & RM).
    assert (Hes : l_files M <> []).
    { intros Z. rewrite Z, Ea in He. apply f2_len in He. rewrite app_length in He. cbn [length] in He. lia. }
    unfold p_open. rewrite EL. cbn [d_new d_files d_max d_flushed d_synced]. rewrite EA.
    rewrite map_id.
    set (listed := fun n => match file_at n fs with Some _ => true | None => false end).
    set (g' := mkG fs (l_max M) (l_flushed M) X 0).
    destruct fs as [|f0 fs0] eqn:Efs; [apply f2_len in RA; rewrite Ea, app_length in RA; cbn [length] in RA; lia|]. rewrite <- Efs in *.
    assert (RM2 : forall fs1 f', fs = fs1 ++ [f'] -> m_max (f_mt f') = match upto (lastseq hs) (all_h a) with [] => NIL | _ => lastseq (upto (lastseq hs) (all_h a)) end)
      by (intros fs1 f' Q; apply (RM a' fl fs1 f' Ea Q)).
    exists a, b, fs, X. eexists. split; [exact E|]. split; [exact Hb|]. split; [exact He|]. split; [exists a', fl; auto|].
    split; [exact RA|]. split; [apply HX; left; exact Hes|]. split; [exact RM2|]. split; [reflexivity|].
    rewrite <- Hlf. subst g'. rewrite <- Efs. match goal with |- context [if negb (forallb ?q disk) then _ else _] => destruct (negb (forallb q disk)) end; cbn [p_store p_db p_disk p_dur p_man p_old d_log];
      (split; [reflexivity|]; split; [reflexivity|]; split; [reflexivity|]); [right|left]; split; reflexivity.
Qed.

(** Reads after recovery. *)
Lemma recovered_get : forall c h hs d n0 pre F part a b fs X mx k, c_lso c = false -> good c h hs d n0 pre F part ->
  g_files (d_log d) = a ++ b -> (forall f, In f b -> upto (lastseq hs) (fh f) = []) -> a <> [] -> mx + 1 = n0 + len a ->
  Forall2 (RI (lastseq hs)) a fs ->
  db_get hash c k (mkDb (mkG fs mx (g_lf (d_log d)) X 0) (d_tab d) [] None) = spec_get hs k.
Proof.
  intros c h hs d n0 pre F part a b fs X mx k Hlso G E Hb Hne Hmx RA.
  destruct (good_hs _ _ _ _ _ _ _ _ a b G E Hb) as (HF & Hhs & Hs & Hpos & Ht & Hl & _).
  destruct G as [H _ Hl2 _ Hm].
  assert (HN := gi_nums _ _ _ _ _ _ H). rewrite E in HN. apply nums_app in HN. destruct HN as [HN _].
  assert (HNf : nums_from n0 fs) by (eapply nums_same; [|exact HN]; symmetry; eapply ri_nums; exact RA).
  assert (Hlen : len fs = len a).
  { unfold len. f_equal. rewrite <- (map_length f_num fs), (ri_nums _ _ _ _ RA), map_length. reflexivity. }
  assert (Hfne : fs <> []) by (intros Z; rewrite Z in *; inversion RA; congruence).
  assert (Hall := all_h_upto _ _ _ _ RA).
  assert (Hmxl : mx < NIL).
  { assert (Y := gi_few _ _ _ _ _ _ H). assert (Z := gi_gmax _ _ _ _ _ _ H). rewrite E in Z. unfold len in *. rewrite app_length in Z. lia. }
  assert (Elog : lm_get hash c k (mkG fs mx (g_lf (d_log d)) X 0) = log_answer hs F NIL k).
  { unfold lm_get, last_flushed, max_num, min_num. cbn [g_lf g_files g_max g_bar]. rewrite Hlso. replace (mx =? NIL) with false by lia.
    assert (Hfst : match fs with f :: _ => f_num f | [] => 0 end = n0).
    { destruct fs as [|f0 t]; [congruence|]. apply HNf. }
    assert (Hlf : (if g_lf (d_log d) =? NIL then match fs with f :: _ => Some (f_num f) | [] => None end else Some (g_lf (d_log d))) = Some n0).
    { destruct fs as [|f0 t]; [congruence|]. rewrite Hfst. destruct (gi_lf _ _ _ _ _ _ H) as [-> | ->]; [rewrite N.eqb_refl; reflexivity|].
      destruct (n0 =? NIL) eqn:Q; [reflexivity|reflexivity]. }
    rewrite Hlf. rewrite (file_range_all fs n0 mx HNf Hfne ltac:(lia)).
    rewrite (first_ok_spec hash fs F k NIL).
    - unfold log_answer. rewrite Hhs at 1. rewrite newest_app, <- Hall. destruct (newest (all_h fs) NIL k) as [r|]; [reflexivity|].
      destruct (newest pre NIL k) as [r|] eqn:En; [|reflexivity]. apply newest_in in En.
      assert (Y := gi_pre _ _ _ _ _ _ H r (proj1 En)). replace (F <? r_seq r) with false by lia. reflexivity.
    - rewrite Hall. apply upto_sorted. assert (Y := gi_sorted_files _ _ _ _ _ _ H). rewrite E, all_h_app in Y.
      unfold sorted_seq in *. rewrite map_app in Y. apply SS_app_inv in Y. tauto.
    - intros f' Hf'. destruct (ri_in _ _ _ _ RA f' Hf') as (f & Hf & R). rewrite (mt_get_spec hash _ _ _ _ _ _ (ri_mr _ _ _ _ R)).
      f_equal. unfold newest.
      assert (Hvis : forall x, In x (rev (for_key k (fh f'))) -> visible (read_limit 0 (f_mt f')) x = visible NIL x).
      { intros x Hx. apply in_rev in Hx. apply filter_In in Hx. assert (B := mr_bnd _ _ _ (ri_mr _ _ _ _ R) x (proj1 Hx)).
        unfold visible, read_limit, valid_number. cbn [N.eqb negb]. rewrite N.eqb_refl. cbn [negb orb].
        destruct (m_max (f_mt f') =? NIL); [reflexivity|]. cbn [negb orb]. lia. }
      induction (rev (for_key k (fh f'))) as [|x l IH]; [reflexivity|]. cbn [find].
      rewrite (Hvis x (or_introl eq_refl)). rewrite IH by (intros y Hy; apply Hvis; right; exact Hy). reflexivity.
    - intros f' r Hf' Hr. destruct (ri_in _ _ _ _ RA f' Hf') as (f & Hf & R). rewrite (ri_flu _ _ _ _ R).
      rewrite (ri_fh _ _ _ _ R) in Hr. apply upto_in in Hr. apply (gi_flu _ _ _ _ _ _ H f r); [rewrite E; apply in_or_app; left; exact Hf|apply Hr]. }
  unfold db_get. cbn [d_log d_tab]. rewrite Elog, Ht. apply (log_plus_tab hash). exact Hs.
Qed.

End Proofs.
