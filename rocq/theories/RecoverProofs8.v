(** Crash recovery with tables: the process dies in the middle of a sync or a flush. *)
From Verif Require Import Base KeyModel KeyProofs LogFormatModel LogManifestModel BloomModel BloomProofs MemTableModel MemTableProofs
  LogMgrModel LogMgrProofs LogMgrProofs2 LogMgrProofs3 DbModel DbProofs RecoverModel RecoverProofs RecoverProofs2 RecoverProofs3
  RecoverProofs4 RecoverProofs5.
From Verif Require LogSpec RollbackProofs2.
From Coq Require Import Sorted ZifyBool.
Local Open Scope N_scope.

(** ** The loop over the manifest when the first files are missing *)

Lemma lsync_cons : forall last e es, lsync last (e :: es) = lsync (if valid_number (e_synced e) then e_synced e else last) es.
Proof. reflexivity. Qed.

Lemma load_files_missing : forall cf st es0 es1 last mx lf sy n0, c_section_only cf = false ->
  (forall e, In e es0 -> st (e_num e) = F_NOT_EXIST) -> (forall e, In e es0 -> n0 <= e_num e) -> lf = NIL \/ lf = n0 ->
  es0 <> [] -> es1 <> [] ->
  load_files cf st (es0 ++ es1) last false (mkLoad mx lf sy [] None) =
  load_files cf st es1 (lsync last es0) false (mkLoad mx NIL NIL [] None).
Proof.
  intros cf st es0 es1; induction es0 as [|e es0 IH]; intros last mx lf sy n0 Hcf Hst Hn Hlf Hne Hne1; [congruence|].
  cbn [app load_files]. unfold invalid_log. rewrite Hcf. cbn [andb d_flushed]. cbv zeta.
  assert (Hskip : valid_number lf && (e_num e <? lf) = false).
  { assert (X := Hn e (or_introl eq_refl)). unfold valid_number. destruct Hlf as [-> | ->]; [rewrite N.eqb_refl; reflexivity|].
    replace (e_num e <? n0) with false by lia. apply andb_false_r. }
  rewrite Hskip, (Hst e (or_introl eq_refl)). cbn [negb].
  assert (Hnl : (match es0 ++ es1 with [] => true | _ => false end) = false) by (destruct es0; [destruct es1; [congruence|reflexivity]|reflexivity]).
  rewrite Hnl. cbn [negb andb d_max d_files d_new]. rewrite lsync_cons. destruct es0 as [|e2 es0'] eqn:E0.
  - cbn [app lsync fold_left]. reflexivity.
  - rewrite <- E0 in *. apply (IH _ mx NIL NIL n0); try assumption; try (intros x Hx; first [apply Hst|apply Hn]; right; exact Hx).
    + left; reflexivity.
    + rewrite E0; discriminate.
Qed.

(** ** Prefixes *)
Definition prefix {A} (a b : list A) : Prop := exists c, b = a ++ c.

Lemma prefix_refl : forall {A} (a : list A), prefix a a.
Proof. intros A a. exists []. rewrite app_nil_r. reflexivity. Qed.
Lemma prefix_app : forall {A} (p a b : list A), prefix a b -> prefix (p ++ a) (p ++ b).
Proof. intros A p a b [c ->]. exists c. rewrite app_assoc. reflexivity. Qed.

(** Files written in order: what is on disk is a prefix of what was to be written. *)
Lemma in_order : forall (cont : lgf -> list rec) s0 s1 fs, sorted_seq (all_h fs) ->
  (forall f, In f fs -> prefix (upto s0 (fh f)) (cont f)) -> (forall f, In f fs -> prefix (cont f) (upto s1 (fh f))) ->
  (forall a f b, fs = a ++ f :: b -> cont f <> upto s1 (fh f) -> forall g, In g b -> cont g = upto s0 (fh g)) ->
  prefix (upto s0 (all_h fs)) (flat_map cont fs) /\ prefix (flat_map cont fs) (upto s1 (all_h fs)).
Proof.
  intros cont s0 s1 fs; induction fs as [|f fs IH]; intros Hs Hlo Hhi Hord; [split; apply prefix_refl|].
  change (all_h (f :: fs)) with (fh f ++ all_h fs) in *. change (flat_map cont (f :: fs)) with (cont f ++ flat_map cont fs).
  rewrite !upto_app.
  assert (Hs2 : sorted_seq (all_h fs)) by (unfold sorted_seq in *; rewrite map_app in Hs; apply SS_app_inv in Hs; tauto).
  destruct (IH Hs2) as [I1 I2].
  { intros g Hg. apply Hlo. right; exact Hg. }
  { intros g Hg. apply Hhi. right; exact Hg. }
  { intros a g b E. apply (Hord (f :: a) g b). rewrite E. reflexivity. }
  assert (Hnone : forall r, In r (fh f) -> s0 < r_seq r -> upto s0 (all_h fs) = []).
  { intros r Hr Hlt. apply upto_none. intros y Hy. assert (X := asc_app_lt _ _ r y Hs Hr Hy). lia. }
  destruct (Hlo f (or_introl eq_refl)) as [w Ew]. destruct (Hhi f (or_introl eq_refl)) as [v Ev]. split.
  - destruct w as [|r w].
    + rewrite app_nil_r in Ew. rewrite Ew. apply prefix_app, I1.
    + assert (Hr : In r (upto s1 (fh f))) by (rewrite Ev, Ew; apply in_or_app; left; apply in_or_app; right; left; reflexivity).
      apply upto_in in Hr.
      assert (Hlt : s0 < r_seq r).
      { destruct (N.le_gt_cases (r_seq r) s0) as [Q|Q]; [|exact Q]. exfalso.
        assert (Hin : In r (upto s0 (fh f))) by (apply upto_in; tauto).
        assert (Hs3 : sorted_seq (upto s1 (fh f))).
        { apply upto_sorted. unfold sorted_seq in *; rewrite map_app in Hs; apply SS_app_inv in Hs; tauto. }
        rewrite Ev, Ew, <- app_assoc in Hs3. assert (X := asc_app_lt _ _ r r Hs3 Hin (or_introl eq_refl)). lia. }
      rewrite (Hnone r (proj1 Hr) Hlt), app_nil_r. exists ((r :: w) ++ flat_map cont fs). rewrite Ew, <- !app_assoc. reflexivity.
  - destruct v as [|r v].
    + rewrite app_nil_r in Ev. rewrite Ev. apply prefix_app, I2.
    + assert (Hne : cont f <> upto s1 (fh f)).
      { rewrite Ev. intros Z. apply (f_equal (@length rec)) in Z. rewrite app_length in Z. cbn [length] in Z. lia. }
      assert (Hc := Hord [] f fs eq_refl Hne).
      assert (Hr : In r (upto s1 (fh f))) by (rewrite Ev; apply in_or_app; right; left; reflexivity). apply upto_in in Hr.
      assert (Hlt : s0 < r_seq r).
      { destruct (N.le_gt_cases (r_seq r) s0) as [Q|Q]; [|exact Q]. exfalso.
        assert (Hin : In r (cont f)) by (rewrite Ew; apply in_or_app; left; apply upto_in; tauto).
        assert (Hs3 : sorted_seq (upto s1 (fh f))).
        { apply upto_sorted. unfold sorted_seq in *; rewrite map_app in Hs; apply SS_app_inv in Hs; tauto. }
        rewrite Ev in Hs3. assert (X := asc_app_lt _ _ r r Hs3 Hin (or_introl eq_refl)). lia. }
      assert (Hz : flat_map cont fs = []).
      { rewrite <- (Hnone r (proj1 Hr) Hlt). clear -Hc. induction fs as [|g fs IH]; [reflexivity|].
        change (all_h (g :: fs)) with (fh g ++ all_h fs). cbn [flat_map]. rewrite upto_app, (Hc g (or_introl eq_refl)), IH; [reflexivity|].
        intros x Hx. apply Hc. right; exact Hx. }
      rewrite Hz, app_nil_r, Ev, <- app_assoc. exists ((r :: v) ++ upto s1 (all_h fs)). reflexivity.
Qed.

(** What opening for reads uses of a manifest entry. *)
Definition ent_nf (e : ment) (f : lgf) : Prop := e_num e = f_num f /\ e_flushed e = m_flushed (f_mt f).

Lemma ent_nfs : forall es a, Forall2 ent_ok es a -> Forall2 ent_nf es a.
Proof. intros es a H; induction H as [|e f es a (A & B & _) H IH]; constructor; [split; assumption|exact IH]. Qed.

Section Proofs.
Variable hash : key -> N * N.
Notation GI := (GI hash).
Notation FI := (FI hash).
Notation DI := (DI hash).
Notation PI := (PI hash).

(** ** Loading, for reads only *)

(** A loaded file: the records found on disk, and the flushed mark of the manifest. *)
Record LI (l : list rec) (f f' : lgf) : Prop := {
  li_num : f_num f' = f_num f;
  li_imm : f_imm f' = true;
  li_fh : fh f' = l;
  li_flu : m_flushed (f_mt f') = m_flushed (f_mt f);
  li_mr : MR hash l (f_mt f')
}.

(** The maximum given to [mt_load] does not matter when there are records. *)
Definition with_max (x : N) (m : mt) : mt :=
  mkMt (m_start m) (m_min m) (m_flushed m) (m_synced m) x x (m_seq m) (m_key m) (m_chks m) (m_bf m).

Lemma fold_max : forall l m last x, sorted_seq (m_seq m ++ l) ->
  fold_left (fun a e => load_entry hash e a) (map ERec l) (Ok (with_max x m, last)) =
  match fold_left (fun a e => load_entry hash e a) (map ERec l) (Ok (m, last)) with
  | Ok (m', last') => Ok (with_max x m', last')
  | Fail e => Fail e
  | Undef => Undef
  end.
Proof.
  induction l as [|r l IH]; intros m last x Hs; [reflexivity|]. cbn [map fold_left].
  assert (Hlt : forall y, In y (m_seq m) -> r_seq y < r_seq r) by (intros y Hy; apply (asc_app_lt _ _ y r Hs Hy (or_introl eq_refl))).
  assert (Hstep : forall key' bf',
    fold_left (fun a e => load_entry hash e a) (map ERec l)
      (Ok (mkMt (m_start m) (m_min m) (m_flushed m) (m_synced m) x x (m_seq m ++ [r]) key' (m_chks m) bf', r_seq r)) =
    match fold_left (fun a e => load_entry hash e a) (map ERec l)
      (Ok (mkMt (m_start m) (m_min m) (m_flushed m) (m_synced m) (m_max m) (m_alloc m) (m_seq m ++ [r]) key' (m_chks m) bf', r_seq r)) with
    | Ok (m', last') => Ok (with_max x m', last')
    | Fail e => Fail e
    | Undef => Undef
    end).
  { intros key' bf'. rewrite <- IH; [reflexivity|]. cbn [m_seq]. rewrite <- app_assoc. exact Hs. }
  unfold load_entry at 2 4. cbn [with_max m_start m_min m_flushed m_synced m_max m_alloc m_seq m_key m_chks m_bf].
  rewrite !(add_seq_app r _ _ Hlt). destruct (is_cmd r); [apply Hstep|].
  destruct (add_key hash r (m_key m) (m_bf m)) as [[key' bf']|e|]; [apply Hstep| |].
  - clear. induction l as [|y l IH]; [reflexivity|]. exact IH.
  - clear. induction l as [|y l IH]; [reflexivity|]. exact IH.
Qed.

Lemma load_mr : forall nb mn fl sy l, 0 < nb -> sorted_seq l -> (forall r, In r l -> r_seq r < NIL) ->
  exists m, mt_load hash nb mn fl sy (map ERec l) = Ok m /\ MR hash l m /\ m_seq m = l /\ m_flushed m = fl.
Proof.
  intros nb mn fl sy l Hnb Hs Hb.
  assert (HR0 : forall z, MR hash [] (mkMt mn mn fl NIL z z [] [] [] (bl_create nb 3))).
  { intros z. assert (X := mr_init hash nb mn Hnb).
    constructor; cbn; try (constructor; fail); try (intros; reflexivity); try (intros ? []). apply (mr_wf _ _ _ X). }
  destruct l as [|x0 l0] eqn:El.
  { unfold mt_load. cbn [map fold_left]. eexists. split; [reflexivity|]. split; [apply HR0|split; reflexivity]. }
  rewrite <- El in *. assert (Hne : l <> []) by (rewrite El; discriminate).
  unfold mt_load. change (mkMt mn mn fl NIL sy sy [] [] [] (bl_create nb 3)) with (with_max sy (mkMt mn mn fl NIL (lastseq l) (lastseq l) [] [] [] (bl_create nb 3))).
  rewrite fold_max by exact Hs.
  destruct (RollbackProofs2.load_fold hash (map ERec l) _ [] NIL (or_intror (conj eq_refl (HR0 (lastseq l)))) eq_refl) as (m' & E & R1 & R2 & R3 & R4 & R5 & R6 & R7 & R8).
  - rewrite recs_of_map. exact Hs.
  - rewrite recs_of_map. intros r Hr. cbn [m_max]. apply lastseq_ge; assumption.
  - cbn [m_max]. destruct (lastseq_in l Hne) as (y & Hy & <-). apply Hb, Hy.
  - rewrite recs_of_map in *. cbn [app] in R1, R2. rewrite E.
    assert (Hend : RollbackProofs2.end_seq l = lastseq l).
    { destruct (exists_last Hne) as (u & z & ->). rewrite RollbackProofs2.end_snoc, lastseq_snoc. reflexivity. }
    assert (Hll : lastseq l < NIL) by (destruct (lastseq_in l Hne) as (y & Hy & <-); apply Hb, Hy).
    destruct l as [|x l1] eqn:El2; [congruence|]. rewrite <- El2 in *. rewrite Hend. replace (lastseq l =? NIL) with false by lia.
    eexists. split; [reflexivity|]. cbn [with_max m_start m_min m_flushed m_seq m_key m_chks m_bf].
    cbn [m_flushed] in R6. split; [|split; [exact R2|exact R6]].
    destruct R1 as [K1 K2 K3 K4 K5 K6 K7 K8]. constructor; cbn [m_key m_seq m_bf m_max]; try assumption.
    intros r Hr. assert (X := lastseq_ge _ _ Hs Hr). lia.
Qed.

Lemma load_one_li : forall c disk e f d, 0 < c_maxent c -> e_num e = f_num f -> e_flushed e = m_flushed (f_mt f) ->
  dlog_at (f_num f) disk = Some d -> sorted_seq (dl_recs d) -> (forall r, In r (dl_recs d) -> r_seq r < NIL) ->
  exists f', load_one hash c disk None e = Some f' /\ LI (dl_recs d) f f'.
Proof.
  intros c disk e f d Hc E1 E2 Hd Hs Hb. unfold load_one. rewrite E1, Hd, E2.
  destruct (load_mr (c_maxent c * 64) (e_min e) (m_flushed (f_mt f)) (e_synced e) (dl_recs d)) as (m & E & HM & Hq & Hf); [lia|exact Hs|exact Hb|].
  rewrite E. eexists. split; [reflexivity|]. constructor; cbn [f_num f_imm f_mt]; try reflexivity; try assumption.
Qed.

Lemma load_all_li : forall c disk (cont : lgf -> list rec) es a last, 0 < c_maxent c -> Forall2 ent_nf es a ->
  (forall f, In f a -> exists d, dlog_at (f_num f) disk = Some d /\ dl_recs d = cont f) ->
  (forall f, In f a -> sorted_seq (cont f) /\ forall r, In r (cont f) -> r_seq r < NIL) ->
  exists fs, load_all hash c disk None (fills last es) = Some fs /\ Forall2 (fun f f' => LI (cont f) f f') a fs.
Proof.
  intros c disk cont es a last Hc H. revert last. induction H as [|e f es a He H IH]; intros last Hd Hs.
  - exists []. split; [reflexivity|constructor].
  - cbn [fills load_all]. cbv zeta. set (l2 := if valid_number (e_synced e) then e_synced e else last).
    destruct (Hd f (or_introl eq_refl)) as (d & Ed & Er). destruct (Hs f (or_introl eq_refl)) as [S1 S2].
    destruct He as (A1 & A2).
    destruct (load_one_li c disk (fill_marks l2 e) f d Hc A1 A2 Ed) as (f' & E' & L'); [rewrite Er; exact S1|rewrite Er; exact S2|].
    destruct (IH l2) as (fs & E & L); [intros x Hx; apply Hd; right; exact Hx|intros x Hx; apply Hs; right; exact Hx|].
    exists (f' :: fs). rewrite E', E. split; [reflexivity|]. constructor; [rewrite <- Er; exact L'|exact L].
Qed.

Lemma li_all : forall (cont : lgf -> list rec) a fs, Forall2 (fun f f' => LI (cont f) f f') a fs ->
  map f_num fs = map f_num a /\ all_h fs = flat_map cont a /\
  (forall f', In f' fs -> exists f, In f a /\ LI (cont f) f f').
Proof.
  intros cont a fs H; induction H as [|f f' a fs L H (I1 & I2 & I3)]; [split; [reflexivity|split; [reflexivity|intros ? []]]|].
  split; [cbn [map]; rewrite (li_num _ _ _ L), I1; reflexivity|]. split.
  - change (all_h (f' :: fs)) with (fh f' ++ all_h fs). cbn [flat_map]. rewrite (li_fh _ _ _ L), I2. reflexivity.
  - intros x [<-|Hx]; [exists f; split; [left; reflexivity|exact L]|]. destruct (I3 x Hx) as (y & Hy & Ly). exists y. split; [right; exact Hy|exact Ly].
Qed.

(** ** Reads *)

Lemma loaded_get : forall c fs n1 mx lf X k F, c_lso c = false -> nums_from n1 fs -> fs <> [] -> mx + 1 = n1 + len fs -> mx < NIL ->
  lf = NIL \/ lf = n1 -> sorted_seq (all_h fs) -> (forall f, In f fs -> MR hash (fh f) (f_mt f)) ->
  (forall f r, In f fs -> In r (fh f) -> unflushed (m_flushed (f_mt f)) r = (F <? r_seq r)) ->
  lm_get hash c k (mkG fs mx lf X 0) = log_answer (all_h fs) F NIL k.
Proof.
  intros c fs n1 mx lf X k F Hlso HN Hne Hmx Hlim Hlf Hs Hmr Hflu.
  unfold lm_get, last_flushed, max_num, min_num. cbn [g_lf g_files g_max g_bar]. rewrite Hlso. replace (mx =? NIL) with false by lia.
  assert (Hlf2 : (if lf =? NIL then match fs with f :: _ => Some (f_num f) | [] => None end else Some lf) = Some n1).
  { destruct fs as [|f0 t]; [congruence|]. destruct HN as [<- _]. destruct Hlf as [-> | ->]; [rewrite N.eqb_refl; reflexivity|].
    destruct (f_num f0 =? NIL); reflexivity. }
  rewrite Hlf2. rewrite (file_range_all fs n1 mx HN Hne ltac:(lia)).
  rewrite (first_ok_spec hash fs F k NIL); [reflexivity|exact Hs| |exact Hflu].
  intros f Hf. rewrite (mt_get_spec hash _ _ _ _ _ _ (Hmr f Hf)). f_equal. unfold newest.
  assert (Hvis : forall x, In x (rev (for_key k (fh f))) -> visible (read_limit 0 (f_mt f)) x = visible NIL x).
  { intros x Hx. apply in_rev in Hx. apply filter_In in Hx. assert (B := mr_bnd _ _ _ (Hmr f Hf) x (proj1 Hx)).
    unfold visible, read_limit, valid_number. cbn [N.eqb negb]. rewrite N.eqb_refl. cbn [negb orb].
    destruct (m_max (f_mt f) =? NIL); [reflexivity|]. cbn [negb orb]. lia. }
  induction (rev (for_key k (fh f))) as [|x l IH]; [reflexivity|]. cbn [find].
  rewrite (Hvis x (or_introl eq_refl)). rewrite IH by (intros y Hy; apply Hvis; right; exact Hy). reflexivity.
Qed.

(** Log and tables together, when the tables may hold more than the flushed marks say. *)
Lemma log_tab_more : forall B A F F' k, sorted_seq (B ++ A) -> F <= F' -> (forall r, In r B -> r_seq r <= F') ->
  match log_answer A F NIL k with
  | Ok r => found r
  | Undef => Undef
  | Fail _ => match tab_get (filter (fun r => r_seq r <=? F') (B ++ A)) k with Ok r => found r | other => other end
  end = spec_get (B ++ A) k.
Proof.
  intros B A F F' k Hs HF HB. assert (P := log_plus_tab hash (B ++ A) F' k Hs). unfold log_answer in P. rewrite newest_app in P.
  unfold log_answer. destruct (newest A NIL k) as [r|] eqn:E.
  - destruct (F <? r_seq r) eqn:E1.
    + unfold spec_get. rewrite <- newest_last_write, newest_app, E. reflexivity.
    + replace (F' <? r_seq r) with false in P by lia. exact P.
  - destruct (newest B NIL k) as [r|] eqn:E2; [|exact P]. assert (Hr := HB r (proj1 (newest_in _ _ _ _ E2))).
    replace (F' <? r_seq r) with false in P by lia. exact P.
Qed.

(** ** Opening, for reads *)

Lemma forall2_nil_l : forall {A B} (R : A -> B -> Prop) b, Forall2 R [] b -> b = [].
Proof. intros A B R b H. inversion H. reflexivity. Qed.

Lemma open_reads : forall c g n0 pre h F a0 a1 (cont : lgf -> list rec) tab F' disk dur M old, cfg_ok c -> c_lso c = false ->
  GI n0 pre h F g -> lastseq h + 1 < NIL -> g_files g = a0 ++ a1 -> a1 <> [] ->
  Forall2 ent_nf (l_files M) (g_files g) -> l_max M = g_max g -> l_flushed M = g_lf g -> l_synced M = NIL \/ l_synced M <= l_max M ->
  (forall f, In f a0 -> dlog_at (f_num f) disk = None) ->
  (forall f, In f a1 -> exists d, dlog_at (f_num f) disk = Some d /\ dl_recs d = cont f) ->
  (forall f, In f (g_files g) -> prefix (cont f) (fh f)) ->
  sorted_seq (pre ++ flat_map cont (g_files g)) ->
  tab = filter (fun r => r_seq r <=? F') (pre ++ flat_map cont (g_files g)) -> F <= F' ->
  (forall f r, In f a0 -> In r (cont f) -> r_seq r <= F') ->
  exists p', p_open hash c tab disk dur M old = Some p' /\
    (forall k, db_get hash c k (p_db p') = spec_get (pre ++ flat_map cont (g_files g)) k).
Proof.
  intros c g n0 pre h F a0 a1 cont tab F' disk dur M old [Co Cr Cm] Hlso H Hl E Hne He Emax Elf Els Hmiss Hdisk Hpre Hsort Ht HF Hold.
  assert (HN := gi_nums _ _ _ _ _ _ H). assert (HG := gi_gmax _ _ _ _ _ _ H). assert (Hfew := gi_few _ _ _ _ _ _ H).
  assert (Hlim : l_max M < NIL) by lia.
  rewrite E in He. apply Forall2_app_inv_r in He. destruct He as (es0 & es1 & He0 & He1 & Ees).
  set (n1 := n0 + len a0).
  assert (HN1 : nums_from n1 a1) by (rewrite E in HN; apply nums_app in HN; apply HN).
  assert (HN0 : nums_from n0 a0) by (rewrite E in HN; apply nums_app in HN; apply HN).
  assert (Hmx1 : l_max M + 1 = n1 + len a1) by (rewrite Emax, HG, E; unfold n1, len; rewrite app_length; lia).
  assert (Hent : forall es a, Forall2 ent_nf es a -> forall e, In e es -> exists f, In f a /\ e_num e = f_num f).
  { clear. intros es a He. induction He as [|e f es a (A1 & _) He IH]; intros x []; [subst; exists f; split; [left; reflexivity|exact A1]|].
    destruct (IH x H) as (y & Hy & Ey). exists y. split; [right; exact Hy|exact Ey]. }
  set (cf := {| c_section_only := c_lso c; c_truncate_inconsecutive := true |}).
  assert (Hes1 : es1 <> []) by (intros Z; rewrite Z in He1; apply forall2_nil_l in He1; congruence).
  (* the loop *)
  assert (HL : exists lf X last, load_files cf (disk_status disk) (l_files M) NIL false (mkLoad (l_max M) (l_flushed M) (l_synced M) [] None) =
      mkLoad (l_max M) lf X (fills last es1) None /\ (lf = NIL \/ lf = n1)).
  { rewrite Ees. destruct es0 as [|e0 es0'] eqn:E0.
    - assert (Ea0 : a0 = []) by (eapply forall2_nil_l; exact He0). cbn [app].
      destruct (load_files_fills cf (disk_status disk) es1 NIL false (mkLoad (l_max M) (l_flushed M) (l_synced M) [] None) n0 (l_max M)) as (X & EL & _).
      + exact Hlso.
      + intros e Hee. destruct (Hent _ _ He1 e Hee) as (f & Hf & ->). destruct (Hdisk f Hf) as (x & Ex & _). unfold disk_status. rewrite Ex. destruct (dl_torn x); auto.
      + intros e Hee. destruct (Hent _ _ He1 e Hee) as (f & Hf & ->). assert (Y := nums_in _ _ _ HN1 Hf). unfold n1 in *. rewrite Ea0 in *. cbn [len length] in *. unfold len in *. cbn [length] in *. lia.
      + cbn [d_flushed]. rewrite Elf. apply (gi_lf _ _ _ _ _ _ H).
      + cbn [d_synced]. exact Els.
      + exact Hlim.
      + exists (l_flushed M), X, NIL. rewrite EL. cbn [d_max d_flushed d_files d_new app]. split; [reflexivity|].
        rewrite Elf. unfold n1. rewrite Ea0. unfold len; cbn [length]. replace (n0 + N.of_nat 0) with n0 by lia. apply (gi_lf _ _ _ _ _ _ H).
    - rewrite <- E0 in *. rewrite (load_files_missing cf (disk_status disk) es0 es1 NIL (l_max M) (l_flushed M) (l_synced M) n0).
      + destruct (load_files_fills cf (disk_status disk) es1 (lsync NIL es0) false (mkLoad (l_max M) NIL NIL [] None) n1 (l_max M)) as (X & EL & _).
        * exact Hlso.
        * intros e Hee. destruct (Hent _ _ He1 e Hee) as (f & Hf & ->). destruct (Hdisk f Hf) as (x & Ex & _). unfold disk_status. rewrite Ex. destruct (dl_torn x); auto.
        * intros e Hee. destruct (Hent _ _ He1 e Hee) as (f & Hf & ->). assert (Y := nums_in _ _ _ HN1 Hf). lia.
        * left; reflexivity.
        * left; reflexivity.
        * exact Hlim.
        * exists NIL, X, (lsync NIL es0). rewrite EL. split; [reflexivity|left; reflexivity].
      + exact Hlso.
      + intros e Hee. destruct (Hent _ _ He0 e Hee) as (f & Hf & ->). unfold disk_status. rewrite (Hmiss f Hf). reflexivity.
      + intros e Hee. destruct (Hent _ _ He0 e Hee) as (f & Hf & ->). apply (nums_in _ _ _ HN0 Hf).
      + rewrite Elf. apply (gi_lf _ _ _ _ _ _ H).
      + rewrite E0; discriminate.
      + exact Hes1. }
  destruct HL as (lf & X & last & EL & Hlf).
  assert (Hcs : forall f, In f (g_files g) -> sorted_seq (cont f) /\ forall r, In r (cont f) -> r_seq r < NIL).
  { intros f Hf. destruct (Hpre f Hf) as (t & Et). assert (FIf := gi_fi _ _ _ _ _ _ H f Hf). split.
    - assert (Q := fi_sorted _ _ FIf). rewrite Et in Q. unfold sorted_seq in *. rewrite map_app in Q. apply SS_app_inv in Q. tauto.
    - intros r Hr. apply (mr_bnd _ _ _ (mw_mr _ _ _ (fi_mw _ _ FIf)) r). change (m_seq (f_mt f)) with (fh f). rewrite Et. apply in_or_app; left; exact Hr. }
  assert (Hin1 : forall f, In f a1 -> In f (g_files g)) by (intros f Hf; rewrite E; apply in_or_app; right; exact Hf).
  destruct (load_all_li c disk cont es1 a1 last Cm He1 Hdisk (fun f Hf => Hcs f (Hin1 f Hf))) as (fs & EA & RA).
  destruct (li_all cont a1 fs RA) as (L1 & L2 & L3).
  assert (Hfs : fs <> []) by (intros Z; rewrite Z in RA; inversion RA; congruence).
  unfold p_open. fold cf. rewrite EL. cbn [d_new d_files d_max d_flushed d_synced]. rewrite EA, map_id.
  destruct fs as [|f0 fs0] eqn:Efs; [congruence|]. rewrite <- Efs in *.
  eexists. split; [reflexivity|]. intros k.
  match goal with |- db_get hash c k (p_db (if ?b then _ else _)) = _ => destruct b end; cbn [p_store p_db].
  all: assert (HNf : nums_from n1 fs) by (eapply nums_same; [|exact HN1]; symmetry; exact L1);
    assert (Hlen : len fs = len a1) by (unfold len; f_equal; rewrite <- (map_length f_num fs), L1, map_length; reflexivity);
    assert (Hsplit : pre ++ flat_map cont (g_files g) = (pre ++ flat_map cont a0) ++ all_h fs) by (rewrite E, flat_map_app, L2, app_assoc; reflexivity);
    rewrite Hsplit in *; unfold db_get; cbn [d_log d_tab]; rewrite Ht;
    rewrite (loaded_get c fs n1 (l_max M) lf X k F Hlso HNf Hfs ltac:(lia) Hlim Hlf);
    [apply log_tab_more; [exact Hsort|exact HF|]| | |].
  all: try (intros r Hr; apply in_app_or in Hr; destruct Hr as [Hr|Hr];
    [assert (Y := gi_pre _ _ _ _ _ _ H r Hr); lia|apply in_flat_map in Hr; destruct Hr as (f & Hf & Hr); apply (Hold f r Hf Hr)]).
  all: try (unfold sorted_seq in *; rewrite map_app in Hsort; apply SS_app_inv in Hsort; tauto).
  all: try (intros f' Hf'; destruct (L3 f' Hf') as (f & Hf & L); rewrite (li_fh _ _ _ L); apply (li_mr _ _ _ L)).
  all: try (intros f' r Hf' Hr; destruct (L3 f' Hf') as (f & Hf & L); rewrite (li_flu _ _ _ L); rewrite (li_fh _ _ _ L) in Hr;
    apply (gi_flu _ _ _ _ _ _ H f r (Hin1 f Hf)); destruct (Hpre f (Hin1 f Hf)) as (t & ->); apply in_or_app; left; exact Hr).
Qed.

End Proofs.
