(** Checkpoints, fourth part: reads through a snapshot (proofs; statements in CheckpointProps.v). *)
From Verif Require Import Base KeyModel KeyProofs LogFormatModel BloomModel BloomProofs MemTableModel MemTableProofs
  LogMgrModel LogMgrProofs LogMgrProofs2 LogMgrProofs3 DbModel DbProofs DbProofs2 CheckpointModel CheckpointSpec CheckpointProofs CheckpointProofs2
  Checkpoint3Proofs.
From Coq Require Import Sorted.
Local Open Scope N_scope.

Lemma tab_get_for_key : forall t k, tab_get t k = match rev (for_key k t) with r :: _ => Ok r | [] => Fail KEY_NOT_FOUND end.
Proof.
  intros t k. unfold tab_get, for_key. rewrite <- filter_rev. generalize (rev t) as l. intros l; induction l as [|x l IH]; [reflexivity|].
  cbn [find filter]. destruct (keqb (r_key x) k && negb (is_cmd x)); [reflexivity|exact IH].
Qed.
Lemma tab_get_app : forall a b k, tab_get (a ++ b) k = match tab_get b k with Ok r => Ok r | _ => tab_get a k end.
Proof.
  intros a b k. rewrite !tab_get_for_key, for_key_app, rev_app_distr. destruct (rev (for_key k b)); reflexivity.
Qed.
Lemma for_key_upto : forall k c l, for_key k (upto c l) = upto c (for_key k l).
Proof.
  intros k c l. unfold for_key, upto. induction l as [|x l IH]; [reflexivity|]. cbn [filter].
  destruct (r_seq x <=? c) eqn:E1; cbn [filter]; destruct (keqb (r_key x) k && negb (is_cmd x)) eqn:E2; cbn [filter]; rewrite ?E1, ?IH; reflexivity.
Qed.

Section Proofs.
Variable hash : key -> N * N.
Variable part : key -> N -> N.
Notation GI := (GI hash).
Notation DI := (DI hash).
Notation step := (step hash).
Notation reach := (reach hash).
Notation creach := (creach hash part).
Notation c_step := (c_step hash part).
Notation flushed d := (match lm_flushed_seq (d_log d) with Ok F => F | _ => 0 end).

Lemma snap_read_cut : forall c h d h' d' chk f r k T, cfg_ok c -> DI c h d -> later hash c h d h' d' ->
  In f (g_files (d_log d)) -> In r (fh f) -> r_seq r = chk -> chk <= lastseq h ->
  tab_get T k = tab_get (upto chk (d_tab d)) k ->
  exists A, lm_snapshot chk false (d_log d) = Ok A /\
    snap_get hash (mkSnap chk (Some (map f_num A)) T) k d' = spec_get (upto chk h) k.
Proof.
  intros c h d h' d' chk f r k T Cok R L Hf Hr Er Hchk HT. assert (D := R).
  assert (Hmono : lastseq h <= lastseq (h ++ written d)) by (apply lastseq_ext, (di_sorted_all hash c), D).
  destruct D as [(n0 & pre & F & pt & H & Ht & Hl & HF & HFl & HG & HB)].
  assert (Hll := gi_lastseq_lt hash c h d _ _ _ _ H).
  destruct (snapshot_files hash _ _ _ _ _ _ _ H Hf Hr) as (A & B & E & ES). rewrite Er in ES. exists (A ++ [f]). split; [exact ES|].
  assert (Hc : chk < NIL) by lia.
  unfold snap_get. cbn [sn_files sn_chk sn_tab].
  assert (HP : forall x, In x (A ++ [f]) -> exists x', held d' (f_num x) = Some x' /\ cont hash chk x x').
  { intros x Hx. apply (held_later hash c h d h' d' Cok R L); [lia|]. unfold held. apply file_at_app_l.
    assert (Hx' : In x (g_files (d_log d))) by (rewrite E; change (A ++ f :: B) with (A ++ [f] ++ B); rewrite app_assoc; apply in_or_app; left; exact Hx).
    apply in_split in Hx'. destruct Hx' as (a & b & Eab). apply (file_at_num _ _ a x b (gi_nums _ _ _ _ _ _ H) Eab). }
  destruct (pinned_spec hash chk (A ++ [f]) d' HP) as (l' & EP & FP). rewrite EP, (snap_log hash chk k _ _ Hc FP).
  assert (S := gi_asc _ _ _ _ _ _ H). rewrite (gi_hist _ _ _ _ _ _ H) in S. unfold sorted_seq in S. rewrite map_app in S. apply SS_app_inv in S. destruct S as (_ & S & S2).
  assert (Hrin : In r (all_h (g_files (d_log d)))) by (apply in_flat_map; exists f; auto).
  assert (EB : newest (all_h (A ++ [f])) chk k = newest (all_h (g_files (d_log d))) chk k).
  { rewrite E. change (A ++ f :: B) with (A ++ [f] ++ B). rewrite app_assoc, (all_h_app (A ++ [f]) B), newest_app, (newest_above hash (all_h B)); [reflexivity|exact Hc|].
    intros x Hx. rewrite E in S.
    change (A ++ f :: B) with (A ++ [f] ++ B) in S. rewrite app_assoc, all_h_app, map_app in S. apply SS_app_inv in S. destruct S as (_ & _ & S).
    rewrite <- Er. apply S; apply in_map; [|exact Hx]. apply in_flat_map. exists f. split; [apply in_or_app; right; left; reflexivity|exact Hr]. }
  rewrite EB, HT, Ht. clear T HT.
  assert (Hpre : forall x, In x pre -> r_seq x <= F /\ r_seq x <= chk).
  { intros x Hx. split; [apply (gi_pre _ _ _ _ _ _ H x Hx)|]. rewrite <- Er. assert (r_seq x < r_seq r) by (apply S2; apply in_map; assumption). lia. }
  set (m := N.min F chk). assert (Em : upto chk (filter (fun r0 => r_seq r0 <=? F) h) = filter (fun r0 => r_seq r0 <=? m) h).
  { unfold upto, m. clear. induction h as [|x h IH]; [reflexivity|]. cbn [filter]. destruct (r_seq x <=? F) eqn:E1.
    - cbn [filter]. destruct (r_seq x <=? chk) eqn:E2; [replace (r_seq x <=? N.min F chk) with true by lia; f_equal; exact IH|].
      replace (r_seq x <=? N.min F chk) with false by lia. exact IH.
    - replace (r_seq x <=? N.min F chk) with false by lia. exact IH. }
  rewrite Em.
  assert (Hup : forall a, a <= lastseq h -> newest h a k = newest (h ++ pt) a k).
  { intros a Ha. rewrite newest_app, (newest_above hash pt); [reflexivity|lia|]. intros x Hx.
    destruct (proj2 (gi_pre_part hash _ _ _ _ _ _ H) x Hx) as [X|X]; [lia|]. subst h. cbn [lastseq rev] in Ha.
    assert (Y := gi_pos _ _ _ _ _ _ H x ltac:(apply in_or_app; right; exact Hx)). lia. }
  unfold spec_get, upto. rewrite <- (newest_filter hash) by exact Hc.
  unfold tab_get. change (find (fun y => keqb (r_key y) k && negb (is_cmd y)) (rev (filter (fun z => r_seq z <=? m) h)))
    with (last_write (filter (fun z => r_seq z <=? m) h) k). rewrite <- (newest_filter hash) by lia.
  rewrite (Hup chk) by lia. rewrite (Hup m) by lia. rewrite (gi_hist _ _ _ _ _ _ H), !newest_app.
  destruct (newest (all_h (g_files (d_log d))) chk k) as [x|] eqn:Ex; [reflexivity|].
  rewrite (newest_none_le hash _ chk m k ltac:(lia) Hc Ex).
  assert (Epre : newest pre m k = newest pre chk k).
  { rewrite !(newest_filter hash) by lia. f_equal. rewrite !filter_all; [reflexivity|..]; intros x Hx; destruct (Hpre x Hx); lia. }
  rewrite Epre. destruct (newest pre chk k) as [x|]; reflexivity.
Qed.

(** * Handles *)

Lemma set_docs_id : forall lim mine cs b prev t, t_id (set_docs lim mine prev cs b t) = t_id t.
Proof.
  intros lim mine cs b; induction b as [|r b IH]; intros prev t; cbn [set_docs]; [apply set_chk_entries|].
  destruct (mine (r_key r)); [|apply IH]. destruct (is_cmd r); rewrite IH; [|cbn [put_doc t_id]]; apply set_chk_entries.
Qed.

Definition ids (q : list ct) : list N := map t_id q.
Lemma clater_keeps : forall lim c h x h' x', clater hash part lim c h x h' x' ->
  later hash c h (cd_db x) h' (cd_db x') /\ t_id (cd_low x') = t_id (cd_low x) /\ length (cd_parts x') = length (cd_parts x) /\
  (forall p q, nth_error (cd_parts x) p = Some q -> exists q', nth_error (cd_parts x') p = Some q' /\ ids q' = ids q).
Proof.
  intros lim c h x h' x' L. induction L as [|h1 x1 o mark y x2 L (I1 & I2 & I3 & I4) A E]; [split; [constructor|]; repeat split; eauto|].
  destruct x1 as [d nx ps lw]. unfold CheckpointModel.c_step in E. cbn [cd_db cd_next cd_parts cd_low] in *.
  assert (G : exists d', step c o d = Some (y, d') /\ cd_db x2 = d' /\ cd_low x2 = lw /\ (cd_parts x2 = ps \/ exists mine cs rs, cd_parts x2 = set_parts lim mine mark cs rs 0 ps)).
  { destruct o as [full r|b| | |bad|fo seq|out0];
      match type of E with context [DbModel.step hash c ?o d] => destruct (DbModel.step hash c o d) as [[y0 d']|] eqn:Es; [|discriminate] end;
      injection E as <- <-; cbn [cd_db cd_low cd_parts]; exists d'; (split; [first [exact Es|reflexivity]|]); (split; [reflexivity|]); (split; [reflexivity|]); auto.
    destruct (fst (lm_flush fo seq (d_log d))) as [[[|r rs] cs]|e|]; auto. right. eauto. }
  destruct G as (d' & Es & -> & -> & Hps). split; [eapply later_step; eassumption|]. split; [exact I2|].
  destruct Hps as [->|(mine & cs & rs & ->)]; [split; [exact I3|exact I4]|]. split; [rewrite set_parts_len; exact I3|].
  intros p q Hq. destruct (I4 p q Hq) as (q' & Hq' & Eq'). rewrite set_parts_nth, Hq'. cbn [option_map]. eexists. split; [reflexivity|].
  rewrite <- Eq'. destruct q' as [|t q']; [reflexivity|]. cbn [ids map]. f_equal. unfold tab_batch, drop_old. cbn [t_id]. apply set_docs_id.
Qed.

Definition handles (n : N) (l : list ct) : list (N * list rec) :=
  flat_map (fun t => match tab_snap n t with Some ds => [(t_id t, ds)] | None => [] end) l.
Lemma handle_found : forall n l t ds, In t l -> (forall u, In u l -> t_id u = t_id t -> u = t) -> tab_snap n t = Some ds ->
  find (fun e => fst e =? t_id t) (handles n l) = Some (t_id t, ds).
Proof.
  intros n l t ds. induction l as [|u l IH]; intros Hin Hu E; [destruct Hin|]. unfold handles. cbn [flat_map]. fold (handles n l).
  destruct (N.eq_dec (t_id u) (t_id t)) as [e|ne].
  - assert (u = t) by (apply Hu; [left; reflexivity|exact e]). subst u. rewrite E. cbn [app find fst]. rewrite N.eqb_refl. reflexivity.
  - destruct Hin as [->|Hin]; [congruence|]. specialize (IH Hin (fun v Hv => Hu v (or_intror Hv)) E).
    destruct (tab_snap n u) as [du|]; [|exact IH]. cbn [app find fst]. replace (t_id u =? t_id t) with false by lia. exact IH.
Qed.

Lemma ti_same_id : forall np x p q t u, TI part np x -> nth_error (cd_parts x) p = Some q -> In t q ->
  In u (concat (cd_parts x) ++ [cd_low x]) -> t_id u = t_id t -> u = t.
Proof.
  intros np x p q t u T Hq Ht Hu E. apply in_app_or in Hu. destruct Hu as [Hu|[<-|[]]].
  - apply in_concat in Hu. destruct Hu as (q' & Hq' & Hu). apply In_nth_error in Hq'. destruct Hq' as (p' & Hq').
    assert (p' = p) by (apply (ti_uniq _ _ _ T p' q' u p q t); assumption). subst p'. assert (q' = q) by congruence. subst q'.
    destruct (ti_shape _ _ _ T p q Hq) as [(a & ->)|(a & b & ->)].
    + destruct Ht as [<-|[]], Hu as [<-|[]]. reflexivity.
    + assert (Y := ti_two _ _ _ T p a b Hq). destruct Ht as [<-|[<-|[]]], Hu as [<-|[<-|[]]]; congruence.
  - destruct (ti_next _ _ _ T p q t Hq Ht) as [_ Y]. congruence.
Qed.
Lemma ti_low_id : forall np x u, TI part np x -> In u (concat (cd_parts x) ++ [cd_low x]) -> t_id u = t_id (cd_low x) -> u = cd_low x.
Proof.
  intros np x u T Hu E. apply in_app_or in Hu. destruct Hu as [Hu|[<-|[]]]; [|reflexivity].
  apply in_concat in Hu. destruct Hu as (q' & Hq' & Hu). apply In_nth_error in Hq'. destruct Hq' as (p' & Hq').
  destruct (ti_next _ _ _ T p' q' u Hq' Hu) as [_ Y]. congruence.
Qed.

(** The lookup of the tables through the handles of [x], in a later state [x']. *)
Lemma tm_get_handles : forall np x x' n files k q f, TI part np x -> length (cd_parts x) = np ->
  t_id (cd_low x') = t_id (cd_low x) -> length (cd_parts x') = length (cd_parts x) ->
  (forall p q, nth_error (cd_parts x) p = Some q -> exists q', nth_error (cd_parts x') p = Some q' /\ ids q' = ids q) ->
  nth_error (cd_parts x) (N.to_nat (part k (N.of_nat np))) = Some q ->
  (forall t, In t q -> tab_snap n t = Some (f t)) -> tab_snap n (cd_low x) = Some (t_docs (cd_low x)) ->
  tm_get_snap part (mkCS n files (handles n (concat (cd_parts x) ++ [cd_low x]))) k x' =
  match tab_get (t_docs (cd_low x) ++ flat_map f (rev q)) k with Ok r => TGot r | _ => TNone end.
Proof.
  intros np x x' n files k q f T L Elow Elen Ep Hq Hf Hlow. unfold tm_get_snap. rewrite Elen, L.
  destruct (Ep _ _ Hq) as (q' & -> & Eids). cbn [cs_tabs]. set (tabs := handles n (concat (cd_parts x) ++ [cd_low x])).
  assert (Hg : forall t t', In t q -> t_id t' = t_id t -> t_get tabs k t' = match tab_get (f t) k with Ok r => TGot r | _ => TNone end).
  { intros t t' Ht Et. unfold t_get. rewrite Et. unfold tabs. rewrite (handle_found n _ t (f t)); [reflexivity| | |apply Hf, Ht].
    - apply in_or_app; left. apply in_concat. exists q. split; [eapply nth_error_In; exact Hq|exact Ht].
    - intros u Hu Eu. apply (ti_same_id np x _ q t u T Hq Ht Hu Eu). }
  assert (Hl : t_get tabs k (cd_low x') = match tab_get (t_docs (cd_low x)) k with Ok r => TGot r | _ => TNone end).
  { unfold t_get. rewrite Elow. unfold tabs. rewrite (handle_found n _ (cd_low x) (t_docs (cd_low x))); [reflexivity| | |exact Hlow].
    - apply in_or_app; right; left; reflexivity.
    - intros u Hu Eu. apply (ti_low_id np x u T Hu Eu). }
  destruct (ti_shape _ _ _ T _ q Hq) as [(a & ->)|(a & b & ->)]; cbn [ids map] in Eids.
  - destruct q' as [|a' [|? ?]]; try discriminate. injection Eids as Ea. rewrite (Hg a a' (or_introl eq_refl) Ea), Hl. cbn [rev app flat_map].
    rewrite app_nil_r, tab_get_app. destruct (tab_get (f a) k); reflexivity.
  - destruct q' as [|a' [|b' [|? ?]]]; try discriminate. injection Eids as Ea Eb. rewrite (Hg a a' (or_introl eq_refl) Ea), (Hg b b' (or_intror (or_introl eq_refl)) Eb), Hl.
    cbn [rev app flat_map]. rewrite app_nil_r, app_assoc, !tab_get_app. destruct (tab_get (f a) k); [reflexivity|..]; destruct (tab_get (f b) k); reflexivity.
Qed.

(** * What the tables show *)

Lemma kvs_seq_in : forall l, kvs_seq l = 0 \/ exists r, In r l /\ kvs_seq l = r_seq r.
Proof.
  intros l. unfold kvs_seq. destruct (rev l) as [|r t] eqn:E; [left; reflexivity|right]. exists r. split; [|reflexivity].
  apply in_rev. rewrite E. left; reflexivity.
Qed.

Lemma shows_all : forall n t, (t_chk t = [] \/ exists F, F < n /\ (forall c s, In (c, s) (t_chk t) -> c <= F /\ s <= F)) -> tab_snap n t = Some (t_docs t).
Proof.
  intros n t [E|(F & HF & H)]; unfold tab_snap; [rewrite E; reflexivity|].
  destruct (find (fun e => fst e =? n) (t_chk t)) as [[c s]|] eqn:Ef.
  - apply find_some in Ef. destruct Ef as [Ef E2]. destruct (H c s Ef). cbn [fst] in E2. lia.
  - destruct (rev (t_chk t)) as [|[c s] l] eqn:Er; [reflexivity|]. assert (He : In (c, s) (t_chk t)) by (apply in_rev; rewrite Er; left; reflexivity).
    destruct (H c s He). cbn [snd]. replace (s <? n) with true by lia. reflexivity.
Qed.

Lemma SS_map_fst_inj : forall (l : list (N * N)) c s s', SS (map fst l) -> In (c, s) l -> In (c, s') l -> s = s'.
Proof.
  intros l; induction l as [|[a b] l IH]; intros c s s' H H1 H2; [destruct H1|]. cbn [map fst] in H. inversion H as [|? ? S1 S2]; subst. rewrite Forall_forall in S2.
  destruct H1 as [E1|H1], H2 as [E2|H2].
  - congruence.
  - injection E1 as -> ->. assert (X := S2 c (in_map fst _ _ H2)). lia.
  - injection E2 as -> ->. assert (X := S2 c (in_map fst _ _ H1)). lia.
  - apply (IH c s s' S1 H1 H2).
Qed.

Lemma shows_upto : forall n s t, SS (map fst (t_chk t)) -> sorted_seq (t_docs t) -> In (n, s) (t_chk t) -> s <> 0 -> s = kvs_seq (upto n (t_docs t)) ->
  tab_snap n t = Some (upto n (t_docs t)).
Proof.
  intros n s t Hk Hs Hin Hz Es. unfold tab_snap. destruct (find (fun e => fst e =? n) (t_chk t)) as [[c s']|] eqn:Ef.
  - apply find_some in Ef. destruct Ef as [Ef E2]. cbn [fst] in E2. assert (c = n) by lia. subst c. assert (s' = s) by (apply (SS_map_fst_inj (t_chk t) n); assumption). subst s'.
    cbn [snd]. replace (s =? 0) with false by lia. f_equal. destruct (kvs_seq_in (upto n (t_docs t))) as [X|(r & Hr & Er)]; [lia|].
    rewrite <- Es in Er. apply filter_In in Hr. destruct Hr as [Hr1 Hr2].
    (* every document up to [n] is up to [s] *)
    assert (Hm : forall z, In z (t_docs t) -> r_seq z <= n -> r_seq z <= s).
    { intros z Hz1 Hz2. rewrite Es. assert (Hz3 : In z (upto n (t_docs t))) by (apply filter_In; split; [exact Hz1|lia]).
      assert (Y := lastseq_ge (upto n (t_docs t)) z (sorted_filter _ _ Hs) Hz3). exact Y. }
    unfold upto. apply filter_ext_in. intros z Hz1. specialize (Hm z Hz1). destruct (r_seq z <=? n) eqn:E3; [specialize (Hm ltac:(lia)); lia|lia].
  - exfalso. assert (X := find_none _ _ Ef _ Hin). cbn [fst] in X. rewrite N.eqb_refl in X. discriminate.
Qed.

Lemma upto_absorb : forall k n q low, (forall r, In r low -> r_key r = k -> r_seq r <= n) ->
  for_key k (low ++ upto n q) = for_key k (upto n (low ++ q)).
Proof.
  intros k n q low H. rewrite upto_app, !for_key_app. f_equal. rewrite for_key_upto, upto_all; [reflexivity|].
  intros r Hr. apply filter_In in Hr. destruct Hr as [Hr1 Hr2]. apply andb_true_iff in Hr2. destruct Hr2 as [Hr2 _]. apply keqb_true in Hr2. auto.
Qed.

Lemma snapshot_reads : forall lim c np h ks x chk sn h' x' k q, cfg_ok c -> (forall k, part k (N.of_nat np) < N.of_nat np) ->
  creach lim c np h ks x -> h <> [] -> let n := if chk =? 0 then top h else chk in n <= top h -> c_open lim chk x = Ok sn ->
  (flushed_of x < n \/ exists f r, In f (g_files (d_log (cd_db x))) /\ In r (m_seq (f_mt f)) /\ r_seq r = n) ->
  nth_error (cd_parts x) (N.to_nat (part k (N.of_nat np))) = Some q ->
  (flushed_of x < n \/ (exists t s, q = [t] /\ In (n, s) (t_chk t) /\ s <> 0) \/ (flushed_of x <= n /\ forall t, In t q -> t_chk t = [])) ->
  clater hash part lim c h x h' x' ->
  csnap_get hash part sn k x' = match spec_get (filter (fun r => r_seq r <=? n) h) k with Ok r => SVal r | _ => SNone end.
Proof.
  intros lim c np h ks x chk sn h' x' k q Cok Hpt R Hne n Hn Eo Hlog Hq Hcase L. unfold flushed_of in *.
  assert (T := creach_ti hash part lim c np h ks x Cok Hpt R). assert (I := creach_inv hash part lim c np h ks x Cok R). destruct I as [Rd Ll Le Tb].
  assert (D := reach_inv _ _ _ _ Cok Rd). assert (X := reach_extra _ _ _ _ Cok Rd). assert (Hsort := di_sorted hash _ _ _ D). assert (Et := top_last h Hsort).
  destruct (clater_keeps _ _ _ _ _ _ L) as (Ld & L1 & L2 & L3).
  assert (Hnp : (0 < np)%nat) by (assert (Y := Hpt []); destruct np; [cbn in Y; lia|lia]).
  assert (Hz : n <> 0).
  { unfold n. destruct (chk =? 0) eqn:E0; [|lia]. rewrite Et. destruct (lastseq_in h Hne) as (z & Hz & <-).
    destruct D as [(n0 & pre & F & pt & H & _)]. assert (Y := gi_pos _ _ _ _ _ _ H z ltac:(apply in_or_app; left; exact Hz)). lia. }
  assert (HFt : forall r, In r (d_tab (cd_db x)) -> r_seq r <= flushed (cd_db x)) by (intros r Hr; apply (tab_le hash part c h _ r Cok Rd Hr)).
  (* the number, and its record in the log *)
  assert (Hrec : exists f r, In f (g_files (d_log (cd_db x))) /\ In r (fh f) /\ r_seq r = n).
  { destruct Hlog as [Hlog|Hlog]; [|exact Hlog]. unfold n in *. destruct (chk =? 0) eqn:E0.
    - destruct (newest_record hash c h _ D Hne) as (f & r & A1 & A2 & A3). exists f, r. rewrite Et. auto.
    - unfold c_open in Eo. rewrite E0 in Eo. destruct (db_checkpoints lim x) as [l| |] eqn:El; try discriminate.
      destruct (existsb (N.eqb chk) l) eqn:Ex; [|discriminate]. apply existsb_exists in Ex. destruct Ex as (c' & Hc' & Ec'). assert (c' = chk) by lia. subst c'.
      destruct (list_newest hash part lim c np h ks x Cok R Hnp) as (l' & El' & (_ & _ & B3 & _)). rewrite El in El'. injection El' as <-.
      destruct (B3 chk Hc') as [[(f & Hf & Hk) _]|Hin]; [destruct (xi_chk _ X f Hf chk Hk) as (r & Hr & Er); exists f, r; auto|].
      exfalso. assert (Hq0 := nth_error_In _ _ Hq). destruct (Hin q Hq0) as (t & s & Ht & He). destruct (Tb q t Hq0 Ht) as (_ & _ & Y).
      destruct (Y chk) as [_ (z & Hz1 & Hz2)]; [apply in_map_iff; exists (chk, s); auto|]. specialize (HFt z Hz1). lia. }
  destruct Hrec as (f & r & Hf & Hr & Er).
  (* what the tables of the partition show *)
  assert (HT : exists T, (forall t, In t q -> tab_snap n t = Some (T t)) /\
    tab_get (t_docs (cd_low x) ++ flat_map T (rev q)) k = tab_get (upto n (d_tab (cd_db x))) k).
  { assert (AllT : (forall t, In t q -> tab_snap n t = Some (t_docs t)) -> flushed (cd_db x) <= n -> exists T, (forall t, In t q -> tab_snap n t = Some (T t)) /\
      tab_get (t_docs (cd_low x) ++ flat_map T (rev q)) k = tab_get (upto n (d_tab (cd_db x))) k).
    { intros H1 H2. exists t_docs. split; [exact H1|]. rewrite upto_all by (intros z Hz1; specialize (HFt z Hz1); lia).
      rewrite !tab_get_for_key. rewrite (ti_docs _ _ _ T k q Hq). reflexivity. }
    destruct Hcase as [Hc|[(t & s & -> & He & Hs)|[Hc1 Hc2]]].
    - apply AllT; [|lia]. intros t Ht. apply shows_all. right. exists (flushed (cd_db x)). split; [exact Hc|]. intros c0 s0 He.
      assert (Hq0 := nth_error_In _ _ Hq). destruct (Tb q t Hq0 Ht) as (_ & _ & Y). destruct (Y c0) as [_ (z & Hz1 & Hz2)]; [apply in_map_iff; exists (c0, s0); auto|].
      split; [rewrite <- Hz2; auto|]. destruct (ti_ent _ _ _ T _ q t c0 s0 Hq Ht He) as [Z _]. destruct (kvs_seq_in (upto c0 (t_docs t))) as [W|(u & Hu & W)]; [lia|].
      rewrite Z, W. apply HFt. apply filter_In in Hu. apply (ti_in part np x _ q t u T Hq Ht). apply Hu.
    - assert (Hq0 := nth_error_In _ _ Hq). destruct (Tb _ t Hq0 (or_introl eq_refl)) as (Y & _ & _).
      destruct (ti_ent _ _ _ T _ _ t n s Hq (or_introl eq_refl) He) as [Z1 Z2]. exists (fun t => upto n (t_docs t)). split.
      + intros u [<-|[]]. apply (shows_upto n s t Y (ti_sort _ _ _ T _ _ t Hq (or_introl eq_refl)) He Hs Z1).
      + cbn [rev app flat_map]. rewrite app_nil_r, !tab_get_for_key, upto_absorb.
        * assert (W := ti_docs _ _ _ T k _ Hq). cbn [rev app flat_map] in W. rewrite app_nil_r in W. rewrite !for_key_upto, W. reflexivity.
        * intros z Hz1 Hz2. apply (Z2 z Hz1). rewrite Hz2, N2Nat.id. reflexivity.
    - apply AllT; [|exact Hc1]. intros t Ht. apply shows_all. left. apply Hc2, Ht. }
  destruct HT as (Tf & HT1 & HT2).
  assert (Hn2 : n <= lastseq h) by lia.
  destruct (snap_read_cut c h (cd_db x) h' (cd_db x') n f r k (t_docs (cd_low x) ++ flat_map Tf (rev q)) Cok D Ld Hf Hr Er Hn2 HT2) as (A & EA & EG).
  assert (Esn : sn = mkCS n (Some (map f_num A)) (handles n (concat (cd_parts x) ++ [cd_low x]))).
  { unfold c_open in Eo. unfold n in *. destruct (chk =? 0) eqn:E0.
    - rewrite (max_visible hash c h _ D Hne), <- Et in Eo. replace (top h =? 0) with false in Eo by lia. cbn [andb] in Eo. rewrite EA in Eo. injection Eo as <-. reflexivity.
    - destruct (db_checkpoints lim x) as [l| |]; try discriminate. destruct (existsb (N.eqb chk) l); [|discriminate]. cbn [andb] in Eo. rewrite ?E0 in Eo. cbn [andb] in Eo.
      rewrite EA in Eo. injection Eo as <-. reflexivity. }
  subst sn. unfold csnap_get. cbn [cs_files cs_chk].
  assert (Htm := tm_get_handles np x x' n (Some (map f_num A)) k q Tf T Le L1 L2 L3 Hq HT1 (shows_all n _ (or_introl (ti_low _ _ _ T)))).
  rewrite Htm. unfold upto in EG. rewrite <- EG. unfold snap_get. cbn [sn_files sn_chk sn_tab].
  destruct (pinned (map f_num A) _) as [fs|] eqn:Ep.
  - destruct (lm_get_snap hash n fs k) as [y|e|] eqn:El.
    + unfold found. destruct (is_ins y); reflexivity.
    + destruct (tab_get _ k) as [y|e'|] eqn:Eg; [unfold found; destruct (is_ins y); reflexivity|reflexivity|].
      rewrite tab_get_for_key in Eg. destruct (rev _); discriminate.
    + exfalso. unfold snap_get in EG. cbn [sn_files sn_chk sn_tab] in EG. rewrite Ep, El in EG. unfold spec_get in EG. destruct (last_write _ _) as [z|]; [destruct (is_ins z)|]; discriminate.
  - exfalso. unfold snap_get in EG. cbn [sn_files sn_chk sn_tab] in EG. rewrite Ep in EG. unfold spec_get in EG. destruct (last_write _ _) as [z|]; [destruct (is_ins z)|]; discriminate.
Qed.
End Proofs.
