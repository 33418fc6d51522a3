(** A sync with concurrent writers: the invariant. *)
From Verif Require Import Base KeyModel KeyProofs LogFormatModel LogManifestModel BloomModel BloomProofs MemTableModel MemTableProofs
  LogMgrModel LogMgrProofs LogMgrProofs2 LogMgrProofs3 DbModel DbProofs DbProofs2 RecoverModel RecoverProofs RecoverProofs2 RecoverProofs3
  RecoverProofs5 RecoverProofs7 RecoverProofs9 SyncRaceModel SyncRaceSpec SyncRaceProofs.
From Coq Require Import Sorted ZifyBool.
Local Open Scope N_scope.

(** ** Initial parts *)

Lemma starts_refl : forall a, starts a a.
Proof. intros a; exists []; symmetry; apply app_nil_r. Qed.
Lemma starts_trans : forall a b c, starts a b -> starts b c -> starts a c.
Proof. intros a b c (t & ->) (u & ->). exists (t ++ u). rewrite app_assoc. reflexivity. Qed.
Lemma starts_app : forall a b t, starts a b -> starts a (b ++ t).
Proof. intros a b t (u & ->). exists (u ++ t). rewrite app_assoc. reflexivity. Qed.
Lemma starts_le : forall a b, sorted_seq b -> starts a b -> lastseq a <= lastseq b.
Proof. intros a b H (t & ->). apply lastseq_ext. exact H. Qed.
Lemma starts_ne : forall a b, starts a b -> a <> [] -> b <> [].
Proof. intros a b (t & ->) H Z. apply app_eq_nil in Z. destruct Z; congruence. Qed.

Lemma cut_at : forall h1 h a x, sorted_seq h -> starts h1 h -> lastseq h1 <= a -> In x h -> r_seq x = a ->
  starts h1 (upto a h) /\ starts (upto a h) h /\ lastseq (upto a h) = a.
Proof.
  intros h1 h a x Hs (t & Eh) Hle Hx Ex. split; [|split].
  - exists (upto a t). rewrite Eh, upto_app. f_equal. apply upto_all. intros r Hr.
    assert (Hs1 : sorted_seq h1) by (rewrite Eh in Hs; unfold sorted_seq in *; rewrite map_app in Hs; apply SS_app_inv in Hs; tauto).
    assert (Y := lastseq_ge h1 r Hs1 Hr). lia.
  - destruct (upto_prefix a h Hs) as (u & Eu & _). exists u. exact Eu.
  - assert (Hi : In x (upto a h)) by (apply upto_in; split; [exact Hx|lia]).
    assert (NE : upto a h <> []) by (intros Z; rewrite Z in Hi; destruct Hi).
    assert (A := lastseq_ge _ x (upto_sorted a h Hs) Hi). destruct (lastseq_in _ NE) as (y & Hy & Ey). apply upto_in in Hy. lia.
Qed.

(** ** Files on disk *)

Definition complete (f : lgf) (l : list dlog) : Prop := dlog_at (f_num f) l = Some (mkDL (f_num f) (fh f) false).

Lemma append_num : forall n rs d, dl_num (append_dlog n rs d) = dl_num d.
Proof. intros n rs d. unfold append_dlog. destruct (_ && _); reflexivity. Qed.

Lemma append_other : forall n rs l k, k <> n -> dlog_at k (map (append_dlog n rs) l) = dlog_at k l.
Proof.
  intros n rs l k Hk. rewrite dlog_at_map by (intros; apply append_num). destruct (dlog_at k l) as [d|] eqn:E; [|reflexivity].
  apply dlog_at_in in E. destruct E as [_ E]. unfold append_dlog. replace (dl_num d =? n) with false by lia. reflexivity.
Qed.

Lemma append_same : forall n rs l a, dlog_at n l = Some (mkDL n a false) ->
  dlog_at n (map (append_dlog n rs) l) = Some (mkDL n (a ++ rs) false).
Proof.
  intros n rs l a E. rewrite dlog_at_map by (intros; apply append_num). rewrite E. unfold append_dlog. cbn [dl_num dl_torn dl_recs].
  rewrite N.eqb_refl. reflexivity.
Qed.

Lemma fsync_num : forall n disk d, dl_num (match dlog_at (dl_num d) disk with Some x => if between n n (dl_num d) then x else d | None => d end) = dl_num d.
Proof.
  intros n disk d. destruct (dlog_at (dl_num d) disk) as [x|] eqn:E; [|reflexivity]. destruct (between n n (dl_num d)); [|reflexivity].
  apply dlog_at_in in E. apply E.
Qed.

Lemma fsync_other : forall n disk dur k, k <> n -> dlog_at k (fsync_range n n disk dur) = dlog_at k dur.
Proof.
  intros n disk dur k Hk. unfold fsync_range. rewrite dlog_at_map by (intros; apply fsync_num). destruct (dlog_at k dur) as [d|] eqn:E; [|reflexivity].
  apply dlog_at_in in E. destruct E as [_ E]. rewrite E. destruct (dlog_at k disk); [|reflexivity]. unfold between.
  destruct ((n <=? k) && (k <=? n)) eqn:B; [lia|reflexivity].
Qed.

Lemma fsync_same : forall n disk dur d y, dlog_at n disk = Some d -> dlog_at n dur = Some y -> dlog_at n (fsync_range n n disk dur) = Some d.
Proof.
  intros n disk dur d y E E2. unfold fsync_range. rewrite dlog_at_map by (intros; apply fsync_num). rewrite E2.
  apply dlog_at_in in E2. destruct E2 as [_ E2]. rewrite E2, E. unfold between. rewrite N.leb_refl. reflexivity.
Qed.

Lemma fsync_nums : forall n disk dur m, (forall d, In d disk \/ In d dur -> dl_num d <= m) -> forall d, In d (fsync_range n n disk dur) -> dl_num d <= m.
Proof.
  intros n disk dur m H d Hd. unfold fsync_range in Hd. apply in_map_iff in Hd. destruct Hd as (z & <- & Hz). rewrite fsync_num. apply H; right; exact Hz.
Qed.

Section Proofs.
Variable hash : key -> N * N.
Notation GI := (GI hash).
Notation FI := (FI hash).
Notation DI := (DI hash).
Notation PI := (PI hash).

(** ** Marks of one file *)

Lemma mark_rec : forall f x s, FI f -> In x (fh f) -> r_seq x = s -> mark s f = s.
Proof.
  intros f x s H Hx Ex. assert (Hs := fi_sorted _ _ H). assert (Hi : In x (upto s (fh f))) by (apply upto_in; split; [exact Hx|lia]).
  assert (NE : upto s (fh f) <> []) by (intros Z; rewrite Z in Hi; destruct Hi). rewrite (mark_some _ _ NE).
  assert (A := lastseq_ge _ x (upto_sorted s _ Hs) Hi). destruct (lastseq_in _ NE) as (y & Hy & Ey). apply upto_in in Hy. lia.
Qed.

Lemma mark_all : forall f s, FI f -> fh f <> [] -> (forall x, In x (fh f) -> r_seq x <= s) -> mark s f = m_max (f_mt f).
Proof.
  intros f s H Hne A. unfold mark. rewrite (upto_all _ _ A). rewrite (fi_max _ _ H Hne). destruct (fh f); [congruence|reflexivity].
Qed.

Lemma mark_lt : forall f s, FI f -> mark s f <> NIL -> mark s f <= s /\ exists x, In x (fh f) /\ r_seq x = mark s f.
Proof.
  intros f s H Hn. assert (NE : upto s (fh f) <> []) by (intros Z; apply Hn, (mark_nil hash s f H), Z). rewrite (mark_some _ _ NE).
  destruct (lastseq_in _ NE) as (y & Hy & Ey). apply upto_in in Hy. split; [lia|]. exists y. split; [apply Hy|exact Ey].
Qed.

Lemma fi_bnd : forall f x, FI f -> In x (fh f) -> r_seq x <= m_max (f_mt f) /\ m_max (f_mt f) < NIL.
Proof.
  intros f x H Hx. assert (NE : fh f <> []) by (intros Z; rewrite Z in Hx; destruct Hx). rewrite (fi_max _ _ H NE).
  split; [apply lastseq_ge; [apply (fi_sorted _ _ H)|exact Hx]|]. destruct (lastseq_in _ NE) as (y & Hy & <-).
  assert (X := mr_bnd _ _ _ (mw_mr _ _ _ (fi_mw _ _ H)) y Hy). lia.
Qed.

(** A file that is synced as far as the marks tell, marks of [s]. *)
Lemma full_upto : forall f s, FI f -> fh f <> [] -> m_synced (f_mt f) = mark s f -> full_synced f -> forall x, In x (fh f) -> r_seq x <= s.
Proof.
  intros f s H Hne Em Hf x Hx. unfold full_synced in Hf. destruct (fi_bnd f x H Hx) as [B1 B2].
  destruct (mark_lt f s H) as [A _]; [rewrite <- Em, Hf; lia|]. rewrite <- Em, Hf in A. lia.
Qed.

Lemma synced_full : forall f, FI f -> fh f <> [] -> is_synced (f_mt f) = true -> full_synced f.
Proof.
  intros f H Hne E. unfold is_synced, valid_number in E. unfold full_synced. destruct (lastseq_in _ Hne) as (y & Hy & Ey). destruct (fi_bnd f y H Hy) as [B1 B2].
  destruct (N.eq_dec (m_synced (f_mt f)) NIL) as [e|n]; [rewrite e, N.eqb_refl in E; destruct (m_max (f_mt f) =? NIL) eqn:Z; [lia|discriminate]|].
  destruct (fi_syn _ _ H n) as (r & Hr & Er). destruct (fi_bnd f r H Hr) as [X _]. lia.
Qed.

Lemma min_valid : forall f, FI f -> fh f <> [] -> m_min (f_mt f) <> NIL.
Proof.
  intros f H Hne Z. destruct (fi_min _ _ H Hne) as (r & Hr & Er). destruct (fi_bnd f r H Hr). lia.
Qed.

Lemma after_all : forall b f, FI f -> fh f <> [] -> (b = 0 \/ forall x, In x (fh f) -> r_seq x <= b) ->
  f_imm f && is_synced (f_mt f) = false -> y_after b f = m_max (f_mt f).
Proof.
  intros b f H Hne Hb Hi. unfold y_after. rewrite Hi. unfold flush_out. assert (X := min_valid f H Hne).
  destruct (m_min (f_mt f) =? NIL) eqn:E; [lia|]. destruct (b =? 0) eqn:E0; [unfold valid_number; rewrite N.eqb_refl; reflexivity|].
  destruct Hb as [Hb|Hb]; [lia|]. destruct (lastseq_in _ Hne) as (y & Hy & Ey). specialize (Hb y Hy). rewrite (fi_max _ _ H Hne).
  replace (b <? lastseq (fh f)) with false by lia. rewrite andb_false_r. reflexivity.
Qed.

Lemma after_rec : forall b f y, FI f -> In y (fh f) -> r_seq y = b -> b <> 0 -> f_imm f = false -> y_after b f = b.
Proof.
  intros b f y H Hy Ey Hb Hi. assert (Hne : fh f <> []) by (intros Z; rewrite Z in Hy; destruct Hy).
  destruct (fi_bnd f y H Hy) as [B1 B2]. unfold y_after. rewrite Hi. cbn [andb]. unfold flush_out. assert (X := min_valid f H Hne).
  destruct (m_min (f_mt f) =? NIL) eqn:E; [lia|]. replace (b =? 0) with false by lia. unfold valid_number. replace (b =? NIL) with false by lia.
  cbn [negb andb]. destruct (b <? m_max (f_mt f)) eqn:E1; lia.
Qed.

(** What is appended to the file. *)
Lemma append_upto : forall f s a, FI f -> m_synced (f_mt f) = mark s f -> a = mark a f -> s <= a ->
  upto s (fh f) ++ to_write f (marked a f) = upto a (fh f).
Proof. intros f s a H Em Ea Hle. apply (to_write_upto hash s a f (marked a f) H Em); [exact Ea|exact Hle]. Qed.

Lemma append_all : forall f s, FI f -> fh f <> [] -> m_synced (f_mt f) = mark s f -> upto s (fh f) ++ to_write f (marked (m_max (f_mt f)) f) = fh f.
Proof.
  intros f s H Hne Em. set (s' := N.max s (m_max (f_mt f))).
  assert (A : forall x, In x (fh f) -> r_seq x <= s') by (intros x Hx; destruct (fi_bnd f x H Hx); lia).
  rewrite (to_write_upto hash s s' f (marked (m_max (f_mt f)) f) H Em); [apply upto_all, A| |lia].
  cbn [marked with_mt f_mt set_marks m_synced]. symmetry. apply mark_all; assumption.
Qed.

Lemma append_none : forall f, to_write f (marked NIL f) = [].
Proof. intros f. unfold to_write. cbn [marked with_mt f_mt set_marks m_synced]. rewrite N.eqb_refl. reflexivity. Qed.

(** Setting the synced mark. *)
Lemma set_synced_fi : forall f s, FI f -> (exists r, In r (fh f) /\ r_seq r = s) -> (m_synced (f_mt f) <> NIL -> m_synced (f_mt f) <= s) ->
  FI (with_mt f (lf_set_synced s (f_mt f))) /\ m_synced (lf_set_synced s (f_mt f)) = s.
Proof.
  intros f s H (r & Hr & Er) Hle. assert (Hne : fh f <> []) by (intros Z; rewrite Z in Hr; destruct Hr). destruct (fi_bnd f r H Hr) as [B1 B2].
  assert (E : lf_set_synced s (f_mt f) = set_marks (m_flushed (f_mt f)) s (f_mt f)).
  { unfold lf_set_synced, valid_number. replace (m_max (f_mt f) =? NIL) with false by lia. cbn [negb]. replace (m_max (f_mt f) <? s) with false by lia. reflexivity. }
  split; [|rewrite E; reflexivity]. assert (W := mw_set_synced hash (fh f) (f_mt f) s (fi_mw _ _ H)). rewrite E in *. destruct H.
  constructor; cbn [with_mt f_mt f_num f_start set_marks m_max m_min m_start m_flushed m_synced fh]; auto.
  - intros _. exists r; auto.
  - intros Hf. destruct (fi_ord Hf). split; [lia|]. specialize (Hle H). lia.
Qed.

(** Setting it to NIL sets it to the last number. *)
Lemma set_synced_nil : forall f, FI f -> fh f <> [] -> lf_set_synced NIL (f_mt f) = lf_set_synced (m_max (f_mt f)) (f_mt f).
Proof.
  intros f H Hne. destruct (lastseq_in _ Hne) as (y & Hy & Ey). destruct (fi_bnd f y H Hy) as [B1 B2].
  unfold lf_set_synced, valid_number. replace (m_max (f_mt f) =? NIL) with false by lia. cbn [negb].
  replace (m_max (f_mt f) <? NIL) with true by lia. replace (m_max (f_mt f) <? m_max (f_mt f)) with false by lia. reflexivity.
Qed.

(** ** The invariant during a sync *)

Record SI (pw : bool) (c : cfg) (h hs h1 : list rec) (r : srun) (p : pdb) : Prop := {
  si_di : DI c h (p_db p);
  si_hs : starts hs h1;
  si_h1 : starts h1 h;
  si_ne : h1 <> [];
  si_fs : pw = true -> sr_fsync r = true;
  si_to : sr_to r <= g_max (d_log (p_db p));
  si_ls : g_ls (d_log (p_db p)) = NIL \/ g_ls (d_log (p_db p)) <= sr_next r;
  si_last : sr_to r < sr_next r -> sr_last r = sr_to r;
  si_imm : forall f, In f (g_files (d_log (p_db p))) -> sr_to r <= f_num f -> f_imm f = false;
  si_bat : d_bat (p_db p) <> None -> sr_to r = g_max (d_log (p_db p));
  si_top : exists f x, In f (g_files (d_log (p_db p))) /\ f_num f = sr_to r /\ In x (fh f) /\ r_seq x = lastseq h1;
  si_bar : match sr_bar r with
           | None => sr_after r = None /\ sr_next r <= sr_to r
           | Some b => (b = 0 /\ d_bat (p_db p) = None) \/
                       (b <> 0 /\ exists hb f y, starts h1 hb /\ starts hb h /\ lastseq hb = b /\
                          In f (g_files (d_log (p_db p))) /\ f_num f = sr_to r /\ In y (fh f) /\ r_seq y = b)
           end;
  si_next : sr_next r <= sr_to r + 1 /\ (sr_after r <> None -> sr_next r <= sr_to r);
  si_done : forall f, In f (g_files (d_log (p_db p))) -> f_num f < sr_next r -> f_num f < sr_to r ->
              full_synced f /\ complete f (p_disk p) /\ (pw = true -> complete f (p_dur p));
  si_todo : forall f, In f (g_files (d_log (p_db p))) -> sr_next r <= f_num f ->
              m_synced (f_mt f) = mark (lastseq hs) f /\ (pw = true -> disk_ok (lastseq hs) f (p_dur p)) /\
              ((f_num f = sr_next r -> sr_after r = None) -> disk_ok (lastseq hs) f (p_disk p));
  si_mid : forall a f, sr_after r = Some a -> In f (g_files (d_log (p_db p))) -> f_num f = sr_next r -> f_num f < sr_to r ->
              complete f (p_disk p) /\ (a = m_max (f_mt f) \/ a = NIL);
  si_fin : sr_to r < sr_next r \/ (sr_next r = sr_to r /\ sr_after r <> None) ->
              exists f hs1 x, In f (g_files (d_log (p_db p))) /\ f_num f = sr_to r /\ starts h1 hs1 /\ starts hs1 h /\
                In x (fh f) /\ r_seq x = lastseq hs1 /\ disk_ok (lastseq hs1) f (p_disk p) /\
                match sr_after r with
                | Some a => a = lastseq hs1
                | None => m_synced (f_mt f) = lastseq hs1 /\ (pw = true -> disk_ok (lastseq hs1) f (p_dur p))
                end;
  si_nums : forall d, In d (p_disk p) \/ In d (p_dur p) -> dl_num d <= g_max (d_log (p_db p));
  si_few : forall f, In f (g_files (d_log (p_db p))) -> fh f <> [] -> f_num f <= m_min (f_mt f)
}.

(** Between syncs, the newest file can still be written to. *)
Definition open_top (g : lmgr) : Prop := forall f, In f (g_files g) -> f_num f = g_max g -> f_imm f = false.

Lemma sync_from_ok : forall n0 pre h F g, GI n0 pre h F g -> lastseq h + 1 < NIL ->
  sync_from g <= g_max g /\ (forall f, In f (g_files g) -> f_num f < sync_from g -> full_synced f) /\ (g_ls g = NIL \/ g_ls g <= sync_from g).
Proof.
  intros n0 pre h F g H Hl.
  assert (HN := gi_nums _ _ _ _ _ _ H). assert (HG := gi_gmax _ _ _ _ _ _ H). assert (HE := gi_ne _ _ _ _ _ _ H).
  assert (Hmin : min_num g = Some n0).
  { unfold min_num. destruct (g_files g) as [|f t]; [congruence|]. destruct HN as [HN _]. rewrite HN; reflexivity. }
  unfold sync_from, last_synced. destruct (gi_ls _ _ _ _ _ _ H) as [A|(A & B & B2)].
  - rewrite A, N.eqb_refl, Hmin.
    assert (1 <= len (g_files g)) by (unfold len; destruct (g_files g); [congruence|cbn; lia]). split; [lia|].
    split; [|left; reflexivity]. intros f Hf Hlt. assert (X := nums_in _ _ _ HN Hf). lia.
  - destruct (g_ls g =? NIL) eqn:E.
    + assert (g_max g < NIL) by (assert (X := gi_few _ _ _ _ _ _ H); lia). lia.
    + split; [lia|]. split; [exact B|right; lia].
Qed.

Lemma di_ne : forall c h d n0 pre F part f, DI c h d -> h <> [] -> GI n0 pre (h ++ part) F (d_log d) -> In f (g_files (d_log d)) -> fh f <> [].
Proof.
  intros c h d n0 pre F part f D Hne H Hf. apply (gi_nonemp _ _ _ _ _ _ H); [|exact Hf]. intros Z. apply app_eq_nil in Z. destruct Z; congruence.
Qed.

(** *** Begin *)
Lemma si_begin : forall pw c h hs p fsync r, cfg_ok c -> PI pw c h hs p -> open_top (d_log (p_db p)) -> h <> [] ->
  (pw = true -> fsync = true) -> y_begin fsync p = Some r -> SI pw c h hs h r p.
Proof.
  intros pw c h hs p fsync r Cok P Ho Hne Hfs E. assert (D := pi_di _ _ _ _ _ _ P). assert (D0 := D).
  destruct D as [(n0 & pre & F & part & H & Ht & Hl & HF & HFl & HG & HB)].
  unfold y_begin in E. rewrite (gi_max_num _ _ _ _ _ _ H Hl) in E. injection E as <-.
  destruct (sync_from_ok _ _ _ _ _ H Hl) as (A1 & A2 & A3). set (g := d_log (p_db p)) in *.
  destruct (gi_last _ _ _ _ _ _ H) as (a & fl & Ea & En).
  assert (Hfl : In fl (g_files g)) by (rewrite Ea; apply in_or_app; right; left; reflexivity).
  destruct (di_top hash c h (p_db p) fl D0 Hne Hfl En) as (t & Ht1 & Et).
  constructor; cbn [sr_fsync sr_to sr_next sr_last sr_bar sr_after]; fold g.
  - exact D0.
  - exact (pi_pre _ _ _ _ _ _ P).
  - apply starts_refl.
  - exact Hne.
  - exact Hfs.
  - lia.
  - exact A3.
  - lia.
  - intros f Hf Hle. apply Ho; [exact Hf|]. assert (X := file_le hash _ _ _ _ _ f H Hf). fold g in X. lia.
  - reflexivity.
  - exists fl, t. auto.
  - auto.
  - split; [lia|]. congruence.
  - intros f Hf Hlt _. assert (Hfull := A2 f Hf Hlt). split; [exact Hfull|].
    assert (U : upto (lastseq hs) (fh f) = fh f).
    { apply upto_all, (full_upto f (lastseq hs) (gi_fi _ _ _ _ _ _ H f Hf)); [eapply di_ne; eauto|apply (pi_mark _ _ _ _ _ _ P f Hf)|exact Hfull]. }
    split; [|intros Hp]; unfold complete; rewrite <- U; [apply (pi_disk _ _ _ _ _ _ P f Hf)|apply (pi_dur _ _ _ _ _ _ P Hp f Hf)].
  - intros f Hf _. split; [apply (pi_mark _ _ _ _ _ _ P f Hf)|]. split; [intros Hp; apply (pi_dur _ _ _ _ _ _ P Hp f Hf)|].
    intros _. apply (pi_disk _ _ _ _ _ _ P f Hf).
  - discriminate.
  - intros [Z|[_ Z]]; [lia|congruence].
  - apply (pi_nums _ _ _ _ _ _ P).
  - apply (pi_few _ _ _ _ _ _ P).
Qed.

(** *** Writes *)
Lemma upto_le : forall s s' l l', s <= s' -> upto s' l' = upto s' l -> upto s l' = upto s l.
Proof.
  assert (A : forall s s' l, s <= s' -> upto s (upto s' l) = upto s l).
  { intros s s' l Hle. unfold upto. induction l as [|x l IH]; [reflexivity|]. cbn [filter]. destruct (r_seq x <=? s') eqn:E; cbn [filter].
    - destruct (r_seq x <=? s); rewrite IH; reflexivity.
    - replace (r_seq x <=? s) with false by lia. exact IH. }
  intros s s' l l' Hle E. rewrite <- (A s s' l Hle), <- (A s s' l' Hle), E. reflexivity.
Qed.

Lemma si_write : forall pw c h hs h1 r p o x p', cfg_ok c -> SI pw c h hs h1 r p -> allowed c h (p_db p) o -> is_begin o = false ->
  match o with OSync _ | OFlush _ _ => False | _ => True end -> p_write hash c o p = Some (x, p') ->
  SI pw c (h ++ acked x) hs h1 r p' /\ x <> Undef.
Proof.
  intros pw c h hs h1 r p o x p' Cok S Al Hb Ho Ep. assert (D := si_di _ _ _ _ _ _ _ S).
  assert (Hne : h <> []) by (apply (starts_ne h1 h (si_h1 _ _ _ _ _ _ _ S)), (si_ne _ _ _ _ _ _ _ S)).
  destruct (p_write_shape hash c h p o x p' Cok D Hne Al Ho Ep) as (E & Hnum & Hshape).
  destruct (step_keeps hash c h (p_db p) o x (p_db p') Cok D Al E) as (D' & Hx & _). split; [|exact Hx].
  assert (Hfiles := write_files hash c h (p_db p) o x (p_db p') Cok D Hne Al E Ho).
  destruct (write_imm_ls hash c h (p_db p) o x (p_db p') Cok D E Ho) as (Hls & Himm).
  assert (Hfew := write_few hash c h (p_db p) o x (p_db p') Cok D Hne Al E Ho (si_few _ _ _ _ _ _ _ S)).
  assert (Hsort := di_sorted _ _ _ _ D).
  assert (L0 : lastseq hs <= lastseq h).
  { apply starts_le; [exact Hsort|]. eapply starts_trans; [apply (si_hs _ _ _ _ _ _ _ S)|apply (si_h1 _ _ _ _ _ _ _ S)]. }
  assert (Hto := si_to _ _ _ _ _ _ _ S).
  assert (Hmax : g_max (d_log (p_db p)) <= g_max (d_log (p_db p'))) by (destruct Hshape as [(A & _)|(A & _)]; lia).
  assert (Hdisk : forall n d, dlog_at n (p_disk p) = Some d -> dlog_at n (p_disk p') = Some d).
  { intros n d Ed. destruct Hshape as [(_ & -> & _)|(_ & -> & _)]; [exact Ed|]. rewrite dlog_at_app, Ed. reflexivity. }
  assert (Hdur : forall n d, dlog_at n (p_dur p) = Some d -> dlog_at n (p_dur p') = Some d).
  { intros n d Ed. destruct Hshape as [(_ & _ & ->)|(_ & _ & ->)]; [exact Ed|]. rewrite dlog_at_app, Ed. reflexivity. }
  assert (D0 := D). destruct D0 as [(n0 & pre & F & part & H & _)]. assert (D0' := D'). destruct D0' as [(n0' & pre' & F' & part' & H' & _)].
  assert (Hnone : forall l, (forall d, In d l -> dl_num d <= g_max (d_log (p_db p))) -> dlog_at (g_max (d_log (p_db p)) + 1) l = None).
  { intros l Hl. apply dlog_at_none. intros d Hd. specialize (Hl d Hd). lia. }
  assert (Hnew : forall f', In f' (g_files (d_log (p_db p'))) -> new_file h (d_log (p_db p)) f' ->
     dlog_at (f_num f') (p_disk p') = Some (mkDL (f_num f') [] false) /\ dlog_at (f_num f') (p_dur p') = Some (mkDL (f_num f') [] false)).
  { intros f' Hf' (N1 & _). destruct Hshape as [(A & _)|(_ & B1 & B2)].
    - assert (X := file_le hash _ _ _ _ _ f' H' Hf'). lia.
    - rewrite B1, B2, N1. rewrite !dlog_at_app.
      rewrite (Hnone (p_disk p)) by (intros d Hd; apply (si_nums _ _ _ _ _ _ _ S d); auto).
      rewrite (Hnone (p_dur p)) by (intros d Hd; apply (si_nums _ _ _ _ _ _ _ S d); auto).
      unfold dlog_at. cbn [find dl_num]. rewrite N.eqb_refl. auto. }
  (* old files by number *)
  assert (Hold : forall f', In f' (g_files (d_log (p_db p'))) -> f_num f' <= g_max (d_log (p_db p)) -> exists f, old_file h (d_log (p_db p)) f f').
  { intros f' Hf' Hle. destruct (Hfiles f' Hf') as [X|(N1 & _)]; [exact X|lia]. }
  assert (Hgrow : forall f s, In f (g_files (d_log (p_db p))) -> exists f', In f' (g_files (d_log (p_db p'))) /\ f_num f' = f_num f /\
     m_synced (f_mt f') = m_synced (f_mt f) /\ (s <= lastseq h -> upto s (fh f') = upto s (fh f)) /\
     (forall y, In y (fh f) -> r_seq y <= lastseq h -> In y (fh f'))).
  { intros f s Hf. destruct (Hnum f Hf) as (f' & Hf' & En). exists f'. split; [exact Hf'|]. split; [exact En|].
    assert (X := file_le hash _ _ _ _ _ f H Hf). destruct (Hold f' Hf' ltac:(lia)) as (f2 & O1 & O2 & O3 & O4 & O5).
    assert (f2 = f) by (apply (file_uniq hash _ _ _ _ _ f2 f H O1 Hf); congruence). subst f2. split; [exact O3|]. split.
    - intros Hs. exact (upto_le _ _ _ _ Hs O4).
    - intros y Hy Hle. assert (Z : In y (upto (lastseq h) (fh f))) by (apply upto_in; auto). rewrite <- O4 in Z. apply upto_in in Z. apply Z. }
  constructor.
  - exact D'.
  - exact (si_hs _ _ _ _ _ _ _ S).
  - apply starts_app, (si_h1 _ _ _ _ _ _ _ S).
  - exact (si_ne _ _ _ _ _ _ _ S).
  - exact (si_fs _ _ _ _ _ _ _ S).
  - lia.
  - rewrite Hls. exact (si_ls _ _ _ _ _ _ _ S).
  - exact (si_last _ _ _ _ _ _ _ S).
  - intros f' Hf' Hle. destruct (f_imm f') eqn:Ei; [|reflexivity]. destruct (Himm f' Hf' Ei) as (f & Hf & En & Ef).
    rewrite <- En in Hle. rewrite (si_imm _ _ _ _ _ _ _ S f Hf Hle) in Ef. discriminate.
  - intros Hbat. destruct (d_bat (p_db p)) as [b|] eqn:Eb.
    + rewrite (write_bat_max hash c h (p_db p) o x (p_db p') Cok D Al E Hb) by congruence. apply (si_bat _ _ _ _ _ _ _ S). congruence.
    + exfalso; apply Hbat. exact (write_bat hash c _ _ _ _ E Hb Eb).
  - destruct (si_top _ _ _ _ _ _ _ S) as (f & t & T1 & T2 & T3 & T4). destruct (Hgrow f 0 T1) as (f' & G1 & G2 & _ & _ & G3).
    exists f', t. split; [exact G1|]. split; [congruence|]. split; [|exact T4]. apply G3; [exact T3|]. rewrite T4.
    apply starts_le; [exact Hsort|apply (si_h1 _ _ _ _ _ _ _ S)].
  - assert (B := si_bar _ _ _ _ _ _ _ S). destruct (sr_bar r) as [b|]; [|exact B]. destruct B as [[B1 B2]|[B1 (hb & f & y & B2 & B3 & B4 & B5 & B6 & B7 & B8)]].
    + left. split; [exact B1|]. exact (write_bat hash c _ _ _ _ E Hb B2).
    + right. split; [exact B1|]. destruct (Hgrow f 0 B5) as (f' & G1 & G2 & _ & _ & G3). exists hb, f', y.
      split; [exact B2|]. split; [apply starts_app, B3|]. split; [exact B4|]. split; [exact G1|]. split; [congruence|]. split; [|exact B8].
      apply G3; [exact B7|]. rewrite B8, <- B4. apply starts_le; assumption.
  - exact (si_next _ _ _ _ _ _ _ S).
  - intros f' Hf' L1 L2. destruct (Hold f' Hf' ltac:(lia)) as (f & O1 & O2 & O3 & O4 & O5). rewrite O2 in *.
    destruct (si_done _ _ _ _ _ _ _ S f O1 L1 L2) as (C1 & C2 & C3). specialize (O5 ltac:(lia)).
    assert (Hm := max_eq hash f f' (gi_fi _ _ _ _ _ _ H f O1) (gi_fi _ _ _ _ _ _ H' f' Hf') O5 (di_ne c h (p_db p) n0 pre F part f D Hne H O1)).
    split; [unfold full_synced in *; congruence|]. unfold complete in *. rewrite O2, O5. split; [apply Hdisk, C2|intros Hp; apply Hdur, C3, Hp].
  - intros f' Hf' L1. destruct (Hfiles f' Hf') as [(f & O1 & O2 & O3 & O4 & O5)|Nw].
    + rewrite O2 in *. destruct (si_todo _ _ _ _ _ _ _ S f O1 L1) as (C1 & C2 & C3). assert (U := upto_le _ _ _ _ L0 O4).
      split; [rewrite O3, C1, (mark_upto _ _ _ U); reflexivity|]. unfold disk_ok in *. rewrite O2, U.
      split; [intros Hp; apply Hdur, C2, Hp|]. intros Z. apply Hdisk, C3, Z.
    + destruct (Hnew f' Hf' Nw) as [W1 W2]. destruct Nw as (N1 & N2 & N3).
      assert (U : upto (lastseq hs) (fh f') = []) by (apply upto_none; intros y Hy; specialize (N3 y Hy); lia).
      split; [rewrite N2; symmetry; unfold mark; rewrite U; reflexivity|]. unfold disk_ok. rewrite U. auto.
  - intros a f' Ea Hf' L1 L2. destruct (Hold f' Hf' ltac:(lia)) as (f & O1 & O2 & O3 & O4 & O5). rewrite O2 in *. specialize (O5 ltac:(lia)).
    destruct (si_mid _ _ _ _ _ _ _ S a f Ea O1 L1 L2) as (C1 & C2). unfold complete in *. rewrite O2, O5.
    assert (Hm := max_eq hash f f' (gi_fi _ _ _ _ _ _ H f O1) (gi_fi _ _ _ _ _ _ H' f' Hf') O5 (di_ne c h (p_db p) n0 pre F part f D Hne H O1)).
    split; [apply Hdisk, C1|]. rewrite Hm. exact C2.
  - intros Hcond. destruct (si_fin _ _ _ _ _ _ _ S Hcond) as (f & hs1 & t & T1 & T2 & T3 & T4 & T5 & T6 & T7 & T8).
    assert (L1 : lastseq hs1 <= lastseq h) by (apply starts_le; assumption).
    destruct (Hgrow f (lastseq hs1) T1) as (f' & G1 & G2 & G3 & G4 & G5). specialize (G4 L1). exists f', hs1, t.
    split; [exact G1|]. split; [congruence|]. split; [exact T3|]. split; [apply starts_app, T4|]. split; [apply G5; [exact T5|lia]|]. split; [exact T6|].
    unfold disk_ok in *. rewrite G2, G4. split; [apply Hdisk, T7|]. destruct (sr_after r); [exact T8|]. destruct T8 as [T8 T9].
    split; [congruence|]. intros Hp. apply Hdur, T9, Hp.
  - intros d Hd. destruct Hshape as [(A & B1 & B2)|(A & B1 & B2)]; rewrite B1, B2 in Hd.
    + rewrite A. apply (si_nums _ _ _ _ _ _ _ S d Hd).
    + destruct Hd as [Hd|Hd]; apply in_app_or in Hd; (destruct Hd as [Hd|[<-|[]]]; [|cbn [dl_num]; lia]).
      * assert (X := si_nums _ _ _ _ _ _ _ S d (or_introl Hd)). lia.
      * assert (X := si_nums _ _ _ _ _ _ _ S d (or_intror Hd)). lia.
  - exact Hfew.
Qed.

End Proofs.
