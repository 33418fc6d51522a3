(** Crash recovery with tables: what DB::open makes of the files a run has left. *)
From Verif Require Import Base KeyModel KeyProofs LogFormatModel LogManifestModel BloomModel BloomProofs MemTableModel MemTableProofs
  LogMgrModel LogMgrProofs LogMgrProofs2 LogMgrProofs3 DbModel DbProofs RecoverModel.
From Coq Require Import Sorted ZifyBool.
Local Open Scope N_scope.

(** ** Lists of records cut at a number *)

Definition upto (s : N) (l : list rec) : list rec := filter (fun r => r_seq r <=? s) l.

Lemma upto_in : forall s l r, In r (upto s l) <-> In r l /\ r_seq r <= s.
Proof. intros s l r. unfold upto. rewrite filter_In. split; intros [A B]; split; auto; lia. Qed.

Lemma upto_sorted : forall s l, sorted_seq l -> sorted_seq (upto s l).
Proof. intros; apply sorted_seq_filter; assumption. Qed.

(** For the records of [l], being at most [s] and being at most the last one not above [s] is the same. *)
Lemma upto_last : forall s l r, sorted_seq l -> upto s l <> [] -> In r l ->
  (r_seq r <= s <-> r_seq r <= lastseq (upto s l)).
Proof.
  intros s l r Hs Hne Hr. split; intros H.
  - apply lastseq_ge; [apply upto_sorted; exact Hs|]. apply upto_in; auto.
  - destruct (lastseq_in _ Hne) as (x & Hx & Ex). apply upto_in in Hx. lia.
Qed.

Lemma upto_all : forall s l, (forall r, In r l -> r_seq r <= s) -> upto s l = l.
Proof. intros s l H. apply filter_all. intros r Hr. specialize (H r Hr). lia. Qed.

Lemma upto_none : forall s l, (forall r, In r l -> s < r_seq r) -> upto s l = [].
Proof. intros s l H. apply filter_none. intros r Hr. specialize (H r Hr). lia. Qed.

Lemma upto_app : forall s a b, upto s (a ++ b) = upto s a ++ upto s b.
Proof. intros. unfold upto. apply filter_app. Qed.

Lemma filter_eq_in : forall {A} (p q : A -> bool) l, (forall x, In x l -> p x = q x) -> filter p l = filter q l.
Proof.
  intros A p q l; induction l as [|x l IH]; intros H; [reflexivity|]. cbn [filter]. rewrite (H x (or_introl eq_refl)).
  rewrite IH by (intros y Hy; apply H; right; exact Hy). reflexivity.
Qed.

(** The synced mark that fits a file of which the records up to [s] have been written. *)
Definition mark (s : N) (f : lgf) : N := match upto s (fh f) with [] => NIL | _ => lastseq (upto s (fh f)) end.

Lemma mark_some : forall s f, upto s (fh f) <> [] -> mark s f = lastseq (upto s (fh f)).
Proof. intros s f H. unfold mark. destruct (upto s (fh f)); [congruence|reflexivity]. Qed.

Lemma asc_app_lt : forall a b x y, sorted_seq (a ++ b) -> In x a -> In y b -> r_seq x < r_seq y.
Proof.
  unfold sorted_seq. intros a b x y H Hx Hy. rewrite map_app in H. apply SS_app_inv in H. destruct H as (_ & _ & H).
  apply H; apply in_map; assumption.
Qed.

Section Proofs.
Variable hash : key -> N * N.
Notation GI := (GI hash).
Notation FI := (FI hash).
Notation DI := (DI hash).

Lemma fi_sorted : forall f, FI f -> sorted_seq (fh f).
Proof. intros f H. apply (mw_asc _ _ _ (fi_mw _ _ H)). Qed.

Lemma fi_min_eq : forall f f', FI f -> FI f' -> fh f' = fh f -> fh f <> [] -> m_min (f_mt f') = m_min (f_mt f).
Proof.
  intros f f' H H' E Hne. destruct (fi_min _ _ H Hne) as (x & Hx & Ex). destruct (fi_min _ _ H') as (y & Hy & Ey); [rewrite E; exact Hne|].
  assert (A := mw_min _ _ _ (fi_mw _ _ H) y). assert (B := mw_min _ _ _ (fi_mw _ _ H') x). rewrite E in Hy, B. specialize (A Hy). specialize (B Hx). lia.
Qed.

Lemma mark_nil : forall s f, FI f -> (mark s f = NIL <-> upto s (fh f) = []).
Proof.
  intros s f H. unfold mark. destruct (upto s (fh f)) as [|x l] eqn:E; [tauto|]. rewrite <- E.
  destruct (lastseq_in (upto s (fh f))) as (r & Hr & <-); [rewrite E; discriminate|]. apply upto_in in Hr.
  assert (X := mr_bnd _ _ _ (mw_mr _ _ _ (fi_mw _ _ H)) r (proj1 Hr)).
  split; intros Y; [lia|congruence].
Qed.

(** *** What sync writes *)
Lemma to_write_upto : forall s s' f f', FI f -> m_synced (f_mt f) = mark s f -> m_synced (f_mt f') = mark s' f -> s <= s' ->
  upto s (fh f) ++ to_write f f' = upto s' (fh f).
Proof.
  intros s s' f f' H E E' Hle. unfold to_write. rewrite E, E'. fold (fh f).
  assert (Hs := fi_sorted _ H).
  destruct (upto s' (fh f)) as [|x' l'] eqn:EU'.
  { assert (Z : upto s (fh f) = []).
    { destruct (upto s (fh f)) as [|y t] eqn:EU; [reflexivity|exfalso]. assert (In y (upto s (fh f))) by (rewrite EU; left; reflexivity).
      apply upto_in in H0. assert (In y (upto s' (fh f))) by (apply upto_in; split; [apply H0|lia]). rewrite EU' in H1. destruct H1. }
    rewrite Z, (proj2 (mark_nil s' f H) EU'), N.eqb_refl. reflexivity. }
  assert (NE' : upto s' (fh f) <> []) by (rewrite EU'; discriminate). rewrite <- EU'.
  destruct (mark s' f =? NIL) eqn:EN; [exfalso; apply NE', (mark_nil s' f H); lia|].
  rewrite (mark_some _ _ NE').
  destruct (upto s (fh f)) as [|x l] eqn:EU.
  - rewrite (proj2 (mark_nil s f H) EU), N.eqb_refl. cbn [app]. apply filter_eq_in. intros r Hr.
    assert (A := mw_min _ _ _ (fi_mw _ _ H) r Hr). assert (B := upto_last s' (fh f) r Hs NE' Hr).
    replace (m_min (f_mt f) <=? r_seq r) with true by lia. cbn [andb].
    destruct (r_seq r <=? s') eqn:E1; lia.
  - assert (NE : upto s (fh f) <> []) by (rewrite EU; discriminate). rewrite <- EU.
    assert (EM : mark s f =? NIL = false) by (destruct (mark s f =? NIL) eqn:EM; [exfalso; apply NE, (mark_nil s f H); lia|reflexivity]).
    rewrite EM, (mark_some _ _ NE).
    assert (EF : filter (fun r => (lastseq (upto s (fh f)) + 1 <=? r_seq r) && (r_seq r <=? lastseq (upto s' (fh f)))) (fh f) =
                 filter (fun r => (s <? r_seq r) && (r_seq r <=? s')) (fh f)).
    { apply filter_eq_in. intros r Hr. assert (A := upto_last s (fh f) r Hs NE Hr). assert (B := upto_last s' (fh f) r Hs NE' Hr).
      destruct (s <? r_seq r) eqn:E1; destruct (r_seq r <=? s') eqn:E2; lia. }
    rewrite EF. apply filter_cut; assumption.
Qed.

(** ** The state of disk and manifest *)

(** A manifest entry for a file. *)
Definition ent_ok (e : ment) (f : lgf) : Prop :=
  e_num e = f_num f /\ e_flushed e = m_flushed (f_mt f) /\ e_synced e = m_synced (f_mt f) /\
  (e_min e = NIL \/ e_min e = m_min (f_mt f)) /\ (m_synced (f_mt f) <> NIL -> e_min e = m_min (f_mt f)).

(** A manifest image that may be found: it lists the first files, and the others hold nothing that
    was synced. *)
Definition man_ok (s : N) (g : lmgr) (M : lman) : Prop :=
  exists a b, g_files g = a ++ b /\ (forall f, In f b -> upto s (fh f) = []) /\ Forall2 ent_ok (l_files M) a /\
    (exists a' f, a = a' ++ [f] /\ l_max M = f_num f) /\ l_flushed M = g_lf g /\ (l_synced M = NIL \/ l_synced M <= l_max M).

Definition disk_ok (s : N) (f : lgf) (l : list dlog) : Prop :=
  dlog_at (f_num f) l = Some (mkDL (f_num f) (upto s (fh f)) false).

(** The invariant of the guarded runs; [pw]: power failures are considered, not only crashes of the
    process.  [h]: acknowledged writes; [hs]: those acknowledged at the last sync. *)
Record PI (pw : bool) (c : cfg) (h hs : list rec) (p : pdb) : Prop := {
  pi_di : DI c h (p_db p);
  pi_pre : exists tl, h = hs ++ tl;
  pi_mark : forall f, In f (g_files (d_log (p_db p))) -> m_synced (f_mt f) = mark (lastseq hs) f;
  pi_disk : forall f, In f (g_files (d_log (p_db p))) -> disk_ok (lastseq hs) f (p_disk p);
  pi_dur : pw = true -> forall f, In f (g_files (d_log (p_db p))) -> disk_ok (lastseq hs) f (p_dur p);
  pi_man : Forall2 ent_ok (l_files (p_man p)) (g_files (d_log (p_db p))) /\ man_ok (lastseq hs) (d_log (p_db p)) (p_man p);
  pi_old : pw = true -> forall M, In M (p_old p) -> man_ok (lastseq hs) (d_log (p_db p)) M;
  pi_nums : forall d, In d (p_disk p) \/ In d (p_dur p) -> dl_num d <= g_max (d_log (p_db p));
  pi_few : forall f, In f (g_files (d_log (p_db p))) -> fh f <> [] -> f_num f <= m_min (f_mt f)
}.

Lemma ent_of : forall f, ent_ok (mkMent (f_num f) (m_min (f_mt f)) (m_flushed (f_mt f)) (m_synced (f_mt f))) f.
Proof. intros f. unfold ent_ok. cbn [e_num e_flushed e_synced e_min]. tauto. Qed.

Lemma man_of_ents : forall g, Forall2 ent_ok (l_files (man_of g)) (g_files g).
Proof.
  intros g. cbn [man_of l_files]. induction (g_files g) as [|f l IH]; cbn [map]; constructor; [apply ent_of|exact IH].
Qed.

Lemma man_of_ok : forall n0 pre h F g s, GI n0 pre h F g -> man_ok s g (man_of g).
Proof.
  intros n0 pre h F g s H. exists (g_files g), []. split; [rewrite app_nil_r; reflexivity|]. split; [intros f []|].
  split; [apply man_of_ents|]. split.
  - destruct (gi_last _ _ _ _ _ _ H) as (a & f & E & En). exists a, f. split; [exact E|]. cbn. congruence.
  - split; [reflexivity|]. cbn. destruct (gi_ls _ _ _ _ _ _ H) as [X|(X & _)]; [left; exact X|right; lia].
Qed.

(** Files replaced one by one, keeping marks and the synced part. *)
Definition kept (s : N) (f f' : lgf) : Prop :=
  f_num f' = f_num f /\ m_flushed (f_mt f') = m_flushed (f_mt f) /\ m_synced (f_mt f') = m_synced (f_mt f) /\
  upto s (fh f') = upto s (fh f) /\ (m_min (f_mt f) = NIL \/ m_min (f_mt f') = m_min (f_mt f)) /\
  (m_synced (f_mt f) <> NIL -> m_min (f_mt f') = m_min (f_mt f)).

Lemma kept_refl : forall s f, kept s f f.
Proof. intros s f. unfold kept. auto 10. Qed.
Lemma kept_refls : forall s l, Forall2 (kept s) l l.
Proof. intros s l; induction l; constructor; [apply kept_refl|assumption]. Qed.

Lemma ent_kept : forall s e f f', ent_ok e f -> kept s f f' -> ent_ok e f'.
Proof.
  intros s e f f' (A1 & A2 & A3 & A4 & A5) (B1 & B2 & B3 & B4 & B5 & B6). unfold ent_ok. rewrite B1, B2, B3.
  split; [exact A1|]. split; [exact A2|]. split; [exact A3|]. split.
  - destruct A4 as [A4|A4]; [left; exact A4|]. destruct B5 as [B5|B5]; [left; congruence|right; congruence].
  - intros Hn. rewrite (A5 Hn), (B6 Hn). reflexivity.
Qed.

Lemma ents_kept : forall s es fs fs', Forall2 ent_ok es fs -> Forall2 (kept s) fs fs' -> Forall2 ent_ok es fs'.
Proof.
  intros s es fs fs' H; revert fs'. induction H as [|e f es fs He Hl IH]; intros fs' Hk; inversion Hk; subst; constructor.
  - eapply ent_kept; eauto.
  - apply IH. assumption.
Qed.

Lemma kept_in : forall s fs fs', Forall2 (kept s) fs fs' -> forall f', In f' fs' -> exists f, In f fs /\ kept s f f'.
Proof.
  intros s fs fs' H; induction H as [|x y l l' Hxy Hl IH]; intros f' []; [subst; exists x; split; [left; reflexivity|assumption]|].
  destruct (IH _ H) as (f & Hf & Hs). exists f; split; [right; exact Hf|exact Hs].
Qed.

Lemma man_kept : forall s g g' M, man_ok s g M -> Forall2 (kept s) (g_files g) (g_files g') -> g_lf g' = g_lf g -> man_ok s g' M.
Proof.
  intros s g g' M (a & b & E & Hb & He & (a' & f & Ea & Em) & Hf & Hs) Hk Hlf.
  rewrite E in Hk. apply Forall2_app_inv_l in Hk. destruct Hk as (a1 & b1 & Ka & Kb & E1).
  exists a1, b1. split; [exact E1|]. split.
  { intros x Hx. destruct (kept_in _ _ _ Kb x Hx) as (y & Hy & (_ & _ & _ & K & _)). rewrite K. apply Hb, Hy. }
  split; [eapply ents_kept; eauto|]. split.
  { rewrite Ea in Ka. apply Forall2_app_inv_l in Ka. destruct Ka as (a2 & b2 & Ka & Kf & E2). inversion Kf as [|? y ? ? Ky Kn]; subst.
    inversion Kn; subst. exists a2, y. split; [reflexivity|]. rewrite Em. symmetry. apply Ky. }
  split; [congruence|exact Hs].
Qed.

(** Files added at the end. *)
Lemma man_more : forall s g g' M l, man_ok s g M -> g_files g' = g_files g ++ l -> (forall f, In f l -> upto s (fh f) = []) ->
  g_lf g' = g_lf g -> man_ok s g' M.
Proof.
  intros s g g' M l (a & b & E & Hb & R1 & R2 & R3 & R4) E' Hl Hlf. exists a, (b ++ l). split; [rewrite E', E, app_assoc; reflexivity|].
  split; [|split; [exact R1|split; [exact R2|split; [congruence|exact R4]]]].
  intros f Hf. apply in_app_or in Hf. destruct Hf; auto.
Qed.

End Proofs.
