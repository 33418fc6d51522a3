(** Invariant of the log section: the log files together hold the acknowledged writes. *)
From Verif Require Import Base KeyModel KeyProofs LogFormatModel BloomModel BloomProofs MemTableModel MemTableProofs
  LogMgrModel.
From Coq Require Import Sorted.
Local Open Scope N_scope.

(** * Consecutive file numbers *)

Fixpoint nums_from (n : N) (fs : list lgf) : Prop :=
  match fs with [] => True | f :: t => f_num f = n /\ nums_from (n + 1) t end.

Definition len (fs : list lgf) : N := N.of_nat (length fs).

Lemma nums_app : forall a n b, nums_from n (a ++ b) <-> nums_from n a /\ nums_from (n + len a) b.
Proof.
  unfold len; induction a as [|f a IH]; intros n b; cbn [app nums_from length].
  - rewrite N.add_0_r. tauto.
  - rewrite IH. replace (n + 1 + N.of_nat (length a)) with (n + N.of_nat (S (length a))) by lia. tauto.
Qed.

Lemma nums_in : forall fs n f, nums_from n fs -> In f fs -> n <= f_num f < n + len fs.
Proof.
  unfold len; induction fs as [|x fs IH]; intros n f H Hf; [destruct Hf|]. destruct H as [H1 H2]. destruct Hf as [Hf|Hf]; cbn [length].
  - subst x; lia.
  - specialize (IH _ _ H2 Hf); lia.
Qed.

Lemma nums_map : forall (h : lgf -> lgf) fs n, (forall f, f_num (h f) = f_num f) ->
  nums_from n fs -> nums_from n (map h fs).
Proof.
  intros h fs; induction fs as [|f fs IH]; intros n Hh; [trivial|]. cbn [map nums_from].
  intros [H1 H2]; split; [rewrite Hh; exact H1|apply IH; assumption].
Qed.

Lemma nums_same : forall a n b, map f_num a = map f_num b -> nums_from n a -> nums_from n b.
Proof.
  induction a as [|f a IH]; intros n [|g b] E; try discriminate; [trivial|]. cbn [map] in E.
  injection E as E1 E2. cbn [nums_from]; intros [H1 H2]; split; [congruence|eapply IH; eauto].
Qed.

Lemma file_at_app : forall a f b n, nums_from n (a ++ f :: b) -> file_at (n + len a) (a ++ f :: b) = Some f.
Proof.
  unfold file_at, len; induction a as [|x a IH]; intros f b n H; cbn [app find length] in *; destruct H as [H1 H2].
  - rewrite H1. replace (n + N.of_nat 0) with n by lia. rewrite N.eqb_refl. reflexivity.
  - destruct (f_num x =? n + N.of_nat (S (length a))) eqn:E; [lia|].
    replace (n + N.of_nat (S (length a))) with (n + 1 + N.of_nat (length a)) by lia. apply IH; exact H2.
Qed.

Lemma file_at_num : forall fs n a f b, nums_from n fs -> fs = a ++ f :: b -> file_at (f_num f) fs = Some f.
Proof.
  intros fs n a f b H E. subst fs. assert (H' := H). apply nums_app in H'; destruct H' as [_ [H' _]].
  rewrite H'. apply file_at_app; exact H.
Qed.

Lemma file_at_split : forall fs n k, nums_from n fs -> n <= k < n + len fs ->
  exists a f b, fs = a ++ f :: b /\ f_num f = k /\ len a = k - n.
Proof.
  unfold len; intros fs n k H Hk.
  assert (Hl : (N.to_nat (k - n) < length fs)%nat) by lia.
  destruct (nth_split fs (mkF 0 0 false (mt_init 0 0)) Hl) as (a & b & E & La).
  exists a, (nth (N.to_nat (k - n)) fs (mkF 0 0 false (mt_init 0 0))), b.
  split; [exact E|]. rewrite E in H. apply nums_app in H. destruct H as [_ [H _]]. unfold len in H. lia.
Qed.

Lemma file_at_in : forall n fs f, file_at n fs = Some f -> In f fs /\ f_num f = n.
Proof. intros n fs f H; apply find_some in H; destruct H as [H E]; split; [exact H|lia]. Qed.

Lemma file_at_none : forall n0 fs n, nums_from n0 fs -> ~ (n0 <= n < n0 + len fs) -> file_at n fs = None.
Proof.
  intros n0 fs n H Hn. destruct (file_at n fs) as [f|] eqn:E; [|reflexivity].
  apply file_at_in in E; destruct E as [E1 E2]. assert (X := nums_in _ _ _ H E1). lia.
Qed.

Lemma upd_file_app : forall a f b n h, nums_from n (a ++ f :: b) ->
  upd_file (f_num f) h (a ++ f :: b) = a ++ h f :: b.
Proof.
  intros a f b n h H. assert (H0 := H). apply nums_app in H0. destruct H0 as [Ha [Hf Hb]].
  unfold upd_file. rewrite map_app. cbn [map]. rewrite N.eqb_refl. f_equal.
  - rewrite <- (map_id a) at 2. apply map_ext_in. intros x Hx. assert (X := nums_in _ _ _ Ha Hx).
    destruct (f_num x =? f_num f) eqn:E; [lia|reflexivity].
  - f_equal. rewrite <- (map_id b) at 2. apply map_ext_in. intros x Hx. assert (X := nums_in _ _ _ Hb Hx).
    destruct (f_num x =? f_num f) eqn:E; [lia|reflexivity].
Qed.

Lemma drop_while_none : forall {A} (p : A -> bool) l, (forall x, In x l -> p x = false) -> drop_while p l = l.
Proof. intros A p [|a l] H; [reflexivity|]. cbn [drop_while]. rewrite (H a (or_introl eq_refl)). reflexivity. Qed.

Lemma until_num_all : forall fs e, (forall f, In f fs -> f_num f <= e) ->
  (forall a f b, fs = a ++ f :: b -> b <> [] -> f_num f < e) -> until_num e fs = fs.
Proof.
  induction fs as [|f fs IH]; intros e H1 H2; [reflexivity|]. cbn [until_num].
  destruct fs as [|g fs].
  - destruct (e <=? f_num f); reflexivity.
  - assert (f_num f < e) by (apply (H2 [] f (g :: fs)); [reflexivity|discriminate]).
    destruct (e <=? f_num f) eqn:E; [lia|]. f_equal. apply IH.
    + intros x Hx; apply H1; right; exact Hx.
    + intros a x b Eq Hb. apply (H2 (f :: a) x b); [rewrite Eq; reflexivity|exact Hb].
Qed.

Lemma file_range_all : forall fs n e, nums_from n fs -> fs <> [] -> e = n + len fs - 1 -> file_range n e fs = fs.
Proof.
  intros fs n e H Hne He. unfold file_range. rewrite drop_while_none.
  - apply until_num_all.
    + intros f Hf. assert (X := nums_in _ _ _ H Hf). lia.
    + intros a f b E Hb. subst fs. apply nums_app in H. destruct H as [_ [H _]].
      assert (L : 1 <= len b) by (unfold len; destruct b; [congruence|cbn; lia]).
      unfold len in *. rewrite app_length in He. cbn [length] in He. lia.
  - intros f Hf. assert (X := nums_in _ _ _ H Hf). lia.
Qed.

(** * Histories *)

(** Number of the last write, 0 if there is none. *)
Definition lastseq (h : list rec) : N := match rev h with r :: _ => r_seq r | [] => 0 end.

Lemma lastseq_snoc : forall h r, lastseq (h ++ [r]) = r_seq r.
Proof. intros; unfold lastseq; rewrite rev_app_distr; reflexivity. Qed.

Lemma lastseq_app : forall a b, b <> [] -> lastseq (a ++ b) = lastseq b.
Proof.
  intros a b H. destruct (exists_last H) as (b' & x & ->). rewrite app_assoc, !lastseq_snoc. reflexivity.
Qed.

Lemma lastseq_ge : forall h r, sorted_seq h -> In r h -> r_seq r <= lastseq h.
Proof.
  intros h r Hs Hr. destruct (exists_last (l := h)) as (a & x & ->); [intros E; subst; destruct Hr|].
  rewrite lastseq_snoc. unfold sorted_seq in Hs. rewrite map_app in Hs. apply SS_app_inv in Hs.
  destruct Hs as (_ & _ & Hs). apply in_app_or in Hr. destruct Hr as [Hr|[->|[]]]; [|lia].
  assert (X := Hs (r_seq r) (r_seq x) (in_map _ _ _ Hr) (or_introl eq_refl)). lia.
Qed.

Lemma lastseq_in : forall h, h <> [] -> exists r, In r h /\ r_seq r = lastseq h.
Proof.
  intros h H. destruct (exists_last H) as (a & x & ->). exists x. rewrite lastseq_snoc.
  split; [apply in_or_app; right; left; reflexivity|reflexivity].
Qed.

(** Writes in a file, in order. *)
Definition fh (f : lgf) : list rec := m_seq (f_mt f).
Definition all_h (fs : list lgf) : list rec := flat_map fh fs.

Lemma all_h_app : forall a b, all_h (a ++ b) = all_h a ++ all_h b.
Proof. intros; unfold all_h; apply flat_map_app. Qed.

(** * The invariant *)

Section Proofs.
Variable hash : key -> N * N.

(** One file: contents [MW], the maximum is the last number, the marks name records of the file
    and are ordered. *)
Record FI (f : lgf) : Prop := {
  fi_mw : MW hash (fh f) (f_mt f);
  fi_max : fh f <> [] -> m_max (f_mt f) = lastseq (fh f);
  fi_emp : fh f = [] -> m_max (f_mt f) = NIL /\ m_min (f_mt f) = NIL;
  fi_start : m_start (f_mt f) < NIL;
  fi_syn : m_synced (f_mt f) <> NIL -> exists r, In r (fh f) /\ r_seq r = m_synced (f_mt f);
  fi_flu : m_flushed (f_mt f) <> NIL -> exists r, In r (fh f) /\ r_seq r = m_flushed (f_mt f);
  fi_ord : m_flushed (f_mt f) <> NIL -> m_synced (f_mt f) <> NIL /\ m_flushed (f_mt f) <= m_synced (f_mt f);
  fi_low : forall r, In r (fh f) -> f_start f <= r_seq r;
  fi_min : fh f <> [] -> exists r, In r (fh f) /\ r_seq r = m_min (f_mt f)
}.

(** The file is written to disk completely. *)
Definition full_synced (f : lgf) : Prop := m_synced (f_mt f) = m_max (f_mt f).

(** [GI n0 pre h F g]: the files are numbered from [n0]; the files hold the writes [h] except the
    oldest ones [pre]; exactly the writes numbered up to [F] have been handed to the tables. *)
Record GI (n0 : N) (pre h : list rec) (F : N) (g : lmgr) : Prop := {
  gi_ne : g_files g <> [];
  gi_nums : nums_from n0 (g_files g);
  gi_gmax : g_max g + 1 = n0 + len (g_files g);
  gi_hist : h = pre ++ all_h (g_files g);
  gi_asc : sorted_seq h;
  gi_pos : forall r, In r h -> 1 <= r_seq r;
  gi_fi : forall f, In f (g_files g) -> FI f;
  gi_nonemp : h <> [] -> forall f, In f (g_files g) -> fh f <> [];
  gi_fresh : h = [] -> forall f, In f (g_files g) -> m_start (f_mt f) = 0;
  gi_few : g_max g <= lastseq h;
  gi_startmax : h = [] -> forall f, In f (g_files g) -> f_start f <= 1;
  gi_noimm : h = [] -> forall f, In f (g_files g) -> f_imm f = false;
  gi_lf : g_lf g = NIL \/ g_lf g = n0;
  gi_ls : g_ls g = NIL \/ (n0 <= g_ls g <= g_max g /\
          (forall f, In f (g_files g) -> f_num f < g_ls g -> full_synced f) /\
          (forall f, In f (g_files g) -> f_num f = g_ls g -> m_synced (f_mt f) = NIL -> g_ls g = n0));
  gi_flu : forall f r, In f (g_files g) -> In r (fh f) -> unflushed (m_flushed (f_mt f)) r = (F <? r_seq r);
  gi_pre : forall r, In r pre -> r_seq r <= F;
  gi_F : F <> 0 -> exists r, In r (all_h (g_files g)) /\ r_seq r = F;
  gi_first : forall a f b, g_files g = a ++ f :: b -> m_flushed (f_mt f) <> NIL -> a = [];
  gi_starts : forall a f b, g_files g = a ++ f :: b -> forall r, In r (all_h a) -> r_seq r < f_start f
}.

Lemma gi_last : forall n0 pre h F g, GI n0 pre h F g ->
  exists a f, g_files g = a ++ [f] /\ f_num f = g_max g.
Proof.
  intros n0 pre h F g H. destruct (exists_last (gi_ne _ _ _ _ _ H)) as (a & f & E). exists a, f.
  split; [exact E|]. assert (N := gi_nums _ _ _ _ _ H). assert (G := gi_gmax _ _ _ _ _ H). rewrite E in *.
  apply nums_app in N. destruct N as [_ [N _]]. unfold len in *. rewrite app_length in G. cbn [length] in G. lia.
Qed.

Lemma gi_lt : forall n0 pre h F g r, GI n0 pre h F g -> In r (all_h (g_files g)) -> r_seq r < NIL.
Proof.
  intros n0 pre h F g r H Hr. apply in_flat_map in Hr. destruct Hr as (f & Hf & Hr).
  apply (mr_bnd _ _ _ (mw_mr _ _ _ (fi_mw _ (gi_fi _ _ _ _ _ H f Hf)))), Hr.
Qed.

Lemma gi_lastseq : forall n0 pre h F g, GI n0 pre h F g -> lastseq h < NIL.
Proof.
  intros n0 pre h F g H. destruct h as [|x h'] eqn:Eh; [cbn; rewrite nil_val; lia|].
  assert (Hne : h <> []) by (rewrite Eh; discriminate). rewrite <- Eh in *.
  destruct (gi_last _ _ _ _ _ H) as (a & f & E & _).
  assert (Hf : In f (g_files g)) by (rewrite E; apply in_or_app; right; left; reflexivity).
  assert (Hfn := gi_nonemp _ _ _ _ _ H Hne f Hf).
  assert (Q : lastseq h = lastseq (fh f)).
  { rewrite (gi_hist _ _ _ _ _ H), E, all_h_app. cbn [all_h flat_map]. rewrite app_nil_r, app_assoc.
    apply lastseq_app, Hfn. }
  rewrite Q. destruct (lastseq_in _ Hfn) as (r & Hr & <-). apply (gi_lt _ _ _ _ _ r H).
  apply in_flat_map. exists f; auto.
Qed.

Lemma gi_max_last : forall n0 pre h F g, GI n0 pre h F g -> h <> [] ->
  forall a f, g_files g = a ++ [f] -> m_max (f_mt f) = lastseq h.
Proof.
  intros n0 pre h F g H Hne a f E.
  assert (Hf : In f (g_files g)) by (rewrite E; apply in_or_app; right; left; reflexivity).
  assert (Hfn := gi_nonemp _ _ _ _ _ H Hne f Hf).
  rewrite (fi_max _ (gi_fi _ _ _ _ _ H f Hf) Hfn).
  rewrite (gi_hist _ _ _ _ _ H), E, all_h_app. cbn [all_h flat_map]. rewrite app_nil_r, app_assoc.
  symmetry; apply lastseq_app, Hfn.
Qed.

(** ** A new database *)
Lemma gi_new : forall c, 0 < c_maxent c -> GI 0 [] [] 0 (lm_new c).
Proof.
  intros c Hc. constructor; cbn [lm_new g_files g_max g_lf g_ls].
  - discriminate.
  - cbn; auto.
  - cbn; lia.
  - reflexivity.
  - constructor.
  - intros r [].
  - intros f [<-|[]]. constructor; cbn [fh f_mt mt_init m_seq m_max m_min m_start m_synced m_flushed f_start].
    + apply mw_init. lia.
    + congruence.
    + auto.
    + rewrite nil_val; lia.
    + congruence.
    + congruence.
    + congruence.
    + intros r [].
    + congruence.
  - congruence.
  - intros _ f [<-|[]]; reflexivity.
  - cbn; lia.
  - intros _ f [<-|[]]; cbn; lia.
  - intros _ f [<-|[]]; reflexivity.
  - left; reflexivity.
  - left; reflexivity.
  - intros f r [<-|[]] [].
  - intros r [].
  - congruence.
  - intros a f b E. cbn in E. destruct a as [|x a]; [reflexivity|].
    injection E as _ E. destruct a; discriminate.
  - intros a f b E. cbn in E. destruct a as [|x a]; [intros r []|].
    injection E as _ E. destruct a; discriminate.
Qed.

(** ** Replacing one file by one with the same records, number and flush mark *)
Lemma split_map_num : forall (a b : list lgf), map f_num a = map f_num b -> len a = len b.
Proof. intros a b H. unfold len. rewrite <- (map_length f_num a), H, map_length. reflexivity. Qed.

(** Replace the files by others, position by position, keeping what reads depend on. *)
Definition same_file (f g : lgf) : Prop :=
  f_num g = f_num f /\ fh g = fh f /\ m_flushed (f_mt g) = m_flushed (f_mt f) /\ f_start g = f_start f /\
  m_start (f_mt g) = m_start (f_mt f).

Lemma same_files_in : forall fs gs, Forall2 same_file fs gs -> forall g, In g gs -> exists f, In f fs /\ same_file f g.
Proof.
  intros fs gs H; induction H as [|x y l l' Hxy Hl IH]; intros g []; [subst; exists x; split; [left; reflexivity|assumption]|].
  destruct (IH _ H) as (f & Hf & Hs). exists f; split; [right; exact Hf|exact Hs].
Qed.
Lemma same_files_nums : forall fs gs, Forall2 same_file fs gs -> map f_num gs = map f_num fs.
Proof. intros fs gs H; induction H as [|x y l l' Hxy Hl IH]; [reflexivity|]. cbn [map]. destruct Hxy as [-> _]. f_equal; exact IH. Qed.
Lemma same_files_h : forall fs gs, Forall2 same_file fs gs -> all_h gs = all_h fs.
Proof.
  intros fs gs H; induction H as [|x y l l' Hxy Hl IH]; [reflexivity|]. cbn [all_h flat_map].
  fold (all_h l) (all_h l'). destruct Hxy as (_ & -> & _). rewrite IH; reflexivity.
Qed.
Lemma same_files_split : forall fs gs, Forall2 same_file fs gs -> forall a f b, gs = a ++ f :: b ->
  exists a' f' b', fs = a' ++ f' :: b' /\ same_file f' f /\ length a' = length a /\ Forall2 same_file a' a.
Proof.
  intros fs gs H; induction H as [|x y l l' Hxy Hl IH]; intros a f b E.
  - destruct a; discriminate.
  - destruct a as [|z a]; cbn [app] in E.
    + exists [], x, l. repeat (split; [reflexivity|]). replace f with y by congruence. repeat split; try apply Hxy. constructor.
    + assert (E2 : l' = a ++ f :: b) by congruence. destruct (IH _ _ _ E2) as (a' & f' & b' & -> & Hs & Hl' & Ha).
      exists (x :: a'), f', b'. split; [reflexivity|]. split; [exact Hs|]. split; [cbn; lia|].
      replace z with y by congruence. constructor; assumption.
Qed.
Lemma same_file_refl : forall f, same_file f f.
Proof. intros f; repeat split. Qed.
Lemma same_files_refl : forall fs, Forall2 same_file fs fs.
Proof. induction fs; constructor; [apply same_file_refl|assumption]. Qed.
Lemma same_file_trans : forall f g k, same_file f g -> same_file g k -> same_file f k.
Proof. intros f g k (A & B & C & D & E) (A' & B' & C' & D' & E'). repeat split; congruence. Qed.
Lemma same_files_trans : forall a b, Forall2 same_file a b -> forall c, Forall2 same_file b c -> Forall2 same_file a c.
Proof.
  intros a b H; induction H; intros c Hc; inversion Hc; subst; constructor; eauto using same_file_trans.
Qed.

Lemma gi_replace : forall n0 pre h F g gs ls, GI n0 pre h F g -> Forall2 same_file (g_files g) gs ->
  (forall f, In f gs -> FI f) ->
  (ls = NIL \/ (n0 <= ls <= g_max g /\ (forall f, In f gs -> f_num f < ls -> full_synced f) /\
                (forall f, In f gs -> f_num f = ls -> m_synced (f_mt f) = NIL -> ls = n0))) ->
  (h = [] -> forall f, In f gs -> f_imm f = false) ->
  forall bar, GI n0 pre h F (mkG gs (g_max g) (g_lf g) ls bar).
Proof.
  intros n0 pre h F g gs ls H HS HF HL HI bar.
  assert (HN := same_files_nums _ _ HS). assert (HL2 := split_map_num _ _ HN).
  constructor; cbn [g_files g_max g_lf g_ls].
  - intros E; apply (gi_ne _ _ _ _ _ H). rewrite E in HN. destruct (g_files g); [reflexivity|discriminate].
  - eapply nums_same; [symmetry; exact HN|]. apply (gi_nums _ _ _ _ _ H).
  - rewrite HL2. apply (gi_gmax _ _ _ _ _ H).
  - rewrite (same_files_h _ _ HS). apply (gi_hist _ _ _ _ _ H).
  - apply (gi_asc _ _ _ _ _ H).
  - apply (gi_pos _ _ _ _ _ H).
  - exact HF.
  - intros Hne f Hf. destruct (same_files_in _ _ HS f Hf) as (f0 & H0 & S). destruct S as (_ & -> & _).
    apply (gi_nonemp _ _ _ _ _ H Hne f0 H0).
  - intros He f Hf. destruct (same_files_in _ _ HS f Hf) as (f0 & H0 & S). destruct S as (_ & _ & _ & _ & ->).
    apply (gi_fresh _ _ _ _ _ H He f0 H0).
  - apply (gi_few _ _ _ _ _ H).
  - intros He f Hf. destruct (same_files_in _ _ HS f Hf) as (f0 & H0 & S). destruct S as (_ & _ & _ & -> & _).
    apply (gi_startmax _ _ _ _ _ H He f0 H0).
  - exact HI.
  - apply (gi_lf _ _ _ _ _ H).
  - exact HL.
  - intros f r Hf Hr. destruct (same_files_in _ _ HS f Hf) as (f0 & H0 & S). destruct S as (_ & E & -> & _).
    rewrite E in Hr. apply (gi_flu _ _ _ _ _ H f0 r H0 Hr).
  - apply (gi_pre _ _ _ _ _ H).
  - rewrite (same_files_h _ _ HS). apply (gi_F _ _ _ _ _ H).
  - intros a f b E Hm. destruct (same_files_split _ _ HS a f b E) as (a' & f' & b' & E' & S & La & _).
    destruct S as (_ & _ & Q & _). rewrite Q in Hm. apply (gi_first _ _ _ _ _ H) in E'; [|exact Hm].
    subst a'. destruct a; [reflexivity|discriminate].
  - intros a f b E r Hr. destruct (same_files_split _ _ HS a f b E) as (a' & f' & b' & E' & S & La & Sa).
    destruct S as (_ & _ & _ & -> & _). apply (gi_starts _ _ _ _ _ H _ _ _ E'). rewrite <- (same_files_h _ _ Sa). exact Hr.
Qed.

(** ** Writing *)

(** Number given to a write. *)
Definition numbered (h : list rec) (r : rec) : N := if r_seq r =? NIL then lastseq h + 1 else r_seq r.

(** One record into the newest file. *)
Lemma file_set_spec : forall n0 pre h F g c r, GI n0 pre h F g -> c_ow c = false ->
  lastseq h + 1 < NIL -> 1 <= r_seq r <= NIL ->
  if (r_seq r =? NIL) || (lastseq h <? r_seq r) then
    exists g', file_set hash c (g_max g) r g = (Ok (stored r (numbered h r)), g') /\
      GI n0 pre (h ++ [stored r (numbered h r)]) F g' /\ g_max g' = g_max g /\ g_bar g' = g_bar g /\
      g_lf g' = g_lf g /\ g_ls g' = g_ls g
  else file_set hash c (g_max g) r g = (Fail INVALID_SEQNUM, g).
Proof.
  intros n0 pre h F g c r H Ho Hl Hr.
  destruct (gi_last _ _ _ _ _ H) as (a & f & E & Ef).
  assert (Hf : In f (g_files g)) by (rewrite E; apply in_or_app; right; left; reflexivity).
  assert (FIf := gi_fi _ _ _ _ _ H f Hf).
  assert (Hnums := gi_nums _ _ _ _ _ H).
  assert (HA : file_at (g_max g) (g_files g) = Some f).
  { rewrite <- Ef. eapply file_at_num; [exact Hnums|exact E]. }
  unfold file_set. rewrite HA, Ho.
  assert (Hmax : m_max (f_mt f) = NIL /\ h = [] /\ fh f = [] \/ h <> [] /\ fh f <> [] /\ m_max (f_mt f) = lastseq h).
  { destruct h as [|x h'] eqn:Eh.
    - left. assert (A := gi_hist _ _ _ _ _ H). rewrite E, all_h_app in A. cbn [all_h flat_map] in A.
      rewrite app_nil_r in A. symmetry in A. apply app_eq_nil in A. destruct A as [_ A].
      apply app_eq_nil in A. destruct A as [_ A]. split; [apply (fi_emp _ FIf A)|auto].
    - right. rewrite <- Eh in *. assert (Hne : h <> []) by (rewrite Eh; discriminate).
      split; [exact Hne|]. split; [apply (gi_nonemp _ _ _ _ _ H Hne f Hf)|].
      apply (gi_max_last _ _ _ _ _ H Hne a f E). }
  assert (Hput := mt_put_spec hash (fh f) (f_mt f) r (fi_mw _ FIf) (fi_start _ FIf)).
  assert (Hmx : m_max (f_mt f) = NIL \/ m_max (f_mt f) + 1 < NIL) by (destruct Hmax as [(A & _)|(_ & _ & A)]; [left; exact A|right; lia]).
  specialize (Hput Hmx (proj2 Hr)).
  assert (Hbig := gi_lastseq _ _ _ _ _ H).
  assert (Hnext : next_seq (r_seq r) (f_mt f) = if (r_seq r =? NIL) || (lastseq h <? r_seq r) then Some (numbered h r) else None).
  { unfold next_seq, numbered. destruct (r_seq r =? NIL) eqn:E1; cbn [orb].
    - destruct Hmax as [(A & B & C)|(A & B & C)].
      + rewrite A, N.eqb_refl. rewrite (gi_fresh _ _ _ _ _ H B f Hf). subst h; reflexivity.
      + rewrite C. destruct (lastseq h =? NIL) eqn:E2; [lia|reflexivity].
    - destruct Hmax as [(A & B & C)|(A & B & C)].
      + rewrite A, N.eqb_refl. cbn [negb andb]. destruct (fi_emp _ FIf C) as [_ ->]. rewrite N.eqb_refl. cbn [negb andb].
        subst h; cbn [lastseq rev]. destruct (0 <? r_seq r) eqn:E3; [reflexivity|lia].
      + rewrite C. destruct (lastseq h =? NIL) eqn:E2; [lia|]. cbn [negb andb].
        destruct (r_seq r <=? lastseq h) eqn:E3; destruct (lastseq h <? r_seq r) eqn:E4; try lia; try reflexivity.
        destruct (negb (m_min (f_mt f) =? NIL) && (r_seq r <? m_min (f_mt f))) eqn:E5; [|reflexivity].
        assert (X := mw_mm _ _ _ (fi_mw _ FIf)). lia. }
  rewrite Hnext in Hput. destruct ((r_seq r =? NIL) || (lastseq h <? r_seq r)) eqn:Eacc.
  - unfold lf_set. destruct Hput as (m' & E1 & Hmw & Hm1 & Hm2 & Hm3 & Hm4 & Hm5 & Hm6 & Hm7).
    rewrite E1. set (s := numbered h r) in *. set (r' := stored r s) in *.
    assert (Ers : r_seq r' = s) by apply r_seq_stored.
    replace (negb (r_seq r =? NIL) && false && (r_seq r <=? m_max (f_mt f))) with false by (rewrite andb_false_r; reflexivity).
    eexists; split; [reflexivity|].
    assert (Hs : lastseq h < s).
    { unfold s, numbered. destruct (r_seq r =? NIL) eqn:E2; [lia|]. cbn [orb] in Eacc. lia. }
    rewrite E in *. rewrite <- Ef, (upd_file_app a f [] n0 _ Hnums).
    set (f' := with_mt f m').
    assert (Hfh : fh f' = fh f ++ [r']) by (apply (mw_seq _ _ _ Hmw)).
    assert (HFI : FI f').
    { constructor; cbn [f' with_mt f_mt f_start].
      - fold f'. rewrite Hfh. exact Hmw.
      - fold f'. rewrite Hfh, lastseq_snoc. intros _. lia.
      - fold f'. rewrite Hfh. intros A. apply app_eq_nil in A. destruct A; discriminate.
      - rewrite Hm4; apply (fi_start _ FIf).
      - fold f'. rewrite Hfh, Hm6. intros A. destruct (fi_syn _ FIf A) as (x & Hx & Ex). exists x; split; [apply in_or_app; left|]; assumption.
      - fold f'. rewrite Hfh, Hm5. intros A. destruct (fi_flu _ FIf A) as (x & Hx & Ex). exists x; split; [apply in_or_app; left|]; assumption.
      - rewrite Hm5, Hm6; apply (fi_ord _ FIf).
      - fold f'. rewrite Hfh. intros x Hx. apply in_app_or in Hx. destruct Hx as [Hx|[<-|[]]]; [apply (fi_low _ FIf), Hx|].
        rewrite Ers. destruct Hmax as [(A & B & C)|(A & B & C)].
        + assert (X := gi_startmax _ _ _ _ _ H B f). rewrite E in X. specialize (X Hf). lia.
        + destruct (fh f) as [|y t] eqn:Ey; [congruence|]. assert (X := fi_low _ FIf y).
          rewrite Ey in X. specialize (X (or_introl eq_refl)).
          assert (Y : In y h). { rewrite (gi_hist _ _ _ _ _ H), E, all_h_app. apply in_or_app; right. apply in_or_app; right.
            cbn [all_h flat_map]. rewrite Ey. left; reflexivity. }
          assert (Z := lastseq_ge _ _ (gi_asc _ _ _ _ _ H) Y). lia.
      - fold f'. rewrite Hfh, Hm2. intros _. destruct Hmax as [(A & B & C)|(A & B & C)].
        + rewrite A, N.eqb_refl. exists r'. split; [apply in_or_app; right; left; reflexivity|exact Ers].
        + rewrite C. destruct (lastseq h =? NIL) eqn:E2; [lia|]. destruct (fi_min _ FIf B) as (x & Hx & Ex).
          exists x; split; [apply in_or_app; left|]; assumption. }
    assert (Hin : forall x, In x (a ++ [f']) -> x = f' \/ In x (a ++ [f])).
    { intros x Hx. apply in_app_or in Hx. destruct Hx as [Hx|[<-|[]]]; [right; apply in_or_app; left; exact Hx|left; reflexivity]. }
    split; [|cbn [with_files g_max g_bar g_lf g_ls]; auto].
    constructor; cbn [with_files g_files g_max g_lf g_ls].
    + intros A; apply app_eq_nil in A; destruct A; discriminate.
    + eapply nums_same; [|exact Hnums]. rewrite !map_app. reflexivity.
    + assert (X := gi_gmax _ _ _ _ _ H). rewrite E in X. unfold len in *. rewrite app_length in *. exact X.
    + assert (X := gi_hist _ _ _ _ _ H). rewrite X, E, !all_h_app. cbn [all_h flat_map]. rewrite Hfh, !app_nil_r, !app_assoc. reflexivity.
    + unfold sorted_seq. rewrite map_app. apply SS_app; [apply (gi_asc _ _ _ _ _ H)|repeat constructor|].
      cbn [map In]. intros x y Hx [<-|[]]. apply in_map_iff in Hx. destruct Hx as (z & <- & Hz).
      assert (Z := lastseq_ge _ _ (gi_asc _ _ _ _ _ H) Hz). lia.
    + intros x Hx; apply in_app_or in Hx. destruct Hx as [Hx|[<-|[]]]; [apply (gi_pos _ _ _ _ _ H), Hx|lia].
    + intros x Hx. destruct (Hin x Hx) as [->|Hx']; [exact HFI|]. apply (gi_fi _ _ _ _ _ H). rewrite E; exact Hx'.
    + intros _ x Hx. apply in_app_or in Hx. destruct Hx as [Hx|[<-|[]]].
      * destruct Hmax as [(A & B & C)|(A & _)].
        -- exfalso. (* h = [] forces a single file *)
           assert (X := gi_few _ _ _ _ _ H). rewrite B in X. cbn [lastseq rev] in X.
           assert (Y := gi_gmax _ _ _ _ _ H). rewrite E in Y. unfold len in Y. rewrite app_length in Y. cbn [length] in Y.
           destruct a; [destruct Hx|]. cbn [length] in Y. lia.
        -- apply (gi_nonemp _ _ _ _ _ H A). rewrite E. apply in_or_app; left; exact Hx.
      * rewrite Hfh. intros A; apply app_eq_nil in A; destruct A; discriminate.
    + intros A; apply app_eq_nil in A; destruct A; discriminate.
    + rewrite lastseq_snoc. assert (X := gi_few _ _ _ _ _ H). lia.
    + intros A; apply app_eq_nil in A; destruct A; discriminate.
    + intros A; apply app_eq_nil in A; destruct A; discriminate.
    + apply (gi_lf _ _ _ _ _ H).
    + destruct (gi_ls _ _ _ _ _ H) as [A|(A & B & B2)]; [left; exact A|right]. split; [exact A|]. split.
      * intros x Hx Hlt. apply in_app_or in Hx. destruct Hx as [Hx|[<-|[]]].
        -- apply B; [rewrite E; apply in_or_app; left; exact Hx|exact Hlt].
        -- cbn [f' with_mt f_num] in Hlt. lia.
      * intros x Hx. apply in_app_or in Hx. destruct Hx as [Hx|[<-|[]]].
        -- apply B2; rewrite E; apply in_or_app; left; exact Hx.
        -- cbn [f' with_mt f_num f_mt]. rewrite Hm6. apply B2; rewrite E; exact Hf.
    + intros x y Hx Hy. apply in_app_or in Hx. destruct Hx as [Hx|[<-|[]]].
      * apply (gi_flu _ _ _ _ _ H); [rewrite E; apply in_or_app; left; exact Hx|exact Hy].
      * rewrite Hfh in Hy. cbn [f' with_mt f_mt]. rewrite Hm5. apply in_app_or in Hy. destruct Hy as [Hy|[<-|[]]].
        -- apply (gi_flu _ _ _ _ _ H); [rewrite E; exact Hf|exact Hy].
        -- rewrite Ers.
           assert (X : F < s).
           { destruct (N.eq_dec F 0) as [->|n]; [lia|]. destruct (gi_F _ _ _ _ _ H n) as (z & Hz & <-).
             assert (Hz' : In z h) by (rewrite (gi_hist _ _ _ _ _ H); apply in_or_app; right; exact Hz).
             assert (Z := lastseq_ge _ _ (gi_asc _ _ _ _ _ H) Hz'). lia. }
           replace (F <? s) with true by (symmetry; apply N.ltb_lt; exact X).
           unfold unflushed, valid_number. rewrite Ers. destruct (m_flushed (f_mt f) =? NIL) eqn:E3; [reflexivity|].
           destruct (fi_flu _ FIf) as (z & Hz & Ez); [lia|].
           assert (Z : r_seq z <= lastseq h).
           { apply lastseq_ge; [apply (gi_asc _ _ _ _ _ H)|]. rewrite (gi_hist _ _ _ _ _ H), E, all_h_app.
             apply in_or_app; right. apply in_or_app; right. cbn [all_h flat_map]. rewrite app_nil_r; exact Hz. }
           cbn [negb orb]. lia.
    + apply (gi_pre _ _ _ _ _ H).
    + intros n. destruct (gi_F _ _ _ _ _ H n) as (z & Hz & Ez). exists z; split; [|exact Ez].
      rewrite E, all_h_app in Hz. rewrite all_h_app. apply in_app_or in Hz. apply in_or_app.
      destruct Hz as [Hz|Hz]; [left; exact Hz|right]. cbn [all_h flat_map] in *. rewrite app_nil_r in *.
      rewrite Hfh. apply in_or_app; left; exact Hz.
    + intros a0 x b Eq Hm.
      destruct b as [|y b] using rev_ind.
      * apply app_inj_tail in Eq. destruct Eq as [Ea Ex]. subst a0 x. cbn [f' with_mt f_mt] in Hm. rewrite Hm5 in Hm.
        apply (gi_first _ _ _ _ _ H a f []); [exact E|exact Hm].
      * rewrite app_comm_cons, app_assoc in Eq. apply app_inj_tail in Eq. destruct Eq as [Ea _].
        apply (gi_first _ _ _ _ _ H a0 x (b ++ [f])); [|exact Hm]. rewrite E, Ea, <- app_assoc. reflexivity.
    + intros a0 x b Eq.
      destruct b as [|y b] using rev_ind.
      * apply app_inj_tail in Eq. destruct Eq as [Ea Ex]. subst a0 x. cbn [f' with_mt f_start].
        apply (gi_starts _ _ _ _ _ H a f []); exact E.
      * rewrite app_comm_cons, app_assoc in Eq. apply app_inj_tail in Eq. destruct Eq as [Ea _].
        apply (gi_starts _ _ _ _ _ H a0 x (b ++ [f])). rewrite E, Ea, <- app_assoc. reflexivity.
  - unfold lf_set. rewrite Hput.
    replace (negb (r_seq r =? NIL) && false && (r_seq r <=? m_max (f_mt f))) with false by (rewrite andb_false_r; reflexivity).
    f_equal. destruct g as [gf gm glf gls gb]. unfold with_files. cbn [g_files g_max g_lf g_ls g_bar] in *. f_equal.
    rewrite E in *. rewrite <- Ef. rewrite (upd_file_app a f [] n0 _ Hnums). destruct f; reflexivity.
Qed.

(** Start a new file and put the record into it. *)
Lemma roll_set_spec : forall n0 pre h F g c r f, GI n0 pre h F g -> c_ow c = false -> 0 < c_maxent c -> h <> [] ->
  lastseq h + 1 < NIL -> 1 <= r_seq r <= NIL -> (r_seq r = NIL \/ lastseq h < r_seq r) ->
  file_at (g_max g) (g_files g) = Some f ->
  exists g', file_set hash c (g_max (add_new_file c f g)) r (add_new_file c f g) = (Ok (stored r (numbered h r)), g') /\
      GI n0 pre (h ++ [stored r (numbered h r)]) F g' /\ g_max g' = g_max g + 1 /\ g_bar g' = g_bar g /\
      g_lf g' = g_lf g /\ g_ls g' = g_ls g /\
      match file_at (g_max g') (g_files g') with Some x => f_imm x = false | None => False end.
Proof.
  intros n0 pre h F g c r f H Ho Hc Hne Hl Hr Hacc HA.
  destruct (gi_last _ _ _ _ _ H) as (a & f1 & E & Ef).
  assert (Hnums := gi_nums _ _ _ _ _ H).
  assert (HA' : file_at (g_max g) (g_files g) = Some f1).
  { rewrite <- Ef. eapply file_at_num; [exact Hnums|exact E]. }
  assert (f1 = f) by congruence. subst f1. clear HA'.
  assert (Hmax := gi_max_last _ _ _ _ _ H Hne a f E).
  assert (Hfew := gi_few _ _ _ _ _ H). assert (Hgm := gi_gmax _ _ _ _ _ H).
  unfold add_new_file. rewrite Hmax.
  rewrite !N.mod_small by (change (2 ^ 64) with (NIL + 1); lia).
  set (fn := mkF (g_max g + 1) (lastseq h + 1) false (mt_init (c_maxent c * 64) (lastseq h + 1))).
  assert (Hn2 : nums_from n0 (g_files g ++ [fn])).
  { apply nums_app; split; [exact Hnums|]. cbn [nums_from fn f_num]. split; [lia|exact I]. }
  unfold file_set. cbn [g_files g_max].
  assert (HA2 : file_at (g_max g + 1) (g_files g ++ [fn]) = Some fn).
  { change (g_max g + 1) with (f_num fn) at 1. eapply file_at_num; [exact Hn2|reflexivity]. }
  rewrite HA2, Ho.
  assert (Hmw0 : MW hash [] (f_mt fn)) by (apply mw_init; lia).
  assert (Hput := mt_put_spec hash [] (f_mt fn) r Hmw0 Hl (or_introl eq_refl) (proj2 Hr)).
  assert (Hnext : next_seq (r_seq r) (f_mt fn) = Some (numbered h r)).
  { unfold next_seq, numbered. cbn [fn f_mt mt_init m_start m_max m_min]. rewrite N.eqb_refl. cbn [negb andb].
    destruct (r_seq r =? NIL); [|reflexivity]. destruct (lastseq h + 1 =? 0) eqn:E0; [lia|reflexivity]. }
  rewrite Hnext in Hput.
  unfold lf_set. cbn [fn f_mt]. destruct Hput as (m' & E1 & Hmw & Hm1 & Hm2 & Hm3 & Hm4 & Hm5 & Hm6 & Hm7).
  cbn [fn f_mt mt_init m_start m_max m_min m_flushed m_synced app] in *.
  rewrite E1. set (s := numbered h r) in *. set (r' := stored r s) in *.
  assert (Ers : r_seq r' = s) by apply r_seq_stored.
  replace (negb (r_seq r =? NIL) && false && (r_seq r <=? NIL)) with false by (rewrite andb_false_r; reflexivity).
  eexists; split; [reflexivity|].
  assert (Hs : lastseq h < s).
  { unfold s, numbered. destruct (r_seq r =? NIL) eqn:E2; lia. }
  replace (upd_file (g_max g + 1) (fun f0 => with_mt f0 m') (g_files g ++ [fn])) with (g_files g ++ [with_mt fn m'])
    by (change (g_max g + 1) with (f_num fn); rewrite (upd_file_app (g_files g) fn [] n0 _ Hn2); reflexivity).
  set (f' := with_mt fn m').
  assert (Hfh : fh f' = [r']) by (apply (mw_seq _ _ _ Hmw)).
  assert (HFI : FI f').
  { constructor; cbn [f' with_mt f_mt f_start].
    - fold f'. rewrite Hfh. exact Hmw.
    - fold f'. rewrite Hfh. intros _. cbn. lia.
    - fold f'. rewrite Hfh. discriminate.
    - rewrite Hm4; exact Hl.
    - rewrite Hm6; congruence.
    - rewrite Hm5; congruence.
    - rewrite Hm5; congruence.
    - fold f'. rewrite Hfh. intros x [<-|[]]. rewrite Ers. cbn [fn f_start]. lia.
    - fold f'. rewrite Hfh, Hm2. intros _. exists r'. split; [left; reflexivity|exact Ers]. }
  assert (Hin : forall x, In x (g_files g ++ [f']) -> x = f' \/ In x (g_files g)).
  { intros x Hx. apply in_app_or in Hx. destruct Hx as [Hx|[<-|[]]]; [right; exact Hx|left; reflexivity]. }
  assert (Hn3 : nums_from n0 (g_files g ++ [f'])).
  { eapply nums_same; [|exact Hn2]. rewrite !map_app. reflexivity. }
  split; [|cbn [with_files g_max g_bar g_lf g_ls g_files]; repeat (split; [reflexivity|]);
           change (g_max g + 1) with (f_num f'); rewrite (file_at_num _ _ _ _ _ Hn3 eq_refl); reflexivity].
  constructor; cbn [with_files g_files g_max g_lf g_ls].
  - intros A; apply app_eq_nil in A; destruct A; discriminate.
  - exact Hn3.
  - unfold len in *. rewrite app_length. cbn [length]. lia.
  - assert (X := gi_hist _ _ _ _ _ H). rewrite X at 1. rewrite all_h_app. cbn [all_h flat_map]. rewrite Hfh, app_nil_r, app_assoc. reflexivity.
  - unfold sorted_seq. rewrite map_app. apply SS_app; [apply (gi_asc _ _ _ _ _ H)|repeat constructor|].
    cbn [map In]. intros x y Hx [<-|[]]. apply in_map_iff in Hx. destruct Hx as (z & <- & Hz).
    assert (Z := lastseq_ge _ _ (gi_asc _ _ _ _ _ H) Hz). lia.
  - intros x Hx; apply in_app_or in Hx. destruct Hx as [Hx|[<-|[]]]; [apply (gi_pos _ _ _ _ _ H), Hx|lia].
  - intros x Hx. destruct (Hin x Hx) as [->|Hx']; [exact HFI|]. apply (gi_fi _ _ _ _ _ H), Hx'.
  - intros _ x Hx. destruct (Hin x Hx) as [->|Hx']; [rewrite Hfh; discriminate|]. apply (gi_nonemp _ _ _ _ _ H Hne), Hx'.
  - intros A; apply app_eq_nil in A; destruct A; discriminate.
  - rewrite lastseq_snoc. lia.
  - intros A; apply app_eq_nil in A; destruct A; discriminate.
  - intros A; apply app_eq_nil in A; destruct A; discriminate.
  - apply (gi_lf _ _ _ _ _ H).
  - destruct (gi_ls _ _ _ _ _ H) as [A|(A & B & B2)]; [left; exact A|right]. split; [lia|]. split.
    + intros x Hx Hlt. destruct (Hin x Hx) as [->|Hx']; [|apply B; assumption].
      cbn [f' with_mt fn f_num] in Hlt. lia.
    + intros x Hx Hlt. destruct (Hin x Hx) as [->|Hx']; [|apply B2; assumption].
      cbn [f' with_mt fn f_num] in Hlt. lia.
  - intros x y Hx Hy. destruct (Hin x Hx) as [->|Hx'].
    + rewrite Hfh in Hy. destruct Hy as [<-|[]]. cbn [f' with_mt f_mt]. rewrite Hm5, Ers.
      assert (X : F < s).
      { destruct (N.eq_dec F 0) as [->|n]; [lia|]. destruct (gi_F _ _ _ _ _ H n) as (z & Hz & <-).
        assert (Hz' : In z h) by (rewrite (gi_hist _ _ _ _ _ H); apply in_or_app; right; exact Hz).
        assert (Z := lastseq_ge _ _ (gi_asc _ _ _ _ _ H) Hz'). lia. }
      symmetry. apply N.ltb_lt; exact X.
    + apply (gi_flu _ _ _ _ _ H); assumption.
  - apply (gi_pre _ _ _ _ _ H).
  - intros n. destruct (gi_F _ _ _ _ _ H n) as (z & Hz & Ez). exists z; split; [|exact Ez].
    rewrite all_h_app. apply in_or_app; left; exact Hz.
  - intros a0 x b Eq Hm.
    destruct b as [|y b] using rev_ind.
    + apply app_inj_tail in Eq. destruct Eq as [Ea Ex]. subst a0 x. cbn [f' with_mt f_mt] in Hm. rewrite Hm5 in Hm. congruence.
    + rewrite app_comm_cons, app_assoc in Eq. apply app_inj_tail in Eq. destruct Eq as [Ea _].
      apply (gi_first _ _ _ _ _ H a0 x b); [|exact Hm]. exact Ea.
  - intros a0 x b Eq.
    destruct b as [|y b] using rev_ind.
    + apply app_inj_tail in Eq. destruct Eq as [Ea Ex]. subst a0 x. cbn [f' with_mt fn f_start].
      intros y Hy. assert (Z := lastseq_ge h y (gi_asc _ _ _ _ _ H)).
      assert (In y h) by (rewrite (gi_hist _ _ _ _ _ H); apply in_or_app; right; exact Hy). specialize (Z H0). lia.
    + rewrite app_comm_cons, app_assoc in Eq. apply app_inj_tail in Eq. destruct Eq as [Ea _].
      apply (gi_starts _ _ _ _ _ H a0 x b); exact Ea.
Qed.

(** The newest file. *)
Definition newest_file (g : lmgr) : lgf := last (g_files g) (mkF 0 0 false (mt_init 0 0)).

Lemma gi_newest : forall n0 pre h F g, GI n0 pre h F g -> file_at (g_max g) (g_files g) = Some (newest_file g).
Proof.
  intros n0 pre h F g H. destruct (gi_last _ _ _ _ _ H) as (a & f & E & Ef). rewrite <- Ef.
  unfold newest_file. rewrite E at 2. rewrite last_last. eapply file_at_num; [apply (gi_nums _ _ _ _ _ H)|exact E].
Qed.

Lemma gi_max_num : forall n0 pre h F g, GI n0 pre h F g -> lastseq h + 1 < NIL -> max_num g = Some (g_max g).
Proof.
  intros n0 pre h F g H Hl. unfold max_num. assert (X := gi_few _ _ _ _ _ H). destruct (g_max g =? NIL) eqn:E; [lia|reflexivity].
Qed.

Lemma lm_set_spec : forall n0 pre h F g c full r, GI n0 pre h F g -> c_ow c = false -> c_ro c = false -> 0 < c_maxent c ->
  (full = true -> h <> []) -> lastseq h + 1 < NIL -> 1 <= r_seq r <= NIL ->
  if (r_seq r =? NIL) || (lastseq h <? r_seq r) then
    exists g', lm_set hash c full r g = (Ok (stored r (numbered h r)), g') /\
      GI n0 pre (h ++ [stored r (numbered h r)]) F g' /\ g_bar g' = g_bar g
  else valid_to_write c full (newest_file g) = true -> lm_set hash c full r g = (Fail INVALID_SEQNUM, g).
Proof.
  intros n0 pre h F g c full r H Ho Hro Hc Hfull Hl Hr.
  assert (Hmn := gi_max_num _ _ _ _ _ H Hl). assert (Hnew := gi_newest _ _ _ _ _ H).
  assert (Eset : lm_set hash c full r g =
    let roll := negb (valid_to_write c full (newest_file g)) in
    let g1 := if roll then add_new_file c (newest_file g) g else g in
    let n1 := if roll then g_max g1 else g_max g in
    let (o, g2) := file_set hash c n1 r g1 in
    match o with
    | Ok r' =>
              let g3 :=
                match file_at n1 (g_files g2) with
                | Some f2 =>
                    if f_imm f2 then
                      let ls := match last_synced g2 with Some x => if g_max g <? x then g_max g else g_ls g2 | None => g_ls g2 end in
                      let g3 := mkG (g_files g2) (g_max g2) (g_lf g2) ls (g_bar g2) in
                      let lf := match last_flushed g3 with Some x => if g_max g <? x then g_max g else g_lf g3 | None => g_lf g3 end in
                      mkG (g_files g3) (g_max g3) lf (g_ls g3) (g_bar g3)
                    else g2
                | None => g2
                end in
              (Ok r', g3)
    | other => (other, g2)
    end).
  { unfold lm_set. rewrite Hro, Hmn, Ho. destruct (r_seq r =? 0) eqn:E0; [lia|]. rewrite andb_false_r.
    rewrite Hnew. cbn [negb orb]. rewrite andb_true_r. reflexivity. }
  rewrite Eset. cbv zeta. clear Eset.
  assert (Himm : valid_to_write c full (newest_file g) = true -> f_imm (newest_file g) = false).
  { unfold valid_to_write. intros V. destruct (f_imm (newest_file g)); [discriminate|reflexivity]. }
  assert (Hroll : valid_to_write c full (newest_file g) = false -> h <> []).
  { intros V E. assert (Hf := proj1 (file_at_in _ _ _ Hnew)).
    unfold valid_to_write in V. rewrite (gi_noimm _ _ _ _ _ H E _ Hf) in V.
    destruct full; [apply Hfull; [reflexivity|exact E]|].
    assert (A := gi_hist _ _ _ _ _ H). rewrite E in A. symmetry in A. apply app_eq_nil in A. destruct A as [_ A].
    apply (f_equal (fun l => In (last (fh (newest_file g)) (mkRec 0 0 [] [] [])) l)) in A.
    assert (Z : fh (newest_file g) = []).
    { destruct (fh (newest_file g)) as [|z t] eqn:Ez; [reflexivity|exfalso].
      assert (X : In z (all_h (g_files g))) by (apply in_flat_map; exists (newest_file g); split; [exact Hf|rewrite Ez; left; reflexivity]).
      assert (Y := gi_hist _ _ _ _ _ H). rewrite E in Y. symmetry in Y. apply app_eq_nil in Y. destruct Y as [_ Y].
      rewrite Y in X. destruct X. }
    unfold fh in Z. rewrite Z in V. cbn in V. destruct (c_maxent c <=? 0) eqn:Em; [lia|]. cbn in V. discriminate. }
  destruct (valid_to_write c full (newest_file g)) eqn:Ev; cbn [negb].
  - assert (X := file_set_spec _ _ _ _ _ c r H Ho Hl Hr).
    destruct ((r_seq r =? NIL) || (lastseq h <? r_seq r)) eqn:Eacc.
    + destruct X as (g' & E1 & HG & Em & Eb & _ & _). rewrite E1.
      assert (Hn' := gi_newest _ _ _ _ _ HG). rewrite Em in Hn'.
      exists g'. split; [|auto].
      assert (Hi : match file_at (g_max g) (g_files g') with Some f2 => f_imm f2 | None => false end = false).
      { unfold file_set in E1. rewrite Hnew in E1. destruct (lf_set hash (c_ow c) r (f_mt (newest_file g))) as [o m'].
        assert (Eg : with_files g (upd_file (g_max g) (fun f => with_mt f m') (g_files g)) = g') by congruence.
        rewrite <- Eg. cbn [with_files g_files].
        destruct (gi_last _ _ _ _ _ H) as (a & f & E & Ef).
        assert (Enf : newest_file g = f) by (unfold newest_file; rewrite E; apply last_last).
        rewrite E, <- Ef.
        assert (Hnums := gi_nums _ _ _ _ _ H). rewrite E in Hnums.
        rewrite (upd_file_app a f [] n0 _ Hnums). change (f_num f) with (f_num (with_mt f m')) at 1.
        rewrite (file_at_num (a ++ [with_mt f m']) n0 a (with_mt f m') []); [|eapply nums_same; [|exact Hnums]; rewrite !map_app; reflexivity|reflexivity].
        cbn [with_mt f_imm]. rewrite <- Enf. apply Himm; reflexivity. }
      destruct (file_at (g_max g) (g_files g')) as [f2|]; [rewrite Hi|]; reflexivity.
    + intros _. rewrite X. reflexivity.
  - destruct ((r_seq r =? NIL) || (lastseq h <? r_seq r)) eqn:Eacc; [|discriminate].
    destruct (roll_set_spec n0 pre h F g c r (newest_file g)) as (g' & E1 & HG & Em & Eb & _ & _ & Hi); auto.
    { apply orb_true_iff in Eacc. destruct Eacc as [A|A]; lia. }
    rewrite E1. exists g'. split; [|auto].
    assert (Egm : g_max (add_new_file c (newest_file g) g) = g_max g').
    { unfold file_set in E1. destruct (file_at _ _) in E1; [|discriminate]. destruct (lf_set _ _ _ _) in E1.
      injection E1 as _ E1. rewrite <- E1. reflexivity. }
    rewrite Egm. destruct (file_at (g_max g') (g_files g')) as [f2|]; [rewrite Hi|]; reflexivity.
Qed.

End Proofs.
