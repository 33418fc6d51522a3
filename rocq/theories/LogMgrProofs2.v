(** The operations of the log section against its invariant: batches, reads, sync and flush. *)
From Verif Require Import Base KeyModel KeyProofs LogFormatModel BloomModel BloomProofs MemTableModel MemTableProofs
  LogMgrModel LogMgrProofs.
From Coq Require Import Sorted.
Local Open Scope N_scope.

Section Proofs.
Variable hash : key -> N * N.
Notation GI := (GI hash).
Notation FI := (FI hash).

(** * Batches *)

Lemma gi_empty_h : forall n0 pre F g, GI n0 pre [] F g -> forall f, In f (g_files g) -> fh f = [].
Proof.
  intros n0 pre F g H f Hf. destruct (fh f) as [|z t] eqn:Ez; [reflexivity|exfalso].
  assert (X : In z (all_h (g_files g))) by (apply in_flat_map; exists f; split; [exact Hf|rewrite Ez; left; reflexivity]).
  assert (Y := gi_hist _ _ _ _ _ _ H). symmetry in Y. apply app_eq_nil in Y. destruct Y as [_ Y].
  rewrite Y in X. destruct X.
Qed.

Lemma newest_file_in : forall n0 pre h F g, GI n0 pre h F g -> In (newest_file g) (g_files g).
Proof. intros n0 pre h F g H. apply (file_at_in _ _ _ (gi_newest _ _ _ _ _ _ H)). Qed.

Lemma newest_file_split : forall n0 pre h F g, GI n0 pre h F g -> exists a, g_files g = a ++ [newest_file g].
Proof.
  intros n0 pre h F g H. destruct (gi_last _ _ _ _ _ _ H) as (a & f & E & _). exists a.
  unfold newest_file. rewrite E, last_last. reflexivity.
Qed.

Lemma newest_file_max : forall n0 pre h F g, GI n0 pre h F g ->
  m_max (f_mt (newest_file g)) = match h with [] => NIL | _ => lastseq h end.
Proof.
  intros n0 pre h F g H. destruct (newest_file_split _ _ _ _ _ H) as [a E].
  destruct h as [|x t] eqn:Eh.
  - apply (fi_emp hash). { apply (gi_fi _ _ _ _ _ _ H), (newest_file_in _ _ _ _ _ H). }
    apply (gi_empty_h _ _ _ _ H), (newest_file_in _ _ _ _ _ H).
  - rewrite <- Eh in *. assert (Hne : h <> []) by (rewrite Eh; discriminate).
    apply (gi_max_last _ _ _ _ _ _ H Hne a _ E).
Qed.

Lemma lm_max_seq_spec : forall n0 pre h F g, GI n0 pre h F g -> lastseq h + 1 < NIL ->
  lm_max_seq g = if negb (g_bar g =? 0) then Some (g_bar g) else match h with [] => None | _ => Some (lastseq h) end.
Proof.
  intros n0 pre h F g H Hl. unfold lm_max_seq. destruct (negb (g_bar g =? 0)); [reflexivity|].
  rewrite (gi_max_num _ _ _ _ _ _ H Hl). cbn [max_seq_down]. rewrite (gi_newest _ _ _ _ _ _ H), (newest_file_max _ _ _ _ _ H).
  destruct h as [|x t] eqn:Eh.
  - rewrite N.eqb_refl. assert (X := gi_few _ _ _ _ _ _ H). cbn [lastseq rev] in X.
    destruct (g_max g =? 0) eqn:E; [reflexivity|lia].
  - rewrite <- Eh in *. destruct (lastseq h =? NIL) eqn:E; [lia|reflexivity].
Qed.

(** The records of a batch as stored, after the history [h]. *)
Fixpoint number_all (h : list rec) (b : list rec) : list rec :=
  match b with
  | [] => []
  | r :: t => let r' := stored r (numbered h r) in r' :: number_all (h ++ [r']) t
  end.

(** Acceptable numbers of a batch: none given, or all given and going up from the newest. *)
Fixpoint rising (prev : N) (b : list rec) : bool :=
  match b with [] => true | r :: t => (r_seq r <? NIL) && (prev <? r_seq r) && rising (r_seq r) t end.
Definition auto (r : rec) : bool := r_seq r =? NIL.
Definition batch_ok (h b : list rec) : bool := forallb auto b || rising (lastseq h) b.

Lemma rising_increasing : forall b p, (forall r, In r b -> r_seq r <= NIL) -> increasing_from p b = rising p b.
Proof.
  induction b as [|r b IH]; intros p H; [reflexivity|]. cbn [increasing_from rising].
  rewrite IH by (intros x Hx; apply H; right; exact Hx). f_equal. f_equal.
  specialize (H r (or_introl eq_refl)). unfold valid_number.
  destruct (r_seq r =? NIL) eqn:E; destruct (r_seq r <? NIL) eqn:E2; try reflexivity; lia.
Qed.

Lemma batch_valid_spec : forall n0 pre h F g c b, GI n0 pre h F g -> c_ow c = false -> lastseq h + 1 < NIL ->
  g_bar g = (match h with [] => 0 | _ => lastseq h end) ->
  (forall r, In r b -> r_seq r <= NIL) -> b <> [] -> batch_valid c b g = batch_ok h b.
Proof.
  intros n0 pre h F g c b H Ho Hl Hb Hle Hne. destruct b as [|r b]; [congruence|]. unfold batch_valid.
  rewrite Ho, andb_false_r. cbn [andb].
  assert (Hm : match lm_max_seq g with Some m => m | None => 0 end = lastseq h).
  { rewrite (lm_max_seq_spec _ _ _ _ _ H Hl), Hb. destruct h as [|x t] eqn:Eh; [reflexivity|].
    rewrite <- Eh in *. destruct (negb (lastseq h =? 0)); reflexivity. }
  rewrite Hm. rewrite (rising_increasing (r :: b) _ Hle). unfold batch_ok.
  destruct (valid_number (r_seq r)) eqn:E.
  - unfold valid_number in E. cbn [forallb]. unfold auto at 1. destruct (r_seq r =? NIL); [discriminate|reflexivity].
  - unfold valid_number in E. assert (E2 : rising (lastseq h) (r :: b) = false).
    { cbn [rising]. destruct (r_seq r =? NIL) eqn:E3; [|discriminate]. destruct (r_seq r <? NIL) eqn:E4; [lia|reflexivity]. }
    rewrite E2, orb_false_r.
    assert (Hf : forall l, forallb (fun x => negb (valid_number (r_seq x))) l = forallb auto l).
    { induction l as [|x l IH]; [reflexivity|]. cbn [forallb]. rewrite IH. f_equal. unfold valid_number, auto. apply negb_involutive. }
    apply Hf.
Qed.

Definition room (h b : list rec) : Prop :=
  lastseq h + N.of_nat (length b) + 1 < NIL /\
  (forall r, In r b -> r_seq r = NIL \/ r_seq r + N.of_nat (length b) + 1 < NIL).

Lemma batch_puts_spec : forall b n0 pre h F g c, GI n0 pre h F g -> c_ow c = false -> room h b ->
  batch_ok h b = true ->
  exists g', batch_puts hash c b g = (Ok (number_all h b), g') /\
    GI n0 pre (h ++ number_all h b) F g' /\ g_bar g' = g_bar g /\ g_max g' = g_max g.
Proof.
  induction b as [|r b IH]; intros n0 pre h F g c H Ho [R1 R2] Hok.
  - exists g. cbn [batch_puts number_all]. rewrite app_nil_r. auto.
  - cbn [batch_puts number_all length] in *. unfold batch_put.
    rewrite (gi_max_num _ _ _ _ _ _ H) by lia.
    assert (Hacc : (r_seq r =? NIL) || (lastseq h <? r_seq r) = true).
    { unfold batch_ok in Hok. cbn [forallb rising] in Hok. unfold auto at 1 in Hok. destruct (r_seq r =? NIL); [reflexivity|].
      cbn [andb orb] in *. destruct (lastseq h <? r_seq r); [reflexivity|]. rewrite andb_false_r in Hok. discriminate. }
    assert (Hr : 1 <= r_seq r <= NIL).
    { destruct (R2 r (or_introl eq_refl)) as [E|E]; [rewrite E, nil_val; lia|].
      apply orb_true_iff in Hacc. lia. }
    assert (X := file_set_spec hash n0 pre h F g c r H Ho ltac:(lia) Hr). rewrite Hacc in X.
    destruct X as (g1 & E1 & HG & Em & Eb & _ & _). rewrite E1.
    set (r' := stored r (numbered h r)) in *.
    assert (Hs : r_seq r' = numbered h r) by apply r_seq_stored.
    destruct (IH n0 pre (h ++ [r']) F g1 c HG Ho) as (g2 & E2 & HG2 & Eb2 & Em2).
    { split; rewrite ?lastseq_snoc, ?Hs.
      - unfold numbered. destruct (r_seq r =? NIL) eqn:En; [lia|]. destruct (R2 r (or_introl eq_refl)) as [E|E]; lia.
      - intros x Hx. destruct (R2 x (or_intror Hx)) as [E|E]; [left; exact E|right; lia]. }
    { unfold batch_ok in *. rewrite lastseq_snoc, Hs. cbn [forallb rising] in Hok. unfold auto at 1 in Hok. unfold numbered.
      destruct (r_seq r =? NIL) eqn:En.
      - cbn [andb] in Hok. replace (r_seq r <? NIL) with false in Hok by lia. cbn [andb] in Hok. rewrite orb_false_r in Hok.
        rewrite Hok. reflexivity.
      - cbn [andb orb] in Hok. apply andb_true_iff in Hok. destruct Hok as [_ ->]. apply orb_true_r. }
    rewrite E2. exists g2. split; [reflexivity|]. rewrite <- app_assoc in HG2. cbn [app] in HG2.
    split; [exact HG2|]. split; congruence.
Qed.

Lemma gi_bar : forall n0 pre h F g b, GI n0 pre h F g -> GI n0 pre h F (with_bar g b).
Proof.
  intros n0 pre h F g b H.
  apply (gi_replace hash n0 pre h F g (g_files g) (g_ls g) H (same_files_refl _) (gi_fi _ _ _ _ _ _ H) (gi_ls _ _ _ _ _ _ H)
           (gi_noimm _ _ _ _ _ _ H) b).
Qed.

Lemma batch_begin_bar : forall n0 pre h F g, GI n0 pre h F g -> lastseq h + 1 < NIL -> g_bar g = 0 ->
  batch_begin g = with_bar g (match h with [] => 0 | _ => lastseq h end).
Proof.
  intros n0 pre h F g H Hl Hb. unfold batch_begin. rewrite (lm_max_seq_spec _ _ _ _ _ H Hl), Hb. cbn [N.eqb negb].
  destruct h; reflexivity.
Qed.

Lemma set_multi_spec : forall b n0 pre h F g c, GI n0 pre h F g -> c_ow c = false -> c_ro c = false -> g_bar g = 0 ->
  b <> [] -> room h b ->
  if batch_ok h b then
    exists g', lm_set_multi hash c b g = (Ok (number_all h b), g') /\ GI n0 pre (h ++ number_all h b) F g' /\ g_bar g' = 0
  else lm_set_multi hash c b g = (Fail INVALID_SEQNUM, g).
Proof.
  intros b n0 pre h F g c H Ho Hro Hb Hne R. assert (R' := R). destruct R' as [R1 R2].
  assert (Hl : lastseq h + 1 < NIL) by lia.
  unfold lm_set_multi. rewrite Hro. destruct b as [|r0 b0] eqn:Eb; [congruence|]. rewrite <- Eb in *. clear Eb.
  rewrite (batch_begin_bar _ _ _ _ _ H Hl Hb). set (g0 := with_bar g _).
  assert (H0 : GI n0 pre h F g0) by (apply gi_bar; exact H).
  rewrite (batch_valid_spec n0 pre h F g0 c b H0 Ho Hl eq_refl); [|intros x Hx; destruct (R2 x Hx); lia|exact Hne].
  destruct (batch_ok h b) eqn:Eok.
  - destruct (batch_puts_spec b n0 pre h F g0 c H0 Ho R Eok) as (g1 & E1 & HG & _ & _). rewrite E1.
    exists (batch_end g1). split; [reflexivity|]. split; [apply gi_bar; exact HG|reflexivity].
  - unfold batch_end, g0, with_bar. cbn. destruct g; cbn in *; subst; reflexivity.
Qed.

(** * Reads *)

Lemma newest_app : forall a b chk k, newest (a ++ b) chk k = match newest b chk k with Some r => Some r | None => newest a chk k end.
Proof.
  intros a b chk k. unfold newest. rewrite for_key_app, rev_app_distr.
  induction (rev (for_key k b)) as [|x l IH]; [reflexivity|]. cbn [app find]. destruct (visible chk x); [reflexivity|exact IH].
Qed.

Lemma newest_le : forall h chk k r, sorted_seq h -> newest h chk k = Some r ->
  forall x, In x (for_key k h) -> visible chk x = true -> r_seq x <= r_seq r.
Proof.
  intros h chk k r Hs H x Hx Hv. unfold newest in H.
  assert (Hs2 : sorted_seq (for_key k h)) by (apply sorted_seq_filter; exact Hs).
  revert r H x Hx Hv. induction (for_key k h) as [|y l IH] using rev_ind; intros r H x Hx Hv; [destruct Hx|].
  rewrite rev_app_distr in H. cbn [rev app find] in H.
  unfold sorted_seq in Hs2. rewrite map_app in Hs2. apply SS_app_inv in Hs2. destruct Hs2 as (S1 & S2 & S3).
  destruct (visible chk y) eqn:Ey.
  - injection H as <-. apply in_app_or in Hx. destruct Hx as [Hx|[<-|[]]]; [|lia].
    assert (X := S3 (r_seq x) (r_seq y) (in_map _ _ _ Hx) (or_introl eq_refl)). lia.
  - apply in_app_or in Hx. destruct Hx as [Hx|[<-|[]]]; [|congruence]. eapply IH; eauto.
Qed.

(** Reading limit: the barrier, none when it is 0. *)
Definition limit (bar : N) : N := if bar =? 0 then NIL else bar.

Lemma visible_limit : forall f r bar, FI f -> In r (fh f) -> bar < NIL ->
  visible (read_limit bar (f_mt f)) r = visible (limit bar) r.
Proof.
  intros f r bar Hf Hr Hb. unfold visible, read_limit, limit.
  assert (B := mr_bnd _ _ _ (mw_mr _ _ _ (fi_mw _ _ Hf)) r Hr).
  unfold valid_number. destruct (bar =? 0) eqn:E; cbn [negb].
  - destruct (m_max (f_mt f) =? NIL); [reflexivity|]. cbn [negb orb]. rewrite N.eqb_refl. cbn [negb orb]. lia.
  - destruct (bar =? NIL) eqn:E2; [lia|]. cbn [negb orb].
    destruct (N.min (m_max (f_mt f)) bar =? NIL) eqn:E3; [lia|]. cbn [negb orb]. lia.
Qed.

Lemma newest_limit : forall f k bar, FI f -> bar < NIL ->
  newest (fh f) (read_limit bar (f_mt f)) k = newest (fh f) (limit bar) k.
Proof.
  intros f k bar Hf Hb. unfold newest.
  assert (Hall : forall x, In x (rev (for_key k (fh f))) -> visible (read_limit bar (f_mt f)) x = visible (limit bar) x).
  { intros x Hx. apply in_rev in Hx. apply filter_In in Hx. apply visible_limit; tauto. }
  induction (rev (for_key k (fh f))) as [|x l IH]; [reflexivity|]. cbn [find].
  rewrite (Hall x (or_introl eq_refl)). rewrite IH by (intros y Hy; apply Hall; right; exact Hy). reflexivity.
Qed.

(** Scanning files newest first, each answering [answer] on its part of the history. *)
Lemma first_ok_spec : forall fs F k lim (ask : lgf -> res rec), sorted_seq (all_h fs) ->
  (forall f, In f fs -> ask f = answer (m_flushed (f_mt f)) false true (newest (fh f) lim k)) ->
  (forall f r, In f fs -> In r (fh f) -> unflushed (m_flushed (f_mt f)) r = (F <? r_seq r)) ->
  first_ok ask (rev fs) =
    match newest (all_h fs) lim k with
    | Some r => if F <? r_seq r then Ok r else Fail KEY_NOT_FOUND
    | None => Fail KEY_NOT_FOUND
    end.
Proof.
  intros fs F k lim ask. induction fs as [|f fs IH] using rev_ind; intros Hs Ha Hu; [reflexivity|].
  rewrite rev_app_distr. cbn [rev app first_ok]. rewrite all_h_app in *. cbn [all_h flat_map] in *.
  rewrite app_nil_r in *. rewrite newest_app.
  assert (Hin : In f (fs ++ [f])) by (apply in_or_app; right; left; reflexivity).
  rewrite (Ha f Hin). fold (all_h fs) in *.
  assert (S := Hs). unfold sorted_seq in S. rewrite map_app in S. apply SS_app_inv in S. destruct S as (S1 & S2 & S3).
  specialize (IH S1 (fun x Hx => Ha x (in_or_app _ _ _ (or_introl Hx))) (fun x r Hx => Hu x r (in_or_app _ _ _ (or_introl Hx)))).
  destruct (newest (fh f) lim k) as [r|] eqn:E.
  - assert (Hr := newest_in _ _ _ _ E). destruct Hr as (Hr & _).
    assert (U := Hu f r Hin Hr). cbn [answer]. unfold unflushed in U.
    destruct (F <? r_seq r) eqn:EF.
    + destruct (valid_number (m_flushed (f_mt f))); cbn [negb orb andb] in *; [|reflexivity].
      replace (r_seq r <=? m_flushed (f_mt f)) with false by lia. reflexivity.
    + destruct (valid_number (m_flushed (f_mt f))); cbn [negb orb andb] in *; [|discriminate].
      replace (r_seq r <=? m_flushed (f_mt f)) with true by lia. cbn [andb negb].
      rewrite IH. destruct (newest (all_h fs) lim k) as [x|] eqn:Ex; [|reflexivity].
      apply newest_in in Ex. destruct Ex as (Ex & _).
      assert (X := S3 (r_seq x) (r_seq r) (in_map _ _ _ Ex) (in_map _ _ _ Hr)).
      replace (F <? r_seq x) with false by lia. reflexivity.
  - cbn [answer]. exact IH.
Qed.

Lemma gi_last_flushed : forall n0 pre h F g, GI n0 pre h F g -> last_flushed g = Some n0.
Proof.
  intros n0 pre h F g H. unfold last_flushed, min_num.
  assert (N := gi_nums _ _ _ _ _ _ H). assert (E := gi_ne _ _ _ _ _ _ H).
  destruct (g_files g) as [|f t] eqn:Ef; [congruence|]. destruct N as [N _].
  destruct (gi_lf _ _ _ _ _ _ H) as [->| ->].
  - rewrite N.eqb_refl, N. reflexivity.
  - destruct (n0 =? NIL); [rewrite N|]; reflexivity.
Qed.

Lemma gi_sorted_files : forall n0 pre h F g, GI n0 pre h F g -> sorted_seq (all_h (g_files g)).
Proof.
  intros n0 pre h F g H. assert (S := gi_asc _ _ _ _ _ _ H). rewrite (gi_hist _ _ _ _ _ _ H) in S.
  unfold sorted_seq in *. rewrite map_app in S. apply SS_app_inv in S. tauto.
Qed.

(** The log answers the newest visible write of a key unless it has been flushed. *)
Definition log_answer (h : list rec) (F lim : N) (k : key) : res rec :=
  match newest h lim k with
  | Some r => if F <? r_seq r then Ok r else Fail KEY_NOT_FOUND
  | None => Fail KEY_NOT_FOUND
  end.

Lemma log_answer_pre : forall n0 pre h F g, GI n0 pre h F g -> forall lim k,
  match newest (all_h (g_files g)) lim k with
  | Some r => if F <? r_seq r then Ok r else Fail KEY_NOT_FOUND
  | None => Fail KEY_NOT_FOUND
  end = log_answer h F lim k.
Proof.
  intros n0 pre h F g H lim k. unfold log_answer. rewrite (gi_hist _ _ _ _ _ _ H), newest_app.
  destruct (newest (all_h (g_files g)) lim k) as [r|]; [reflexivity|].
  destruct (newest pre lim k) as [r|] eqn:E; [|reflexivity].
  apply newest_in in E. destruct E as (E & _). assert (X := gi_pre _ _ _ _ _ _ H r E).
  replace (F <? r_seq r) with false by lia. reflexivity.
Qed.

Lemma lm_get_spec : forall n0 pre h F g c k, GI n0 pre h F g -> lastseq h + 1 < NIL -> c_lso c = false ->
  g_bar g < NIL -> lm_get hash c k g = log_answer h F (limit (g_bar g)) k.
Proof.
  intros n0 pre h F g c k H Hl Hc Hb. unfold lm_get. rewrite (gi_last_flushed _ _ _ _ _ H), (gi_max_num _ _ _ _ _ _ H Hl), Hc.
  rewrite (file_range_all (g_files g) n0) by (try apply (gi_nums _ _ _ _ _ _ H); try apply (gi_ne _ _ _ _ _ _ H);
    assert (X := gi_gmax _ _ _ _ _ _ H); lia).
  rewrite (first_ok_spec (g_files g) F k (limit (g_bar g))).
  - apply (log_answer_pre _ _ _ _ _ H).
  - apply (gi_sorted_files _ _ _ _ _ H).
  - intros f Hf. assert (FIf := gi_fi _ _ _ _ _ _ H f Hf). rewrite (mt_get_spec hash _ _ _ _ _ _ (mw_mr _ _ _ (fi_mw _ _ FIf))).
    rewrite newest_limit by assumption. reflexivity.
  - apply (gi_flu _ _ _ _ _ _ H).
Qed.

(** Log-section-only mode reads every file without the barrier. *)
Lemma lm_get_lso_spec : forall n0 pre h F g c k, GI n0 pre h F g -> lastseq h + 1 < NIL -> c_lso c = true ->
  lm_get hash c k g = log_answer h F NIL k.
Proof.
  intros n0 pre h F g c k H Hl Hc. unfold lm_get. rewrite (gi_last_flushed _ _ _ _ _ H), (gi_max_num _ _ _ _ _ _ H Hl), Hc.
  assert (Ef : filter (fun f => (n0 <=? f_num f) && (f_num f <=? g_max g)) (g_files g) = g_files g).
  { assert (X : forall l, (forall f, In f l -> (n0 <=? f_num f) && (f_num f <=? g_max g) = true) ->
        filter (fun f => (n0 <=? f_num f) && (f_num f <=? g_max g)) l = l).
    { induction l as [|f l IH]; intros Hl'; [reflexivity|]. cbn [filter]. rewrite (Hl' f (or_introl eq_refl)).
      f_equal. apply IH. intros x Hx; apply Hl'; right; exact Hx. }
    apply X. intros f Hf. assert (Y := nums_in _ _ _ (gi_nums _ _ _ _ _ _ H) Hf). assert (Z := gi_gmax _ _ _ _ _ _ H). lia. }
  rewrite Ef. rewrite (first_ok_spec (g_files g) F k NIL).
  - apply (log_answer_pre _ _ _ _ _ H).
  - apply (gi_sorted_files _ _ _ _ _ H).
  - intros f Hf. assert (FIf := gi_fi _ _ _ _ _ _ H f Hf). apply (mt_get_spec hash _ _ _ _ _ _ (mw_mr _ _ _ (fi_mw _ _ FIf))).
  - apply (gi_flu _ _ _ _ _ _ H).
Qed.

(** ** The file of a number *)

Lemma by_start_spec : forall fs s x, by_start s fs = Some x ->
  In x fs /\ f_start x <= s /\ (forall y, In y fs -> f_start y <= s -> f_start y <= f_start x).
Proof.
  induction fs as [|f fs IH]; intros s x H; [discriminate|]. cbn [by_start] in H.
  destruct (by_start s fs) as [z|] eqn:E.
  - destruct (IH _ _ E) as (A & B & C). destruct ((f_start f <=? s) && (f_start z <=? f_start f)) eqn:E2; injection H as <-.
    + apply andb_true_iff in E2. destruct E2 as [E2 E3]. split; [left; reflexivity|]. split; [lia|].
      intros y [<-|Hy] Hle; [lia|]. specialize (C y Hy Hle). lia.
    + split; [right; exact A|]. split; [exact B|]. intros y [<-|Hy] Hle; [|apply C; assumption].
      apply andb_false_iff in E2. lia.
  - destruct (f_start f <=? s) eqn:E2; [|discriminate]. injection H as <-. split; [left; reflexivity|]. split; [lia|].
    intros y [<-|Hy] Hle; [lia|]. exfalso. clear IH.
    revert E y Hy Hle. induction fs as [|w fs IH2]; intros E y Hy Hle; [destruct Hy|]. cbn [by_start] in E.
    destruct (by_start s fs) as [z|] eqn:E4; [destruct (_ && _) in E; discriminate|].
    destruct (f_start w <=? s) eqn:E5; [discriminate|]. destruct Hy as [<-|Hy]; [lia|]. eapply IH2; eauto.
Qed.

Lemma by_start_none : forall fs s, by_start s fs = None -> forall y, In y fs -> s < f_start y.
Proof.
  induction fs as [|w fs IH]; intros s E y Hy; [destruct Hy|]. cbn [by_start] in E.
  destruct (by_start s fs) as [z|] eqn:E4; [destruct (_ && _) in E; discriminate|].
  destruct (f_start w <=? s) eqn:E5; [discriminate|]. destruct Hy as [<-|Hy]; [lia|]. eapply IH; eauto.
Qed.

(** Two distinct files have different, ordered starts. *)
Lemma starts_order : forall n0 pre h F g, GI n0 pre h F g -> h <> [] -> forall a x b y c, g_files g = a ++ x :: b ++ y :: c ->
  f_start x < f_start y /\ forall r, In r (fh x) -> r_seq r < f_start y.
Proof.
  intros n0 pre h F g H Hne a x b y c E.
  assert (Hx : In x (g_files g)) by (rewrite E; apply in_or_app; right; left; reflexivity).
  assert (S := gi_starts _ _ _ _ _ _ H (a ++ x :: b) y c).
  assert (E' : g_files g = (a ++ x :: b) ++ y :: c) by (rewrite E, <- app_assoc; reflexivity).
  specialize (S E').
  assert (Q : forall r, In r (fh x) -> r_seq r < f_start y).
  { intros r Hr. apply S. rewrite all_h_app. apply in_or_app; right. cbn [all_h flat_map]. apply in_or_app; left; exact Hr. }
  split; [|exact Q]. assert (Hn := gi_nonemp _ _ _ _ _ _ H Hne x Hx). destruct (fh x) as [|r t] eqn:Er; [congruence|].
  assert (L := fi_low _ _ (gi_fi _ _ _ _ _ _ H x Hx) r). rewrite Er in L. specialize (L (or_introl eq_refl)).
  specialize (Q r (or_introl eq_refl)). lia.
Qed.

Lemma two_split : forall {A} (l : list A) a x b a' y b', l = a ++ x :: b -> l = a' ++ y :: b' ->
  (exists c d, l = a ++ x :: c ++ y :: d) \/ (exists c d, l = a' ++ y :: c ++ x :: d) \/ (a = a' /\ x = y /\ b = b').
Proof.
  intros A l a; revert l; induction a as [|z a IH]; intros l x b a' y b' E1 E2; destruct a' as [|z' a']; cbn [app] in *.
  - right; right. subst l. injection E2 as -> ->. auto.
  - left. subst l. injection E2 as -> ->. exists a', b'. reflexivity.
  - right; left. subst l. injection E2 as -> <-. exists a, b. reflexivity.
  - subst l. assert (z = z') by congruence. assert (E3 : a ++ x :: b = a' ++ y :: b') by congruence. subst z'.
    destruct (IH _ x b a' y b' eq_refl E3) as [(c & d & E)|[(c & d & E)|(-> & -> & ->)]].
    + left. exists c, d. rewrite E; reflexivity.
    + right; left. exists c, d. rewrite E; reflexivity.
    + right; right. auto.
Qed.

(** The file holding a record is found from the record's number. *)
Lemma file_by_seq_hit : forall n0 pre h F g ne f r, GI n0 pre h F g -> In f (g_files g) -> In r (fh f) ->
  file_by_seq (r_seq r) ne (g_files g) = Some f.
Proof.
  intros n0 pre h F g ne f r H Hf Hr.
  assert (FIf := gi_fi _ _ _ _ _ _ H f Hf).
  assert (Hh : In r h) by (rewrite (gi_hist _ _ _ _ _ _ H); apply in_or_app; right; apply in_flat_map; exists f; auto).
  assert (Hne : h <> []) by (intros E; rewrite E in Hh; destruct Hh).
  assert (Hlow := fi_low _ _ FIf r Hr).
  assert (Hb := mr_bnd _ _ _ (mw_mr _ _ _ (fi_mw _ _ FIf)) r Hr).
  assert (Hmin := mw_min _ _ _ (fi_mw _ _ FIf) r Hr).
  unfold file_by_seq. destruct (by_start (r_seq r) (g_files g)) as [x|] eqn:E.
  - destruct (by_start_spec _ _ _ E) as (Hx & Hle & Hbest).
    assert (x = f) as ->.
    { apply in_split in Hx. destruct Hx as (a & b & Ex). assert (Hf' := Hf). apply in_split in Hf'. destruct Hf' as (a' & b' & Ef).
      destruct (two_split _ _ _ _ _ _ _ Ex Ef) as [(c & d & Eq)|[(c & d & Eq)|(_ & Eq & _)]]; [..|exact Eq]; exfalso.
      - destruct (starts_order _ _ _ _ _ H Hne _ _ _ _ _ Eq) as [L _]. specialize (Hbest f Hf Hlow). lia.
      - destruct (starts_order _ _ _ _ _ H Hne _ _ _ _ _ Eq) as [_ L]. specialize (L r Hr). lia. }
    destruct (valid_number (m_min (f_mt f)) && (r_seq r <? m_min (f_mt f))) eqn:E1; [lia|].
    destruct (m_max (f_mt f) <? r_seq r) eqn:E2; [lia|]. reflexivity.
  - assert (X := by_start_none _ _ E f Hf). lia.
Qed.

Lemma find_sorted : forall l s, sorted_seq l -> find (fun r => r_seq r =? s) (rev l) = seq_find s l.
Proof.
  intros l s Hs. destruct (find (fun r => r_seq r =? s) (rev l)) as [r|] eqn:E.
  - apply find_some in E. destruct E as [E1 E2]. apply in_rev in E1. assert (r_seq r = s) by lia. subst s.
    symmetry; apply seq_find_some; assumption.
  - symmetry. apply seq_find_none. intros x Hx Es. apply in_rev in Hx. assert (X := find_none _ _ E x Hx). cbn in X. lia.
Qed.

(** Reads by sequence number. *)
Lemma lm_get_seq_hit : forall n0 pre h F g r, GI n0 pre h F g -> In r h -> F < r_seq r ->
  visible (limit (g_bar g)) r = true -> g_bar g < NIL -> lm_get_seq (r_seq r) g = Ok r.
Proof.
  intros n0 pre h F g r H Hr HF Hv Hb.
  assert (Hl : In r (all_h (g_files g))).
  { rewrite (gi_hist _ _ _ _ _ _ H) in Hr. apply in_app_or in Hr. destruct Hr as [Hr|Hr]; [|exact Hr].
    assert (X := gi_pre _ _ _ _ _ _ H r Hr). lia. }
  apply in_flat_map in Hl. destruct Hl as (f & Hf & Hrf).
  unfold lm_get_seq. rewrite (file_by_seq_hit _ _ _ _ _ _ _ _ H Hf Hrf).
  assert (FIf := gi_fi _ _ _ _ _ _ H f Hf).
  assert (Hbd := mr_bnd _ _ _ (mw_mr _ _ _ (fi_mw _ _ FIf)) r Hrf).
  replace (m_max (f_mt f) <? r_seq r) with false by lia. cbn [orb].
  assert (Eb : negb (g_bar g =? 0) && (g_bar g <? r_seq r) = false).
  { unfold visible, limit in Hv. destruct (g_bar g =? 0) eqn:E; [reflexivity|]. cbn [negb andb].
    unfold valid_number in Hv. destruct (g_bar g =? NIL) eqn:E2; [lia|]. cbn [negb orb] in Hv. lia. }
  rewrite Eb. rewrite (mt_get_seq_spec hash _ _ _ (mw_mr _ _ _ (fi_mw _ _ FIf))).
  assert (U := gi_flu _ _ _ _ _ _ H f r Hf Hrf). replace (F <? r_seq r) with true in U by lia.
  unfold unflushed in U.
  assert (Eu : valid_number (m_flushed (f_mt f)) && (r_seq r <=? m_flushed (f_mt f)) = false).
  { destruct (valid_number (m_flushed (f_mt f))); [|reflexivity]. cbn [negb orb andb] in *. lia. }
  rewrite Eu. rewrite find_sorted by apply (mw_asc _ _ _ (fi_mw _ _ FIf)).
  rewrite (seq_find_some (fh f) r); [reflexivity|apply (mw_asc _ _ _ (fi_mw _ _ FIf))|exact Hrf].
Qed.

Lemma lm_get_seq_sound : forall n0 pre h F g s r, GI n0 pre h F g -> lm_get_seq s g = Ok r ->
  In r h /\ r_seq r = s /\ F < s /\ (g_bar g = 0 \/ s <= g_bar g).
Proof.
  intros n0 pre h F g s r H E. unfold lm_get_seq in E. destruct (file_by_seq s false (g_files g)) as [f|] eqn:Ef; [|discriminate].
  destruct ((m_max (f_mt f) <? s) || (negb (g_bar g =? 0) && (g_bar g <? s))) eqn:E1; [discriminate|].
  assert (Hf : In f (g_files g)).
  { unfold file_by_seq in Ef. destruct (by_start s (g_files g)) as [x|] eqn:Ex; [|discriminate].
    destruct (_ && _) in Ef; [discriminate|]. destruct (_ && _) in Ef; [discriminate|]. injection Ef as <-.
    apply (by_start_spec _ _ _ Ex). }
  assert (FIf := gi_fi _ _ _ _ _ _ H f Hf). rewrite (mt_get_seq_spec hash _ _ _ (mw_mr _ _ _ (fi_mw _ _ FIf))) in E.
  destruct (valid_number (m_flushed (f_mt f)) && (s <=? m_flushed (f_mt f))) eqn:E2; [discriminate|].
  destruct (find (fun r0 => r_seq r0 =? s) (rev (fh f))) as [x|] eqn:E3; [|discriminate]. injection E as <-.
  apply find_some in E3. destruct E3 as [E3 E4]. apply in_rev in E3. assert (Es : r_seq x = s) by lia.
  split; [rewrite (gi_hist _ _ _ _ _ _ H); apply in_or_app; right; apply in_flat_map; exists f; auto|]. split; [exact Es|].
  assert (U := gi_flu _ _ _ _ _ _ H f x Hf E3). unfold unflushed in U. rewrite Es in U. split.
  - destruct (valid_number (m_flushed (f_mt f))); cbn [negb orb andb] in *; [|lia].
    assert (m_flushed (f_mt f) < s) by lia. lia.
  - apply orb_false_iff in E1. destruct E1 as [_ E1]. destruct (g_bar g =? 0) eqn:Eb; [left; lia|right]. cbn [negb andb] in E1. lia.
Qed.

End Proofs.
