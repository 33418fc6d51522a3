(** A log file kept with direct I/O can be read back. *)
From Verif Require Import Base LogFormatModel LogSpec LogFormatProofs LogDamageProofs FileModel DirectIOModel DirectIOSpec DirectIOProofs.
Local Open Scope nat_scope.

Section DL.
Variable c : dcfg.
Hypothesis Hc : dcfg_ok c.
Variable comp : rec -> option (list N).
Variable decomp : option (list N -> list N).

Lemma entries_app : forall es new, enc_entries comp (es ++ new) = enc_entries comp es ++ enc_entries comp new.
Proof. intros. unfold enc_entries. apply flat_map_app. Qed.

Lemma entries_gap : forall new, enc_entries comp new = [] \/ 8 <= length (enc_entries comp new).
Proof.
  intros [|e new]; [now left|right]. cbn [enc_entries flat_map]. rewrite app_length.
  assert (H := enc_entry_len comp e). lia.
Qed.

Lemma dlog_reach : forall es pend h, dlog c comp es pend h ->
  dreach c true false [] (log_file_bytes comp es ++ pend) (length (log_file_bytes comp es)) h /\
  length (log_file_bytes comp es) <= di_flushed h.
Proof.
  intros es pend h H. induction H as [h h1 h2 ok Ho Ha Hf|es pend h ok data h' H [IH IHl] Ha|es new h h' H [IH IHl] Hf|es pend h ok h' H [IH IHl] Hf].
  - assert (R1 := dr_open c true false [] h Ho).
    assert (R2 := dr_append c true false [] _ _ _ _ _ _ R1 Ha). cbn [app length] in R2.
    assert (G : true = true -> length log_header = 0 \/ 0 + 8 <= length log_header) by (intros _; right; vm_compute; lia).
    assert (R3 := dr_flush c true false [] _ _ _ _ R2 G Hf).
    assert (E : log_file_bytes comp [] = log_header) by (unfold log_file_bytes; apply app_nil_r).
    rewrite E, app_nil_r. split; [exact R3|].
    destruct (flush_shape c Hc _ _ _ _ _ _ true R2) as [[h3 [E3 [El _]]] | [? [_ ?]]]; [|discriminate].
    assert (h3 = h2) by congruence. subst h3. lia.
  - rewrite app_assoc. split; [eapply dr_append; eauto|].
    destruct (append_marks c _ _ _ _ _ _ (or_introl Ha)) as [_ [_ ?]]. lia.
  - assert (E : log_file_bytes comp es ++ enc_entries comp new = log_file_bytes comp (es ++ new)).
    { unfold log_file_bytes. now rewrite entries_app, app_assoc. }
    rewrite app_nil_r, <- E.
    assert (G : true = true -> length (log_file_bytes comp es ++ enc_entries comp new) = length (log_file_bytes comp es) \/
      length (log_file_bytes comp es) + 8 <= length (log_file_bytes comp es ++ enc_entries comp new)).
    { intros _. rewrite app_length. destruct (entries_gap new) as [-> | G]; [left; cbn; lia|right; lia]. }
    split; [eapply dr_flush; eauto|].
    destruct (flush_shape c Hc _ _ _ _ _ _ true IH) as [[h3 [E3 [El _]]] | [? [_ ?]]]; [|discriminate].
    assert (h3 = h') by congruence. subst h3. lia.
  - split; [eapply dr_fsync; eauto|]. unfold d_fsync in Hf.
    destruct (di_flushed h <=? di_fsynced h); [injection Hf as <-; lia|]. destruct ok; [|discriminate].
    injection Hf as <-. cbn [di_flushed]. exact IHl.
Qed.

Lemma load_tail : forall es rest, Forall (wf_entry comp decomp) es ->
  exists more st, load_file decomp (log_file_bytes comp es ++ rest) = (es ++ more, st).
Proof.
  intros es rest Hw. unfold load_file, log_file_bytes. rewrite <- app_assoc.
  replace (log_header ++ enc_entries comp es ++ rest) with (170%N :: tl (log_header ++ enc_entries comp es ++ rest)) at 1 by reflexivity.
  rewrite skip_header_app. unfold load_body.
  assert (Hf := entries_fuel comp es).
  rewrite load_loop_entries by (auto; rewrite app_length; lia). rewrite app_nil_r.
  generalize (length (enc_entries comp es ++ rest) - length es) as fuel. intros fuel.
  assert (H : forall fuel l acc, exists more st, load_loop decomp fuel l acc = (rev acc ++ more, st)).
  { clear. induction fuel as [|fuel IH]; intros l acc.
    - destruct l; cbn [load_loop]; exists []; eexists; rewrite app_nil_r; reflexivity.
    - assert (Stop : forall s, exists more st, (rev acc, s) = (rev acc ++ more, st : lstatus)).
      { intros s. exists [], s. now rewrite app_nil_r. }
      assert (Step : forall l' e, exists more st, load_loop decomp fuel l' (e :: acc) = (rev acc ++ more, st)).
      { intros l' e. destruct (IH l' (e :: acc)) as [more [st E]]. exists (e :: more), st. rewrite E. cbn [rev]. now rewrite <- app_assoc. }
      destruct l as [|b l]; [apply Stop|]. cbn [load_loop].
      destruct (negb (available 8 (b :: l))); [apply Stop|]. cbv zeta.
      destruct (identify_type _); try apply Stop.
      + destruct (load_record _ _ _); [apply Stop|apply Step].
      + destruct (negb _); [apply Stop|apply Step].
      + destruct (negb _); [apply Stop|apply Step]. }
  destruct (H fuel rest (rev es)) as [more [st E]]. rewrite rev_involutive in E. eauto.
Qed.

Lemma dlog_loads : forall es h, dlog c comp es [] h -> Forall (wf_entry comp decomp) es ->
  (exists p, di_file h = log_file_bytes comp es ++ p /\ padding p) ->
  load_file decomp (di_file h) = (es, L_OK).
Proof.
  intros es h H Hw [p [E [-> | [k ->]]]]; rewrite E.
  - rewrite app_nil_r. now apply load_file_enc.
  - now apply load_file_padding.
Qed.

Lemma dlog_flushed_loads : forall es new h h', dlog c comp es (enc_entries comp new) h ->
  Forall (wf_entry comp decomp) (es ++ new) -> d_flush c true h = DOk h' ->
  load_file decomp (di_file h') = (es ++ new, L_OK).
Proof.
  intros es new h h' H Hw Hf. destruct (dlog_reach _ _ _ H) as [R _].
  assert (E : log_file_bytes comp es ++ enc_entries comp new = log_file_bytes comp (es ++ new)).
  { unfold log_file_bytes. now rewrite entries_app, app_assoc. }
  apply dlog_loads; [eapply dl_flush; eauto|exact Hw|].
  destruct (flush_recognisable c Hc _ _ _ _ _ true R) as [[h3 [E3 [p [Ep Hp]]]] | [? [_ ?]]]; [| |discriminate].
  - rewrite app_length. destruct (entries_gap new) as [-> | G]; [left; cbn; lia|right; lia].
  - assert (h3 = h') by congruence. subst h3. exists p. rewrite <- E. auto.
Qed.

Lemma dlog_survives : forall es pend h, dlog c comp es pend h -> Forall (wf_entry comp decomp) es ->
  exists more st, load_file decomp (di_file h) = (es ++ more, st).
Proof.
  intros es pend h H Hw. destruct (dlog_reach _ _ _ H) as [R Hl].
  destruct (flushed_in_file c Hc _ _ _ _ _ _ R) as [_ [E Hle]].
  assert (F : firstn (length (log_file_bytes comp es)) (di_file h) = log_file_bytes comp es).
  { rewrite <- (firstn_more _ _ (di_flushed h)) by lia. rewrite E. rewrite firstn_more by lia.
    now apply firstn_app_exact. }
  rewrite <- (firstn_skipn (length (log_file_bytes comp es)) (di_file h)), F.
  now apply load_tail.
Qed.
End DL.
