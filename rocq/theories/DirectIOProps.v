(** * C38, C62-C64: direct I/O *)
From Verif Require Import Base LogFormatModel LogSpec FileModel DirectIOModel DirectIOSpec DirectIOProofs DirectIOLogProofs.
Local Open Scope nat_scope.

(** ** C38.  No operation leaves its buffers; an operation fails only if a write failed. *)
Theorem C38_no_overrun : forall c gap trunc f0 L n h ok data okb, dcfg_ok c -> dreach c gap trunc f0 L n h ->
  ((exists h', d_append c (S (length data)) ok 0 data h = DOk h') \/
   (exists h', d_append c (S (length data)) ok 0 data h = DErr h' /\ exists i, ok i = false)) /\
  ((exists h', d_flush c okb h = DOk h') \/ (exists h', d_flush c okb h = DErr h' /\ okb = false)).
Proof.
  intros c gap trunc f0 L n h ok data okb Hc H. split.
  - exact (append_outcome c Hc gap trunc f0 L n h ok data H).
  - destruct (flush_shape c Hc gap trunc f0 L n h okb H) as [[h' [E _]] | [h' E]]; [left|right]; eauto.
Qed.
Print Assumptions C38_no_overrun.

(** After a successful flush the file holds the stream, followed by nothing, by recognisable
    padding, or by one unit of zero bytes. *)
Theorem C38_flush_partial : forall c gap trunc f0 L n h h', dcfg_ok c -> dreach c gap trunc f0 L n h ->
  d_flush c true h = DOk h' ->
  exists p, di_file h' = L ++ p /\ (padding p \/ p = repeat 0%N (dc_align c)).
Proof.
  intros c gap trunc f0 L n h h' Hc H E.
  destruct (flush_shape c Hc gap trunc f0 L n h true H) as [[h1 [E1 [_ P]]] | [? [_ ?]]]; [|discriminate].
  assert (h1 = h') by congruence. subst h1. exact P.
Qed.
Print Assumptions C38_flush_partial.

(** If every flush adds no byte or at least 8, only recognisable padding follows. *)
Theorem C38_recognisable_partial : forall c trunc f0 L n h h', dcfg_ok c -> dreach c true trunc f0 L n h ->
  length L = n \/ n + 8 <= length L -> d_flush c true h = DOk h' ->
  exists p, di_file h' = L ++ p /\ padding p.
Proof.
  intros c trunc f0 L n h h' Hc H Hg E.
  destruct (flush_recognisable c Hc trunc f0 L n h true H Hg) as [[h1 [E1 P]] | [? [_ ?]]]; [|discriminate].
  assert (h1 = h') by congruence. subst h1. exact P.
Qed.
Print Assumptions C38_recognisable_partial.

(** A positional read within the flushed part of the stream returns exactly its bytes; one that
    leaves the file fails.  (The thread's buffer must have this object's size.) *)
Theorem C38_read_partial : forall c gap trunc f0 L n h tb ub off count, dcfg_ok c -> dreach c gap trunc f0 L n h ->
  length tb = dc_buf c + dc_align c -> length ub = count ->
  (off + count <= di_flushed h -> d_pread c h tb ub off count = POk (firstn count (skipn off L))) /\
  (off + count <= length (di_file h) -> d_pread c h tb ub off count = POk (firstn count (skipn off (di_file h)))) /\
  (0 < count -> length (di_file h) < off + count -> d_pread c h tb ub off count = PErr).
Proof.
  intros c gap trunc f0 L n h tb ub off count Hc H Htb Hub.
  destruct (flushed_in_file c Hc _ _ _ _ _ _ H) as [H1 [H2 H3]]. split; [|split].
  - intros Hle. rewrite (pread_ok c Hc) by (auto; lia). f_equal.
    rewrite <- (firstn_skipn (di_flushed h) (di_file h)), H2.
    rewrite <- (firstn_skipn (di_flushed h) L) at 2.
    rewrite !skipn_app, !firstn_app, !skipn_length, !firstn_length.
    replace (count - (Nat.min (di_flushed h) (length L) - off)) with 0 by lia. reflexivity.
  - intros Hle. now apply (pread_ok c Hc).
  - apply pread_past.
Qed.
Print Assumptions C38_read_partial.

(** Flushing a multiple of the alignment shortly after a padding leaves the rest of that padding:
    zero bytes that nothing marks. *)
Definition unit512 := mkDC 512 512.
Definition yes (_ : nat) := true.

Theorem C38_residue_refuted : exists f0 L n h h', dcfg_ok unit512 /\ dreach unit512 false false f0 L n h /\
  d_flush unit512 true h = DOk h' /\ di_file h' = L ++ repeat 0%N 512 /\
  ~ (exists p, di_file h' = L ++ p /\ padding p).
Proof.
  destruct (d_open unit512 []) as [h0| |] eqn:E0; try (vm_compute in E0; discriminate).
  destruct (d_append unit512 (S (length (repeat 7%N 508))) yes 0 (repeat 7%N 508) h0) as [h1| |] eqn:E1;
    try (vm_compute in E0; injection E0 as <-; vm_compute in E1; discriminate).
  destruct (d_flush unit512 true h1) as [h2| |] eqn:E2;
    try (vm_compute in E0; injection E0 as <-; vm_compute in E1; injection E1 as <-; vm_compute in E2; discriminate).
  destruct (d_append unit512 (S (length (repeat 7%N 4))) yes 0 (repeat 7%N 4) h2) as [h3| |] eqn:E3;
    try (vm_compute in E0; injection E0 as <-; vm_compute in E1; injection E1 as <-; vm_compute in E2; injection E2 as <-;
         vm_compute in E3; discriminate).
  assert (R0 := dr_open unit512 false false [] h0 E0).
  assert (R1 := dr_append _ _ _ _ _ _ _ _ _ _ R0 E1).
  assert (R2 := dr_flush _ _ _ _ _ _ _ _ R1 ltac:(discriminate) E2).
  assert (R3 := dr_append _ _ _ _ _ _ _ _ _ _ R2 E3).
  destruct (d_flush unit512 true h3) as [h4| |] eqn:E4;
    try (vm_compute in E0; injection E0 as <-; vm_compute in E1; injection E1 as <-; vm_compute in E2; injection E2 as <-;
         vm_compute in E3; injection E3 as <-; vm_compute in E4; discriminate).
  assert (Ef : di_file h4 = (([] ++ repeat 7%N 508) ++ repeat 7%N 4) ++ repeat 0%N 512).
  { clear R0 R1 R2 R3. vm_compute in E0; injection E0 as <-; vm_compute in E1; injection E1 as <-; vm_compute in E2; injection E2 as <-;
      vm_compute in E3; injection E3 as <-; vm_compute in E4; injection E4 as <-. vm_compute. reflexivity. }
  exists [], (([] ++ repeat 7%N 508) ++ repeat 7%N 4), (length ([] ++ repeat 7%N 508)), h3, h4.
  split; [vm_compute; lia|]. split; [exact R3|]. split; [exact E4|]. split; [exact Ef|].
  intros [p [E P]]. rewrite Ef in E. apply app_inv_head in E. subst p.
  destruct P as [P | [k P]]; [discriminate|]. rewrite flag_bytes in P. cbn [app repeat] in P. discriminate.
Qed.
Print Assumptions C38_residue_refuted.

(** Two databases with different buffer sizes read by the same thread: the buffer allocated for
    the first one is overrun. *)
Theorem C38_thread_buffer_refuted : exists c1 c2 f0 L n h ub off count,
  dcfg_ok c1 /\ dcfg_ok c2 /\ dreach c2 true false f0 L n h /\ length ub = count /\
  off + count <= di_flushed h /\ d_pread c2 h (new_buf c1) ub off count = PUb.
Proof.
  exists (mkDC 512 512), (mkDC 2048 512), (repeat 7%N 2048), (repeat 7%N 2048), 2048.
  destruct (d_open (mkDC 2048 512) (repeat 7%N 2048)) as [h| |] eqn:E; try (vm_compute in E; discriminate).
  exists h, (repeat 0%N 2048), 0, 2048.
  split; [vm_compute; lia|]. split; [vm_compute; lia|].
  split; [exact (dr_open (mkDC 2048 512) true false (repeat 7%N 2048) h E)|].
  vm_compute in E. injection E as <-. split; [reflexivity|]. split; [vm_compute; lia|]. vm_compute. reflexivity.
Qed.
Print Assumptions C38_thread_buffer_refuted.

(** ** C62.  A log file kept with direct I/O: what was flushed is loaded completely and without
    an error, and is still loaded whatever was appended later. *)
Theorem C62_flushed_log_loads : forall c comp decomp es new h h', dcfg_ok c ->
  dlog c comp es (enc_entries comp new) h -> Forall (wf_entry comp decomp) (es ++ new) ->
  d_flush c true h = DOk h' -> load_file decomp (di_file h') = (es ++ new, L_OK).
Proof. intros c comp decomp es new h h' Hc. exact (dlog_flushed_loads c Hc comp decomp es new h h'). Qed.
Print Assumptions C62_flushed_log_loads.

Theorem C62_flushed_entries_survive : forall c comp decomp es pend h, dcfg_ok c ->
  dlog c comp es pend h -> Forall (wf_entry comp decomp) es ->
  exists more st, load_file decomp (di_file h) = (es ++ more, st).
Proof. intros c comp decomp es pend h Hc. exact (dlog_survives c Hc comp decomp es pend h). Qed.
Print Assumptions C62_flushed_entries_survive.

(** ** C64.  But a process that dies between two flushes can leave a file that loads with a
    checksum error: part of an entry, then the zero bytes of the padding that it overwrote. *)
Definition no_comp (_ : rec) : option (list N) := None.
Definition first_rec := mkRec 1 INS [1%N] [] (repeat 9%N 458).
Definition second_rec := mkRec 2 INS [2%N] [] [9%N].

Definition then_ (r : dres) (k : dio -> dres) : dres := match r with DOk h => k h | _ => r end.
Definition dlog_run : dres :=
  then_ (d_open unit512 []) (fun h =>
  then_ (d_append unit512 (S (length log_header)) yes 0 log_header h) (fun h =>
  then_ (d_flush unit512 true h) (fun h =>
  then_ (d_append unit512 (S (length (enc_entries no_comp [ERec first_rec]))) yes 0 (enc_entries no_comp [ERec first_rec]) h) (fun h =>
  then_ (d_flush unit512 true h) (fun h =>
  d_append unit512 (S (length (enc_entries no_comp [ERec second_rec]))) yes 0 (enc_entries no_comp [ERec second_rec]) h))))).

Lemma then_ok : forall r k h, then_ r k = DOk h -> exists h1, r = DOk h1 /\ k h1 = DOk h.
Proof. intros [h1|h1|] k h E; cbn in E; try discriminate. eauto. Qed.

Lemma dlog_run_ok : forall h, dlog_run = DOk h -> dlog unit512 no_comp [ERec first_rec] (enc_entries no_comp [ERec second_rec]) h.
Proof.
  intros h E. unfold dlog_run in E.
  apply then_ok in E as [h1 [E1 E]]. apply then_ok in E as [h2 [E2 E]]. apply then_ok in E as [h3 [E3 E]].
  apply then_ok in E as [h4 [E4 E]]. apply then_ok in E as [h5 [E5 E]].
  assert (R1 := dl_create unit512 no_comp h1 h2 h3 yes E1 E2 E3).
  assert (R2 := dl_append _ _ _ _ _ _ _ _ R1 E4).
  assert (R3 := dl_flush unit512 no_comp [] [ERec first_rec] _ _ R2 E5).
  exact (dl_append _ _ _ _ _ _ _ _ R3 E).
Qed.

Theorem C64_append_crash_refuted : exists es new h, dcfg_ok unit512 /\
  dlog unit512 no_comp es (enc_entries no_comp new) h /\
  Forall (wf_entry no_comp None) (es ++ new) /\ load_file None (di_file h) = (es, L_CHECKSUM).
Proof.
  exists [ERec first_rec], [ERec second_rec].
  destruct dlog_run as [h| |] eqn:E; try (vm_compute in E; discriminate).
  exists h. split; [vm_compute; lia|]. split; [now apply dlog_run_ok|].
  split.
  - assert (W : forall r, wf_rec r -> wf_entry no_comp None (ERec r)).
    { intros r Hr. split; [exact Hr|]. intros z Hz. unfold compressed, no_comp in Hz.
      repeat match type of Hz with context [if ?b then _ else _] => destruct b end; discriminate. }
    assert (V : forall s k v, is_bytes k -> is_bytes v -> (s < 2 ^ 64)%N -> (blen k < 2 ^ 32)%N -> (blen v < 2 ^ 32)%N -> wf_rec (mkRec s INS k [] v)).
    { intros s k v Hk Hv Hs Hlk Hlv. unfold wf_rec. cbn [r_seq r_type r_key r_meta r_val]. repeat split; auto. constructor. }
    assert (Bs : forall b k, (b < 256)%N -> is_bytes (repeat b k)).
    { intros b k Hb. induction k; constructor; auto. }
    apply Forall_cons; [apply W; unfold first_rec|apply Forall_cons; [apply W; unfold second_rec|apply Forall_nil]];
      (apply V; [apply (Bs _ 1); reflexivity|first [apply (Bs _ 458); reflexivity|apply (Bs _ 1); reflexivity]|vm_compute; reflexivity..]).
  - vm_compute in E. injection E as <-. vm_compute. reflexivity.
Qed.
Print Assumptions C64_append_crash_refuted.

(** ** C63.  After a successful flush and fsync the stream is durable, if the file was never
    truncated through this handle. *)
Theorem C63_synced_partial : forall c gap f0 L n h h1 h2, dcfg_ok c -> dreach c gap false f0 L n h ->
  d_flush c true h = DOk h1 -> d_fsync true h1 = DOk h2 -> firstn (length L) (di_dur h2) = L.
Proof. intros c gap f0 L n h h1 h2 Hc. exact (synced c Hc gap f0 L n h h1 h2). Qed.
Print Assumptions C63_synced_partial.

(** After a truncation, fsync does nothing until the file is as long as it was. *)
Definition trunc_run : dres :=
  then_ (d_open unit512 (repeat 7%N 100)) (fun h =>
  then_ (d_trunc unit512 40 h) (fun h =>
  d_append unit512 (S (length (repeat 8%N 20))) yes 0 (repeat 8%N 20) h)).

Theorem C63_truncated_refuted : exists f0 L n h h1 h2, dcfg_ok unit512 /\ dreach unit512 true true f0 L n h /\
  n + 8 <= length L /\
  d_flush unit512 true h = DOk h1 /\ d_fsync true h1 = DOk h2 /\
  firstn (length L) (di_file h2) = L /\ firstn (length L) (di_dur h2) <> L.
Proof.
  destruct trunc_run as [h| |] eqn:E; try (vm_compute in E; discriminate).
  assert (R : dreach unit512 true true (repeat 7%N 100) (repeat 7%N 40 ++ repeat 8%N 20) 40 h).
  { unfold trunc_run in E. apply then_ok in E as [h1 [E1 E]]. apply then_ok in E as [h2 [E2 E]].
    assert (R1 := dr_open unit512 true true (repeat 7%N 100) h1 E1).
    assert (F : di_file h1 = repeat 7%N 100) by (vm_compute in E1; injection E1 as <-; reflexivity).
    assert (R2 := dr_trunc _ _ _ _ _ _ _ 40 _ R1 eq_refl ltac:(rewrite F; vm_compute; lia) E2).
    rewrite F in R2. exact (dr_append _ _ _ _ _ _ _ _ _ _ R2 E). }
  destruct (d_flush unit512 true h) as [h1| |] eqn:E1;
    try (clear R; vm_compute in E; injection E as <-; vm_compute in E1; discriminate).
  destruct (d_fsync true h1) as [h2| |] eqn:E2;
    try (clear R; vm_compute in E; injection E as <-; vm_compute in E1; injection E1 as <-; vm_compute in E2; discriminate).
  exists (repeat 7%N 100), (repeat 7%N 40 ++ repeat 8%N 20), 40, h, h1, h2.
  split; [vm_compute; lia|]. split; [exact R|]. split; [vm_compute; lia|]. split; [exact E1|]. split; [exact E2|].
  clear R. vm_compute in E; injection E as <-; vm_compute in E1; injection E1 as <-; vm_compute in E2; injection E2 as <-.
  vm_compute. split; [reflexivity|discriminate].
Qed.
Print Assumptions C63_truncated_refuted.

(** A state that meets the hypotheses: a log file with one flushed record and a second one that
    crossed the buffer. *)
Example ex_dlog : exists h h', dlog unit512 no_comp [ERec first_rec] (enc_entries no_comp [ERec second_rec]) h /\
  d_flush unit512 true h = DOk h' /\ length (di_file h') = 1024 /\
  load_file None (di_file h') = ([ERec first_rec; ERec second_rec], L_OK).
Proof.
  destruct dlog_run as [h| |] eqn:E; try (vm_compute in E; discriminate).
  exists h. eexists. split; [now apply dlog_run_ok|].
  vm_compute in E. injection E as <-. split; [vm_compute; reflexivity|]. vm_compute. split; reflexivity.
Qed.

(** A read over two units, at odd positions. *)
Example ex_pread : exists h, dreach unit512 true false (repeat 7%N 600) (repeat 7%N 600) 600 h /\
  d_pread unit512 h (new_buf unit512) (repeat 0%N 101) 450 101 = POk (repeat 7%N 101).
Proof.
  destruct (d_open unit512 (repeat 7%N 600)) as [h| |] eqn:E; try (vm_compute in E; discriminate).
  exists h. split; [exact (dr_open unit512 true false (repeat 7%N 600) h E)|].
  vm_compute in E. injection E as <-. vm_compute. reflexivity.
Qed.
