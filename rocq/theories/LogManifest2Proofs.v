(** Failed stores followed by a store that covers what they wrote; lists that grew during the
    walk. *)
From Verif Require Import Base Crc32Model FileModel FileProofs LogFormatModel LogFormatProofs
  LogManifestModel LogManifestProofs.
Local Open Scope N_scope.

(** *** Failed stores *)

Lemma firstn_pwrite_before : forall f off d n, (n <= off)%nat -> (n <= length f)%nat ->
  firstn n (pwrite f off d) = firstn n f.
Proof.
  intros f off d n H1 H2. unfold pwrite. destruct d as [|b d]; [reflexivity|].
  destruct (Nat.le_gt_cases off (length f)) as [H|H].
  - rewrite firstn_app. rewrite firstn_firstn_min by lia.
    rewrite firstn_length. replace (n - Nat.min off (length f))%nat with 0%nat by lia.
    rewrite firstn_O. apply app_nil_r.
  - rewrite (firstn_all2 f) by lia. rewrite firstn_app.
    replace (n - length f)%nat with 0%nat by lia. rewrite firstn_O. apply app_nil_r.
Qed.

(** The later version [v] covers what a failed store of [w] may have written up to byte [n]. *)
Definition covered (mc : mcache) (v : lman) (wn : lman * nat) : Prop :=
  snd wn = 0%nat \/
  ((diff_pos mc (lm_encode v) <= diff_pos mc (lm_encode (fst wn)))%nat /\
   (length (lm_encode (fst wn)) <= length (lm_encode v))%nat).

Definition fails (st : disk * mcache) (l : list (lman * nat)) : disk * mcache :=
  fold_left (fun s wn => store_failed s (fst wn) (snd wn)) l st.

Lemma fails_same : forall v ns st,
  fold_left (fun s wn => store_failed s (fst wn) (snd wn)) (map (fun n => (v, n)) ns) st =
  fold_left (fun s n => store_failed s v n) ns st.
Proof. intros v ns. induction ns as [|n ns IH]; intros st; [reflexivity|]. cbn [map fold_left fst snd]. apply IH. Qed.

Lemma fails_frame : forall v l k mc, Forall (covered mc v) l ->
  (diff_pos mc (lm_encode v) <= length (df_cur (k_main k)))%nat ->
  exists k', fails (k, mc) l = (k', mc) /\ k_bak k' = k_bak k /\
    (length (df_cur (k_main k)) <= length (df_cur (k_main k')) <=
       Nat.max (length (df_cur (k_main k))) (length (lm_encode v)))%nat /\
    firstn (diff_pos mc (lm_encode v)) (df_cur (k_main k')) =
    firstn (diff_pos mc (lm_encode v)) (df_cur (k_main k)).
Proof.
  intros v l. induction l as [|[w n] l IH]; intros k mc HF Hle.
  - exists k. cbn [fails fold_left]. repeat split; lia.
  - inversion HF as [|? ? H HF']; subst. unfold covered in H. cbn [fst snd] in H.
    cbn [fails fold_left fst snd]. unfold store_failed at 2.
    set (k1 := dstep _ k).
    assert (P : k_bak k1 = k_bak k /\
      (length (df_cur (k_main k)) <= length (df_cur (k_main k1)) <=
       Nat.max (length (df_cur (k_main k))) (length (lm_encode v)))%nat /\
      firstn (diff_pos mc (lm_encode v)) (df_cur (k_main k1)) =
      firstn (diff_pos mc (lm_encode v)) (df_cur (k_main k))).
    { unfold k1. cbn [dstep on_file dirty k_main k_bak df_cur].
      split; [reflexivity|].
      destruct H as [->|[H1 H2]].
      - rewrite firstn_O. cbn [pwrite]. split; [lia|reflexivity].
      - set (d := firstn n (skipn (diff_pos mc (lm_encode w)) (lm_encode w))).
        assert (Ld : (length d <= length (lm_encode w) - diff_pos mc (lm_encode w))%nat)
          by (unfold d; rewrite firstn_length, skipn_length; lia).
        clearbody d. split.
        + destruct d as [|b d']; [cbn [pwrite]; lia|].
          rewrite pwrite_length by discriminate.
          cbn [length] in *. lia.
        + apply firstn_pwrite_before; lia. }
    destruct P as (P1 & P2 & P3).
    destruct (IH k1 mc HF' ltac:(lia)) as (k' & E & B & L & F).
    exists k'. unfold fails in E. rewrite E. split; [reflexivity|].
    split; [congruence|]. split; [lia|]. now rewrite F.
Qed.

Lemma diff_pos_ready : forall k mc v, count_ok v -> ready (k, mc) ->
  (diff_pos mc (lm_encode v) <= length (df_cur (k_main k)))%nat /\
  (diff_pos mc (lm_encode v) < length (lm_encode v))%nat /\
  firstn (diff_pos mc (lm_encode v)) (df_cur (k_main k)) =
  firstn (diff_pos mc (lm_encode v)) (lm_encode v) /\
  (mc_len mc = 0 \/ length (df_cur (k_main k)) = mc_len mc)%nat.
Proof.
  intros k mc v Hv Hr. pose proof (lm_encode_length v) as Lv.
  destruct Hr as [[H0 Hf]|(u & Hu & H1 & H2 & H3 & _)]; cbn [snd] in *.
  - assert (Hd : diff_pos mc (lm_encode v) = 0%nat) by (unfold diff_pos; now rewrite H0).
    rewrite Hd, H0. rewrite !firstn_O. repeat split; try lia; try (now left).
  - destruct (diff_pos_ok mc u v Hu Hv H1 H2) as (A & B & C). rewrite H3.
    repeat split; auto; lia.
Qed.

(** A store that covers the failed ones leaves exactly its own version. *)
Lemma store_after_fails : forall g k mc l v oc, count_ok v -> ready (k, mc) ->
  Forall (covered mc v) l ->
  let st' := store g (fails (k, mc) l) (v, oc) in
  df_cur (k_main (fst st')) = lm_encode v /\
  (oc = SyncOk -> df_cur (k_bak (fst st')) = lm_encode v /\
                  df_clean (k_main (fst st')) = true /\ df_clean (k_bak (fst st')) = true) /\
  ready st'.
Proof.
  intros g k mc l v oc Hv Hr HF. cbn zeta.
  destruct (diff_pos_ready k mc v Hv Hr) as (D1 & D2 & D3 & D4).
  destruct (fails_frame v l k mc HF D1) as (k2 & E & B & L & F). rewrite E.
  pose proof (lm_encode_length v) as Lv.
  assert (M : df_cur (k_main (dexec (main_ops mc (lm_encode v)) k2)) = lm_encode v /\
              k_bak (dexec (main_ops mc (lm_encode v)) k2) = k_bak k).
  { unfold main_ops. set (fd := diff_pos mc (lm_encode v)) in *.
    destruct (Nat.ltb_spec fd (length (lm_encode v))); [|lia].
    assert (F2 : firstn fd (df_cur (k_main k2)) = firstn fd (lm_encode v)) by (now rewrite F).
    destruct ((mc_len mc =? 0) || (length (lm_encode v) <? mc_len mc))%nat eqn:T;
      cbn [app dexec fold_left dstep on_file dirty k_main k_bak df_cur];
      rewrite pwrite_tail by (lia || assumption).
    - rewrite ftruncate_app. now split.
    - apply orb_false_iff in T. destruct T as [T1 T2].
      apply Nat.eqb_neq in T1. apply Nat.ltb_ge in T2.
      rewrite skipn_all2 by lia. rewrite app_nil_r. now split. }
  unfold store. cbn [fst snd]. rewrite store_ops_split, dexec_app.
  destruct M as [M1 M2]. set (k3 := dexec (main_ops mc (lm_encode v)) k2) in *.
  destruct (cache_put_ok g mc (lm_encode v) (negb (is_sync_ok oc))) as [C1 C2].
  assert (R : df_cur (k_main (dexec (bak_ops mc (lm_encode v) oc) k3)) = lm_encode v /\
    (oc = SyncOk -> df_cur (k_bak (dexec (bak_ops mc (lm_encode v) oc) k3)) = lm_encode v /\
       df_clean (k_main (dexec (bak_ops mc (lm_encode v) oc) k3)) = true /\
       df_clean (k_bak (dexec (bak_ops mc (lm_encode v) oc) k3)) = true)).
  { destruct oc; cbn [bak_ops].
    - split; [exact M1|discriminate].
    - destruct (bak_ops_result k k3 mc v Hv Hr M2) as (B1 & B2 & B3 & B4).
      cbn [bak_ops] in *. split; [congruence|]. now repeat split.
    - split; [exact M1|discriminate].
    - cbn [dexec fold_left dstep on_file dirty k_main k_bak df_cur]. split; [exact M1|discriminate]. }
  destruct R as [R1 R2]. split; [exact R1|]. split; [exact R2|].
  right. exists v. split; [exact Hv|]. unfold synced_with, store_mem. rewrite C1.
  split; [reflexivity|]. split; [exact C2|]. split; [exact R1|].
  intros Hfull. destruct oc; cbn [is_sync_ok negb cache_put mc_full] in Hfull; try discriminate.
  now apply R2.
Qed.

(** *** Walks that saw at least as many files as were counted *)

Lemma get_ments_prefix : forall es n a c, Forall wf_ment es -> (n <= length es)%nat ->
  get_ments n {| fs_file := a ++ flat_map enc_ment es ++ c; fs_pos := length a |} = firstn n es.
Proof.
  induction es as [|e es IH]; intros n a c H Hn.
  - cbn [length] in Hn. replace n with 0%nat by lia. reflexivity.
  - destruct n as [|n]; [reflexivity|].
    inversion H as [|? ? He Hes]; subst. cbn [length get_ments flat_map firstn] in *.
    rewrite <- app_assoc. rewrite get_ment_app by exact He.
    f_equal. rewrite (app_assoc a (enc_ment e)). apply IH; [exact Hes|lia].
Qed.

Lemma parse_prefix : forall mx fl sy n es,
  mx < 2 ^ 64 -> fl < 2 ^ 64 -> sy < 2 ^ 64 -> N.of_nat n < 2 ^ 32 ->
  Forall wf_ment es -> (n <= length es)%nat ->
  lm_parse (enc_raw mx fl sy (N.of_nat n) es) = inl (mkLman mx fl sy (firstn n es)).
Proof.
  intros mx fl sy n es H1 H2 H3 H4 H5 Hn.
  rewrite parse_raw by assumption. f_equal. f_equal.
  rewrite Nat2N.id. rewrite enc_raw_eq.
  set (crc := u32 (crc32_8 _ 0)). clearbody crc. unfold enc_body.
  set (tail := LOGMANI_FOOTER ++ u32 LOGMANI_VERSION).
  replace ((u64 mx ++ u64 fl ++ u64 sy ++ u32 (N.of_nat n) ++ flat_map enc_ment es ++ tail) ++ crc)
    with ((u64 mx ++ u64 fl ++ u64 sy ++ u32 (N.of_nat n)) ++ flat_map enc_ment es ++ (tail ++ crc))
    by (rewrite <- !app_assoc; reflexivity).
  replace 28%nat with (length (u64 mx ++ u64 fl ++ u64 sy ++ u32 (N.of_nat n)))
    by (rewrite !app_length, !u64_len, u32_len; reflexivity).
  now apply get_ments_prefix.
Qed.
