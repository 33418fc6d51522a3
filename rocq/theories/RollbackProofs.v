(** Where a log file is cut: the search on the bytes agrees with [cut] on the entries. *)
From Verif Require Import Base Crc32Model Crc32Proofs KeyModel LogFormatModel LogFormatProofs LogWriterModel LogSpec LogDamageProofs
  BloomModel MemTableModel MemTableProofs RollbackModel RollbackSpec.
From Coq Require Import Sorted.
Local Open Scope N_scope.

Section Bytes.
Variable comp : rec -> option (list N).
Variable decomp : option (list N -> list N).

Let el (e : entry) : N := blen (enc_entry comp e).

Lemma find_record_enc : forall r rest, wf_rec r -> comp_ok comp decomp r ->
  find_record (stored_flags comp r) (hdr_tail comp r ++ enc_data comp r ++ rest) =
  HRec (r_seq r) (blen (hdr_tail comp r ++ enc_data comp r)).
Proof.
  intros r rest Hw Hc. unfold find_record. cbv zeta.
  assert (HL := hdr_tail_len comp r Hw). assert (ML := len_meta_len comp r Hw).
  destruct (len_meta_fields comp decomp r Hw Hc) as (F1 & F2 & F3 & F4 & _).
  assert (A1 : available (4 + len_meta_size (stored_flags comp r) + 4) (hdr_tail comp r ++ enc_data comp r ++ rest) = true).
  { unfold available. rewrite blen_app, HL. lia. }
  rewrite A1. cbn [negb].
  assert (B : firstn (N.to_nat (len_meta_size (stored_flags comp r))) (skipn 4 (hdr_tail comp r ++ enc_data comp r ++ rest)) = len_meta comp r).
  { unfold hdr_tail. rewrite <- !app_assoc. rewrite (skipn_app_exact (u32 _) _ 4%nat) by apply u32_len.
    apply firstn_app_exact. unfold blen in ML. lia. }
  assert (C : firstn 4 (hdr_tail comp r ++ enc_data comp r ++ rest) = u32 (crc32_8 (len_meta comp r) 0)).
  { unfold hdr_tail. rewrite <- !app_assoc. apply firstn_app_exact, u32_len. }
  rewrite B, C. unfold u32. rewrite get_put_be_small.
  2:{ change (256 ^ N.of_nat 4) with (2 ^ 32). apply crc32_8_lt; [apply len_meta_bytes|reflexivity]. }
  rewrite N.eqb_refl. cbn [negb]. rewrite F1, F2, F3, F4.
  assert (D : skipn (N.to_nat (4 + len_meta_size (stored_flags comp r) + 4)) (hdr_tail comp r ++ enc_data comp r ++ rest) = enc_data comp r ++ rest).
  { apply skipn_app_exact. unfold blen in HL. lia. }
  rewrite D.
  assert (E : blen (enc_data comp r) = blen (r_key r) + blen (r_meta r) + blen (value_ref comp r)).
  { unfold enc_data. rewrite !blen_app. lia. }
  assert (G : available ((blen (r_key r) + blen (r_meta r) + blen (value_ref comp r)) mod 2 ^ 32) (enc_data comp r ++ rest) = true).
  { unfold available. rewrite blen_app, E.
    assert (X := N.mod_le (blen (r_key r) + blen (r_meta r) + blen (value_ref comp r)) (2 ^ 32) ltac:(discriminate)). lia. }
  rewrite G. cbn [negb]. f_equal. rewrite blen_app, HL, E. reflexivity.
Qed.

(** Does an entry move last_offset. *)
Definition hits (target : N) (e : entry) : bool := match e with ERec r => r_seq r <=? target | _ => false end.

Lemma find_loop_step : forall e rest fuel t pos off valid, wf_entry comp decomp e ->
  find_loop (S fuel) t (enc_entry comp e ++ rest) pos off valid =
  find_loop fuel t rest (pos + el e) (if hits t e then pos + el e else off) (pos + el e).
Proof.
  intros e rest fuel t pos off valid Hw.
  assert (Hne : exists x l, enc_entry comp e ++ rest = x :: l).
  { pose proof (enc_entry_len comp e) as H. destruct (enc_entry comp e); [cbn in H; lia|]. cbn [app]. eauto. }
  destruct Hne as (x & l & Hx).
  assert (A8 : available 8 (enc_entry comp e ++ rest) = true).
  { unfold available. rewrite blen_app. assert (X := enc_entry_len comp e). unfold blen. lia. }
  rewrite Hx. cbn [find_loop]. rewrite <- Hx, A8. cbn [negb].
  unfold el. destruct e as [r|s|s]; cbn [enc_entry wf_entry hits] in *.
  - destruct Hw as [Hr Hc]. rewrite enc_rec_split. rewrite <- !app_assoc.
    destruct (stored_flags_id comp r Hr) as (I1 & I2 & _ & _).
    rewrite (firstn_app_exact (u64 _) _ 8%nat) by apply u64_len.
    rewrite (skipn_app_exact (u64 _) _ 8%nat) by apply u64_len.
    rewrite !u64_get by exact I2.
    rewrite I1. rewrite find_record_enc by assumption.
    rewrite app_assoc. rewrite (skipn_app_exact (hdr_tail comp r ++ enc_data comp r)) by (unfold blen; lia).
    rewrite (blen_app (u64 _)), blen_u64. rewrite !N.add_assoc. reflexivity.
  - unfold enc_flush. rewrite <- !app_assoc.
    rewrite (firstn_app_exact (u64 _) _ 8%nat) by apply u64_len.
    rewrite (skipn_app_exact (u64 _) _ 8%nat) by apply u64_len.
    rewrite !u64_get by reflexivity. rewrite flush_flags_id.
    unfold available. rewrite blen_app, blen_u64. destruct (8 <=? 8 + blen rest) eqn:E; [|lia]. cbn [negb].
    rewrite (skipn_app_exact (u64 _) _ 8%nat) by apply u64_len.
    rewrite blen_app, !blen_u64. reflexivity.
  - unfold enc_chk. rewrite <- !app_assoc.
    rewrite (firstn_app_exact (u64 _) _ 8%nat) by apply u64_len.
    rewrite (skipn_app_exact (u64 _) _ 8%nat) by apply u64_len.
    rewrite !u64_get by reflexivity. rewrite chk_flags_id.
    unfold available. rewrite blen_app, blen_u64. destruct (8 <=? 8 + blen rest) eqn:E; [|lia]. cbn [negb].
    rewrite (skipn_app_exact (u64 _) _ 8%nat) by apply u64_len.
    rewrite blen_app, !blen_u64. reflexivity.
Qed.

Lemma cut_none : forall t es, cut t es = None -> forall e, In e es -> hits t e = false.
Proof.
  induction es as [|e es IH]; cbn [cut]; intros H x Hx; [destruct Hx|].
  destruct (cut t es) as [d|]; [discriminate|]. destruct Hx as [<-|Hx]; [|apply IH; auto].
  destruct e as [r|s|s]; cbn [hits]; try reflexivity. destruct (r_seq r <=? t); [discriminate|reflexivity].
Qed.

Lemma enc_entries_cons : forall e es, blen (enc_entries comp (e :: es)) = el e + blen (enc_entries comp es).
Proof. intros e es. unfold enc_entries at 1. cbn [flat_map]. rewrite blen_app. reflexivity. Qed.

Lemma find_loop_entries : forall es rest fuel t pos off valid, Forall (wf_entry comp decomp) es ->
  (length es <= fuel)%nat ->
  find_loop fuel t (enc_entries comp es ++ rest) pos off valid =
  find_loop (fuel - length es) t rest (pos + blen (enc_entries comp es))
    (match cut t es with Some d => pos + blen (enc_entries comp d) | None => off end)
    (match es with [] => valid | _ => pos + blen (enc_entries comp es) end).
Proof.
  induction es as [|e es IH]; intros rest fuel t pos off valid Hw Hf.
  - cbn [cut length enc_entries flat_map app]. rewrite Nat.sub_0_r, N.add_0_r. reflexivity.
  - inversion Hw as [|? ? He Hes]; subst. cbn [length] in Hf.
    destruct fuel as [|fuel]; [lia|].
    unfold enc_entries at 1. cbn [flat_map]. fold (enc_entries comp es). rewrite <- app_assoc.
    rewrite find_loop_step by exact He. rewrite IH by (exact Hes || lia).
    cbn [length Nat.sub]. rewrite enc_entries_cons, N.add_assoc. f_equal.
    + cbn [cut]. destruct (cut t es) as [d|].
      * rewrite enc_entries_cons, N.add_assoc. reflexivity.
      * destruct e as [r|s|s]; cbn [hits]; try reflexivity.
        destruct (r_seq r <=? t); [|reflexivity]. rewrite enc_entries_cons.
        change (blen (enc_entries comp [])) with 0. lia.
    + destruct es; [|reflexivity]. change (blen (enc_entries comp [])) with 0. lia.
Qed.

Lemma cut_prefix : forall t es d, cut t es = Some d -> exists rest, es = d ++ rest /\ d <> [].
Proof.
  induction es as [|e es IH]; cbn [cut]; intros d H; [discriminate|].
  destruct (cut t es) as [d'|].
  - injection H as <-. destruct (IH d' eq_refl) as (rest & -> & _). exists rest. split; [reflexivity|discriminate].
  - destruct e as [r|s|s]; try discriminate. destruct (r_seq r <=? t); [|discriminate]. injection H as <-.
    exists es. split; [reflexivity|discriminate].
Qed.

Lemma header_len : length log_header = 12%nat.
Proof. unfold log_header. rewrite app_length, u32_len. reflexivity. Qed.

(** The search on a complete log file, with or without padding after the last entry. *)
Theorem find_offset_file : forall t es, Forall (wf_entry comp decomp) es ->
  find_offset t (log_file_bytes comp es) =
  mkFR (match cut t es with Some d => blen (log_file_bytes comp d) | None => 0 end) NIL L_OK.
Proof.
  intros t es Hw. unfold find_offset, log_file_bytes.
  assert (A : available 12 (log_header ++ enc_entries comp es) = true).
  { unfold available. rewrite blen_app. unfold blen at 1. rewrite header_len. lia. }
  rewrite A. cbn [negb]. rewrite (skipn_app_exact log_header _ 12%nat) by apply header_len.
  rewrite <- (app_nil_r (enc_entries comp es)) at 2.
  assert (F := entries_fuel comp es).
  rewrite find_loop_entries by (exact Hw || (rewrite app_length; lia)).
  assert (Z : forall n p o v, find_loop n t [] p o v = mkFR o NIL L_OK) by (intros [|n] p o v; reflexivity).
  rewrite Z. f_equal. destruct (cut t es) as [d|]; [|reflexivity].
  rewrite blen_app. unfold blen at 2. rewrite header_len. reflexivity.
Qed.

Theorem find_offset_padded : forall t es pad, Forall (wf_entry comp decomp) es ->
  find_offset t (log_file_bytes comp es ++ u64 PADDING_HEADER_FLAG ++ pad) =
  mkFR (match cut t es with Some d => blen (log_file_bytes comp d) | None => 0 end)
       (blen (log_file_bytes comp es)) L_OK.
Proof.
  intros t es pad Hw. unfold find_offset, log_file_bytes. rewrite <- !app_assoc.
  assert (A : available 12 (log_header ++ enc_entries comp es ++ u64 PADDING_HEADER_FLAG ++ pad) = true).
  { unfold available. rewrite blen_app. unfold blen at 1. rewrite header_len. lia. }
  rewrite A. cbn [negb]. rewrite (skipn_app_exact log_header _ 12%nat) by apply header_len.
  assert (F := entries_fuel comp es).
  rewrite find_loop_entries by (exact Hw || (rewrite app_length, app_length; lia)).
  match goal with |- context [find_loop ?n] => assert (HF : exists n', n = S n') end.
  { exists (length (log_header ++ enc_entries comp es ++ u64 PADDING_HEADER_FLAG ++ pad) - length es - 1)%nat.
    rewrite !app_length, u64_len, header_len. lia. }
  destruct HF as (n' & ->).
  assert (Hne : exists x l, u64 PADDING_HEADER_FLAG ++ pad = x :: l) by (eexists; eexists; reflexivity).
  destruct Hne as (x & l & Hx).
  assert (A8 : available 8 (u64 PADDING_HEADER_FLAG ++ pad) = true) by apply available_app8.
  rewrite Hx. cbn [find_loop]. rewrite <- Hx, A8. cbn [negb].
  rewrite (firstn_app_exact (u64 _) _ 8%nat) by apply u64_len.
  rewrite !u64_get by reflexivity.
  change (identify_type PADDING_HEADER_FLAG) with FT_PADDING. cbv iota.
  assert (HH : forall a, 12 + blen a = blen (log_header ++ a)).
  { intros a. rewrite blen_app. unfold blen at 2. rewrite header_len. reflexivity. }
  f_equal.
  - destruct (cut t es) as [d|]; [apply HH|reflexivity].
  - destruct es as [|e es0]; [|apply HH]. rewrite <- HH. reflexivity.
Qed.

(** Cutting the bytes there and loading the file again gives the cut entries. *)
Theorem truncated_file_loads : forall t es d, Forall (wf_entry comp decomp) es -> cut t es = Some d ->
  load_file decomp (firstn (N.to_nat (fr_off (find_offset t (log_file_bytes comp es)))) (log_file_bytes comp es)) = (d, L_OK).
Proof.
  intros t es d Hw H. rewrite find_offset_file by exact Hw. cbn [fr_off]. rewrite H.
  destruct (cut_prefix _ _ _ H) as (rest & E & _). rewrite E in Hw |- *.
  assert (S1 : log_file_bytes comp (d ++ rest) = log_file_bytes comp d ++ enc_entries comp rest).
  { unfold log_file_bytes, enc_entries. rewrite flat_map_app, app_assoc. reflexivity. }
  rewrite S1. rewrite (firstn_app_exact (log_file_bytes comp d)) by (unfold blen; lia).
  apply load_file_enc. apply Forall_app in Hw. apply Hw.
Qed.

End Bytes.

(** On a file with ascending numbers, the cut keeps exactly the records up to the target. *)
Lemma recs_of_app : forall a b, recs_of (a ++ b) = recs_of a ++ recs_of b.
Proof. intros. unfold recs_of. apply flat_map_app. Qed.

Lemma in_recs_of : forall r es, In r (recs_of es) <-> In (ERec r) es.
Proof.
  intros r es. unfold recs_of. rewrite in_flat_map. split.
  - intros (e & He & H). destruct e; cbn in H; try destruct H as [<-|[]]; try contradiction; exact He.
  - intros H. exists (ERec r). split; [exact H|left; reflexivity].
Qed.

Lemma filter_none_seq : forall t l, (forall r, In r l -> t < r_seq r) -> filter (fun r => r_seq r <=? t) l = [].
Proof.
  induction l as [|r l IH]; intros H; [reflexivity|]. cbn [filter].
  assert (X := H r (or_introl eq_refl)). destruct (r_seq r <=? t) eqn:E; [lia|]. apply IH. intros x Hx. apply H. right; exact Hx.
Qed.

Lemma cut_recs : forall t es, sorted_seq (recs_of es) ->
  match cut t es with
  | Some d => recs_of d = filter (fun r => r_seq r <=? t) (recs_of es) /\ recs_of d <> []
  | None => filter (fun r => r_seq r <=? t) (recs_of es) = []
  end.
Proof.
  intros t. induction es as [|e es IH]; intros Hs; [reflexivity|].
  assert (Hs' : sorted_seq (recs_of es)).
  { destruct e; cbn [recs_of flat_map app] in Hs; fold (recs_of es) in Hs; try exact Hs.
    unfold sorted_seq in *. cbn [map] in Hs. apply StronglySorted_inv in Hs. apply Hs. }
  specialize (IH Hs'). cbn [cut].
  destruct (cut t es) as [d|] eqn:E.
  - destruct IH as [IH1 IH2]. destruct e as [r|s|s]; cbn [recs_of flat_map app]; fold (recs_of es); fold (recs_of d).
    + cbn [filter]. assert (Hr : r_seq r <=? t = true).
      { destruct (recs_of d) as [|x l] eqn:Ed; [congruence|].
        assert (Hx : In x (filter (fun r => r_seq r <=? t) (recs_of es))) by (rewrite <- IH1; left; reflexivity).
        apply filter_In in Hx. destruct Hx as [Hx1 Hx2].
        cbn [recs_of flat_map app] in Hs. fold (recs_of es) in Hs. unfold sorted_seq in Hs. cbn [map] in Hs.
        apply StronglySorted_inv in Hs. destruct Hs as [_ Hs]. rewrite Forall_forall in Hs.
        specialize (Hs _ (in_map r_seq _ _ Hx1)). lia. }
      rewrite Hr. split; [f_equal; exact IH1|discriminate].
    + split; assumption.
    + split; assumption.
  - destruct e as [r|s|s]; cbn [recs_of flat_map app]; fold (recs_of es); try exact IH.
    cbn [filter]. destruct (r_seq r <=? t); [|exact IH]. rewrite IH. split; [reflexivity|discriminate].
Qed.
