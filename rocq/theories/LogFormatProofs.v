(** Proofs about the log file format. *)
From Verif Require Import Base Crc32Model Crc32Spec Crc32Proofs LogFormatModel LogWriterModel LogSpec.
From Coq Require Import ZifyBool ZifyNat ZifyN.
Local Open Scope N_scope.

Section P.
Variable comp : rec -> option (list N).
Variable decomp : option (list N -> list N).

Lemma compressed_nonempty : forall r c, compressed comp r = Some c -> c <> [].
Proof.
  intros r c H. unfold compressed in H. destruct (r_type r =? INS); [|discriminate].
  destruct (comp r) as [[|x c']|]; try discriminate; injection H as <-; discriminate.
Qed.

Lemma compressed_ins : forall r c, compressed comp r = Some c -> r_type r = INS.
Proof.
  intros r c H. unfold compressed in H. destruct (N.eqb_spec (r_type r) INS); [assumption|discriminate].
Qed.

Lemma blen_app : forall a b, blen (a ++ b) = blen a + blen b.
Proof. intros a b. unfold blen. rewrite app_length. lia. Qed.

Lemma blen_u64 : forall v, blen (u64 v) = 8.
Proof. intros v. unfold blen. rewrite u64_len. reflexivity. Qed.
Lemma blen_u32 : forall v, blen (u32 v) = 4.
Proof. intros v. unfold blen. rewrite u32_len. reflexivity. Qed.

Lemma stored_flags_cases : forall r, wf_rec r ->
  match compressed comp r with
  | Some _ => stored_flags comp r = 16 /\ r_type r = INS
  | None => stored_flags comp r = r_type r
  end.
Proof.
  intros r (_ & Ht & _). unfold stored_flags, record_flags.
  destruct (compressed comp r) as [c|] eqn:E.
  - apply compressed_ins in E. rewrite E. split; reflexivity.
  - destruct Ht as [->|[->| ->]]; reflexivity.
Qed.

Lemma stored_flags_id : forall r, wf_rec r ->
  identify_type (stored_flags comp r) = FT_RECORD /\
  stored_flags comp r < 2 ^ 64 /\
  type_of_flags (stored_flags comp r) = r_type r /\
  flags_compressed (stored_flags comp r) = match compressed comp r with Some _ => true | None => false end.
Proof.
  intros r Hw. pose proof (stored_flags_cases r Hw) as H.
  destruct Hw as (_ & Ht & _).
  destruct (compressed comp r) as [c|].
  - destruct H as [-> ->]. repeat split; reflexivity.
  - rewrite H. destruct Ht as [->|[->| ->]]; repeat split; reflexivity.
Qed.

Lemma is_bytes_u64 : forall v, is_bytes (u64 v). Proof. intros; apply put_be_bytes. Qed.
Lemma is_bytes_u32 : forall v, is_bytes (u32 v). Proof. intros; apply put_be_bytes. Qed.

Lemma len_meta_bytes : forall r, is_bytes (len_meta comp r).
Proof.
  intros r. unfold len_meta. repeat (apply is_bytes_app; split); try apply is_bytes_u64; try apply is_bytes_u32.
  destruct (compressed comp r); [apply is_bytes_u32|constructor].
Qed.

Lemma len_meta_len : forall r, wf_rec r -> blen (len_meta comp r) = len_meta_size (stored_flags comp r).
Proof.
  intros r Hw. destruct (stored_flags_id r Hw) as (_ & _ & _ & E). unfold len_meta_size. rewrite E.
  unfold len_meta. rewrite !blen_app, blen_u64, !blen_u32.
  destruct (compressed comp r); rewrite ?blen_u32; reflexivity.
Qed.

Lemma value_ref_bytes : forall r, wf_rec r -> comp_ok comp decomp r -> is_bytes (value_ref comp r) /\ blen (value_ref comp r) < 2 ^ 32.
Proof.
  intros r (_ & _ & _ & _ & Hv & _ & _ & Hl) Hc. unfold value_ref.
  destruct (compressed comp r) as [c|] eqn:E; [|split; assumption].
  destruct (Hc c E) as (Hb & Hs & _). split; assumption.
Qed.

Lemma crc_body_concat : forall k m v, is_bytes k -> is_bytes m -> is_bytes v ->
  crc_body k m v = crc32_8 (k ++ m ++ v) 0.
Proof.
  intros k m v Hk Hm Hv. unfold crc_body.
  rewrite crc32_8_chain; [|exact Hm|exact Hv|apply crc32_8_lt; [exact Hk|reflexivity]].
  rewrite crc32_8_chain; [reflexivity|exact Hk| |reflexivity].
  apply is_bytes_app; split; assumption.
Qed.

Lemma crc_body_lt : forall k m v, is_bytes k -> is_bytes m -> is_bytes v -> crc_body k m v < 2 ^ 32.
Proof.
  intros. rewrite crc_body_concat by assumption. apply crc32_8_lt; [|reflexivity].
  repeat (apply is_bytes_app; split); assumption.
Qed.

(** Decoding of the length header. *)
Lemma len_meta_fields : forall r, wf_rec r -> comp_ok comp decomp r ->
  get_be (firstn 8 (len_meta comp r)) = r_seq r /\
  get_be (firstn 4 (skipn 8 (len_meta comp r))) = blen (r_key r) /\
  get_be (firstn 4 (skipn 12 (len_meta comp r))) = blen (r_meta r) /\
  get_be (firstn 4 (skipn 16 (len_meta comp r))) = blen (value_ref comp r) /\
  (compressed comp r <> None -> get_be (firstn 4 (skipn 20 (len_meta comp r))) = blen (r_val r)).
Proof.
  intros r Hw Hc. pose proof (value_ref_bytes r Hw Hc) as [_ Hvl].
  destruct Hw as (Hs & _ & _ & _ & _ & Hk & Hm & Hv).
  assert (S12 : forall l, skipn 12 l = skipn 4 (skipn 8 (l : list N))) by (intros; rewrite skipn_skipn; reflexivity).
  assert (S16 : forall l, skipn 16 l = skipn 4 (skipn 12 (l : list N))) by (intros; rewrite skipn_skipn; reflexivity).
  assert (S20 : forall l, skipn 20 l = skipn 4 (skipn 16 (l : list N))) by (intros; rewrite skipn_skipn; reflexivity).
  unfold len_meta.
  rewrite S20, S16, S12.
  rewrite (firstn_app_exact (u64 (r_seq r))) by apply u64_len.
  rewrite (skipn_app_exact (u64 (r_seq r))) by apply u64_len.
  rewrite (firstn_app_exact (u32 (blen (r_key r)))) by apply u32_len.
  rewrite (skipn_app_exact (u32 (blen (r_key r)))) by apply u32_len.
  rewrite (firstn_app_exact (u32 (blen (r_meta r)))) by apply u32_len.
  rewrite (skipn_app_exact (u32 (blen (r_meta r)))) by apply u32_len.
  rewrite u64_get, !u32_get by assumption.
  repeat split.
  - unfold value_ref. destruct (compressed comp r) as [c|] eqn:E.
    + rewrite firstn_app_exact by apply u32_len. apply u32_get.
      unfold value_ref in Hvl. rewrite E in Hvl. exact Hvl.
    + cbn [app]. rewrite firstn_all2 by (rewrite u32_len; lia). apply u32_get. exact Hv.
  - intros Hn. destruct (compressed comp r) as [c|] eqn:E; [|congruence].
    rewrite skipn_app_exact by apply u32_len.
    rewrite firstn_all2 by (rewrite u32_len; lia). apply u32_get. exact Hv.
Qed.

(** The header after the flags. *)
Definition hdr_tail (r : rec) : list N :=
  u32 (crc32_8 (len_meta comp r) 0) ++ len_meta comp r ++
  u32 (crc_body (r_key r) (r_meta r) (value_ref comp r)).

Lemma hdr_tail_len : forall r, wf_rec r -> blen (hdr_tail r) = 4 + len_meta_size (stored_flags comp r) + 4.
Proof. intros r Hw. unfold hdr_tail. rewrite !blen_app, !blen_u32, len_meta_len by exact Hw. lia. Qed.

Lemma enc_rec_split : forall r, enc_rec comp r = u64 (stored_flags comp r) ++ hdr_tail r ++ enc_data comp r.
Proof. intros r. unfold enc_rec, enc_header, hdr_tail. now rewrite <- !app_assoc. Qed.

(** Reading a record whose header is intact: the outcome as a function of the bytes that
    follow the header. *)
Lemma load_record_hdr : forall r body, wf_rec r -> comp_ok comp decomp r ->
  load_record decomp (stored_flags comp r) (hdr_tail r ++ body) =
  (if blen body <? blen (r_key r) + blen (r_meta r) + blen (value_ref comp r)
   then RFail L_INCOMPLETE
   else
     let key := firstn (length (r_key r)) body in
     let meta := firstn (length (r_meta r)) (skipn (length (r_key r)) body) in
     let raw := firstn (length (value_ref comp r)) (skipn (length (r_meta r)) (skipn (length (r_key r)) body)) in
     let rest := skipn (length (value_ref comp r)) (skipn (length (r_meta r)) (skipn (length (r_key r)) body)) in
     match
       (if blen (value_ref comp r) =? 0 then inr []
        else if flags_compressed (stored_flags comp r) then
          match decomp with
          | None => inl L_INVALID_CONFIG
          | Some d => if blen (d raw) =? blen (r_val r) then inr (d raw) else inl L_DECOMP_FAILED
          end
        else inr raw : lstatus + list N)
     with
     | inl s => RFail s
     | inr v =>
        if crc_body (r_key r) (r_meta r) (value_ref comp r) =? crc_body key meta raw
        then ROk (mkRec (r_seq r) (r_type r) key meta v) rest
        else RFail L_CHECKSUM
     end).
Proof.
  intros r body Hw Hc.
  destruct (stored_flags_id r Hw) as (_ & _ & Ht & Hfc).
  destruct (len_meta_fields r Hw Hc) as (F1 & F2 & F3 & F4 & F5).
  destruct (value_ref_bytes r Hw Hc) as [Hvb Hvl].
  pose proof Hw as (Hs & _ & Hkb & Hmb & _ & Hk & Hm & Hv).
  unfold load_record.
  assert (HL : available (4 + len_meta_size (stored_flags comp r) + 4) (hdr_tail r ++ body) = true).
  { unfold available. rewrite blen_app, hdr_tail_len by exact Hw. lia. }
  rewrite HL. cbn [negb].
  unfold hdr_tail. rewrite <- !app_assoc.
  rewrite (firstn_app_exact (u32 _)) by apply u32_len.
  rewrite (skipn_app_exact (u32 (crc32_8 (len_meta comp r) 0))) by apply u32_len.
  assert (HLN : length (len_meta comp r) = N.to_nat (len_meta_size (stored_flags comp r))).
  { rewrite <- len_meta_len by exact Hw. unfold blen. now rewrite Nat2N.id. }
  rewrite (firstn_app_exact (len_meta comp r)) by exact HLN.
  rewrite (skipn_app_exact (len_meta comp r)) by exact HLN.
  rewrite (firstn_app_exact (u32 _)) by apply u32_len.
  rewrite (skipn_app_exact (u32 _)) by apply u32_len.
  rewrite u32_get by (apply crc32_8_lt; [apply len_meta_bytes|reflexivity]).
  rewrite N.eqb_refl. cbn [negb].
  rewrite F1, F2, F3, F4. rewrite u32_get by (apply crc_body_lt; assumption).
  unfold available.
  assert (TN : forall l : list N, N.to_nat (blen l) = length l) by (intros; unfold blen; apply Nat2N.id).
  rewrite !TN.
  destruct (N.ltb_spec (blen body) (blen (r_key r) + blen (r_meta r) + blen (value_ref comp r))) as [Hlt|Hge].
  - (* too short *)
    destruct (N.leb_spec (blen (r_key r)) (blen body)) as [H1|H1]; cbn [negb]; [|reflexivity].
    assert (B1 : blen (skipn (length (r_key r)) body) = blen body - blen (r_key r)).
    { unfold blen. rewrite skipn_length. lia. }
    rewrite B1.
    destruct (N.leb_spec (blen (r_meta r)) (blen body - blen (r_key r))) as [H2|H2]; cbn [negb]; [|reflexivity].
    assert (B2 : blen (skipn (length (r_meta r)) (skipn (length (r_key r)) body)) = blen body - blen (r_key r) - blen (r_meta r)).
    { unfold blen in *. rewrite !skipn_length. lia. }
    rewrite B2.
    destruct (N.leb_spec (blen (value_ref comp r)) (blen body - blen (r_key r) - blen (r_meta r))) as [H3|H3]; cbn [negb]; [lia|reflexivity].
  - destruct (N.leb_spec (blen (r_key r)) (blen body)) as [H1|H1]; cbn [negb]; [|lia].
    assert (B1 : blen (skipn (length (r_key r)) body) = blen body - blen (r_key r)).
    { unfold blen. rewrite skipn_length. lia. }
    rewrite B1.
    destruct (N.leb_spec (blen (r_meta r)) (blen body - blen (r_key r))) as [H2|H2]; cbn [negb]; [|lia].
    assert (B2 : blen (skipn (length (r_meta r)) (skipn (length (r_key r)) body)) = blen body - blen (r_key r) - blen (r_meta r)).
    { unfold blen in *. rewrite !skipn_length. lia. }
    rewrite B2.
    destruct (N.leb_spec (blen (value_ref comp r)) (blen body - blen (r_key r) - blen (r_meta r))) as [H3|H3]; cbn [negb]; [|lia].
    rewrite Ht.
    assert (Hosz : flags_compressed (stored_flags comp r) = true ->
      get_be (firstn 4 (skipn 20 (len_meta comp r))) = blen (r_val r)).
    { rewrite Hfc. intros Hx. apply F5. destruct (compressed comp r); [discriminate|discriminate]. }
    fold (crc_body (firstn (length (r_key r)) body)
            (firstn (length (r_meta r)) (skipn (length (r_key r)) body))
            (firstn (length (value_ref comp r)) (skipn (length (r_meta r)) (skipn (length (r_key r)) body)))).
    destruct (blen (value_ref comp r) =? 0).
    + destruct (_ =? crc_body (firstn _ body) _ _); reflexivity.
    + destruct (flags_compressed (stored_flags comp r)) eqn:EF.
      * destruct decomp as [d|]; [|reflexivity]. rewrite (Hosz eq_refl).
        destruct (blen (d _) =? blen (r_val r)); [|reflexivity].
        destruct (_ =? crc_body (firstn _ body) _ _); reflexivity.
      * destruct (_ =? crc_body (firstn _ body) _ _); reflexivity.
Qed.

Lemma rec_eta : forall r, mkRec (r_seq r) (r_type r) (r_key r) (r_meta r) (r_val r) = r.
Proof. intros []; reflexivity. Qed.

(** C01: one record. *)
Theorem load_record_enc : forall r rest, wf_rec r -> comp_ok comp decomp r ->
  load_record decomp (stored_flags comp r) (hdr_tail r ++ enc_data comp r ++ rest) = ROk r rest.
Proof.
  intros r rest Hw Hc. rewrite load_record_hdr by assumption.
  assert (HB : blen (enc_data comp r ++ rest) <? blen (r_key r) + blen (r_meta r) + blen (value_ref comp r) = false).
  { unfold enc_data. rewrite !blen_app. lia. }
  rewrite HB. unfold enc_data. rewrite <- !app_assoc. cbv zeta.
  rewrite (firstn_app_exact (r_key r)), (skipn_app_exact (r_key r)) by reflexivity.
  rewrite (firstn_app_exact (r_meta r)), (skipn_app_exact (r_meta r)) by reflexivity.
  rewrite (firstn_app_exact (value_ref comp r)), (skipn_app_exact (value_ref comp r)) by reflexivity.
  rewrite N.eqb_refl.
  destruct (stored_flags_id r Hw) as (_ & _ & _ & Hfc). rewrite Hfc.
  unfold value_ref. destruct (compressed comp r) as [c|] eqn:E.
  - destruct (N.eqb_spec (blen c) 0) as [Hz|Hz].
    + exfalso. apply (compressed_nonempty r c E). destruct c; [reflexivity|]. unfold blen in Hz. cbn in Hz. lia.
    + destruct (Hc c E) as (_ & _ & d & -> & Hd). rewrite Hd, N.eqb_refl, rec_eta. reflexivity.
  - destruct (N.eqb_spec (blen (r_val r)) 0) as [Hz|Hz].
    + assert (Hv : r_val r = []) by (destruct (r_val r); [reflexivity|unfold blen in Hz; cbn in Hz; lia]).
      rewrite <- Hv at 1. now rewrite rec_eta.
    + now rewrite rec_eta.
Qed.

(** Truncated record. *)
Lemma load_record_trunc : forall r n, wf_rec r -> comp_ok comp decomp r ->
  (n < length (hdr_tail r ++ enc_data comp r))%nat ->
  load_record decomp (stored_flags comp r) (firstn n (hdr_tail r ++ enc_data comp r)) = RFail L_INCOMPLETE.
Proof.
  intros r n Hw Hc Hn. pose proof (hdr_tail_len r Hw) as HL.
  destruct (Nat.lt_ge_cases n (length (hdr_tail r))) as [Hlt|Hge].
  - unfold load_record.
    assert (Hav : available (4 + len_meta_size (stored_flags comp r) + 4) (firstn n (hdr_tail r ++ enc_data comp r)) = false).
    { unfold available. rewrite <- HL. unfold blen. rewrite firstn_length. lia. }
    now rewrite Hav.
  - rewrite firstn_app. rewrite (firstn_all2 (hdr_tail r)) by exact Hge.
    rewrite load_record_hdr by assumption.
    rewrite app_length in Hn.
    assert (HB : blen (firstn (n - length (hdr_tail r)) (enc_data comp r)) <? blen (r_key r) + blen (r_meta r) + blen (value_ref comp r) = true).
    { unfold blen. rewrite firstn_length. unfold enc_data in *. rewrite !app_length in *. lia. }
    now rewrite HB.
Qed.

(** *** The loading loop *)

Lemma skipn_le : forall (n : nat) (l : list N), (length (skipn n l) <= length l)%nat.
Proof. intros n l. rewrite skipn_length. lia. Qed.

Lemma load_record_rest_shorter : forall flags l r rest,
  load_record decomp flags l = ROk r rest -> (length rest <= length l)%nat.
Proof.
  intros flags l r rest H. unfold load_record in H.
  repeat match type of H with
         | (if ?c then _ else _) = _ => destruct c; [discriminate|]
         | (let x := ?v in _) = _ => cbv zeta in H
         end.
  match type of H with match ?v with _ => _ end = _ => destruct v; [discriminate|] end.
  match type of H with (if ?c then _ else _) = _ => destruct c; [discriminate|] end.
  match type of H with ROk _ ?x = _ => assert (Hx : x = rest) by congruence end. rewrite <- Hx.
  repeat match goal with
         | |- (length (skipn ?n ?x) <= _)%nat => apply (Nat.le_trans _ (length x)); [exact (skipn_le n x)|]
         end. apply le_n.
Qed.

Lemma load_record_no_fuel : forall flags l, load_record decomp flags l <> RFail L_FUEL.
Proof.
  intros flags l H. unfold load_record in H.
  repeat match type of H with
         | (if ?c then RFail _ else _) = _ => destruct c; [discriminate|]
         | (let x := ?v in _) = _ => cbv zeta in H
         end.
  match type of H with match ?v with _ => _ end = _ => destruct v as [s|] eqn:E end.
  - injection H as ->.
    destruct (_ =? 0) in E; [discriminate|]. destruct (flags_compressed flags); [|discriminate].
    destruct decomp; [|discriminate]. destruct (_ =? _) in E; discriminate.
  - match type of H with (if ?c then _ else _) = _ => destruct c; discriminate end.
Qed.

Lemma load_loop_fuel : forall fuel l acc, (length l <= fuel)%nat ->
  snd (load_loop decomp fuel l acc) <> L_FUEL.
Proof.
  induction fuel as [|fuel IH]; intros l acc Hl.
  - destruct l; [cbn; discriminate|cbn in Hl; lia].
  - destruct l as [|x l0]; [cbn; discriminate|]. cbn [load_loop].
    destruct (negb (available 8 (x :: l0))); [cbn; discriminate|].
    assert (H8 : (length (skipn 8 (x :: l0)) <= fuel)%nat) by (rewrite skipn_length; cbn [length] in *; lia).
    destruct (identify_type _).
    + destruct (load_record decomp _ _) as [s|r rest] eqn:E.
      * cbn [snd]. intros ->. exact (load_record_no_fuel _ _ E).
      * apply IH. apply load_record_rest_shorter in E. lia.
    + destruct (negb _); [cbn; discriminate|]. apply IH. eapply Nat.le_trans; [apply skipn_le|exact H8].
    + destruct (negb _); [cbn; discriminate|]. apply IH. eapply Nat.le_trans; [apply skipn_le|exact H8].
    + cbn; discriminate.
    + cbn; discriminate.
Qed.

Theorem load_body_terminates : forall l, snd (load_body decomp l) <> L_FUEL.
Proof. intros l. apply load_loop_fuel. apply le_n. Qed.

Lemma flush_flags_id : identify_type flush_marker_flags = FT_FLUSH_MARKER. Proof. reflexivity. Qed.
Lemma chk_flags_id : identify_type checkpoint_flags = FT_CHECKPOINT. Proof. reflexivity. Qed.

Lemma enc_entry_len : forall e, (8 <= length (enc_entry comp e))%nat.
Proof.
  intros [r|s|s]; cbn [enc_entry].
  - rewrite enc_rec_split, app_length, u64_len. lia.
  - unfold enc_flush. rewrite app_length, !u64_len. lia.
  - unfold enc_chk. rewrite app_length, !u64_len. lia.
Qed.

Lemma available_app8 : forall v l, available 8 (u64 v ++ l) = true.
Proof. intros. unfold available. rewrite blen_app, blen_u64. lia. Qed.

Lemma load_loop_step : forall e rest fuel acc, wf_entry comp decomp e ->
  load_loop decomp (S fuel) (enc_entry comp e ++ rest) acc = load_loop decomp fuel rest (e :: acc).
Proof.
  intros e rest fuel acc Hw.
  assert (Hne : exists x l, enc_entry comp e ++ rest = x :: l).
  { pose proof (enc_entry_len e) as H. destruct (enc_entry comp e); [cbn in H; lia|]. cbn [app]. eauto. }
  destruct Hne as (x & l & Hx).
  cbn [load_loop]. rewrite Hx. rewrite <- Hx. clear x l Hx.
  destruct e as [r|s|s]; cbn [enc_entry wf_entry] in *.
  - destruct Hw as [Hw Hc]. rewrite enc_rec_split, <- !app_assoc.
    rewrite available_app8. cbn [negb].
    rewrite firstn_app_exact, skipn_app_exact by apply u64_len.
    destruct (stored_flags_id r Hw) as (Hid & Hlt & _).
    rewrite u64_get by exact Hlt. rewrite Hid.
    rewrite load_record_enc by assumption. reflexivity.
  - unfold enc_flush. rewrite <- !app_assoc. rewrite available_app8. cbn [negb].
    rewrite firstn_app_exact, skipn_app_exact by apply u64_len.
    rewrite u64_get by reflexivity. rewrite flush_flags_id.
    rewrite available_app8. cbn [negb].
    rewrite firstn_app_exact, skipn_app_exact by apply u64_len.
    now rewrite u64_get.
  - unfold enc_chk. rewrite <- !app_assoc. rewrite available_app8. cbn [negb].
    rewrite firstn_app_exact, skipn_app_exact by apply u64_len.
    rewrite u64_get by reflexivity. rewrite chk_flags_id.
    rewrite available_app8. cbn [negb].
    rewrite firstn_app_exact, skipn_app_exact by apply u64_len.
    now rewrite u64_get.
Qed.

Lemma load_loop_entries : forall es rest fuel acc, Forall (wf_entry comp decomp) es -> (length es <= fuel)%nat ->
  load_loop decomp fuel (enc_entries comp es ++ rest) acc =
  load_loop decomp (fuel - length es) rest (rev es ++ acc).
Proof.
  induction es as [|e es IH]; intros rest fuel acc Hw Hf.
  - cbn. now rewrite Nat.sub_0_r.
  - inversion Hw as [|? ? He Hes]; subst. cbn [length] in Hf.
    destruct fuel as [|fuel]; [lia|].
    cbn [enc_entries flat_map]. fold (enc_entries comp es). rewrite <- app_assoc.
    rewrite load_loop_step by exact He. rewrite IH by (assumption || lia).
    cbn [length rev]. rewrite <- app_assoc. reflexivity.
Qed.

Lemma entries_fuel : forall es, (length es <= length (enc_entries comp es))%nat.
Proof.
  induction es as [|e es IH]; [cbn; lia|].
  cbn [enc_entries flat_map length]. fold (enc_entries comp es). rewrite app_length.
  pose proof (enc_entry_len e). lia.
Qed.

(** A single truncated entry. *)
Lemma load_loop_trunc1 : forall e n fuel acc, wf_entry comp decomp e ->
  (0 < n < length (enc_entry comp e))%nat -> (0 < fuel)%nat ->
  load_loop decomp fuel (firstn n (enc_entry comp e)) acc = (rev acc, L_INCOMPLETE).
Proof.
  intros e n fuel acc Hw Hn Hf.
  destruct fuel as [|fuel]; [lia|].
  assert (Hlen : length (firstn n (enc_entry comp e)) = n) by (rewrite firstn_length; lia).
  destruct (firstn n (enc_entry comp e)) as [|x l] eqn:E; [cbn in Hlen; lia|].
  cbn [load_loop]. rewrite <- E. clear x l E Hlen.
  destruct (Nat.lt_ge_cases n 8) as [H8|H8].
  - assert (Hav : available 8 (firstn n (enc_entry comp e)) = false).
    { unfold available, blen. rewrite firstn_length. lia. }
    now rewrite Hav.
  - assert (Hav : available 8 (firstn n (enc_entry comp e)) = true).
    { unfold available, blen. rewrite firstn_length. lia. }
    rewrite Hav. cbn [negb].
    assert (Hsplit : forall v t, enc_entry comp e = u64 v ++ t ->
      firstn 8 (firstn n (enc_entry comp e)) = u64 v /\
      skipn 8 (firstn n (enc_entry comp e)) = firstn (n - 8) t).
    { intros v t ->. rewrite firstn_firstn. rewrite Nat.min_l by exact H8.
      rewrite firstn_app_exact by apply u64_len. split; [reflexivity|].
      rewrite firstn_app, u64_len. rewrite (firstn_all2 (u64 v)) by (rewrite u64_len; exact H8).
      apply skipn_app_exact, u64_len. }
    destruct e as [r|s|s]; cbn [enc_entry wf_entry] in *.
    + destruct Hw as [Hw Hc]. destruct (Hsplit _ _ (enc_rec_split r)) as [E1 E2]. rewrite E1, E2.
      destruct (stored_flags_id r Hw) as (Hid & Hlt & _).
      rewrite u64_get by exact Hlt. rewrite Hid.
      rewrite load_record_trunc; [reflexivity|exact Hw|exact Hc|].
      rewrite enc_rec_split, app_length, u64_len in Hn. lia.
    + destruct (Hsplit _ _ eq_refl) as [E1 E2]. rewrite E1, E2.
      rewrite u64_get by reflexivity. rewrite flush_flags_id.
      assert (Hav2 : available 8 (firstn (n - 8) (u64 s)) = false).
      { unfold available, blen. rewrite firstn_length, u64_len.
        unfold enc_flush in Hn. rewrite app_length, !u64_len in Hn. lia. }
      now rewrite Hav2.
    + destruct (Hsplit _ _ eq_refl) as [E1 E2]. rewrite E1, E2.
      rewrite u64_get by reflexivity. rewrite chk_flags_id.
      assert (Hav2 : available 8 (firstn (n - 8) (u64 s)) = false).
      { unfold available, blen. rewrite firstn_length, u64_len.
        unfold enc_chk in Hn. rewrite app_length, !u64_len in Hn. lia. }
      now rewrite Hav2.
Qed.

(** Full body round trip, possibly followed by padding. *)
Theorem load_body_enc : forall es, Forall (wf_entry comp decomp) es ->
  load_body decomp (enc_entries comp es) = (es, L_OK).
Proof.
  intros es Hw. unfold load_body.
  rewrite <- (app_nil_r (enc_entries comp es)) at 2.
  rewrite load_loop_entries by (exact Hw || apply entries_fuel).
  replace (load_loop decomp (length (enc_entries comp es) - length es) [] (rev es ++ []))
    with (rev (rev es ++ []), L_OK) by (destruct (length (enc_entries comp es) - length es)%nat; reflexivity).
  now rewrite app_nil_r, rev_involutive.
Qed.

Theorem load_body_padding : forall es pad, Forall (wf_entry comp decomp) es ->
  load_body decomp (enc_entries comp es ++ u64 PADDING_HEADER_FLAG ++ pad) = (es, L_OK).
Proof.
  intros es pad Hw. unfold load_body.
  rewrite load_loop_entries.
  2: exact Hw. 2: rewrite app_length; pose proof (entries_fuel es); lia.
  rewrite !app_length, u64_len.
  destruct (length (enc_entries comp es) + (8 + length pad) - length es)%nat as [|fuel] eqn:E.
  { pose proof (entries_fuel es). lia. }
  assert (Hne : exists x l, u64 PADDING_HEADER_FLAG ++ pad = x :: l) by (cbn; eauto).
  destruct Hne as (x & l & Hx). cbn [load_loop]. rewrite Hx, <- Hx.
  rewrite available_app8. cbn [negb]. rewrite firstn_app_exact by apply u64_len.
  rewrite u64_get by reflexivity.
  change (identify_type PADDING_HEADER_FLAG) with FT_PADDING.
  now rewrite app_nil_r, rev_involutive.
Qed.

(** Position of a truncation point among the entries. *)
Lemma entries_split : forall es n, (n <= length (enc_entries comp es))%nat ->
  exists k, (k <= length es)%nat /\
    (length (enc_entries comp (firstn k es)) <= n)%nat /\
    (k = length es /\ n = length (enc_entries comp es) \/
     exists e, nth_error es k = Some e /\
       (n - length (enc_entries comp (firstn k es)) < length (enc_entry comp e))%nat /\
       firstn n (enc_entries comp es) =
         enc_entries comp (firstn k es) ++ firstn (n - length (enc_entries comp (firstn k es))) (enc_entry comp e)).
Proof.
  induction es as [|e es IH]; intros n Hn.
  - exists 0%nat. cbn in *. split; [lia|]. split; [lia|]. left. split; lia.
  - cbn [enc_entries flat_map] in Hn. fold (enc_entries comp es) in Hn. rewrite app_length in Hn.
    destruct (Nat.lt_ge_cases n (length (enc_entry comp e))) as [Hlt|Hge].
    + exists 0%nat. cbn [firstn enc_entries flat_map length app]. split; [lia|]. split; [lia|].
      right. exists e. split; [reflexivity|]. rewrite Nat.sub_0_r. split; [exact Hlt|].
      rewrite firstn_app. replace (n - length (enc_entry comp e))%nat with 0%nat by lia.
      now rewrite firstn_O, app_nil_r.
    + destruct (IH (n - length (enc_entry comp e))%nat ltac:(lia)) as (k & Hk & Hle & Hcase).
      exists (S k). cbn [firstn length enc_entries flat_map].
      fold (enc_entries comp (firstn k es)) (enc_entries comp es). rewrite !app_length.
      split; [lia|]. split; [lia|].
      destruct Hcase as [[-> Hn2]|(e' & Hnth & Hlt & Hfn)].
      * left. split; lia.
      * right. exists e'. split; [exact Hnth|].
        replace (n - (length (enc_entry comp e) + length (enc_entries comp (firstn k es))))%nat
          with (n - length (enc_entry comp e) - length (enc_entries comp (firstn k es)))%nat by lia.
        split; [exact Hlt|].
        rewrite firstn_app, (firstn_all2 (enc_entry comp e)) by exact Hge.
        rewrite Hfn. now rewrite app_assoc.
Qed.

(** C02 on the body. *)
Theorem load_body_trunc : forall es n, Forall (wf_entry comp decomp) es ->
  (n <= length (enc_entries comp es))%nat ->
  exists k, (k <= length es)%nat /\
    fst (load_body decomp (firstn n (enc_entries comp es))) = firstn k es /\
    (length (enc_entries comp (firstn k es)) <= n)%nat /\
    (forall k', (k < k' <= length es)%nat -> (n < length (enc_entries comp (firstn k' es)))%nat) /\
    snd (load_body decomp (firstn n (enc_entries comp es))) =
      (if (n =? length (enc_entries comp (firstn k es)))%nat then L_OK else L_INCOMPLETE).
Proof.
  intros es n Hw Hn. destruct (entries_split es n Hn) as (k & Hk & Hle & Hcase).
  exists k. split; [exact Hk|].
  assert (Hmono : forall k', (k < k' <= length es)%nat ->
    forall e, nth_error es k = Some e ->
    (length (enc_entries comp (firstn k es)) + length (enc_entry comp e) <= length (enc_entries comp (firstn k' es)))%nat).
  { intros k' Hk' e He.
    assert (E : firstn k' es = firstn k es ++ e :: firstn (k' - S k) (skipn (S k) es)).
    { clear -Hk' He. revert k k' Hk' He. induction es as [|a es IH]; intros k k' Hk' He.
      - destruct k; discriminate.
      - destruct k as [|k]; cbn in He.
        + injection He as ->. destruct k' as [|k']; [lia|]. cbn. f_equal. f_equal. lia.
        + destruct k' as [|k']; [lia|]. cbn [firstn app skipn]. f_equal.
          rewrite (IH k k' ltac:(cbn in Hk'; lia) He). f_equal. }
    rewrite E. unfold enc_entries at 2. rewrite flat_map_app. fold (enc_entries comp (firstn k es)).
    cbn [flat_map]. rewrite !app_length. lia. }
  destruct Hcase as [[-> ->]|(e & Hnth & Hlt & Hfn)].
  - rewrite !firstn_all. rewrite load_body_enc by exact Hw. cbn [fst snd].
    rewrite Nat.eqb_refl. repeat split; try lia.
  - assert (Hwk : Forall (wf_entry comp decomp) (firstn k es)).
    { rewrite <- (firstn_skipn k es) in Hw. now apply Forall_app in Hw as [? _]. }
    assert (Hwe : wf_entry comp decomp e).
    { apply nth_error_In in Hnth. rewrite Forall_forall in Hw. now apply Hw. }
    rewrite Hfn. unfold load_body.
    set (m := (n - length (enc_entries comp (firstn k es)))%nat) in *.
    assert (Hlk : length (firstn k es) = k) by (rewrite firstn_length; lia).
    rewrite load_loop_entries.
    2: exact Hwk.
    2:{ rewrite app_length. pose proof (entries_fuel (firstn k es)). lia. }
    rewrite app_nil_r, app_length. 
    destruct (Nat.eq_dec m 0) as [Hm0|Hm0].
    + rewrite Hm0, firstn_O. 
      replace (load_loop decomp (length (enc_entries comp (firstn k es)) + length (@nil N) - length (firstn k es)) [] (rev (firstn k es)))
        with (rev (rev (firstn k es)), L_OK) by (destruct (length (enc_entries comp (firstn k es)) + length (@nil N) - length (firstn k es))%nat; reflexivity).
      rewrite rev_involutive. cbn [fst snd]. 
      assert (n = length (enc_entries comp (firstn k es))) as -> by lia.
      rewrite Nat.eqb_refl. repeat split; try lia.
      intros k' Hk'. specialize (Hmono k' Hk' e Hnth). pose proof (enc_entry_len e). lia.
    + rewrite load_loop_trunc1.
      * rewrite rev_involutive. cbn [fst snd].
        destruct (Nat.eqb_spec n (length (enc_entries comp (firstn k es)))); [lia|].
        repeat split; try lia. intros k' Hk'. specialize (Hmono k' Hk' e Hnth). lia.
      * exact Hwe.
      * lia.
      * rewrite firstn_length. pose proof (entries_fuel (firstn k es)). lia.
Qed.

(** *** Whole files *)

Lemma skip_header_app : forall l, skip_header (log_header ++ l) = l.
Proof. intros l. unfold skip_header, log_header. rewrite <- app_assoc.
  assert (A8 : available 8 (LOGFILE_FOOTER ++ u32 LOGFILE_VERSION ++ l) = true)
    by (unfold available; rewrite !blen_app, blen_u32; change (blen LOGFILE_FOOTER) with 8; lia).
  rewrite A8. rewrite skipn_app_exact by reflexivity.
  assert (A4 : available 4 (u32 LOGFILE_VERSION ++ l) = true)
    by (unfold available; rewrite !blen_app, blen_u32; lia).
  rewrite A4. now rewrite skipn_app_exact by apply u32_len.
Qed.

Theorem load_file_enc : forall es, Forall (wf_entry comp decomp) es ->
  load_file decomp (log_file_bytes comp es) = (es, L_OK).
Proof.
  intros es Hw. unfold load_file, log_file_bytes.
  replace (log_header ++ enc_entries comp es) with (170 :: tl (log_header ++ enc_entries comp es)) at 1 by reflexivity.
  rewrite skip_header_app. now apply load_body_enc.
Qed.

Theorem load_file_trunc : forall es n, Forall (wf_entry comp decomp) es ->
  (n <= length (log_file_bytes comp es))%nat ->
  exists k, (k <= length es)%nat /\
    fst (load_file decomp (firstn n (log_file_bytes comp es))) = firstn k es /\
    ((k = 0)%nat \/ (length (log_file_bytes comp (firstn k es)) <= n)%nat) /\
    (forall k', (k < k' <= length es)%nat -> (n < length (log_file_bytes comp (firstn k' es)))%nat) /\
    (snd (load_file decomp (firstn n (log_file_bytes comp es))) = L_OK \/
     snd (load_file decomp (firstn n (log_file_bytes comp es))) = L_INCOMPLETE \/
     (n = 0%nat /\ snd (load_file decomp (firstn n (log_file_bytes comp es))) = L_FILE_NOT_EXIST)).
Proof.
  intros es n Hw Hn. unfold log_file_bytes in *.
  assert (H12 : length log_header = 12%nat) by reflexivity.
  destruct (Nat.lt_ge_cases n 12) as [Hlt|Hge].
  - exists 0%nat. split; [lia|].
    assert (Hbig : forall k', (0 < k' <= length es)%nat -> (n < length (log_header ++ enc_entries comp (firstn k' es)))%nat).
    { intros k' Hk'. rewrite app_length, H12. lia. }
    assert (E : firstn n (log_header ++ enc_entries comp es) = firstn n log_header).
    { rewrite firstn_app, H12. replace (n - 12)%nat with 0%nat by lia. now rewrite firstn_O, app_nil_r. }
    rewrite E.
    do 12 (destruct n as [|n]; [split; [reflexivity|]; split; [left; reflexivity|]; split; [exact Hbig|];
      cbn; first [left; reflexivity | right; left; reflexivity | right; right; split; reflexivity]|]).
    lia.
  - assert (E : firstn n (log_header ++ enc_entries comp es) = log_header ++ firstn (n - 12) (enc_entries comp es)).
    { rewrite firstn_app, H12, (firstn_all2 log_header) by (rewrite H12; lia). reflexivity. }
    rewrite app_length, H12 in Hn.
    destruct (load_body_trunc es (n - 12) Hw ltac:(lia)) as (k & Hk & Hf & Hle & Hmax & Hs).
    exists k. split; [exact Hk|].
    assert (EL : load_file decomp (firstn n (log_header ++ enc_entries comp es)) = load_body decomp (firstn (n - 12) (enc_entries comp es))).
    { rewrite E. unfold load_file.
      replace (log_header ++ firstn (n - 12) (enc_entries comp es)) with (170 :: tl (log_header ++ firstn (n - 12) (enc_entries comp es))) at 1 by reflexivity.
      now rewrite skip_header_app. }
    rewrite EL. split; [exact Hf|]. split; [right; rewrite app_length, H12; lia|].
    split; [intros k' Hk'; specialize (Hmax k' Hk'); rewrite app_length, H12; lia|].
    rewrite Hs. destruct (_ =? _)%nat; auto.
Qed.

End P.
