(** Damaged flag words, and damage that touches two neighbouring fields of a record. *)
From Verif Require Import Base Crc32Model Crc32Spec Crc32Proofs LogFormatModel LogWriterModel LogSpec LogFormatProofs LogDamageProofs.
From Coq Require Import ZifyBool ZifyNat ZifyN.
Local Open Scope N_scope.

Section P.
Variable comp : rec -> option (list N).
Variable decomp : option (list N -> list N).

(** What is read depends on the flags of a record only through the type and the compression bit. *)
Lemma load_record_flags : forall fl fl' l, flags_compressed fl' = flags_compressed fl ->
  load_record decomp fl' l = match load_record decomp fl l with
    | RFail s => RFail s
    | ROk r rest => ROk (mkRec (r_seq r) (type_of_flags fl') (r_key r) (r_meta r) (r_val r)) rest
    end.
Proof.
  intros fl fl' l E. unfold load_record, len_meta_size. rewrite E. cbv zeta.
  repeat match goal with
  | |- (if negb (available ?a ?b) then _ else _) = _ => destruct (negb (available a b)); [reflexivity|]
  | |- (if negb (?a =? ?b) then _ else _) = _ => destruct (negb (a =? b)); [reflexivity|]
  end.
  match goal with |- match ?v with inl _ => _ | inr _ => _ end = _ => destruct v; [reflexivity|] end.
  match goal with |- (if ?c then _ else _) = _ => destruct c; reflexivity end.
Qed.

Lemma available8 : forall fl l, available 8 (u64 fl ++ l) = true.
Proof. intros fl l. unfold available, blen. rewrite app_length, u64_len. lia. Qed.

(** The file after intact entries [es1]: one step of the loop. *)
Lemma load_file_next : forall es1 fl l, Forall (wf_entry comp decomp) es1 -> fl < 2 ^ 64 ->
  exists fuel, (length l <= fuel)%nat /\ load_file decomp (log_file_bytes comp es1 ++ u64 fl ++ l) =
  match identify_type fl with
  | FT_RECORD => match load_record decomp fl l with RFail s => (es1, s) | ROk r rest => load_loop decomp fuel rest (ERec r :: rev es1) end
  | FT_FLUSH_MARKER => if negb (available 8 l) then (es1, L_INCOMPLETE) else load_loop decomp fuel (skipn 8 l) (EFlush (get_be (firstn 8 l)) :: rev es1)
  | FT_CHECKPOINT => if negb (available 8 l) then (es1, L_INCOMPLETE) else load_loop decomp fuel (skipn 8 l) (EChk (get_be (firstn 8 l)) :: rev es1)
  | FT_PADDING => (es1, L_OK)
  | FT_UNKNOWN => (es1, L_UNKNOWN_FLAG)
  end.
Proof.
  intros es1 fl l Hw Hfl. exists (length (enc_entries comp es1) + (8 + length l) - length es1 - 1)%nat.
  assert (F := entries_fuel comp es1). split; [lia|].
  unfold load_file, log_file_bytes. rewrite <- app_assoc.
  replace (log_header ++ enc_entries comp es1 ++ u64 fl ++ l) with (170 :: tl (log_header ++ enc_entries comp es1 ++ u64 fl ++ l)) at 1 by reflexivity.
  rewrite skip_header_app. unfold load_body. rewrite load_loop_entries; [|exact Hw|rewrite app_length; lia].
  rewrite !app_length, u64_len. destruct (length (enc_entries comp es1) + (8 + length l) - length es1)%nat as [|fuel] eqn:E; [lia|].
  replace (S fuel - 1)%nat with fuel by lia.
  assert (Hne : exists x y, u64 fl ++ l = x :: y) by (cbn; eauto). destruct Hne as (x & y & Hx). cbn [load_loop]. rewrite Hx, <- Hx.
  rewrite available8. cbn [negb]. rewrite firstn_app_exact, skipn_app_exact by apply u64_len. rewrite u64_get by exact Hfl.
  rewrite app_nil_r, rev_involutive. reflexivity.
Qed.

(** A flag word whose first byte is none of the known ones. *)
Theorem damaged_flags_unknown : forall es1 fl l, Forall (wf_entry comp decomp) es1 -> fl < 2 ^ 64 ->
  ~ In (N.shiftr fl 56) [0; 1; 2; 254] -> load_file decomp (log_file_bytes comp es1 ++ u64 fl ++ l) = (es1, L_UNKNOWN_FLAG).
Proof.
  intros es1 fl l Hw Hfl Hn. destruct (load_file_next es1 fl l Hw Hfl) as (fuel & _ & ->). unfold identify_type.
  destruct (N.eqb_spec fl PADDING_HEADER_FLAG) as [->|_]; [exfalso; apply Hn; cbn; auto|].
  destruct (N.eqb_spec (N.shiftr fl 56) 0) as [E|_]; [exfalso; apply Hn; rewrite E; cbn; auto|].
  destruct (N.eqb_spec (N.shiftr fl 56) 1) as [E|_]; [exfalso; apply Hn; rewrite E; cbn; auto|].
  destruct (N.eqb_spec (N.shiftr fl 56) 2) as [E|_]; [exfalso; apply Hn; rewrite E; cbn; auto|].
  destruct (N.eqb_spec (N.shiftr fl 56) 254) as [E|_]; [exfalso; apply Hn; rewrite E; cbn; auto 6|]. reflexivity.
Qed.

Lemma compressed_bit : forall fl, flags_compressed fl = N.testbit fl 4.
Proof.
  intros fl. unfold flags_compressed, FLAG_COMPRESSED. destruct (N.testbit fl 4) eqn:T.
  - destruct (N.eqb_spec (N.land fl 16) 0) as [E|_]; [|reflexivity]. apply (f_equal (fun x => N.testbit x 4)) in E. rewrite N.land_spec, T in E. discriminate.
  - destruct (N.eqb_spec (N.land fl 16) 0) as [_|E]; [reflexivity|]. exfalso. apply E. apply N.bits_inj. intros n. rewrite N.land_spec, N.bits_0.
    change 16 with (2 ^ 4). rewrite N.pow2_bits_eqb. destruct (N.eqb_spec 4 n) as [<-|_]; [rewrite T; reflexivity|apply andb_false_r].
Qed.

(** A flag word that still says "record" and keeps the compression bit: nothing but the type can change. *)
Theorem damaged_flags_type : forall es1 r fl es2, Forall (wf_entry comp decomp) es1 -> wf_rec r -> comp_ok comp decomp r ->
  Forall (wf_entry comp decomp) es2 -> fl < 2 ^ 64 -> N.shiftr fl 56 = 0 -> N.testbit fl 4 = N.testbit (stored_flags comp r) 4 ->
  load_file decomp (log_file_bytes comp es1 ++ u64 fl ++ f_lencrc comp r ++ f_lens comp r ++ f_bodycrc comp r ++ f_body comp r ++ enc_entries comp es2) =
  (es1 ++ ERec (mkRec (r_seq r) (N.land fl 15) (r_key r) (r_meta r) (r_val r)) :: es2, L_OK).
Proof.
  intros es1 r fl es2 H1 Hr Hc H2 Hfl Hs Hb.
  destruct (load_file_next es1 fl (f_lencrc comp r ++ f_lens comp r ++ f_bodycrc comp r ++ f_body comp r ++ enc_entries comp es2) H1 Hfl) as (fuel & Hf & ->).
  unfold identify_type. destruct (N.eqb_spec fl PADDING_HEADER_FLAG) as [->|_]; [discriminate Hs|]. rewrite Hs. cbn [N.eqb].
  rewrite (load_record_flags (stored_flags comp r) fl) by (rewrite !compressed_bit; exact Hb).
  replace (f_lencrc comp r ++ f_lens comp r ++ f_bodycrc comp r ++ f_body comp r ++ enc_entries comp es2) with (hdr_tail comp r ++ enc_data comp r ++ enc_entries comp es2)
    by (unfold hdr_tail, f_lencrc, f_lens, f_bodycrc, f_body; rewrite <- !app_assoc; reflexivity).
  rewrite load_record_enc by assumption.
  rewrite <- (app_nil_r (enc_entries comp es2)). assert (F := entries_fuel comp es2).
  assert (L : (length (enc_entries comp es2) <= fuel)%nat) by (rewrite !app_length in Hf; lia).
  rewrite load_loop_entries; [|exact H2|lia].
  assert (E : forall n acc, load_loop decomp n [] acc = (rev acc, L_OK)) by (intros [|n] acc; reflexivity). rewrite E.
  rewrite rev_app_distr, rev_involutive. cbn [rev]. rewrite rev_involutive, <- app_assoc. reflexivity.
Qed.

(** Lengths and body checksum together: the checksum of the lengths notices. *)
Theorem damaged_lengths_and_checksum : forall es1 r lens' c' rest, Forall (wf_entry comp decomp) es1 -> wf_rec r -> is_bytes lens' -> length c' = 4%nat ->
  burst32 (f_lens comp r) lens' ->
  load_file decomp (log_file_bytes comp es1 ++ f_flags comp r ++ f_lencrc comp r ++ lens' ++ c' ++ f_body comp r ++ rest) = (es1, L_CHECKSUM).
Proof.
  intros es1 r lens' c' rest Hes Hw Hb Hc Hbu.
  destruct (stored_flags_id comp r Hw) as (Hid & Hlt & _).
  apply load_file_fail; try assumption. apply load_record_len_mismatch; try assumption.
  - apply u32_len.
  - now apply burst32_length.
  - rewrite app_length, Hc. lia.
  - unfold f_lencrc. rewrite u32_get by (apply crc32_8_lt; [apply len_meta_bytes|reflexivity]).
    intros E. symmetry in E. revert E. apply crc32_burst32; [apply len_meta_bytes|exact Hb|reflexivity|exact Hbu].
Qed.

End P.

(** *** A burst over two neighbouring fields leaves the first alone or damages it by a burst *)

Lemma bits_of_app : forall a b, bits_of (a ++ b) = bits_of a ++ bits_of b.
Proof. intros a b. unfold bits_of. apply flat_map_app. Qed.

Lemma bits_of_inj : forall a b, is_bytes a -> is_bytes b -> bits_of a = bits_of b -> a = b.
Proof.
  induction a as [|x a IH]; intros [|y b] Ha Hb E; try reflexivity; try discriminate.
  inversion Ha as [|? ? Hx Ha']; inversion Hb as [|? ? Hy Hb']; subst. unfold bits_of in E. cbn [flat_map] in E. fold (bits_of a) (bits_of b) in E.
  assert (L : forall z, length (byte_bits z) = 8%nat) by reflexivity.
  assert (E1 := f_equal (firstn 8) E). assert (E2 := f_equal (skipn 8) E).
  rewrite !firstn_app_exact in E1 by apply L. rewrite !skipn_app_exact in E2 by apply L.
  f_equal; [|apply IH; assumption]. rewrite <- (byte_bits_val x Hx), <- (byte_bits_val y Hy), E1. reflexivity.
Qed.

Lemma bxor_app : forall a b c d, length a = length c -> bxor (a ++ b) (c ++ d) = bxor a c ++ bxor b d.
Proof. induction a as [|x a IH]; intros b [|y c] d H; try discriminate; [reflexivity|]. cbn [app bxor]. f_equal. apply IH. now injection H. Qed.

Lemma bxor_zero : forall a, bxor a (repeat false (length a)) = a.
Proof. induction a as [|x a IH]; [reflexivity|]. cbn [length repeat bxor]. rewrite IH. destruct x; reflexivity. Qed.

Lemma firstn_pattern : forall n i e j, exists i' e' j', firstn n (repeat false i ++ e ++ repeat false j) = repeat false i' ++ e' ++ repeat false j' /\
  (length e' <= length e)%nat.
Proof.
  intros n i e j. exists (Nat.min n i), (firstn (n - i) e), (Nat.min (n - i - length e) j).
  assert (F : forall k m, firstn k (repeat false m) = repeat false (Nat.min k m)).
  { induction k as [|k IH]; intros [|m]; try reflexivity. cbn. f_equal. apply IH. }
  rewrite !firstn_app, !F, repeat_length. split; [reflexivity|]. rewrite firstn_length. lia.
Qed.

Lemma skipn_pattern : forall n i e j, exists i' e' j', skipn n (repeat false i ++ e ++ repeat false j) = repeat false i' ++ e' ++ repeat false j' /\
  (length e' <= length e)%nat.
Proof.
  intros n i e j. exists (i - n)%nat, (skipn (n - i) e), (j - (n - i - length e))%nat.
  assert (F : forall k m, skipn k (repeat false m) = repeat false (m - k)).
  { induction k as [|k IH]; intros [|m]; try reflexivity. cbn. apply IH. }
  rewrite !skipn_app, !F, repeat_length. split; [reflexivity|]. rewrite skipn_length. lia.
Qed.

(** A pattern of at most 32 bits: nothing at all, or a burst. *)
Lemma pattern_cases : forall a b i e j, is_bytes a -> is_bytes b -> bits_of b = bxor (bits_of a) (repeat false i ++ e ++ repeat false j) ->
  length (bits_of a) = (i + length e + j)%nat -> (length e <= 32)%nat -> b = a \/ burst32 a b.
Proof.
  intros a b i e j Ha Hb E L H. destruct (list_eq_dec Bool.bool_dec e (repeat false (length e))) as [Z|Z].
  - left. apply bits_of_inj; [exact Hb|exact Ha|]. rewrite E, Z, <- !repeat_app. rewrite <- (bxor_zero (bits_of a)) at 2. f_equal. f_equal. lia.
  - right. exists i, e, j. repeat split; assumption.
Qed.

Lemma burst32_split : forall a b x, is_bytes a -> is_bytes b -> is_bytes x -> burst32 (a ++ b) x ->
  exists a' b', x = a' ++ b' /\ length a' = length a /\ length b' = length b /\ is_bytes a' /\ is_bytes b' /\
    (a' = a \/ burst32 a a') /\ (b' = b \/ burst32 b b') /\ (a' = a -> burst32 b b').
Proof.
  intros a b x Ha Hb Hx Bu. assert (Lx := burst32_length _ _ Bu). rewrite app_length in Lx.
  destruct Bu as (i & e & j & E & L & S & Z).
  exists (firstn (length a) x), (skipn (length a) x). rewrite firstn_skipn.
  assert (La : length (firstn (length a) x) = length a) by (rewrite firstn_length; lia).
  assert (Lb : length (skipn (length a) x) = length b) by (rewrite skipn_length; lia).
  assert (Hx' := Hx). rewrite <- (firstn_skipn (length a) x) in Hx'. apply is_bytes_app in Hx' as [Hx1 Hx2].
  set (p := repeat false i ++ e ++ repeat false j) in *.
  assert (Lp : length p = (8 * (length a + length b))%nat) by (unfold p; rewrite !app_length, !repeat_length; rewrite bits_of_length, app_length in L; lia).
  assert (Ep : p = firstn (8 * length a) p ++ skipn (8 * length a) p) by (symmetry; apply firstn_skipn).
  assert (Lp1 : length (firstn (8 * length a) p) = (8 * length a)%nat) by (rewrite firstn_length; lia).
  rewrite <- (firstn_skipn (length a) x), !bits_of_app in E at 1. rewrite Ep in E. rewrite bxor_app in E by (rewrite bits_of_length; lia).
  assert (E1 := f_equal (firstn (8 * length a)) E). assert (E2 := f_equal (skipn (8 * length a)) E).
  assert (M1 : length (bits_of (firstn (length a) x)) = (8 * length a)%nat) by (rewrite bits_of_length; lia).
  assert (M2 : length (bxor (bits_of a) (firstn (8 * length a) p)) = (8 * length a)%nat) by (rewrite bxor_length; rewrite bits_of_length; lia).
  rewrite (firstn_app_exact _ _ _ M1), (firstn_app_exact _ _ _ M2) in E1. rewrite (skipn_app_exact _ _ _ M1), (skipn_app_exact _ _ _ M2) in E2.
  destruct (firstn_pattern (8 * length a) i e j) as (i1 & e1 & j1 & P1 & Q1). fold p in P1. rewrite P1 in E1.
  destruct (skipn_pattern (8 * length a) i e j) as (i2 & e2 & j2 & P2 & Q2). fold p in P2. rewrite P2 in E2.
  assert (C1 : firstn (length a) x = a \/ burst32 a (firstn (length a) x)).
  { apply (pattern_cases a _ i1 e1 j1); try assumption; [|lia]. rewrite bits_of_length. rewrite P1, !app_length, !repeat_length in Lp1. lia. }
  assert (Lp2 : length (skipn (8 * length a) p) = (8 * length b)%nat) by (rewrite skipn_length; lia).
  assert (C2 : skipn (length a) x = b \/ burst32 b (skipn (length a) x)).
  { apply (pattern_cases b _ i2 e2 j2); try assumption; [|lia]. rewrite bits_of_length. rewrite P2, !app_length, !repeat_length in Lp2. lia. }
  do 4 (split; [first [reflexivity|assumption]|]). split; [assumption|]. split; [exact C1|]. split; [exact C2|].
  intros A. destruct C2 as [B|B]; [|exact B]. exfalso. apply Z.
  (* nothing changed at all, so the pattern was empty *)
  assert (X : bits_of (a ++ b) = bxor (bits_of (a ++ b)) p).
  { rewrite bits_of_app, Ep, bxor_app by (rewrite bits_of_length; lia). rewrite <- A, <- B at 1. rewrite E1, E2, <- P1, <- P2. reflexivity. }
  assert (Y : forall u v, length u = length v -> u = bxor u v -> v = repeat false (length v)).
  { induction u as [|c u IH]; intros [|d v] Hl Hu; try discriminate; [reflexivity|]. cbn [bxor] in Hu. injection Hu as Hc Hu. cbn [length repeat]. f_equal.
    - destruct c, d; try reflexivity; discriminate.
    - apply IH; [now injection Hl|exact Hu]. }
  apply Y in X; [|rewrite bits_of_length, app_length; lia].
  assert (K : forall k, In k e -> k = false).
  { intros k Hk. apply (repeat_spec (length p)). rewrite <- X. unfold p. apply in_or_app. right. apply in_or_app. left. exact Hk. }
  clear -K. induction e as [|k e IH]; [reflexivity|]. cbn [length repeat]. f_equal; [apply K; left; reflexivity|apply IH; intros k' Hk; apply K; right; exact Hk].
Qed.

Section Q.
Variable comp : rec -> option (list N).
Variable decomp : option (list N -> list N).

Lemma burst_ne : forall a b, is_bytes a -> is_bytes b -> burst32 a b -> b <> a.
Proof. intros a b Ha Hb H ->. apply (crc32_burst32 a a 0 Ha Ha) in H; [apply H; reflexivity|reflexivity]. Qed.

Theorem damaged_lengths_onward : forall es1 r x rest, Forall (wf_entry comp decomp) es1 -> wf_rec r -> comp_ok comp decomp r -> is_bytes x ->
  burst32 (f_lens comp r ++ f_bodycrc comp r) x ->
  let res := load_file decomp (log_file_bytes comp es1 ++ f_flags comp r ++ f_lencrc comp r ++ x ++ f_body comp r ++ rest) in
  fst res = es1 /\ (snd res = L_CHECKSUM \/ snd res = L_DECOMP_FAILED).
Proof.
  intros es1 r x rest H1 Hr Hc Hx Bu. cbv zeta.
  destruct (burst32_split _ _ x (len_meta_bytes comp r) (is_bytes_u32 _) Hx Bu) as (a' & b' & -> & La & Lb & Ha & Hb & [-> |A] & _ & B).
  - specialize (B eq_refl). assert (L4 : length b' = 4%nat) by (rewrite Lb; apply u32_len).
    rewrite <- !app_assoc. apply (damaged_body_checksum comp decomp es1 r b' rest H1 Hr Hc Hb L4). apply (burst_ne _ _ (is_bytes_u32 _) Hb B).
  - rewrite <- !app_assoc. rewrite (damaged_lengths_and_checksum comp decomp es1 r a' b' rest H1 Hr Ha); [split; [reflexivity|left; reflexivity]|rewrite Lb; apply u32_len|exact A].
Qed.

End Q.
