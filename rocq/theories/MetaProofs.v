From Verif Require Import Base FileModel FileProofs LogFormatModel MetaModel.
Local Open Scope N_scope.

Definition wf_imeta (m : imeta) : Prop :=
  im_origlen m < 2 ^ 32 /\ (im_compressed m = false -> im_origlen m = 0).

Lemma tf_flags_lt : forall m, tf_flags m < 2 ^ 32.
Proof. intros [t c n]; destruct t, c; vm_compute; reflexivity. Qed.
Lemma tf_flags_tomb : forall m, negb (N.land (tf_flags m) TF_TOMBSTONE =? 0) = im_tombstone m.
Proof. intros [t c n]; destruct t, c; reflexivity. Qed.
Lemma tf_flags_comp : forall m, negb (N.land (tf_flags m) TF_COMPRESSED =? 0) = im_compressed m.
Proof. intros [t c n]; destruct t, c; reflexivity. Qed.

Lemma getU_at : forall pre v c w s, s = {| ms_buf := pre ++ put_be w v ++ c; ms_pos := length pre; ms_bad := false |} ->
  v < 256 ^ N.of_nat w ->
  ms_getU w s = (v, {| ms_buf := pre ++ put_be w v ++ c; ms_pos := length (pre ++ put_be w v); ms_bad := false |}).
Proof. intros pre v c w s -> Hv. now apply ms_getU_app. Qed.

(** The three header reads. *)
Lemma header_reads : forall user m,
  let raw := user_to_raw user m in
  exists s1 s2 s3,
    ms_getU 1 {| ms_buf := raw; ms_pos := 0; ms_bad := false |} = (1, s1) /\
    ms_getU 4 s1 = (0, s2) /\ ms_getU 4 s2 = (tf_flags m, s3) /\
    s3 = {| ms_buf := raw; ms_pos := 9; ms_bad := false |}.
Proof.
  intros user m raw. set (rest := (if im_compressed m then u32 (im_origlen m) else []) ++ user).
  assert (Hraw : raw = [] ++ put_be 1 1 ++ u32 0 ++ u32 (tf_flags m) ++ rest) by reflexivity.
  eexists _, _, _. split.
  { rewrite Hraw. apply (getU_at [] 1 (u32 0 ++ u32 (tf_flags m) ++ rest) 1); [reflexivity|vm_compute; reflexivity]. }
  split.
  { apply (getU_at [1] 0 (u32 (tf_flags m) ++ rest) 4); [reflexivity|vm_compute; reflexivity]. }
  split.
  { apply (getU_at ([1] ++ u32 0) (tf_flags m) rest 4).
    - reflexivity.
    - exact (tf_flags_lt m). }
  { f_equal. }
Qed.

Lemma raw_cons : forall user m, exists l, user_to_raw user m = 1 :: l.
Proof. intros user m; eexists; reflexivity. Qed.

Lemma raw_len : forall user m, length (user_to_raw user m) = (imeta_len m + length user)%nat.
Proof.
  intros user m. unfold user_to_raw, imeta_len. rewrite !app_length, !u32_len.
  destruct (im_compressed m); rewrite ?u32_len; cbn [length]; lia.
Qed.

Lemma raw_round_trip : forall user m, wf_imeta m ->
  raw_to_user (user_to_raw user m) imeta0 [] false = (m, Some user, false).
Proof.
  intros user m [Hlen Hz]. unfold raw_to_user.
  destruct (raw_cons user m) as [l Hl]. rewrite Hl at 1.
  destruct (header_reads user m) as [s1 [s2 [s3 [E1 [E2 [E3 E4]]]]]].
  rewrite E1. cbn [negb N.eqb]. change (1 =? 1) with true. cbn [negb].
  rewrite E2, E3, tf_flags_tomb, tf_flags_comp.
  pose proof (raw_len user m) as HL. unfold imeta_len in HL.
  destruct m as [t c n]. cbn [im_tombstone im_compressed im_origlen imeta0] in *.
  assert (Ht : (if t then true else false) = t) by (destruct t; reflexivity).
  assert (Hc : (if c then true else false) = c) by (destruct c; reflexivity).
  rewrite Ht, Hc.
  destruct c; subst s3.
  - set (m := {| im_tombstone := t; im_compressed := true; im_origlen := n |}) in *.
    assert (Hraw : user_to_raw user m = ([1] ++ u32 0 ++ u32 (tf_flags m)) ++ put_be 4 n ++ user) by reflexivity.
    assert (Hrd : ms_getU 4 {| ms_buf := user_to_raw user m; ms_pos := 9; ms_bad := false |} =
                  (n, {| ms_buf := user_to_raw user m; ms_pos := 13; ms_bad := false |})).
    { rewrite Hraw. apply (getU_at ([1] ++ u32 0 ++ u32 (tf_flags m)) n user 4); [reflexivity|exact Hlen]. }
    rewrite Hrd. cbn [ms_pos ms_bad]. rewrite HL.
    destruct (Nat.leb_spec (1 + 4 + 4 + 4 + length user) 13) as [Hle|Hgt].
    + destruct user; [reflexivity|cbn [length] in Hle; lia].
    + replace (1 + 4 + 4 + 4 + length user - 13)%nat with (length user) by lia.
      assert (Hraw' : user_to_raw user m = ([1] ++ u32 0 ++ u32 (tf_flags m) ++ u32 n) ++ user ++ []).
      { rewrite app_nil_r. unfold user_to_raw. cbn [im_compressed m]. now rewrite <- !app_assoc. }
      rewrite Hraw'.
      change 13%nat with (length ([1] ++ u32 0 ++ u32 (tf_flags m) ++ u32 n)).
      rewrite ms_get_app by reflexivity. reflexivity.
  - specialize (Hz eq_refl). subst n.
    set (m := {| im_tombstone := t; im_compressed := false; im_origlen := 0 |}) in *.
    cbn [ms_pos ms_bad]. rewrite HL.
    destruct (Nat.leb_spec (1 + 4 + 4 + 0 + length user) 9) as [Hle|Hgt].
    + destruct user; [reflexivity|cbn [length] in Hle; lia].
    + replace (1 + 4 + 4 + 0 + length user - 9)%nat with (length user) by lia.
      assert (Hraw' : user_to_raw user m = ([1] ++ u32 0 ++ u32 (tf_flags m)) ++ user ++ []).
      { rewrite app_nil_r. unfold user_to_raw. cbn [im_compressed m]. now rewrite <- !app_assoc. }
      rewrite Hraw'.
      change 9%nat with (length ([1] ++ u32 0 ++ u32 (tf_flags m))).
      rewrite ms_get_app by reflexivity. reflexivity.
Qed.

Lemma read_imeta_round_trip : forall user m, wf_imeta m ->
  read_imeta (user_to_raw user m) imeta0 false = (m, false).
Proof.
  intros user m [Hlen Hz]. unfold read_imeta.
  destruct (raw_cons user m) as [l Hl]. rewrite Hl at 1.
  destruct (header_reads user m) as [s1 [s2 [s3 [E1 [E2 [E3 E4]]]]]].
  rewrite E1. change (1 =? 1) with true. cbn [negb].
  rewrite E2, E3, tf_flags_tomb, tf_flags_comp.
  destruct m as [t c n]. cbn [im_tombstone im_compressed im_origlen imeta0] in *.
  assert (Ht : (if t then true else false) = t) by (destruct t; reflexivity).
  assert (Hc : (if c then true else false) = c) by (destruct c; reflexivity).
  rewrite Ht, Hc. destruct c; subst s3.
  - set (m := {| im_tombstone := t; im_compressed := true; im_origlen := n |}) in *.
    assert (Hraw : user_to_raw user m = ([1] ++ u32 0 ++ u32 (tf_flags m)) ++ put_be 4 n ++ user) by reflexivity.
    rewrite Hraw.
    rewrite (getU_at ([1] ++ u32 0 ++ u32 (tf_flags m)) n user 4) by (reflexivity || exact Hlen). reflexivity.
  - specialize (Hz eq_refl). now subst n.
Qed.

Lemma extract_flags_round_trip : forall user m,
  exists fl, tf_extract_flags (user_to_raw user m) false = (fl, false) /\
    tf_is_tombstone fl = im_tombstone m /\ tf_is_compressed fl = im_compressed m.
Proof.
  intros user m. unfold tf_extract_flags.
  destruct (header_reads user m) as [s1 [s2 [s3 [E1 [E2 [E3 E4]]]]]].
  rewrite E1, E2, E3, E4. exists (tf_flags m). split; [reflexivity|].
  split; [apply tf_flags_tomb|apply tf_flags_comp].
Qed.

Section Callbacks.
Variable comp : rec -> option (list N).
Variable decomp : option (list N -> N -> option (list N)).

(** Contract of the callbacks on a record: decompressing the compressor's output into a buffer
    of the original length gives the value back. *)
Definition tf_comp_ok (r : rec) : Prop :=
  forall c, comp r = Some c -> c <> [] -> r_type r <> DEL ->
    exists f, decomp = Some f /\ f c (blen (r_val r)) = Some (r_val r).

Definition tf_rec_ok (r : rec) : Prop :=
  (r_type r = INS \/ r_type r = DEL) /\ blen (r_val r) < 2 ^ 32 /\ tf_comp_ok r.

Lemma tf_round_trip : forall r, tf_rec_ok r ->
  tf_get_rec decomp (tf_set_doc comp r) false false = (Some r, false).
Proof.
  intros r [Hty [Hlen Hok]]. unfold tf_get_rec, tf_set_doc, tf_compressed.
  cbn [d_meta d_body d_key d_seq].
  destruct (N.eqb_spec (r_type r) DEL) as [Hd|Hd].
  - rewrite raw_round_trip by (split; [reflexivity|reflexivity]).
    unfold decompress_value. cbn [im_compressed im_tombstone negb orb]. rewrite <- Hd. now destruct r.
  - assert (Hi : r_type r = INS) by tauto.
    destruct (comp r) as [[|c0 c]|] eqn:Hc.
    + rewrite raw_round_trip by (split; [reflexivity|reflexivity]).
      unfold decompress_value. cbn [im_compressed im_tombstone negb orb]. rewrite <- Hi. now destruct r.
    + rewrite raw_round_trip by (split; [exact Hlen|discriminate]).
      unfold decompress_value. cbn [im_compressed im_tombstone im_origlen negb orb].
      destruct (Hok (c0 :: c) Hc) as [f [-> Hf]]; [discriminate|assumption|].
      rewrite Hf, N.eqb_refl. rewrite <- Hi. now destruct r.
    + rewrite raw_round_trip by (split; [reflexivity|reflexivity]).
      unfold decompress_value. cbn [im_compressed im_tombstone negb orb]. rewrite <- Hi. now destruct r.
Qed.

(** Any number of documents read one after the other, threading the sticky status. *)
Fixpoint tf_get_all (ds : list doc) (bad : bool) : list (option rec) * bool :=
  match ds with
  | [] => ([], bad)
  | d :: ds' => let (r, b) := tf_get_rec decomp d false bad in
                let (rs, b') := tf_get_all ds' b in (r :: rs, b')
  end.

Lemma tf_round_trip_all : forall rs, Forall tf_rec_ok rs ->
  tf_get_all (map (tf_set_doc comp) rs) false = (map Some rs, false).
Proof.
  induction rs as [|r rs IH]; intros H; [reflexivity|].
  inversion H as [|? ? Hr Hrs]; subst. cbn [map tf_get_all].
  rewrite tf_round_trip by assumption. now rewrite IH.
Qed.
End Callbacks.
