From Verif Require Import Base FileModel.
Local Open Scope N_scope.

(** Sequential writing: the file begins with everything written so far. *)
Lemma pwrite_prefix : forall f pre d, firstn (length pre) f = pre ->
  firstn (length (pre ++ d)) (pwrite f (length pre) d) = pre ++ d.
Proof.
  intros f pre d H. unfold pwrite. destruct d as [|b d].
  - rewrite app_nil_r. exact H.
  - rewrite H. assert (Hl : (length pre <= length f)%nat).
    { rewrite <- H at 1. rewrite firstn_length. lia. }
    replace (length pre - length f)%nat with 0%nat by lia. change (repeat 0 0) with (@nil N).
    rewrite app_nil_l, app_assoc. apply firstn_app_exact. reflexivity.
Qed.

Lemma pwrite_length : forall f off d, d <> [] -> length (pwrite f off d) = Nat.max (length f) (off + length d).
Proof.
  intros f off d Hd. unfold pwrite. destruct d as [|b d]; [congruence|].
  rewrite !app_length, firstn_length, repeat_length, skipn_length. lia.
Qed.

Lemma ftruncate_prefix : forall f pre, firstn (length pre) f = pre -> ftruncate f (length pre) = pre.
Proof.
  intros f pre H. unfold ftruncate. rewrite H.
  assert (Hl : (length pre <= length f)%nat) by (rewrite <- H at 1; rewrite firstn_length; lia).
  replace (length pre - length f)%nat with 0%nat by lia. cbn [repeat]. apply app_nil_r.
Qed.

(** Invariant of a sequential file-mode writer started at 0. *)
Definition wrote (pre : list N) (s : fser) : Prop :=
  fs_pos s = length pre /\ firstn (length pre) (fs_file s) = pre.

Lemma wrote_nil : forall f, wrote [] {| fs_file := f; fs_pos := 0 |}.
Proof. intros f; split; reflexivity. Qed.
Lemma wrote_put : forall pre s d, wrote pre s -> wrote (pre ++ d) (fs_put d s).
Proof.
  intros pre s d [Hp Hf]. split; cbn [fs_put fs_pos fs_file].
  - rewrite app_length. lia.
  - rewrite Hp. now apply pwrite_prefix.
Qed.

(** Reading what is there. *)
Lemma pread_app : forall a b c n, length b = n -> pread (a ++ b ++ c) (length a) n = Some b.
Proof.
  intros a b c n <-. unfold pread. rewrite !app_length.
  destruct (Nat.leb_spec (length a + length b) (length a + (length b + length c))); [|lia].
  rewrite skipn_app_exact by reflexivity. now rewrite firstn_app_exact.
Qed.

Lemma fs_getU_app : forall a v c w, v < 256 ^ N.of_nat w ->
  fs_getU w {| fs_file := a ++ put_be w v ++ c; fs_pos := length a |} =
  (v, {| fs_file := a ++ put_be w v ++ c; fs_pos := length (a ++ put_be w v) |}).
Proof.
  intros a v c w Hv. unfold fs_getU. cbn [fs_file fs_pos].
  rewrite pread_app by apply put_be_length. rewrite get_put_be_small by assumption.
  f_equal. f_equal. rewrite app_length, put_be_length. reflexivity.
Qed.

Lemma fs_get_app : forall a b c n, length b = n ->
  fs_get n {| fs_file := a ++ b ++ c; fs_pos := length a |} =
  (Some b, {| fs_file := a ++ b ++ c; fs_pos := length (a ++ b) |}).
Proof.
  intros a b c n <-. unfold fs_get. cbn [fs_file fs_pos]. rewrite pread_app by reflexivity.
  f_equal. f_equal. rewrite app_length. reflexivity.
Qed.

(** Memory mode. *)
Lemma ms_getU_app : forall a v c w, v < 256 ^ N.of_nat w ->
  ms_getU w {| ms_buf := a ++ put_be w v ++ c; ms_pos := length a; ms_bad := false |} =
  (v, {| ms_buf := a ++ put_be w v ++ c; ms_pos := length (a ++ put_be w v); ms_bad := false |}).
Proof.
  intros a v c w Hv. unfold ms_getU. cbn [ms_buf ms_pos ms_bad].
  rewrite !app_length, put_be_length.
  destruct (Nat.ltb_spec (length a + (w + length c)) (length a + w)); [lia|].
  rewrite skipn_app_exact by reflexivity. rewrite firstn_app_exact by apply put_be_length.
  rewrite get_put_be_small by assumption. reflexivity.
Qed.

Lemma ms_get_app : forall a b c n bad, length b = n ->
  ms_get n {| ms_buf := a ++ b ++ c; ms_pos := length a; ms_bad := bad |} =
  (Some b, {| ms_buf := a ++ b ++ c; ms_pos := length (a ++ b); ms_bad := bad |}).
Proof.
  intros a b c n bad <-. unfold ms_get. cbn [ms_buf ms_pos ms_bad]. rewrite !app_length.
  destruct (Nat.ltb_spec (length a + (length b + length c)) (length a + length b)); [lia|].
  rewrite skipn_app_exact by reflexivity. now rewrite firstn_app_exact.
Qed.
