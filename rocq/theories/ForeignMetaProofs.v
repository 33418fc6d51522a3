(** Proofs for C138. *)
From Verif Require Import Base FileModel LogFormatModel MetaModel MetaProofs ForeignMetaSpec.
From Coq Require Import Lia.
Local Open Scope N_scope.

Lemma getU_in : forall w s, ms_bad s = false -> (ms_pos s + w <= length (ms_buf s))%nat ->
  exists v, ms_getU w s = (v, {| ms_buf := ms_buf s; ms_pos := (ms_pos s + w)%nat; ms_bad := false |}).
Proof.
  intros w s B L. unfold ms_getU. destruct (length (ms_buf s) <? ms_pos s + w)%nat eqn:E; [apply Nat.ltb_lt in E; lia|].
  rewrite B. eexists. reflexivity.
Qed.
Lemma get_bad : forall n s, ms_bad (snd (ms_get n s)) = ms_bad s.
Proof. intros n s. unfold ms_get. destruct (_ <? _)%nat; reflexivity. Qed.

Lemma whole_ok : forall raw, whole raw -> snd (raw_to_user raw imeta0 [] false) = false.
Proof.
  intros raw [H|[H|(user & m & -> & A & B)]].
  - destruct raw as [|b l]; [reflexivity|]. unfold raw_to_user.
    unfold ms_getU at 1. cbn [ms_buf ms_pos ms_bad Nat.add length].
    destruct (S (length l) <? 1)%nat eqn:E; [apply Nat.ltb_lt in E; lia|]. clear E. cbn [skipn firstn].
    assert (G : get_be [b] = b) by (unfold get_be; cbn; lia). rewrite G.
    destruct (b =? 1) eqn:E; [apply N.eqb_eq in E; subst b; exfalso; exact (H l eq_refl)|]. reflexivity.
  - destruct raw as [|b l]; [reflexivity|]. unfold raw_to_user. set (r := b :: l) in *.
    destruct (getU_in 1 {| ms_buf := r; ms_pos := 0; ms_bad := false |} eq_refl) as (i & ->); [cbn [ms_buf ms_pos]; lia|].
    cbn [ms_buf ms_pos]. destruct (negb (i =? 1)); [reflexivity|].
    destruct (getU_in 4 {| ms_buf := r; ms_pos := 0 + 1; ms_bad := false |} eq_refl) as (v & ->); [cbn [ms_buf ms_pos]; lia|].
    cbn [ms_buf ms_pos].
    destruct (getU_in 4 {| ms_buf := r; ms_pos := 0 + 1 + 4; ms_bad := false |} eq_refl) as (fl & ->); [cbn [ms_buf ms_pos]; lia|].
    cbn [ms_buf ms_pos im_compressed im_tombstone im_origlen].
    destruct (getU_in 4 {| ms_buf := r; ms_pos := 0 + 1 + 4 + 4; ms_bad := false |} eq_refl) as (o & O); [cbn [ms_buf ms_pos]; lia|].
    cbn [ms_buf ms_pos] in O. rewrite O.
    destruct (if negb (N.land fl TF_COMPRESSED =? 0) then true else im_compressed imeta0); cbn [ms_buf ms_pos ms_bad];
      (destruct (length r <=? _)%nat; [reflexivity|]);
      match goal with |- context[ms_get ?n ?s] => pose proof (get_bad n s) as G; destruct (ms_get n s) as [d s5] end;
      cbn [snd ms_bad] in *; exact G.
  - rewrite (raw_round_trip user m (conj A B)). reflexivity.
Qed.

Lemma rec_status : forall decomp d b, snd (tf_get_rec decomp d b false) = snd (raw_to_user (d_meta d) imeta0 [] false).
Proof.
  intros decomp d b. unfold tf_get_rec. destruct (raw_to_user (d_meta d) imeta0 [] false) as [[im um] bad].
  destruct um; [destruct (decompress_value decomp (d_body d) im)|]; reflexivity.
Qed.

Lemma independent : forall decomp ds, Forall (fun d => whole (d_meta d)) ds ->
  tf_get_all decomp ds false = (map (alone decomp) ds, false).
Proof.
  intros decomp ds H. induction H as [|d ds W H IH]; [reflexivity|]. cbn [tf_get_all map].
  unfold alone at 1. pose proof (rec_status decomp d false) as R. rewrite (whole_ok _ W) in R.
  destruct (tf_get_rec decomp d false false) as [r b]. cbn [snd fst] in *. subst b. rewrite IH. reflexivity.
Qed.
