(** Common vocabulary: bytes, byte strings, fixed-width big-endian integers.

    A byte is an [N] below 256; a byte string is a [list N].  [is_bytes] is the
    well-formedness predicate every C++ [uint8_t] buffer satisfies. *)
From Coq Require Export NArith ZArith List Lia Bool Arith.
From Coq Require Import ZifyBool ZifyNat ZifyN.
Export ListNotations.
Local Open Scope N_scope.

Ltac Zify.zify_post_hook ::= Z.div_mod_to_equations.

#[global] Arguments N.add : simpl never.
#[global] Arguments N.sub : simpl never.
#[global] Arguments N.mul : simpl never.
#[global] Arguments N.div : simpl never.
#[global] Arguments N.modulo : simpl never.
#[global] Arguments N.pow : simpl never.
#[global] Arguments N.land : simpl never.
#[global] Arguments N.lor : simpl never.
#[global] Arguments N.lxor : simpl never.
#[global] Arguments N.shiftl : simpl never.
#[global] Arguments N.shiftr : simpl never.
#[global] Arguments N.eqb : simpl never.
#[global] Arguments N.leb : simpl never.
#[global] Arguments N.ltb : simpl never.

Definition is_byte (b : N) : Prop := b < 256.
Definition is_bytes (l : list N) : Prop := Forall is_byte l.

(** Length of a byte string as an [N]. *)
Definition blen (l : list N) : N := N.of_nat (length l).

(** src/endian_encode.h:86-117, [_enc]/[_dec] on a little-endian machine: the value is
    byte-reversed, then stored; hence the stored bytes are big-endian.  [put_be w v] is
    the [w]-byte big-endian image of [v] (the truncation to [w] bytes is the implicit
    conversion to uint64_t/uint32_t/uint16_t of the argument).  The faithful model of the
    macros themselves, and the proof that they give this image, are in EndianProofs.v. *)
Fixpoint put_be (w : nat) (v : N) : list N :=
  match w with
  | O => []
  | S w' => (v / 256 ^ N.of_nat w') mod 256 :: put_be w' v
  end.

(** Inverse: the value of a big-endian byte string. *)
Definition get_be (l : list N) : N := fold_left (fun acc b => acc * 256 + b) l 0.

Definition u64 (v : N) : list N := put_be 8 v.
Definition u32 (v : N) : list N := put_be 4 v.

(** src/internal_helper.h:206, [NOT_INITIALIZED] = (uint64_t)-1. *)
Definition NIL : N := 2 ^ 64 - 1.
Definition valid_number (n : N) : bool := negb (n =? NIL).

Lemma put_be_length : forall w v, length (put_be w v) = w.
Proof. induction w as [|w IH]; intros v; cbn [put_be length]; [reflexivity|]; now rewrite IH. Qed.

Lemma put_be_bytes : forall w v, is_bytes (put_be w v).
Proof.
  induction w as [|w IH]; intros v; cbn [put_be]; constructor; [|apply IH].
  unfold is_byte. apply N.mod_lt. discriminate.
Qed.

Lemma get_be_fold : forall l acc,
  fold_left (fun acc b => acc * 256 + b) l acc = acc * 256 ^ blen l + get_be l.
Proof.
  unfold get_be, blen.
  induction l as [|b l IH]; intros acc; cbn [fold_left length].
  - change (N.of_nat 0) with 0. rewrite N.pow_0_r. lia.
  - rewrite IH. rewrite (IH (0 * 256 + b)).
    rewrite Nat2N.inj_succ, N.pow_succ_r'. lia.
Qed.

Lemma get_be_cons : forall b l, get_be (b :: l) = b * 256 ^ blen l + get_be l.
Proof. intros b l. unfold get_be at 1. cbn [fold_left]. rewrite get_be_fold. lia. Qed.

Lemma get_be_lt : forall l, is_bytes l -> get_be l < 256 ^ blen l.
Proof.
  induction l as [|b l IH]; intros H.
  - cbn. change (256 ^ blen []) with 1. lia.
  - inversion H as [|? ? Hb Hl]; subst. rewrite get_be_cons.
    specialize (IH Hl). unfold is_byte in Hb.
    unfold blen in *. cbn [length]. rewrite Nat2N.inj_succ, N.pow_succ_r'. nia.
Qed.

Lemma get_put_be : forall w v, get_be (put_be w v) = v mod 256 ^ N.of_nat w.
Proof.
  induction w as [|w IH]; intros v; cbn [put_be].
  - change (256 ^ N.of_nat 0) with 1. rewrite N.mod_1_r. reflexivity.
  - rewrite get_be_cons, IH. unfold blen. rewrite put_be_length.
    rewrite Nat2N.inj_succ, N.pow_succ_r'.
    set (p := 256 ^ N.of_nat w).
    assert (Hp : p <> 0) by (apply N.pow_nonzero; discriminate).
    rewrite (N.mul_comm 256 p).
    rewrite N.mod_mul_r by (assumption || discriminate). lia.
Qed.

Lemma get_put_be_small : forall w v, v < 256 ^ N.of_nat w -> get_be (put_be w v) = v.
Proof. intros w v H. rewrite get_put_be. now apply N.mod_small. Qed.

Lemma put_get_be : forall l, is_bytes l -> put_be (length l) (get_be l) = l.
Proof.
  induction l as [|b l IH]; intros H; [reflexivity|].
  inversion H as [|? ? Hb Hl]; subst.
  cbn [length put_be]. rewrite get_be_cons.
  pose proof (get_be_lt l Hl) as Hlt. unfold blen in *.
  set (p := 256 ^ N.of_nat (length l)) in *.
  assert (Hp : p <> 0) by (apply N.pow_nonzero; discriminate).
  f_equal.
  - rewrite N.add_comm, N.div_add by assumption.
    rewrite N.div_small by assumption. unfold is_byte in Hb.
    rewrite N.add_0_l. apply N.mod_small. lia.
  - transitivity (put_be (length l) (get_be l)); [|exact (IH Hl)].
    unfold p.
    enough (E : forall w q, N.of_nat w <= N.of_nat (length l) ->
              put_be w (q * 256 ^ N.of_nat (length l) + get_be l) = put_be w (get_be l)).
    { apply E. lia. }
    induction w as [|w IHw]; intros q Hw; cbn [put_be]; [reflexivity|].
    f_equal.
    + replace (256 ^ N.of_nat (length l))
        with (256 ^ (N.of_nat (length l) - N.of_nat (S w)) * 256 * 256 ^ N.of_nat w).
      2:{ rewrite <- N.mul_assoc, <- N.pow_succ_r', <- N.pow_add_r. f_equal. lia. }
      rewrite N.mul_assoc, N.add_comm, N.div_add by (apply N.pow_nonzero; discriminate).
      rewrite N.mul_assoc. rewrite N.mod_add by discriminate. reflexivity.
    + apply IHw. lia.
Qed.

Lemma u64_get : forall v, v < 2 ^ 64 -> get_be (u64 v) = v.
Proof. intros v H. apply get_put_be_small. exact H. Qed.
Lemma u32_get : forall v, v < 2 ^ 32 -> get_be (u32 v) = v.
Proof. intros v H. apply get_put_be_small. exact H. Qed.
Lemma u64_len : forall v, length (u64 v) = 8%nat.
Proof. intros; apply put_be_length. Qed.
Lemma u32_len : forall v, length (u32 v) = 4%nat.
Proof. intros; apply put_be_length. Qed.

Lemma firstn_app_exact : forall {A} (a b : list A) n, length a = n -> firstn n (a ++ b) = a.
Proof. intros A a b n <-. rewrite firstn_app, Nat.sub_diag, firstn_O, app_nil_r. apply firstn_all. Qed.
Lemma skipn_app_exact : forall {A} (a b : list A) n, length a = n -> skipn n (a ++ b) = b.
Proof. intros A a b n <-. rewrite skipn_app, Nat.sub_diag, skipn_O, skipn_all. reflexivity. Qed.

Lemma is_bytes_app : forall a b, is_bytes (a ++ b) <-> is_bytes a /\ is_bytes b.
Proof. intros; apply Forall_app. Qed.

Lemma forallb_below : forall (P : N -> bool) (n : nat),
  forallb P (map N.of_nat (seq 0 n)) = true ->
  forall i, i < N.of_nat n -> P i = true.
Proof.
  intros P n H i Hi. rewrite forallb_forall in H. apply H.
  apply in_map_iff. exists (N.to_nat i). split; [apply N2Nat.id|].
  apply in_seq. lia.
Qed.

Lemma skipn_skipn : forall (A : Type) (n m : nat) (l : list A),
  skipn n (skipn m l) = skipn (m + n) l.
Proof.
  intros A n m. revert n. induction m as [|m IH]; intros n l; [reflexivity|].
  destruct l as [|x l]; [now rewrite !skipn_nil|]. cbn [skipn Nat.add]. apply IH.
Qed.
