(** Words and lemmas for C134: a big-endian machine, the order of byte strings. *)
From Verif Require Import Base EndianModel EndianProofs.
Local Open Scope N_scope.

(** The bytes a big-endian machine stores for a [w]-byte number: src/endian_encode.h:93-101
    leave the number alone there, memcpy stores the most significant byte first. *)
Definition store_big_machine (w : nat) (v : N) : list N := rev (le_bytes w v).
Definition load_big_machine (l : list N) : N := le_value (rev l).

(** Lexicographic order of byte strings (what memcmp decides). *)
Fixpoint before (a b : list N) : Prop :=
  match a, b with
  | x :: a', y :: b' => x < y \/ (x = y /\ before a' b')
  | _, _ => False
  end.

Lemma put_be_nth : forall w v j, (j < w)%nat ->
  nth j (put_be w v) 0 = (v / 256 ^ N.of_nat (w - 1 - j)) mod 256.
Proof.
  induction w as [|w IH]; intros v j H; [lia|]. cbn [put_be]. destruct j as [|j]; cbn [nth].
  - now replace (S w - 1 - 0)%nat with w by lia.
  - rewrite IH by lia. now replace (S w - 1 - S j)%nat with (w - 1 - j)%nat by lia.
Qed.

Lemma le_bytes_length : forall w v, length (le_bytes w v) = w.
Proof. induction w; intros; cbn [le_bytes length]; auto. Qed.

Lemma le_bytes_snoc : forall w v,
  le_bytes (S w) v = le_bytes w v ++ [(v / 256 ^ N.of_nat w) mod 256].
Proof.
  intros w v. rewrite !le_bytes_map, seq_S, map_app. reflexivity.
Qed.

Lemma rev_le_bytes : forall w v, rev (le_bytes w v) = put_be w v.
Proof.
  induction w as [|w IH]; intros v; [reflexivity|].
  rewrite le_bytes_snoc, rev_app_distr. cbn [rev app put_be]. now rewrite IH.
Qed.

Lemma le_value_snoc : forall l b, le_value (l ++ [b]) = le_value l + 256 ^ N.of_nat (length l) * b.
Proof.
  induction l as [|x l IH]; intros b; cbn [app le_value length].
  - change (256 ^ N.of_nat 0) with 1. lia.
  - rewrite IH, Nat2N.inj_succ, N.pow_succ_r'. lia.
Qed.

Lemma le_value_rev : forall l, le_value (rev l) = get_be l.
Proof.
  induction l as [|b l IH]; [reflexivity|].
  cbn [rev]. rewrite le_value_snoc, IH, rev_length, get_be_cons. unfold blen. lia.
Qed.

Lemma before_irrefl : forall a, ~ before a a.
Proof. induction a as [|x a IH]; cbn; [auto|]. intros [H|[_ H]]; [lia|auto]. Qed.

Lemma before_get : forall a b, is_bytes a -> is_bytes b -> length a = length b ->
  (before a b <-> get_be a < get_be b).
Proof.
  induction a as [|x a IH]; intros [|y b] Ha Hb L; try discriminate.
  - cbn. split; intro H; [destruct H|vm_compute in H; discriminate].
  - inversion Ha as [|? ? Hx Ha']; inversion Hb as [|? ? Hy Hb']; subst. injection L as L.
    cbn [before]. rewrite !get_be_cons. unfold blen. rewrite <- L.
    pose proof (get_be_lt a Ha') as A. pose proof (get_be_lt b Hb') as B.
    unfold blen in A, B. rewrite <- L in B.
    specialize (IH b Ha' Hb' L). split.
    + intros [H|[-> H]]; [nia|]. apply IH in H. nia.
    + intro H. destruct (N.lt_trichotomy x y) as [C|[C|C]]; [left; auto| |nia].
      right. split; auto. apply IH. subst. nia.
Qed.
