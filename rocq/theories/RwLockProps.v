(** C83: the lock of a skiplist node excludes. *)
From Coq Require Import NArith Arith List Bool Lia.
From Verif Require Import Base RwLockModel RwLockProofs.
Import ListNotations.
Local Open Scope N_scope.

(** C83.  Among fewer than 4096 threads, their steps interleaved in any way: at most one holds the
    lock for writing, and no thread holds it for reading at the same time. *)
Theorem C83_one_writer : forall k s n m, N.of_nat k < 4096 -> reach k s -> at_ s n = Writing -> at_ s m = Writing -> n = m.
Proof.
  intros k s n m K H A B. destruct (Nat.eq_dec n m) as [E|N]; [exact E|exfalso]. assert (V := iv_won _ _ (reach_inv k s K H)).
  assert (X := cnt_two won (th s) n m eq_refl N). unfold at_ in A, B. rewrite A, B in X. specialize (X eq_refl eq_refl). lia.
Qed.

Theorem C83_no_reader_beside_writer : forall k s n m, N.of_nat k < 4096 -> reach k s -> at_ s n = Writing -> at_ s m <> Reading.
Proof. intros k s n m K H. apply (iv_rd _ _ (reach_inv k s K H)). Qed.

(** The word never needs more than its 32 bits. *)
Theorem C83_fits : forall k s, N.of_nat k < 4096 -> reach k s -> word s < 2 ^ 32.
Proof.
  intros k s K H. assert (V := reach_inv k s K H). rewrite (iv_val _ _ V). assert (A := cnt_le isw (th s)). assert (B := cnt_le isr (th s)). rewrite (iv_len _ _ V) in A, B.
  unfold WR. change (2 ^ 32) with 4294967296. lia.
Qed.

(** A lock that every thread gave back is free for the next: the word is 0 again. *)
Theorem C83_given_back : forall k s, N.of_nat k < 4096 -> reach k s -> (forall n, at_ s n = Out) -> word s = 0.
Proof.
  intros k s K H O. rewrite (iv_val _ _ (reach_inv k s K H)).
  assert (Z : forall f, f Out = false -> cnt f (th s) = 0).
  { intros f F. unfold at_ in O. unfold cnt. induction (th s) as [|x l IH]; [reflexivity|]. cbn [filter]. assert (X := O 0%nat). cbn in X. subst x. rewrite F. apply IH. intros n. apply (O (S n)). }
  rewrite !Z by reflexivity. reflexivity.
Qed.

(** Three threads: two readers inside, a writer waiting, which gets in when both have left. *)
Example C83_case :
  match run [RLock 0; Go 0; Go 0; Go 0; RLock 1; Go 1; Go 1; WLock 2; Go 2; Go 2; Go 1; Go 2; Go 1; RUnlock 0; Go 2] (new 3) with
  | Some s => at_ s 0 = Out /\ at_ s 1 = R0 /\ at_ s 2 = Writing
  | None => False
  end.
Proof. vm_compute. repeat split. Qed.

Print Assumptions C83_one_writer.
Print Assumptions C83_no_reader_beside_writer.
Print Assumptions C83_fits.
Print Assumptions C83_given_back.
