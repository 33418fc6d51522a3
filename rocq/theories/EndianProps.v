(** C134: numbers in the files are stored most significant byte first, read back as
    written, and files do not depend on the byte order of the machine. *)
From Verif Require Import Base EndianModel EndianProofs EndianOrder.
Local Open Scope N_scope.

(** Byte j of a stored number is digit (width - 1 - j) to the base 256. *)
Theorem C134_layout : forall v j,
  ((j < 8)%nat -> nth j (store_64 v) 0 = (v / 256 ^ N.of_nat (7 - j)) mod 256)
  /\ ((j < 4)%nat -> nth j (store_32 v) 0 = (v / 256 ^ N.of_nat (3 - j)) mod 256)
  /\ ((j < 2)%nat -> nth j (store_16 v) 0 = (v / 256 ^ N.of_nat (1 - j)) mod 256).
Proof.
  intros v j. rewrite store_64_be, store_32_be, store_16_be.
  repeat split; intro H; unfold u64, u32; now rewrite put_be_nth.
Qed.

(** Eight, four and two bytes. *)
Theorem C134_size : forall v,
  length (store_64 v) = 8%nat /\ length (store_32 v) = 4%nat /\ length (store_16 v) = 2%nat.
Proof. intros v. unfold store_64, store_32, store_16. now rewrite !le_bytes_length. Qed.

(** What is stored is read back. *)
Theorem C134_read_back : forall v,
  (v < 2 ^ 64 -> load_64 (store_64 v) = v)
  /\ (v < 2 ^ 32 -> load_32 (store_32 v) = v)
  /\ (v < 2 ^ 16 -> load_16 (store_16 v) = v).
Proof.
  intros v. rewrite store_64_be, store_32_be, store_16_be. split; [|split]; intro H.
  - rewrite load_64_be by (apply u64_len || apply put_be_bytes). now apply u64_get.
  - rewrite load_32_be by (apply u32_len || apply put_be_bytes). now apply u32_get.
  - rewrite load_16_be by (apply put_be_length || apply put_be_bytes).
    now apply get_put_be_small.
Qed.

(** What is read is what was there: writing it back gives the same bytes. *)
Theorem C134_write_back : forall l, is_bytes l ->
  (length l = 8%nat -> store_64 (load_64 l) = l)
  /\ (length l = 4%nat -> store_32 (load_32 l) = l)
  /\ (length l = 2%nat -> store_16 (load_16 l) = l).
Proof.
  intros l B. rewrite store_64_be, store_32_be, store_16_be. split; [|split]; intro H.
  - rewrite load_64_be by auto. unfold u64. rewrite <- H. now apply put_get_be.
  - rewrite load_32_be by auto. unfold u32. rewrite <- H. now apply put_get_be.
  - rewrite load_16_be by auto. rewrite <- H. now apply put_get_be.
Qed.

(** A big-endian machine writes the same bytes and reads the same numbers. *)
Theorem C134_portable : forall v l, is_bytes l ->
  store_64 v = store_big_machine 8 v /\ store_32 v = store_big_machine 4 v
  /\ store_16 v = store_big_machine 2 v
  /\ (length l = 8%nat -> load_64 l = load_big_machine l)
  /\ (length l = 4%nat -> load_32 l = load_big_machine l)
  /\ (length l = 2%nat -> load_16 l = load_big_machine l).
Proof.
  intros v l B. unfold store_big_machine, load_big_machine.
  rewrite !rev_le_bytes, le_value_rev, store_64_be, store_32_be, store_16_be.
  repeat split; intro H; [apply load_64_be|apply load_32_be|apply load_16_be]; auto.
Qed.

(** The order of the stored bytes is the order of the numbers. *)
Theorem C134_order : forall v w,
  (v < 2 ^ 64 -> w < 2 ^ 64 -> (before (store_64 v) (store_64 w) <-> v < w))
  /\ (v < 2 ^ 32 -> w < 2 ^ 32 -> (before (store_32 v) (store_32 w) <-> v < w)).
Proof.
  intros v w. rewrite !store_64_be, !store_32_be. split; intros Hv Hw.
  - rewrite before_get; [|apply put_be_bytes|apply put_be_bytes|now rewrite !u64_len].
    now rewrite !u64_get.
  - rewrite before_get; [|apply put_be_bytes|apply put_be_bytes|now rewrite !u32_len].
    now rewrite !u32_get.
Qed.

Example C134_case :
  store_64 0x0102030405060708 = [1; 2; 3; 4; 5; 6; 7; 8]
  /\ load_32 [0xde; 0xad; 0xbe; 0xef] = 0xdeadbeef
  /\ store_16 513 = [2; 1]
  /\ before (store_64 255) (store_64 256).
Proof. vm_compute. repeat split. right. repeat (split; [reflexivity|]; (left; reflexivity) || right).
Qed.

Print Assumptions C134_layout.
Print Assumptions C134_size.
Print Assumptions C134_read_back.
Print Assumptions C134_write_back.
Print Assumptions C134_portable.
Print Assumptions C134_order.
