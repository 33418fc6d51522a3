(** C04: the checksum. *)
From Verif Require Import Base Crc32Model Crc32Spec Crc32Proofs.
Local Open Scope N_scope.

(** The eight-bytes-at-a-time checksum is the bit-by-bit CRC-32, for every byte string and
    every 32-bit starting value. *)
Theorem C04_crc32_8_is_crc32 : forall data prev, is_bytes data -> prev < 2 ^ 32 ->
  crc32_8 data prev = crc32_spec data prev.
Proof. exact crc32_8_is_spec. Qed.
Print Assumptions C04_crc32_8_is_crc32.

(** The byte-at-a-time variant too. *)
Theorem C04_crc32_1_is_crc32 : forall data prev, is_bytes data ->
  crc32_1 data prev = crc32_spec data prev.
Proof. exact crc32_1_is_spec. Qed.
Print Assumptions C04_crc32_1_is_crc32.

(** Chaining = concatenation. *)
Theorem C04_crc32_8_chain : forall a b prev, is_bytes a -> is_bytes b -> prev < 2 ^ 32 ->
  crc32_8 b (crc32_8 a prev) = crc32_8 (a ++ b) prev.
Proof. exact crc32_8_chain. Qed.
Print Assumptions C04_crc32_8_chain.

(** Any difference confined to 32 consecutive bits changes the checksum. *)
Theorem C04_crc32_detects_bursts : forall a b prev,
  is_bytes a -> is_bytes b -> prev < 2 ^ 32 -> burst32 a b ->
  crc32_8 b prev <> crc32_8 a prev.
Proof. exact crc32_burst32. Qed.
Print Assumptions C04_crc32_detects_bursts.

(** Published check value: CRC-32 of "123456789" is 0xCBF43926. *)
Example crc32_check_value :
  crc32_8 [49;50;51;52;53;54;55;56;57] 0 = 3421780262 /\ is_bytes [49;50;51;52;53;54;55;56;57].
Proof. split; [vm_compute; reflexivity|]. repeat constructor; vm_compute; reflexivity. Qed.

(** The hypotheses of the burst theorem are satisfiable: bit 5 of the second byte flipped. *)
Example crc32_burst_case : burst32 [1; 2; 3] [1; 2 + 32; 3] /\ crc32_8 [1;34;3] 0 <> crc32_8 [1;2;3] 0.
Proof.
  split; [|vm_compute; discriminate].
  exists 13%nat, [true], 10%nat. split; [reflexivity|]. split; [reflexivity|]. split; [cbn; lia|discriminate].
Qed.
