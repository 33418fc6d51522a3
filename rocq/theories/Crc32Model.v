(** Model of src/crc32.cc (table driven CRC-32, slicing by 8). *)
From Verif Require Import Base Crc32Table.
Local Open Scope N_scope.

(** A table look-up [crc_lookup[t][i]].  The C++ index is always masked to 8 bits, or is
    the xor of two bytes, so the default of [nth] is never used on byte input
    (proved: [crc_lut_in_range] in Crc32Proofs.v). *)
Definition lut (t : list N) (i : N) : N := nth (N.to_nat i) t 0.

(** [~x] on uint32_t. *)
Definition not32 (x : N) : N := N.lxor x 4294967295.

(** src/crc32.cc:325, one step of the byte loop. *)
Definition crc_byte (crc b : N) : N :=
  N.lxor (N.shiftr crc 8) (lut crc_lookup_0 (N.lxor (N.land crc 255) b)).

(** src/crc32.cc:320-329, crc32_1. *)
Definition crc32_1 (data : list N) (prev : N) : N :=
  not32 (fold_left crc_byte data (not32 prev)).

(** A little-endian 32-bit load ([*cur++] on a little-endian machine). *)
Definition le32 (b0 b1 b2 b3 : N) : N :=
  N.lor b0 (N.lor (N.shiftl b1 8) (N.lor (N.shiftl b2 16) (N.shiftl b3 24))).

(** src/crc32.cc:350-361, one iteration of the 8-byte loop. *)
Definition crc_slice (crc w0 w1 : N) : N :=
  let one := N.lxor w0 crc in
  let two := w1 in
  N.lxor (lut crc_lookup_7 (N.land one 255))
  (N.lxor (lut crc_lookup_6 (N.land (N.shiftr one 8) 255))
  (N.lxor (lut crc_lookup_5 (N.land (N.shiftr one 16) 255))
  (N.lxor (lut crc_lookup_4 (N.land (N.shiftr one 24) 255))
  (N.lxor (lut crc_lookup_3 (N.land two 255))
  (N.lxor (lut crc_lookup_2 (N.land (N.shiftr two 8) 255))
  (N.lxor (lut crc_lookup_1 (N.land (N.shiftr two 16) 255))
          (lut crc_lookup_0 (N.land (N.shiftr two 24) 255)))))))).

(** src/crc32.cc:335-370, both loops: 8 bytes at a time while [len >= 8], then bytes. *)
Fixpoint crc_loop8 (data : list N) (crc : N) : N :=
  match data with
  | b0 :: b1 :: b2 :: b3 :: b4 :: b5 :: b6 :: b7 :: rest =>
      crc_loop8 rest (crc_slice crc (le32 b0 b1 b2 b3) (le32 b4 b5 b6 b7))
  | _ => fold_left crc_byte data crc
  end.

(** src/crc32.cc:331-372, crc32_8. *)
Definition crc32_8 (data : list N) (prev : N) : N :=
  not32 (crc_loop8 data (not32 prev)).

(** src/crc32.cc:374-383, crc32_8_last8: the checksum of the last [min(len,8)] bytes. *)
Definition crc32_8_last8 (data : list N) (prev : N) : N :=
  let m := Nat.min (length data) 8 in
  crc32_8 (skipn (length data - m) data) prev.
