(** Independent definition of CRC-32 (ISO-HDLC, reflected, polynomial 0xEDB88320), bit by
    bit: nothing here refers to the look-up tables of the code. *)
From Verif Require Import Base.
Local Open Scope N_scope.

Definition crc_poly : N := 3988292384. (* 0xEDB88320 *)

(** Shift the register by one position; xor the polynomial if a one falls out. *)
Definition shift1 (r : N) : N :=
  if N.odd r then N.lxor (N.div2 r) crc_poly else N.div2 r.

(** Feed one message bit. *)
Definition feed_bit (r : N) (b : bool) : N := shift1 (N.lxor r (if b then 1 else 0)).

(** The bits of a byte, least significant first. *)
Definition byte_bits (b : N) : list bool := map (fun i => N.testbit b (N.of_nat i)) (seq 0 8).

Definition bits_of (l : list N) : list bool := flat_map byte_bits l.

(** The CRC of a byte string continued from a previous checksum. *)
Definition crc32_spec (data : list N) (prev : N) : N :=
  N.lxor (fold_left feed_bit (bits_of data) (N.lxor prev 4294967295)) 4294967295.

(** Bitwise difference of two bit strings. *)
Fixpoint bxor (a b : list bool) : list bool :=
  match a, b with
  | x :: a', y :: b' => xorb x y :: bxor a' b'
  | _, _ => []
  end.

(** [b] differs from [a] exactly by a nonzero pattern confined to at most 32 consecutive
    bits. *)
Definition burst32 (a b : list N) : Prop :=
  exists i e j,
    bits_of b = bxor (bits_of a) (repeat false i ++ e ++ repeat false j) /\
    length (bits_of a) = (i + length e + j)%nat /\
    (length e <= 32)%nat /\ e <> repeat false (length e).
