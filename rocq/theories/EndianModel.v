(** Byte order macros of src/endian_encode.h. *)
From Verif Require Import Base.
Local Open Scope N_scope.

(** src/endian_encode.h:60-69, reverse_order_64 (uint64_t: the left shifts drop high bits;
    the masked operands make that a no-op). *)
Definition reverse_order_64 (v : N) : N :=
  N.lor (N.shiftr (N.land v 0xff00000000000000) 56)
 (N.lor (N.shiftr (N.land v 0x00ff000000000000) 40)
 (N.lor (N.shiftr (N.land v 0x0000ff0000000000) 24)
 (N.lor (N.shiftr (N.land v 0x000000ff00000000) 8)
 (N.lor (N.shiftl (N.land v 0x00000000ff000000) 8)
 (N.lor (N.shiftl (N.land v 0x0000000000ff0000) 24)
 (N.lor (N.shiftl (N.land v 0x000000000000ff00) 40)
        (N.shiftl (N.land v 0x00000000000000ff) 56))))))).

(** src/endian_encode.h:71-77, reverse_order_32. *)
Definition reverse_order_32 (v : N) : N :=
  N.lor (N.shiftr (N.land v 0xff000000) 24)
 (N.lor (N.shiftr (N.land v 0x00ff0000) 8)
 (N.lor (N.shiftl (N.land v 0x0000ff00) 8)
        (N.shiftl (N.land v 0x000000ff) 24))).

(** src/endian_encode.h:79-83, reverse_order_16. *)
Definition reverse_order_16 (v : N) : N :=
  N.lor (N.shiftr (N.land v 0xff00) 8) (N.shiftl (N.land v 0x00ff) 8).

(** What memcpy of a [w]-byte unsigned integer stores on a little-endian machine. *)
Fixpoint le_bytes (w : nat) (v : N) : list N :=
  match w with
  | O => []
  | S w' => v mod 256 :: le_bytes w' (v / 256)
  end.

(** What memcpy into a [w]-byte unsigned integer loads on a little-endian machine. *)
Fixpoint le_value (l : list N) : N :=
  match l with
  | [] => 0
  | b :: l' => b + 256 * le_value l'
  end.

(** src/internal_helper.h:405-415, append_mem_64 / append_mem_32 / append_mem_16 and 437-449,
    read_mem_64 / read_mem_32 / read_mem_16, on a little-endian machine. *)
Definition store_64 (v : N) : list N := le_bytes 8 (reverse_order_64 v).
Definition store_32 (v : N) : list N := le_bytes 4 (reverse_order_32 v).
Definition store_16 (v : N) : list N := le_bytes 2 (reverse_order_16 v).
Definition load_64 (l : list N) : N := reverse_order_64 (le_value l).
Definition load_32 (l : list N) : N := reverse_order_32 (le_value l).
Definition load_16 (l : list N) : N := reverse_order_16 (le_value l).
