(** Key comparison: [SizedBuf::cmp]. *)
From Verif Require Import Base.
Local Open Scope N_scope.

Definition key := list N.

(** memcmp over the first [n] bytes (the sign of its result). Reading past the end of a
    buffer does not happen: the callers pass the smaller of the two sizes. *)
Fixpoint memcmp (n : nat) (l r : list N) : Z :=
  match n, l, r with
  | S n', x :: l', y :: r' =>
      if x =? y then memcmp n' l' r' else if x <? y then (-1)%Z else 1%Z
  | _, _, _ => 0%Z
  end.

(** Conversion size_t -> int (two's complement, low 32 bits). *)
Definition to_int (n : N) : Z :=
  let m := n mod 2 ^ 32 in
  if m <? 2 ^ 31 then Z.of_N m else (Z.of_N m - 2 ^ 32)%Z.

(** int subtraction; overflow is undefined behaviour ([None]). *)
Definition int_sub (a b : Z) : option Z :=
  let d := (a - b)%Z in
  if ((- 2 ^ 31 <=? d) && (d <? 2 ^ 31))%Z then Some d else None.

(** include/libjungle/sized_buf.h:171-183, SizedBuf::cmp. *)
Definition sb_cmp (l r : key) : option Z :=
  if blen l =? blen r then
    (if blen l =? 0 then Some 0%Z else Some (memcmp (length l) l r))
  else
    let len := N.min (blen l) (blen r) in
    let c := memcmp (N.to_nat len) l r in
    if (c =? 0)%Z then int_sub (to_int (blen l)) (to_int (blen r)) else Some c.

(** include/libjungle/sized_buf.h:185-194, operator== and 196, operator!=. *)
Definition sb_eq (l r : key) : bool :=
  if negb (blen l =? blen r) then false
  else if negb (blen l =? 0) then (memcmp (length l) l r =? 0)%Z else true.

(** sized_buf.h:200-213, operator<. *)
Definition sb_lt (l r : key) : bool :=
  if blen l =? blen r then
    (if blen l =? 0 then false else (memcmp (length l) l r <? 0)%Z)
  else if blen l <? blen r then
    (if blen l =? 0 then true else (memcmp (length l) l r <=? 0)%Z)
  else (if blen r =? 0 then false else (memcmp (length r) l r <? 0)%Z).

(** sized_buf.h:215-228, operator<=. *)
Definition sb_le (l r : key) : bool :=
  if blen l =? blen r then
    (if blen l =? 0 then true else (memcmp (length l) l r <=? 0)%Z)
  else if blen l <? blen r then
    (if blen l =? 0 then true else (memcmp (length l) l r <=? 0)%Z)
  else (if blen r =? 0 then false else (memcmp (length r) l r <? 0)%Z).

(** sized_buf.h:230-236, operator> and operator>=. *)
Definition sb_gt (l r : key) : bool := negb (sb_le l r).
Definition sb_ge (l r : key) : bool := negb (sb_lt l r).

(** The lexicographic order used as the key order everywhere else in the model.
    KeyProofs.v shows that [sb_cmp] has the sign of [kcmp] for keys shorter than 2^31 bytes. *)
Fixpoint kcmp (l r : key) : comparison :=
  match l, r with
  | [], [] => Eq
  | [], _ :: _ => Lt
  | _ :: _, [] => Gt
  | x :: l', y :: r' =>
      match x ?= y with
      | Eq => kcmp l' r'
      | c => c
      end
  end.

Definition keqb (a b : key) : bool := match kcmp a b with Eq => true | _ => false end.
Definition kltb (a b : key) : bool := match kcmp a b with Lt => true | _ => false end.
Definition kleb (a b : key) : bool := match kcmp a b with Gt => false | _ => true end.
Definition klt (a b : key) : Prop := kcmp a b = Lt.
Definition kle (a b : key) : Prop := kcmp a b <> Gt.
