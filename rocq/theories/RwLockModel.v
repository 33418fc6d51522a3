(** The lock of one skiplist node (src/skiplist.cc:238-290): readers and writers that share one 32-bit
    word, [accessing_next].  One step is one access of the word.

    The word is kept as the number it holds, without a bound; readers add 1, writers add 0x100000.
    With fewer than 4096 threads it stays below 2^32, which C83_fits proves.  Threads are numbered. *)
From Verif Require Import Base.
From Coq Require Import NArith Arith List Bool.
Import ListNotations.
Local Open Scope N_scope.

Definition WR : N := 0x100000.
(** accessing_next & 0xfff00000, and accessing_next & 0x000fffff *)
Definition hi (v : N) : N := N.shiftl (N.shiftr v 20) 20.
Definition lo (v : N) : N := N.land v 0xfffff.

Inductive pc :=
| Out                (* no call *)
| R0                 (* _sl_read_lock_an, 240-246: waits for the writer *)
| R1                 (* 248: about to add 1 *)
| R2                 (* 249-252: added, checks for a writer *)
| R3                 (* 254: about to take it back *)
| Reading            (* between _sl_read_lock_an and _sl_read_unlock_an *)
| W0                 (* _sl_write_lock_an, 263-270 *)
| W1                 (* 272 *)
| W2                 (* 273-274: added, checks for another writer *)
| W3                 (* 285: about to take it back *)
| W4                 (* 276-279: waits until there are no more readers *)
| Writing.           (* between _sl_write_lock_an and _sl_write_unlock_an *)

Record st := mkS { word : N; th : list pc }.

Definition at_ (s : st) (n : nat) : pc := nth n (th s) Out.
Fixpoint set_nth (n : nat) (p : pc) (l : list pc) : list pc :=
  match n, l with
  | _, [] => []
  | O, _ :: t => p :: t
  | S i, x :: t => x :: set_nth i p t
  end.
Definition go (n : nat) (p : pc) (v : N) (s : st) : st := mkS v (set_nth n p (th s)).

(** A call starts or ends; a step of a call. *)
Inductive ev := RLock (n : nat) | RUnlock (n : nat) | WLock (n : nat) | WUnlock (n : nat) | Go (n : nat).

Definition step (e : ev) (s : st) : option st :=
  match e with
  | RLock n => match at_ s n with Out => Some (go n R0 (word s) s) | _ => None end
  | WLock n => match at_ s n with Out => Some (go n W0 (word s) s) | _ => None end
  | RUnlock n => match at_ s n with Reading => Some (go n Out (word s - 1) s) | _ => None end        (* 259 *)
  | WUnlock n => match at_ s n with Writing => Some (go n Out (word s - WR) s) | _ => None end       (* 289 *)
  | Go n =>
      match at_ s n with
      | R0 => Some (go n (if hi (word s) =? 0 then R1 else R0) (word s) s)
      | R1 => Some (go n R2 (word s + 1) s)
      | R2 => Some (go n (if hi (word s) =? 0 then Reading else R3) (word s) s)
      | R3 => Some (go n R0 (word s - 1) s)
      | W0 => Some (go n (if hi (word s) =? 0 then W1 else W0) (word s) s)
      | W1 => Some (go n W2 (word s + WR) s)
      | W2 => Some (go n (if hi (word s) =? WR then (if lo (word s) =? 0 then Writing else W4) else W3) (word s) s)
      | W3 => Some (go n W0 (word s - WR) s)
      | W4 => Some (go n (if lo (word s) =? 0 then Writing else W4) (word s) s)
      | Out | Reading | Writing => None
      end
  end.

Fixpoint run (es : list ev) (s : st) : option st :=
  match es with [] => Some s | e :: t => match step e s with Some s1 => run t s1 | None => None end end.

(** node_init, 98-121: the word is 0; [k] threads. *)
Definition new (k : nat) : st := mkS 0 (repeat Out k).

(** Every state that [k] threads can reach, their steps interleaved in any way. *)
Inductive reach (k : nat) : st -> Prop :=
| reach_new : reach k (new k)
| reach_step : forall e s s', reach k s -> step e s = Some s' -> reach k s'.
