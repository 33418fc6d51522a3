(** Model of src/sampler.cc: choosing sample keys.

    The iterator over sequence numbers is the list of the records it delivers, in the order of
    their sequence numbers (the iterator is the subject of C20).  [live j k]: the result of
    the lookup of [k] while [j] samples are still to be found; lookups read the current state of
    the database, which others may change meanwhile.  Sequence numbers are unbounded here; the
    additions of lines 31-32 and 99-102 stay below twice the largest one.  Not modelled: failures
    of the iterator other than having no record (lines 55-59). *)
From Coq Require Import List NArith Bool Lia Arith.
From Verif Require Import Base KeyModel.
Import ListNotations.
Local Open Scope N_scope.

Notation srec := (N * key)%type.

(** src/sampler.cc:46, seekSN: the first record whose sequence number is not below [x]. *)
Fixpoint seek (x : N) (rs : list srec) : list srec :=
  match rs with
  | [] => []
  | r :: rs' => if fst r <? x then seek x rs' else rs
  end.

(** Lines 34-39: membership in the set of keys found. *)
Definition has (k : key) (l : list key) : bool := existsb (keqb k) l.

(** Lines 51-85: from the cursor on, the first record whose key was not found yet and, on
    request, is live.  [None]: no more records. *)
Fixpoint scan (live_only : bool) (live : key -> bool) (found : list key) (rs : list srec) : option srec :=
  match rs with
  | [] => None
  | r :: rs' => if negb (has (snd r) found) && (negb live_only || live (snd r)) then Some r
                else scan live_only live found rs'
  end.

Section Run.
Variable live_only : bool.
Variable live : nat -> key -> bool.
Variable rs : list srec.
Variable max : N.

(** Lines 45-105; [rem] is [num_remaining], [cur], [next] and [step] are [exp_cur_seq],
    [exp_next_seq] and [seq_step]; the keys found are kept newest first. *)
Fixpoint sample (rem : nat) (cur next step : N) (found : list key) : list key :=
  match rem with
  | O => found
  | S rem' =>
      match scan live_only (live rem) found (seek cur rs) with
      | None => found
      | Some (q, k) =>
          let found' := k :: found in
          if Nat.eqb rem' 0 || (max <=? q) then found'
          else
            let step' := if q <? next then step else (max - q) / N.of_nat rem' in
            let next' := if q <? next then next else q + step' in
            sample rem' next' (next' + step') step' found'
      end
  end.

(** Lines 9-32 and 107-109, getSampleKeys; [None]: INVALID_PARAMETERS. *)
Definition get_samples (n : nat) : option (list key) :=
  match n with
  | O => None
  | _ =>
      if max <? 1 then Some []
      else
        let step := (max - 1) / N.of_nat n in
        Some (rev (sample n (1 + step) (1 + step + step) step []))
  end.
End Run.
