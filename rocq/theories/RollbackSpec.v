(** What a user of a log-section-only database relies on: the database is one log of records in
    ascending order of sequence number; a write appends, a successful rollback to [s] keeps exactly
    the records numbered up to [s], and nothing else changes it. *)
From Verif Require Import Base KeyModel LogFormatModel MemTableModel RollbackModel.
From Coq Require Import Sorted.
Local Open Scope N_scope.

(** The record with a number; the newest record of a key (a deletion is a record; commands have no
    key). *)
Definition numbered (n : N) (L : list rec) : option rec := find (fun r => r_seq r =? n) L.
Definition latest (k : key) (L : list rec) : option rec :=
  find (fun r => keqb (r_key r) k && negb (is_cmd r)) (rev L).

(** A read answers [o]: the record, or some error code when there is none. *)
Definition answers (x : res rec) (o : option rec) : Prop :=
  match o with Some r => x = Ok r | None => exists e, x = Fail e end.

(** Number of the newest record, 0 for the empty log. *)
Definition top_of (L : list rec) : N := match rev L with r :: _ => r_seq r | [] => 0 end.

(** The log after an operation with a given outcome. *)
Definition log_after (o : rop) (out : rout) (L : list rec) : list rec :=
  match o, out with
  | OPut _ _, RRec r => L ++ [r]
  | ORoll _ _ s, RDone => filter (fun r => r_seq r <=? s) L
  | _, _ => L
  end.

(** Numbers without a gap. *)
Fixpoint consecutive (L : list rec) : Prop :=
  match L with
  | a :: (b :: _) as t => r_seq b = r_seq a + 1 /\ consecutive t
  | _ => True
  end.

(** What the caller keeps to: numbers are assigned by the database or ascending, and stay clear of
    the end of the 64-bit range; a file is not full before its first record; rollback only on a
    database that has records, and while no reader holds the file that is cut; closing and reopening only with consecutive numbers (the option
    truncateInconsecutiveLogs deletes the log from the first gap between files on). *)
Definition op_fine (L : list rec) (o : rop) : Prop :=
  match o with
  | OPut full r =>
      (r_seq r = NIL /\ top_of L + 3 < NIL \/ top_of L < r_seq r /\ r_seq r + 2 < NIL) /\
      (L = [] -> full = false)
  | ORoll _ held _ => L <> [] /\ held = false
  | OReopen _ => consecutive L
  | _ => True
  end.

(** Log-store mode without overwriting of sequence numbers. *)
Definition cfg_fine (c : rcfg) : Prop := rc_ttl c = true /\ rc_ow c = false /\ 0 < rc_maxent c.

(** States reachable by any sequence of operations, with the log the user expects.  Fewer than
    2^64 - 1 log files are made. *)
Inductive rreach (hash : key -> N * N) (c : rcfg) : list rec -> rst -> Prop :=
| rr_new : rreach hash c [] (r_new c)
| rr_step : forall L s o out s', rreach hash c L s -> op_fine L o ->
    r_step hash c o s = (out, s') -> rs_max s' < NIL ->
    rreach hash c (log_after o out L) s'.
