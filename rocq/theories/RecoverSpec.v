(** What closing, crashing and reopening are measured against (RecoverModel.v), and the runs used
    as counterexamples. *)
From Verif Require Import Base KeyModel LogFormatModel LogManifestModel BloomModel MemTableModel LogMgrModel DbModel RecoverModel.
Local Open Scope N_scope.

(** Every call of the run returned OK. *)
Definition all_ok (xs : list (res (list rec))) : Prop := Forall (fun x => is_ok x = true) xs.

(** The i-th call was acknowledged as the write of [r]. *)
Definition wrote (xs : list (res (list rec))) (i : nat) (r : rec) : Prop := nth_error xs i = Some (Ok [r]).

(** A log manager configuration: no overwriting, with tables, 10 entries per log file, writable. *)
Definition cfg0 : cfg := mkC false false 10 false.
Definition hash0 : key -> N * N := fun _ => (0, 0).

(** Short names for operations: a write of value [v] to key [k] with an automatic number, into the
    current log file ([put]) or into a new one ([put_new]: the current one is full); a batch of one
    record; flushLogs of everything, with and without the option to go beyond the last sync. *)
Definition ins (k v : N) : rec := mkRec NIL INS [k] [] [v].
Definition put (k v : N) : pop := PDb (OSet false (ins k v)).
Definition put_new (k v : N) : pop := PDb (OSet true (ins k v)).
Definition batch (k v : N) : list pop := [PDb (OBegin [ins k v]); PDb OPut; PDb OEnd].
Definition nobody : N -> bool := fun _ => false.
Definition everybody : N -> bool := fun _ => true.
Definition plain : fopt := mkFO false false 0.
Definition beyond : fopt := mkFO true false 0.
Definition flush_plain : pop := PFlush plain NIL nobody.
Definition flush_beyond : pop := PFlush beyond NIL nobody.

(** The value part of a successful read. *)
Definition reads (p : pdb) (k v : N) : Prop := exists r, db_get hash0 cfg0 [k] (p_db p) = Ok r /\ r_key r = [k] /\ r_val r = [v].
Definition missing (p : pdb) (k : N) : Prop := db_get hash0 cfg0 [k] (p_db p) = Fail KEY_NOT_FOUND.

Definition run (os : list pop) : option (list (res (list rec)) * pdb) := prun hash0 cfg0 os (p_new cfg0).
