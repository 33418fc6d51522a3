(** Words for C135. *)
From Verif Require Import Base KeyModel LogFormatModel LogManifestModel BloomModel MemTableModel LogMgrModel DbModel RecoverModel RecoverSpec DupOpenModel.

(** The calls of the first thread in a run, and their answers among all the answers. *)
Fixpoint first_calls (os : list dop) : list pop :=
  match os with
  | [] => []
  | DFirst o :: t => o :: first_calls t
  | _ :: t => first_calls t
  end.
Fixpoint first_answers (os : list dop) (xs : list (res (list rec))) : list (res (list rec)) :=
  match os, xs with
  | DFirst _ :: t, x :: xs' => x :: first_answers t xs'
  | _ :: t, _ :: xs' => first_answers t xs'
  | _, _ => []
  end.

(** The process does not end in the run. *)
Definition stays_up (os : list dop) : Prop := forall x, ~ In (DFirst (PReopen x)) os.

(** A run of both threads from a new database. *)
Definition run_two (os : list dop) : option (list (res (list rec)) * two) :=
  drun hash0 cfg0 os (mkTwo (p_new cfg0) None).

(** One record written and synced, the database closed; then the first thread opens it. *)
Definition opened : list dop := [DFirst (put 1 1); DFirst (PSync true); DFirst (PReopen XClean)].
