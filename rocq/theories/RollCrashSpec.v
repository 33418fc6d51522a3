(** What a user expects of a database whose process died during a rollback to [n]: the log is the one
    before the rollback or the one after it. *)
From Verif Require Import Base KeyModel LogFormatModel MemTableModel RollbackModel RollCrashModel RollbackSpec.
Local Open Scope N_scope.

(** All reads of the database [s], by key and by number, are those of the log [L]. *)
Definition reads_as (hash : key -> N * N) (c : rcfg) (s : rst) (L : list rec) : Prop :=
  (forall k, answers (r_get hash c k s) (latest k L)) /\ (forall m, answers (r_get_seq hash c m s) (numbered m L)).

Definition rolled_back (n : N) (L : list rec) : list rec := filter (fun r => r_seq r <=? n) L.

(** Neither: the records after [n] and up to [b] are missing, the later ones are there. *)
Definition with_hole (n b : N) (L : list rec) : list rec := filter (fun r => (r_seq r <=? n) || (b <? r_seq r)) L.
