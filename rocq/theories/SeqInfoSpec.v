(** What the numbers of the log section mean to a caller. *)
From Verif Require Import Base KeyModel LogFormatModel MemTableModel LogMgrModel DbModel.
Local Open Scope N_scope.

(** What getLastFlushedSeqNum reports, 0 if it reports that nothing was flushed. *)
Definition flushed_upto (d : db) : N := match lm_flushed_seq (d_log d) with Ok s => s | _ => 0 end.

(** The acknowledged writes that are in the log section: not handed to the tables yet. *)
Definition in_log (d : db) (h : list rec) : list rec := filter (fun r => flushed_upto d <? r_seq r) h.

(** The numbers are those given by the database: 1, 2, 3, ... *)
Definition consecutive (h : list rec) : Prop := forall i r, nth_error h i = Some r -> r_seq r = N.of_nat i + 1.
