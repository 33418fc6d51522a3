(** Properties C28 and C53: numbers of table and log files are unique. *)
From Verif Require Import Base NumberModel NumberProofs.
From Coq Require Import Lia.
Local Open Scope N_scope.

(** C28, for issueTableNumber and issueLogFileNumber: whatever the counter [m] was when the database
    was opened, for every interleaving of every number of threads, with spurious failures of
    compare_exchange_weak: the numbers handed out are distinct, and none of them is [m].  They are in
    fact consecutive in the order of the successful exchanges.  (Fewer than 2^64 numbers, after
    which the 64-bit counter starts again.) *)
Theorem C28_numbers_unique : forall m es s, m < 2 ^ 64 -> nruns es (n_new m) = Some s ->
  N.of_nat (length (n_out s)) < 2 ^ 64 -> NoDup (m :: map snd (n_out s)).
Proof. exact numbers_distinct. Qed.
Print Assumptions C28_numbers_unique.

Theorem C28_numbers_consecutive : forall m es s, m < 2 ^ 64 -> nruns es (n_new m) = Some s ->
  N.of_nat (length (n_out s)) < 2 ^ 64 ->
  map snd (n_out s) = map (fun i => (m + N.of_nat (S i)) mod 2 ^ 64) (seq 0 (length (n_out s))).
Proof. exact numbers. Qed.
Print Assumptions C28_numbers_consecutive.

(** Three threads on a new database: two fail at first; the last try of thread 2 follows a change
    between its two loads. *)
Example ex_numbers : exists s,
  nruns [NFirst 0 true; NLoad 0; NFirst 1 false; NLoad2 0; NFirst 2 false; NCas 0 false; NLoad 0; NLoad 2; NLoad2 0; NCas 0 false; NLoad2 2; NCas 2 false; NLoad 2; NLoad2 2; NCas 2 false] (n_new NIL) = Some s
  /\ n_out s = [(1%nat, 0); (0%nat, 1); (2%nat, 2)].
Proof. eexists. split; [vm_compute; reflexivity|reflexivity]. Qed.

(** New log files: any sequence of requests by threads that found the file they looked at full, if
    compare_exchange_weak fails only when the values differ (as on x86). *)
Theorem C53_log_files_unique_partial : forall m cs,
  NoDup (snd (fold_left (fun s c => add_log c false s) cs (m, []))) /\
  ~ In m (snd (fold_left (fun s c => add_log c false s) cs (m, []))).
Proof.
  intros m cs. destruct (add_log_spec cs m []) as (_ & l & E & H1 & H2). cbn [app] in E. rewrite E.
  split; [exact H1|]. intros Hin. specialize (H2 _ Hin). lia.
Qed.
Print Assumptions C53_log_files_unique_partial.
Example ex_log_files : fold_left (fun s c => add_log c false s) [4; 4; 5; 4; 6; 6] (4, []) = (7, [5; 6; 7]).
Proof. reflexivity. Qed.

(** If it fails for no reason, as it may by the standard, two log files get the same number. *)
Theorem C53_log_files_spurious_refuted : exists m cs,
  ~ NoDup (snd (fold_left (fun s c => add_log (fst c) (snd c) s) cs (m, []))).
Proof.
  exists 4, [(4, true); (4, false)]. cbn. intros H. inversion_clear H as [|? ? H1 H2]. apply H1. left. reflexivity.
Qed.
Print Assumptions C53_log_files_spurious_refuted.
