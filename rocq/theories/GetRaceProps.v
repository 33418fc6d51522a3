(** * C122, C123: gets while other threads write, write batches and flush *)
From Coq Require Import Sorting.Sorted.
From Verif Require Import Base KeyModel LogFormatModel MemTableModel LogMgrModel DbModel MemTableProofs DbProofs GetRaceModel GetRaceSpec
  GetRaceProofs4.
Local Open Scope N_scope.

Definition rc (q k v : N) : rec := mkRec q INS [k] [] [v].

(** C122: a get answers from the acknowledged writes of a moment between its beginning and its end,
    whatever writers, batches and a flush do meanwhile. *)
Theorem C122_get_atomic : forall bs p b0 s k x, greach bs p b0 s -> s_get s = Some (mkRd k (GDone x)) ->
  exists b, begins b0 b /\ begins b bs /\ x = spec_get (concat b) k.
Proof. exact get_atomic. Qed.
Print Assumptions C122_get_atomic.

(** C123: the same with batches, each of which is visible as a whole or not at all.  Missing: batches
    with a key twice, and the two races below. *)
Theorem C123_batch_atomic_partial : forall bs p b0 s k x, greach bs p b0 s -> s_get s = Some (mkRd k (GDone x)) ->
  exists b, begins b0 b /\ begins b bs /\ x = spec_get (concat b) k.
Proof. exact get_atomic. Qed.
Print Assumptions C123_batch_atomic_partial.

(** The range of a flush (beyondLastSync, no number given) that no batch disturbs is one the runs above allow. *)
Theorem C123_quiet_choice : forall bs b0 s to q, greach bs None b0 s -> s_fl s = FIdle -> choose_all s s = Some (to, q) ->
  exists f r, In f (s_files s) /\ In r (gf_recs f) /\ In r (concat bs) /\ to = gf_num f /\ q = r_seq r /\
    forall x, In x (s_tab s) -> r_seq x <= r_seq r.
Proof. exact choose_quiet. Qed.
Print Assumptions C123_quiet_choice.

Ltac sorted := unfold increasing; vm_compute map; repeat constructor.
Ltac no_prefix := let t := fresh in let E := fresh in intros b [t E]; vm_compute in E;
  repeat (destruct b as [|? b]; [vm_compute; discriminate|]; cbn [app] in E; try discriminate E; injection E as <- E).

(** A batch that writes a key twice: the get reads the largest number between the two and the barrier
    after the end of the batch, and returns the first of the two values, which was never visible. *)
Theorem C123_key_twice_refuted : exists es s k x, grun es g_new = Some s /\ increasing es /\
  s_get s = Some (mkRd k (GDone x)) /\ forall b, begins b (acknowledged es) -> x <> spec_get (concat b) k.
Proof.
  exists [EWrite (rc 1 1 10); EGet [1]; EMax; EWalk; EBegin; EWrite (rc 2 1 20); EFile; EWrite (rc 3 1 30); EEnd; EBar; ELook].
  eexists. exists [1], (Ok (rc 2 1 20)). split; [vm_compute; reflexivity|]. split; [sorted|]. split; [reflexivity|]. no_prefix.
Qed.
Print Assumptions C123_key_twice_refuted.

(** The newest log file is empty: its largest number is no number, so the get is limited only by the
    barrier, which it reads before the batch begins; it returns a record of the unfinished batch. *)
Theorem C123_empty_file_refuted : exists es s k x, grun es g_new = Some s /\ increasing es /\
  s_get s = Some (mkRd k (GDone x)) /\ forall b, begins b (acknowledged es) -> x <> spec_get (concat b) k.
Proof.
  exists [EWrite (rc 1 1 10); ERoll; EGet [1]; EMax; EWalk; EFile; EBar; EBegin; EWrite (rc 2 1 20); ELook].
  eexists. exists [1], (Ok (rc 2 1 20)). split; [vm_compute; reflexivity|]. split; [sorted|]. split; [reflexivity|]. no_prefix.
Qed.
Print Assumptions C123_empty_file_refuted.

(** A flush reads the barrier, then a batch begins, then the flush reads the largest number: the first
    record of the unfinished batch goes to the tables, where the barrier hides nothing. *)
Theorem C123_half_batch_refuted : exists es1 es2 es3 s1 s2 to q s k x,
  grun es1 g_new = Some s1 /\ grun es2 s1 = Some s2 /\ choose_all s1 s2 = Some (to, q) /\
  grun (EFlush to q :: es3) s2 = Some s /\ increasing (es1 ++ es2 ++ EFlush to q :: es3) /\
  s_get s = Some (mkRd k (GDone x)) /\ forall b, begins b (acknowledged (es1 ++ es2 ++ EFlush to q :: es3)) -> x <> spec_get (concat b) k.
Proof.
  exists [EWrite (rc 1 1 10)], [EBegin; EWrite (rc 2 1 20)], [ETables; EMark; EGet [1]; EMax; EWalk; EFile; EBar; ELook; EFile; EAsk].
  eexists. eexists. exists 0, 2. eexists. exists [1], (Ok (rc 2 1 20)).
  split; [vm_compute; reflexivity|]. split; [vm_compute; reflexivity|]. split; [vm_compute; reflexivity|]. split; [vm_compute; reflexivity|].
  split; [sorted|]. split; [reflexivity|]. no_prefix.
Qed.
Print Assumptions C123_half_batch_refuted.

(** ** Cases *)
Ltac seqs := let B := fresh in let X := fresh in cbn; intros ? ? B X;
  repeat (destruct B as [<-|B]; [repeat (destruct X as [<-|X]; [reflexivity|]); destruct X|]); destruct B.
Ltac gw R r := eapply (gr_write _ _ _ r) in R; [|split; reflexivity|seqs|vm_compute; reflexivity].
Ltac gp R r := eapply (gr_put _ _ _ _ r) in R; [|split; reflexivity|seqs|cbn; intuition discriminate|vm_compute; reflexivity].
Ltac gg R e := eapply (gr_getting _ _ _ _ e) in R; [|cbn; tauto|vm_compute; reflexivity].
Ltac gf R e := eapply (gr_flushing _ _ _ _ e) in R; [|cbn; tauto|vm_compute; reflexivity].

(** A get of key 1 has asked the newer of two files when a flush marks both and removes the older;
    then key 1 is written.  The get answers from the tables: the moment before that write. *)
Example C122_case : exists s,
  greach [[rc 1 1 10]; [rc 2 2 20]; [rc 3 1 30]] None [[rc 1 1 10]; [rc 2 2 20]] s /\
  s_get s = Some (mkRd [1] (GDone (Ok (rc 1 1 10)))) /\ map gf_gone (s_files s) = [true; false].
Proof.
  pose proof gr_new as R. gw R (rc 1 1 10). eapply gr_roll in R; [|vm_compute; reflexivity]. gw R (rc 2 2 20).
  eapply (gr_get _ _ _ _ [1]) in R; [|vm_compute; reflexivity]. gg R EMax. gg R EWalk. gg R EFile. gg R EBar. gg R ELook.
  eapply (gr_flush _ _ _ _ (mkGF 1 [rc 2 2 20] NIL false) (rc 2 2 20)) in R;
    [|cbn; tauto|cbn; tauto|cbn; tauto|cbn; tauto|vm_compute; reflexivity].
  gf R ETables. gf R EMark. gf R EMark. gf R ELast. gw R (rc 3 1 30). gf R ERemove. gf R ERemove.
  gg R EFile. gg R EFile. gg R EAsk. eexists. split; [exact R|]. split; reflexivity.
Qed.

(** A get of key 1 while a batch writes keys 1 and 2, and after it. *)
Example C123_case : exists s,
  greach [[rc 1 1 10]] (Some [rc 2 1 20; rc 3 2 30]) [[rc 1 1 10]] s /\
  s_get s = Some (mkRd [1] (GDone (Ok (rc 1 1 10)))) /\
  exists s', greach [[rc 1 1 10]; [rc 2 1 20; rc 3 2 30]] None [[rc 1 1 10]; [rc 2 1 20; rc 3 2 30]] s' /\
  s_get s' = Some (mkRd [1] (GDone (Ok (rc 2 1 20)))).
Proof.
  pose proof gr_new as R. gw R (rc 1 1 10).
  eapply (gr_begin) in R; [|discriminate|intros (k & n & ns & E); vm_compute in E; discriminate|vm_compute; reflexivity].
  gp R (rc 2 1 20). eapply (gr_get _ _ _ _ [1]) in R; [|vm_compute; reflexivity]. gg R EMax. gg R EWalk. gg R EFile. gp R (rc 3 2 30).
  gg R EBar. gg R ELook. eexists. split; [exact R|]. split; [reflexivity|].
  eapply gr_end in R; [|vm_compute; reflexivity]. eapply (gr_get _ _ _ _ [1]) in R; [|vm_compute; reflexivity].
  gg R EMax. gg R EWalk. gg R EFile. gg R EBar. gg R ELook. eexists. split; [exact R|]. reflexivity.
Qed.
