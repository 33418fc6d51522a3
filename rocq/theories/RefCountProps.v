(** C29: a log file is deleted exactly once, when nobody uses it any more.  The model is in
    RefCountModel.v: any number [n] of references, every interleaving of their atomic steps. *)
From Verif Require Import Base RefCountModel RefCountProofs.
From Coq Require Import Lia Arith.

(** Without eviction of memtables and without snapshots of log store mode: never accessed after it
    was deleted, not deleted twice, not deleted while somebody uses it. *)
Theorem C29_never_used_after_free_partial : forall n es s,
  (forall e, In e es -> match e with ESnap _ | EEvChk _ | EEvict _ => False | _ => True end) ->
  rruns es (r_new n) = Some s ->
  r_bad s = false /\ r_freed s <= 1 /\ forall t, in_use (at_pc t s) = true -> r_freed s = 0.
Proof. exact plain_safe. Qed.
Print Assumptions C29_never_used_after_free_partial.

(** It is deleted once all references are gone, if none of them was halfway through its release
    when the file was marked as removed. *)
Theorem C29_freed_partial : forall n es1 t es2 s1 s,
  (forall e, In e (es1 ++ ERm t :: es2) -> match e with ESnap _ | EEvChk _ | EEvict _ => False | _ => True end) ->
  rruns es1 (r_new n) = Some s1 -> (forall u, before (at_pc u s1) = false) ->
  rruns (ERm t :: es2) s1 = Some s -> (forall u, at_pc u s = PIdle) -> r_freed s = 1.
Proof. exact plain_freed. Qed.
Print Assumptions C29_freed_partial.

Definition take (t : nat) : list rev_ := [EFind t; EGrab t; ELock t; ERelease t].
Definition dones (k t : nat) : list rev_ := repeat (EDone t) k.
Definition drop_file (t : nat) : list rev_ := [ERm t; EUnlink t; EWait t].

(** Two readers and a flush: the file goes with the last reader. *)
Example ex_refs : exists s1 s, rruns (take 0 ++ take 1 ++ take 2) (r_new 3) = Some s1
  /\ (forall u, before (at_pc u s1) = false)
  /\ rruns (ERm 2 :: [EDone 0; EUnlink 2; EDone 0; EWait 2] ++ dones 3 2 ++ [EDone 0] ++ dones 3 1 ++ [EKill 1]) s1 = Some s
  /\ (forall u, at_pc u s = PIdle) /\ r_freed s = 1 /\ r_bad s = false.
Proof.
  do 2 eexists. split; [vm_compute; reflexivity|]. split; [intros [|[|[|[|u]]]]; reflexivity|].
  split; [vm_compute; reflexivity|]. split; [intros [|[|[|[|u]]]]; reflexivity|]. split; reflexivity.
Qed.

(** A reader that saw "not removed" before a flush removed the file decrements without looking
    again: all references are gone, no step is left, and the file is never deleted. *)
Theorem C29_leak_refuted : exists n es s,
  (forall e, In e es -> plain e) /\ rruns es (r_new n) = Some s /\ r_removed s = true /\ (forall u, at_pc u s = PIdle) /\
  r_freed s = 0 /\ forall e, rstep e s = None.
Proof.
  exists 2, (take 0 ++ take 1 ++ [EDone 0] ++ drop_file 1 ++ dones 3 1 ++ dones 2 0). eexists.
  split; [intros e He; cbn in He; repeat destruct He as [<-|He]; try exact I; destruct He|].
  split; [vm_compute; reflexivity|]. split; [reflexivity|].
  assert (A : forall u, nth u [PIdle; PIdle] PIdle = PIdle) by (intros [|[|[|u]]]; reflexivity).
  split; [exact A|]. split; [reflexivity|].
  intros [t|t|t|t|t|t u|t|t|t|t|t|t|t]; cbn [rstep]; unfold at_pc; cbn [r_pcs]; rewrite ?A; reflexivity.
Qed.
Print Assumptions C29_leak_refuted.

(** With a snapshot of log store mode: the snapshot and the last reader both delete the file. *)
Theorem C29_double_free_refuted : exists n es s, rruns es (r_new n) = Some s /\ r_freed s = 2.
Proof.
  exists 3, (take 0 ++ [EFind 1; ESnap 1; ERelease 1] ++ take 2 ++ drop_file 2 ++ dones 3 2 ++ dones 2 1 ++ dones 3 0 ++ [EDone 1; EKill 0; EKill 1]).
  eexists. split; [vm_compute; reflexivity|]. reflexivity.
Qed.
Print Assumptions C29_double_free_refuted.

(** The file is deleted while a snapshot of log store mode uses it. *)
Theorem C29_snapshot_lost_refuted : exists n es s t, rruns es (r_new n) = Some s /\ in_use (at_pc t s) = true /\ r_freed s = 1.
Proof.
  exists 3, (take 0 ++ take 2 ++ [EFind 1; ERm 2] ++ dones 2 0 ++ [ESnap 1; ERelease 1; EUnlink 2; EWait 2] ++ dones 3 2 ++ [EDone 0; EKill 0]).
  eexists. exists 1. split; [vm_compute; reflexivity|]. split; reflexivity.
Qed.
Print Assumptions C29_snapshot_lost_refuted.

(** With eviction: the reclaimer marks a file that a flush is using; nobody purges its memtable, and
    the flush, deleting the file, waits for that forever. *)
Theorem C29_hang_refuted : exists n es s t, rruns es (r_new n) = Some s /\ at_pc t s = PDestroy /\ forall e, rstep e s = None.
Proof.
  exists 2, (take 1 ++ [EFind 0; EGrab 0; ELock 0; EEvChk 0; EEvict 0; ERelease 0] ++ dones 3 0 ++ drop_file 1 ++ dones 3 1). eexists. exists 1.
  split; [vm_compute; reflexivity|]. split; [reflexivity|].
  assert (A : forall u, nth u [PIdle; PDestroy] PIdle = PIdle \/ nth u [PIdle; PDestroy] PIdle = PDestroy) by (intros [|[|[|u]]]; cbn; auto).
  intros [t|t|t|t|t|t u|t|t|t|t|t|t|t]; cbn [rstep]; unfold at_pc; cbn [r_pcs];
    destruct (A t) as [E|E]; rewrite E; reflexivity.
Qed.
Print Assumptions C29_hang_refuted.

(** With eviction: the memtable is purged by a release that still unlocks a mutex of the file, while
    another thread, seeing it purged, deletes the file. *)
Theorem C29_evicted_refuted : exists n es s, rruns es (r_new n) = Some s /\ r_bad s = true.
Proof.
  exists 2, ([EFind 0; EGrab 0; ELock 0; EEvChk 0; EEvict 0; ERelease 0] ++ dones 3 0 ++ take 1 ++ drop_file 1 ++ dones 3 1 ++ [EDone 0; EKill 1; EDone 0]). eexists.
  split; [vm_compute; reflexivity|]. reflexivity.
Qed.
Print Assumptions C29_evicted_refuted.
