(** C32, C55, C56: batches over several databases. *)
From Verif Require Import Base KeyModel KeyProofs GlobalBatchModel GlobalBatchProofs GlobalVisProofs.
From Coq Require Import Lia Arith.

(** ** C32: no deadlock *)

(** A thread that writes: a global batch, put together in any order, or a write of one database. *)
Definition writer {B : Type} (p : list act) : Prop :=
  (exists ro (adds : list (dbid * B)) work, p = batch_prog (gb_of ro adds) work) \/ exists d work, p = single_prog d work.

Lemma writer_shape : forall {B} p, @writer B p -> shape [] p.
Proof. intros B p [(ro & adds & work & ->)|(d & work & ->)]; [apply batch_shape; apply gb_of_sorted|apply single_shape]. Qed.

(** Whatever the threads did so far: if one of them has not finished, one of them can go on. *)
Theorem C32_progress : forall (B : Type) ps ts s, (forall p, In p ps -> @writer B p) -> lruns ts (l_new ps) = Some s ->
  (exists t, nth t (l_progs s) [] <> []) -> exists t s', lstep t s = Some s'.
Proof.
  intros B ps ts s Hp Hr. apply no_deadlock. apply (lruns_wf ts (l_new ps) s); [|exact Hr]. apply new_wf. intros p H. apply (@writer_shape B). apply Hp. exact H.
Qed.
Print Assumptions C32_progress.
(** No execution is longer than the programs together, and all of them can be finished. *)
Theorem C32_all_finish : forall (B : Type) ps ts s, (forall p, In p ps -> @writer B p) -> lruns ts (l_new ps) = Some s ->
  length ts <= list_sum (map (@length act) ps) /\
  exists ts' s', lruns ts' s = Some s' /\ forall t, nth t (l_progs s') [] = [].
Proof.
  intros B ps ts s Hp Hr. split; [pose proof (lruns_shorter ts _ _ Hr) as Q; unfold left_to_do in Q; cbn [l_new l_progs] in Q; lia|].
  apply all_finish. apply (lruns_wf ts (l_new ps) s); [|exact Hr]. apply new_wf. intros p H. apply (@writer_shape B). apply Hp. exact H.
Qed.
Print Assumptions C32_all_finish.

Definition xd (n : N) : dbid := mkDbId [n] 0.
Definition rw (d : dbid) : bool := false.
(** Two batches name the databases in opposite orders; thread 0 holds the first mutex, thread 1 has
    to wait for it, so thread 0 can go on. *)
Example ex_deadlock :
  let ps := [batch_prog (gb_of rw [(xd 1, [10%N]); (xd 2, [20%N])]) 1; batch_prog (gb_of rw [(xd 2, [21%N]); (xd 1, [11%N])]) 1; single_prog (xd 2) 1] in
  (forall p, In p ps -> @writer (list N) p) /\
  exists s, lruns [0; 2] (l_new ps) = Some s /\ lstep 1 s = None /\ lstep 0 s = None /\ lstep 2 s <> None.
Proof.
  split.
  - intros p [<-|[<-|[<-|[]]]]; [left; exists rw; eexists _, 1; reflexivity|left; exists rw; eexists _, 1; reflexivity|right; exists (xd 2), 1; reflexivity].
  - eexists. split; [reflexivity|]. split; [reflexivity|]. split; [reflexivity|discriminate].
Qed.

(** ** C55: visible all at once over all databases *)

(** Reader [t1] started when the batch had set the barrier of its database [d1], and saw at least one
    record of the batch.  Then every reader that starts afterwards sees the whole batch, in whatever
    database.  All databases had records before. *)
Theorem C55_seen_means_all_partial : forall n base cnt, (forall d, d < n -> 1 <= base d) ->
  forall es1 s1 es2 s2 es3 s t1 d1 k1 t2 d2 k2,
  gruns n base cnt es1 g_new = Some s1 -> g_rd s1 t1 = GIdle -> d1 < n -> g_set s1 d1 = true ->
  gruns n base cnt (GLoad t1 d1 :: es2) s1 = Some s2 -> (forall d, ~ In (GLoad t1 d) es2) -> g_rd s2 t1 = GSaw d1 k1 -> 1 <= k1 ->
  g_rd s2 t2 = GIdle -> d2 < n -> gruns n base cnt (GLoad t2 d2 :: es3) s2 = Some s -> (forall d, ~ In (GLoad t2 d) es3) -> g_rd s t2 = GSaw d2 k2 ->
  k2 = cnt d2.
Proof. exact seen_means_all. Qed.
Print Assumptions C55_seen_means_all_partial.

Definition xcnt (d : nat) : nat := match d with 0 => 2 | _ => 1 end.
Definition xbase (d : nat) : nat := 5.
Definition all_written : list gev := [GSetBar 0; GSetBar 1; GWrite 0; GWrite 0; GSetStat 0; GSetFwd 0; GWrite 1; GSetStat 1; GSetFwd 1].
(** Reader 7 starts in database 1 before the batch is visible and sees it; reader 8 sees both records
    in database 0 while the batch is being cleaned up. *)
Example ex_visible : exists s1 s2 s,
  gruns 2 xbase xcnt all_written g_new = Some s1 /\ g_rd s1 7 = GIdle /\ g_set s1 1 = true /\
  gruns 2 xbase xcnt (GLoad 7 1 :: [GNext 7; GVisible; GNext 7; GNext 7; GClrBar 0]) s1 = Some s2 /\ g_rd s2 7 = GSaw 1 1 /\ g_rd s2 8 = GIdle /\
  gruns 2 xbase xcnt (GLoad 8 0 :: [GClrStat 0; GNext 8; GClrFwd 0; GNext 8; GNext 8]) s2 = Some s /\ g_rd s 8 = GSaw 0 2.
Proof. do 3 eexists. split; [vm_compute; reflexivity|]. split; [vm_compute; reflexivity|]. split; [vm_compute; reflexivity|]. split; [vm_compute; reflexivity|]. split; [vm_compute; reflexivity|]. split; [vm_compute; reflexivity|]. split; vm_compute; reflexivity. Qed.

(** Otherwise: a reader that found no barrier, because the batch had not begun, and looks up the key
    only after the batch wrote it, sees it; the next reader does not. *)
Theorem C55_old_barrier_refuted : exists n base cnt, (forall d, d < n -> 1 <= base d) /\
  exists es1 s1 es2 s t1 d1 k1 t2 d2 k2,
  gruns n base cnt es1 g_new = Some s1 /\ g_rd s1 t1 = GSaw d1 k1 /\ 1 <= k1 /\ d1 < n /\
  g_rd s1 t2 = GIdle /\ d2 < n /\ gruns n base cnt (GLoad t2 d2 :: es2) s1 = Some s /\ (forall d, ~ In (GLoad t2 d) es2) /\ g_rd s t2 = GSaw d2 k2 /\
  1 <= cnt d2 /\ k2 = 0.
Proof.
  exists 2, xbase, xcnt. split; [intros d _; unfold xbase; lia|].
  exists ([GLoad 7 0; GNext 7; GSetBar 0; GSetBar 1; GWrite 0; GNext 7]). eexists. exists [GNext 8; GNext 8]. eexists. exists 7, 0, 1, 8, 0, 0.
  split; [vm_compute; reflexivity|]. split; [vm_compute; reflexivity|]. split; [lia|]. split; [lia|]. split; [vm_compute; reflexivity|]. split; [lia|]. split; [vm_compute; reflexivity|].
  split; [intros d [Q|[Q|[]]]; discriminate Q|]. split; [vm_compute; reflexivity|]. split; [cbn; lia|reflexivity].
Qed.
Print Assumptions C55_old_barrier_refuted.
(** The first records of an empty database are not hidden at all. *)
Theorem C55_empty_database_refuted : exists n base cnt es1 s1 es2 s2 es3 s t1 d1 k1 t2 d2 k2,
  gruns n base cnt es1 g_new = Some s1 /\ g_rd s1 t1 = GIdle /\ d1 < n /\ g_set s1 d1 = true /\
  gruns n base cnt (GLoad t1 d1 :: es2) s1 = Some s2 /\ (forall d, ~ In (GLoad t1 d) es2) /\ g_rd s2 t1 = GSaw d1 k1 /\ 1 <= k1 /\
  g_rd s2 t2 = GIdle /\ d2 < n /\ gruns n base cnt (GLoad t2 d2 :: es3) s2 = Some s /\ (forall d, ~ In (GLoad t2 d) es3) /\ g_rd s t2 = GSaw d2 k2 /\
  k2 < cnt d2.
Proof.
  exists 2, (fun _ => 0), xcnt. exists [GSetBar 0; GSetBar 1; GWrite 0]. eexists. exists [GNext 7; GNext 7]. eexists. exists [GNext 8; GNext 8]. eexists. exists 7, 0, 1, 8, 1, 0.
  split; [vm_compute; reflexivity|]. split; [vm_compute; reflexivity|]. split; [lia|]. split; [vm_compute; reflexivity|]. split; [vm_compute; reflexivity|].
  split; [intros d [Q|[Q|[]]]; discriminate Q|]. split; [vm_compute; reflexivity|]. split; [lia|]. split; [vm_compute; reflexivity|]. split; [lia|]. split; [vm_compute; reflexivity|].
  split; [intros d [Q|[Q|[]]]; discriminate Q|]. split; [reflexivity|cbn; lia].
Qed.
Print Assumptions C55_empty_database_refuted.

(** ** C56: success means that everything was written *)

(** Distinct paths, none read-only, no batch empty: success exactly if all batches are valid; then
    what is written is every batch (up to a failing record, of which nothing is reported); otherwise
    nothing is written. *)
Theorem C56_written_partial : forall (R : Type) valid room ro (adds : list (dbid * list R)),
  NoDup (map (fun a => d_path (fst a)) adds) -> (forall a, In a adds -> ro (fst a) = false /\ snd a <> []) ->
  (forall d b, length b <= room d b) ->
  ((forall a, In a adds -> valid (fst a) (snd a) = true) ->
     fst (gb_execute valid room (gb_of ro adds)) = GbOk /\ forall a, In a (snd (gb_execute valid room (gb_of ro adds))) <-> In a adds) /\
  ((exists a, In a adds /\ valid (fst a) (snd a) = false) -> gb_execute valid room (gb_of ro adds) = (GbInvalid, [])).
Proof.
  intros R valid room ro adds Hn Hr Hroom. pose proof (gb_of_all ro adds Hn (fun a Ha => proj1 (Hr a Ha))) as Hall.
  assert (Hne : forall a, In a (gb_of ro adds) -> snd a <> []) by (intros a Ha; apply (Hr a); apply Hall; exact Ha).
  split.
  - intros Hv.
    assert (C : forall l, (forall a, In a l -> snd a <> []) -> (forall a, In a l -> valid (fst a) (snd a) = true) -> gb_check valid l = GbOk).
    { induction l as [|[d b] l IH]; intros H1 H2; [reflexivity|]. cbn [gb_check]. pose proof (H1 _ (or_introl eq_refl)) as Q1. pose proof (H2 _ (or_introl eq_refl)) as Q2. cbn [fst snd] in Q1, Q2.
      destruct b as [|r b]; [contradiction|]. rewrite Q2. apply IH; intros a Ha; [apply H1|apply H2]; right; exact Ha. }
    unfold gb_execute. rewrite C; [|exact Hne|intros a Ha; apply Hv; apply Hall; exact Ha]. split; [reflexivity|]. intros a. cbn [snd]. rewrite <- Hall.
    assert (E : map (fun p => (fst p, firstn (room (fst p) (snd p)) (snd p))) (gb_of ro adds) = gb_of ro adds); [|rewrite E; tauto].
    rewrite <- (map_id (gb_of ro adds)) at 2. apply map_ext. intros [d b]. cbn [fst snd]. rewrite firstn_all2 by apply Hroom. reflexivity.
  - intros (a & Ha & Hv). apply Hall in Ha.
    assert (C : forall l, (forall a, In a l -> snd a <> []) -> In a l -> gb_check valid l = GbInvalid).
    { induction l as [|[d b] l IH]; intros H1 H2; [destruct H2|]. cbn [gb_check]. pose proof (H1 _ (or_introl eq_refl)) as Q1. cbn [snd] in Q1.
      destruct b as [|r b]; [contradiction|]. destruct H2 as [<-|H2]; [cbn [fst snd] in Hv; rewrite Hv; reflexivity|].
      destruct (valid d (r :: b)); [|reflexivity]. apply IH; [intros x Hx; apply H1; right; exact Hx|exact H2]. }
    unfold gb_execute. rewrite C; [reflexivity|exact Hne|exact Ha].
Qed.
Print Assumptions C56_written_partial.
Example ex_global_batch :
  let adds := [(xd 2, [21; 22]%N); (xd 1, [11]%N)] in
  gb_execute (fun _ _ => true) (fun _ b => length b) (gb_of rw adds) = (GbOk, [(xd 1, [11]%N); (xd 2, [21; 22]%N)]) /\
  gb_execute (fun d _ => keqb (d_path d) [2%N]) (fun _ b => length b) (gb_of rw adds) = (GbInvalid, []).
Proof. split; reflexivity. Qed.

(** Two stores of one database group have the same path: the second one's batch is dropped, and the
    result is success. *)
Theorem C56_group_refuted : exists (adds : list (dbid * list N)), NoDup (map fst adds) /\
  fst (gb_execute (fun _ _ => true) (fun _ b => length b) (gb_of rw adds)) = GbOk /\
  exists a, In a adds /\ ~ In (fst a) (map fst (snd (gb_execute (fun _ _ => true) (fun _ b => length b) (gb_of rw adds)))).
Proof.
  exists [(mkDbId [1%N] 0, [11%N]); (mkDbId [1%N] 1, [12%N])]. split; [|split; [reflexivity|]].
  - constructor; [intros [Q|[]]; discriminate Q|]. constructor; [intros []|constructor].
  - exists (mkDbId [1%N] 1, [12%N]). split; [right; left; reflexivity|]. intros [Q|[]]. discriminate Q.
Qed.
Print Assumptions C56_group_refuted.
(** A write that fails in the middle is not reported, and the records before it stay. *)
Theorem C56_failed_write_refuted : exists (adds : list (dbid * list N)) room, NoDup (map (fun a => d_path (fst a)) adds) /\
  gb_execute (fun _ _ => true) room (gb_of rw adds) = (GbOk, [(xd 1, [11%N]); (xd 2, [21%N; 22%N])]) /\ In (xd 1, [11%N; 12%N]) adds.
Proof.
  exists [(xd 1, [11%N; 12%N]); (xd 2, [21%N; 22%N])], (fun d b => if keqb (d_path d) [1%N] then 1 else length b).
  split; [constructor; [intros [Q|[]]; discriminate Q|]; constructor; [intros []|constructor]|]. split; [reflexivity|left; reflexivity].
Qed.
Print Assumptions C56_failed_write_refuted.
(** An empty batch is undefined behaviour, although adding one is accepted. *)
Theorem C56_empty_refuted : forall (R : Type) valid room ro d, ro d = false ->
  fst (@gb_execute R valid room (gb_of ro [(d, [])])) = GbUndefined.
Proof. intros R valid room ro d H. unfold gb_of, gb_add. cbn [fold_left fst snd]. rewrite H. reflexivity. Qed.
Print Assumptions C56_empty_refuted.
