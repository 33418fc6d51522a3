(* C133: closing a database is safe while background workers are busy. *)
From Coq Require Import List Arith Bool Lia.
From Verif Require Import BgCloseModel BgCloseSpec BgCloseProofs.
Import ListNotations.

(* Nothing touches a freed database, for every execution of any number of
   workers, databases and closes - from handlers as well - in which no wait
   expires and no database is freed that the log reclaimer still has on its
   list.  Missing from the full claim: those two exceptions, refuted below. *)
Theorem C133_safe_partial : forall n es,
  patient es -> off_list (init n) es -> exec (init n) es <> Bad.
Proof. exact safe_run. Qed.

(* Without log-store databases the second exception never arises. *)
Theorem C133_plain_partial : forall n es,
  patient es -> no_log_store es -> exec (init n) es <> Bad.
Proof. exact safe_plain. Qed.

(* A database is freed with nobody at work on it. *)
Theorem C133_unused_partial : forall n es s s' o a,
  patient es -> exec (init n) es = Go s -> closing s o a ->
  step s EvFree = Go s' -> forall w, ~ busy_on s w a.
Proof. exact free_unused. Qed.

(* While it is being closed, nobody starts to work on it. *)
Theorem C133_no_new_partial : forall n es s e s' o a w,
  patient es -> exec (init n) es = Go s -> closing s o a ->
  step s e = Go s' -> busy_on s' w a -> busy_on s w a.
Proof. exact no_new. Qed.

(* A close ends properly once the workers end their jobs: no other event is
   needed.  A handler that closes the database it was called for is excepted. *)
Theorem C133_ends_partial : forall n es s o a,
  patient es -> exec (init n) es = Go s -> closing s o a ->
  (forall w, o = Some w -> ~ busy_on s w a) ->
  exists fs s1 s2,
    Forall (fun e => exists w, e = EvLeave w \/ e = EvEnd w) fs
    /\ exec s fs = Go s1 /\ step s1 EvFree = Go s2.
Proof. exact close_ends. Qed.

(* The wait for background tasks is never longer than a hundred ticks. *)
Theorem C133_bound_partial : forall n es s o a t,
  patient es -> exec (init n) es = Go s -> lock s = Some (o, a, t) -> t <= 100.
Proof. exact wait_bound. Qed.

(* A flush request is executed on the database it was made for, as long as no
   address is used twice. *)
Theorem C133_request_partial : forall n es s p q,
  new_addresses (init n) es -> exec (init n) es = Go s -> In (p, q) (served s) -> p = q.
Proof. exact right_db. Qed.

(* (a) A completion handler that takes more than ten seconds: the closing
   thread gives up and frees the database, the worker then counts its task
   down in freed memory. *)
Theorem C133_long_refuted : exists es,
  no_log_store es /\ (forall o a, In (EvClose o a) es -> o = None) /\ exec (init 1) es = Bad.
Proof.
  exists ([EvOpen 0 false; EvAsk 0; EvServe 0; EvEnter 0; EvLeave 0; EvClose None 0]
          ++ repeat EvTick 100 ++ [EvGiveUp; EvEnd 0]).
  split; [|split].
  - intros a H. simpl in H. repeat (destruct H as [H|H]; [discriminate|]). exact H.
  - intros o a H. simpl in H.
    repeat (destruct H as [H|H]; [try discriminate; inversion H; reflexivity|]). contradiction.
  - vm_compute. reflexivity.
Qed.

(* (b) A log-store database closed while the log reclaimer has it on its list:
   no wait is involved. *)
Theorem C133_reclaim_refuted : exists es, patient es /\ exec (init 0) es = Bad.
Proof.
  exists [EvOpen 0 true; EvOpen 1 true; EvScan; EvReclaim; EvClose None 1; EvFree; EvReclaim].
  split; [|vm_compute; reflexivity].
  intro H. simpl in H. repeat (destruct H as [H|H]; [discriminate|]). exact H.
Qed.

(* the state an execution ends in, for writing down examples *)
Definition after (s : st) (es : list ev) : st :=
  match exec s es with Go s' => s' | _ => s end.

Definition own133 : list ev :=
  [EvOpen 0 false; EvAsk 0; EvServe 0; EvEnter 0; EvLeave 0; EvClose (Some 0) 0].

(* (c) A completion handler that closes the database it was called for: such
   states exist, the close never ends but by giving up, and then the worker's
   next step uses freed memory. *)
Theorem C133_handler_refuted :
  (exists es s, patient es /\ exec (init 1) es = Go s
                /\ closing s (Some 0) 0 /\ busy_on s 0 0
                /\ exists fs s' s'', patient fs /\ exec s fs = Go s' /\ step s' EvGiveUp = Go s'')
  /\ (forall n es s w a fs s',
        patient es -> exec (init n) es = Go s -> closing s (Some w) a -> busy_on s w a ->
        patient fs -> exec s fs = Go s' -> closing s' (Some w) a)
  /\ (forall n es s w a s',
        patient es -> exec (init n) es = Go s -> closing s (Some w) a -> busy_on s w a ->
        step s EvGiveUp = Go s' -> step s' (EvEnd w) = Bad).
Proof.
  split; [|split; [exact own_close|exact own_bad]].
  exists own133, (after (init 1) own133).
  split; [|split; [vm_compute; reflexivity|split; [exists 0; vm_compute; reflexivity|split;
    [exists 0, false; vm_compute; reflexivity|]]]].
  - intro H. simpl in H. repeat (destruct H as [H|H]; [discriminate|]). exact H.
  - exists (repeat EvTick 100), (after (init 1) (own133 ++ repeat EvTick 100)),
      (after (init 1) (own133 ++ repeat EvTick 100 ++ [EvGiveUp])).
    split; [|split; vm_compute; reflexivity].
    intro H. apply repeat_spec in H. discriminate.
Qed.

(* (d) A request left in the queue by a database that was closed is executed
   on the database opened later at the same address. *)
Theorem C133_reuse_refuted : exists es s p q,
  patient es /\ no_log_store es /\ exec (init 1) es = Go s
  /\ In (p, q) (served s) /\ p <> q.
Proof.
  exists [EvOpen 0 false; EvAsk 0; EvClose None 0; EvFree; EvOpen 0 false; EvServe 0].
  eexists. exists (0, 0), (0, 1). split; [|split; [|split; [reflexivity|split]]].
  - intro H. simpl in H. repeat (destruct H as [H|H]; [discriminate|]). exact H.
  - intros a H. simpl in H. repeat (destruct H as [H|H]; [discriminate|]). exact H.
  - simpl. auto.
  - discriminate.
Qed.

(* (e) While one close waits for its workers, no other database can be opened,
   closed or served. *)
Theorem C133_others_refuted :
  (exists n es s, exec (init n) es = Go s /\ closing s None 0 /\ busy_on s 0 0
                  /\ length (objs s) = 2)
  /\ forall s o a b lg w o', closing s o a ->
       step s (EvOpen b lg) = No /\ step s (EvClose o' b) = No
       /\ step s (EvServe w) = No /\ step s (EvPick w b) = No.
Proof.
  split.
  - exists 1, [EvOpen 0 false; EvOpen 1 false; EvPick 0 0; EvClose None 0]. eexists.
    split; [reflexivity|]. split; [eexists; reflexivity|].
    split; [eexists; eexists; reflexivity|reflexivity].
  - intros s o a b lg w o' [t H]. simpl. rewrite H. auto.
Qed.

(* Two workers, two databases - one a log store - and two closes, one of them
   from a handler: all the hypotheses hold and the execution runs to its end. *)
Definition case133 : list ev :=
  [EvOpen 0 false; EvOpen 1 true; EvAsk 0; EvServe 0; EvEnter 0; EvPick 1 1; EvScan;
   EvReclaim; EvLeave 0; EvClose (Some 0) 1; EvTick; EvEnd 1; EvFree; EvEnd 0;
   EvPick 1 0; EvEnter 1; EvClose None 0; EvTick; EvTick; EvLeave 1; EvEnd 1; EvFree].

Example C133_case :
  patient case133 /\ off_list (init 2) case133 /\ new_addresses (init 2) case133
  /\ exists s, exec (init 2) case133 = Go s
               /\ map o_live (objs s) = [false; false]
               /\ served s = [((0, 0), (0, 0))].
Proof.
  split; [|split; [|split]].
  - intro H. simpl in H. repeat (destruct H as [H|H]; [discriminate|]). exact H.
  - vm_compute.
    repeat (split; [first [intro D; discriminate D | intros _ o a t p _ []]|]). exact Logic.I.
  - vm_compute.
    repeat (split; [intros a lg D; try discriminate D; inversion D; subst; lia|]). exact Logic.I.
  - exists (after (init 2) case133). split; [vm_compute; reflexivity|].
    split; vm_compute; reflexivity.
Qed.

(* a close waiting for a worker inside its operation *)
Example C133_waiting_case : exists s,
  exec (init 1) [EvOpen 0 false; EvPick 0 0; EvEnter 0; EvClose None 0; EvTick] = Go s
  /\ lock s = Some (None, 0, 1) /\ busy_on s 0 0 /\ step s EvFree = No.
Proof.
  eexists. split; [reflexivity|]. split; [reflexivity|].
  split; [eexists; eexists; reflexivity|reflexivity].
Qed.

Print Assumptions C133_safe_partial.
Print Assumptions C133_plain_partial.
Print Assumptions C133_unused_partial.
Print Assumptions C133_no_new_partial.
Print Assumptions C133_ends_partial.
Print Assumptions C133_bound_partial.
Print Assumptions C133_request_partial.
Print Assumptions C133_long_refuted.
Print Assumptions C133_reclaim_refuted.
Print Assumptions C133_handler_refuted.
Print Assumptions C133_reuse_refuted.
Print Assumptions C133_others_refuted.
