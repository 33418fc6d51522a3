(** What the statements about WorkerModel need: which actions an execution may contain, how many steps
    the worker makes in it, and when a request has been taken from the queue. *)
From Coq Require Import Arith List Bool.
From Verif Require Import WorkerModel.
Import ListNotations.
Local Open Scope nat_scope.

(** No compare-and-swap of the worker fails spuriously. *)
Definition strong (a : act) : bool := match a with WkWeak => false | _ => true end.
(** The worker is not told to terminate. *)
Definition nohalt (a : act) : bool := match a with Halt => false | _ => true end.
(** Both. *)
Definition before (a : act) : bool := strong a && nohalt a.

(** The worker has been started and not stopped. *)
Definition serving (s : st) : bool := match s_status s with Idle | Working => true | _ => false end.
(** The worker is neither stopped nor told to terminate, and no spurious failure. *)
Definition kept (a : act) : bool := match a with Add | Halt | WkWeak => false | _ => true end.
(** It is not stopped after it was told to terminate. *)
Definition tk (a : act) : bool := match a with Add => false | _ => true end.
(** Requests come without a delay. *)
Definition nodelay (a : act) : bool := match a with Request _ _ dl => negb dl | _ => true end.
Definition ok (a : act) : bool := kept a && nodelay a.
Definition plain (a : act) : bool := strong a && nohalt a && nodelay a.
(** The steps of the worker in an execution. *)
Definition wk (a : act) : nat := match a with Wk => 1 | _ => 0 end.

Fixpoint wks (os : list act) : nat := match os with [] => 0 | a :: r => wk a + wks r end.
(** At some point of the execution the request of [d] has been taken from the queue. *)
Definition taken (d : nat) (os : list act) (s : st) : Prop :=
  exists os' os'' s', os = os' ++ os'' /\ run os' s = Some s' /\ ~ In d (map fst (s_q s')).
