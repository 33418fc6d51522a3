(* Words for the properties of closing beside background workers. *)
From Coq Require Import List Arith Bool.
From Verif Require Import BgCloseModel.
Import ListNotations.

(* in this execution the closing thread never runs out of patience *)
Definition patient (es : list ev) : Prop := ~ In EvGiveUp es.

(* no database of the execution is in log-store mode *)
Definition no_log_store (es : list ev) : Prop := forall a, ~ In (EvOpen a true) es.

(* whenever a database is freed, it is not on the list the log reclaimer is
   working through *)
Fixpoint off_list (s : st) (es : list ev) : Prop :=
  match es with
  | [] => True
  | e :: r =>
      (e = EvFree -> forall o a t p, lock s = Some (o, a, t) -> In p (rcl s) -> fst p <> a)
      /\ match step s e with Go s' => off_list s' r | _ => True end
  end.

(* every new database gets an address never used before *)
Fixpoint new_addresses (s : st) (es : list ev) : Prop :=
  match es with
  | [] => True
  | e :: r =>
      (forall a lg, e = EvOpen a lg -> length (objs s) <= a)
      /\ match step s e with Go s' => new_addresses s' r | _ => True end
  end.

(* worker w has a job on the database at address a *)
Definition busy_on (s : st) (w a : nat) : Prop :=
  exists g b, nth_error (workers s) w = Some (Some ((a, g), b)).

(* the database at address a is being closed by o *)
Definition closing (s : st) (o : option nat) (a : nat) : Prop :=
  exists t, lock s = Some (o, a, t).
