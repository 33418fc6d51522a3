(** Words used in the statements about timers. *)
From Verif Require Import Base TimerModel.
Local Open Scope N_scope.

(** States that can be reached without undefined behaviour of the coordinator. *)
Inductive treach : tmst -> Prop :=
| tr_init : treach tm_init
| tr_step : forall s o s', treach s -> tstep o s = Go s' -> treach s'.

Definition runs (i : nat) (s : tmst) : list N :=
  flat_map (fun e => match e with ERan j t => if Nat.eqb j i then [t] else [] | _ => [] end) (s_log s).

(** The coordinator is executing the callback of task [i]. *)
Definition in_callback (i : nat) (s : tmst) : Prop :=
  match s_pc s with UseLog j _ | DoWake j _ | Finish j _ => j = i | _ => False end.
(** Task [i] is still to be looked at. *)
Definition pending (i : nat) (s : tmst) : Prop :=
  st_at s i = Waiting /\ (In i (s_timed s) \/ exists sl, s_pc s = Chosen i sl).

(** Executions in which a database is only closed while its callback is not executing. *)
Inductive treach_calm : tmst -> Prop :=
| tc_init : treach_calm tm_init
| tc_step : forall s o s', treach_calm s -> tstep o s = Go s' ->
    (forall d i, o = CloseCancel d -> s_job s d = Some i -> st_at s i <> Running) -> treach_calm s'.

(** Events of a database after the newest request of it that found no callback executing. *)
Fixpoint woken_since (d : nat) (log : list tev) : bool :=
  match log with
  | [] => true
  | EWake e :: l => Nat.eqb e d || woken_since d l
  | ESched e false :: l => negb (Nat.eqb e d) && woken_since d l
  | _ :: l => woken_since d l
  end.
