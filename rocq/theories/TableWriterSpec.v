(** Words used in the statements about table writers. *)
From Coq Require Import List Arith Bool.
From Verif Require Import TableWriterModel.
Import ListNotations.

(** The writers a call has leased now. *)
Definition leased (p : cpc) : list nat :=
  match p with Asg _ ls _ | Own _ ls _ | Wt _ ls _ | Rt _ ls => ls | _ => [] end.

(** The part of the work that belongs to the call: pieces that are not skipped. *)
Definition to_write (c : call) (j : nat) : bool := (j <? cl_n c) && negb (cl_skip c j).

(** [solo nw calls t s s']: [s'] is reached from [s] by steps of call [t] and of writers that are
    leased to [t] at the time, and no others. *)
Inductive solo (nw : nat) (calls : nat -> call) (t : nat) : st -> st -> Prop :=
  | solo_end : forall s, solo nw calls t s s
  | solo_call : forall s s1 s2, step nw calls (C t) s = Some s1 -> solo nw calls t s1 s2 -> solo nw calls t s s2
  | solo_writer : forall i s s1 s2, In i (leased (s_c s t)) -> step nw calls (W i) s = Some s1 ->
      solo nw calls t s1 s2 -> solo nw calls t s s2.
