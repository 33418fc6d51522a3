(** Properties of the pool of table writers: every piece of a flush, compaction or split is written
    exactly once, leased writers are exclusive, and no call is ever stuck. *)
From Coq Require Import List Arith Bool Lia.
From Verif Require Import TableWriterModel TableWriterSpec TableWriterProofs.
Import ListNotations.

(** ** C94 *)
Theorem C94_each_piece_once : forall nw calls os s t,
  (forall t, 0 < cl_max (calls t)) -> run nw calls os init = Some s -> s_c s t = End ->
  forall j, s_cnt s t j = if to_write (calls t) j then 1 else 0.
Proof. intros nw calls os s t M H. exact (all_once nw calls s t (reach_inv nw calls M os s H)). Qed.
Print Assumptions C94_each_piece_once.

(** At every moment, also of calls given up. *)
Theorem C94_never_twice : forall nw calls os s t j,
  (forall t, 0 < cl_max (calls t)) -> run nw calls os init = Some s ->
  s_cnt s t j <= if to_write (calls t) j then 1 else 0.
Proof. intros nw calls os s t j M H. exact (once_at_most nw calls s t j (reach_inv nw calls M os s H)). Qed.
Print Assumptions C94_never_twice.

(** The number of writers per job is never zero, whatever is configured. *)
Theorem C94_max_positive : forall given ro mgr, 0 < max_parallel given ro mgr.
Proof. exact max_parallel_pos. Qed.
Print Assumptions C94_max_positive.

(** ** C95 *)
Theorem C95_exclusive : forall nw calls os s,
  (forall t, 0 < cl_max (calls t)) -> run nw calls os init = Some s ->
  (forall t t' i, In i (leased (s_c s t)) -> In i (leased (s_c s t')) -> t = t') /\
  (forall t, NoDup (leased (s_c s t))) /\
  (forall i, w_use (s_w s i) = true <-> exists t, In i (leased (s_c s t))).
Proof.
  intros nw calls os s M H. pose proof (reach_inv nw calls M os s H) as I.
  split; [exact (i_dis nw calls s I)|]. split; [exact (i_nd nw calls s I)|].
  intros i. split; [exact (i_own nw calls s I i)|]. intros (t & T). exact (proj2 (i_use nw calls s I t i T)).
Qed.
Print Assumptions C95_exclusive.

(** A writer that is writing does so for a call that holds it and has not returned, its payload is
    that of the call, and no writer ever starts with an empty payload. *)
Theorem C95_no_stray_work : forall nw calls os s i t j,
  (forall t, 0 < cl_max (calls t)) -> run nw calls os init = Some s ->
  s_null s = false /\
  (w_pc (s_w s i) = Busy t j ->
     In i (leased (s_c s t)) /\ w_pay (s_w s i) = Some (t, j) /\ to_write (calls t) j = true /\ s_cnt s t j = 0) /\
  (w_pay (s_w s i) = Some (t, j) -> In i (leased (s_c s t))).
Proof.
  intros nw calls os s i t j M H. pose proof (reach_inv nw calls M os s H) as I.
  assert (A : w_pay (s_w s i) = Some (t, j) -> In i (leased (s_c s t))).
  { intros P. destruct (i_pay nw calls s I i t j P) as (N & _). eapply nth_error_In; eauto. }
  split; [exact (i_null nw calls s I)|]. split; [|exact A].
  intros P. pose proof (i_pc nw calls s I i) as Q. unfold pc_ok in Q. rewrite P in Q.
  destruct (i_pay nw calls s I i t j Q) as (N & B & K). pose proof (i_wf nw calls s I t) as Wf.
  repeat split; auto.
  - unfold to_write. rewrite K, andb_true_r. apply Nat.ltb_lt.
    destruct (s_c s t); cbn in *; lia.
  - rewrite (i_cnt nw calls s I). unfold expect. rewrite K.
    destruct (Nat.ltb_spec j (base (calls t) (s_c s t))); [lia|].
    destruct (Nat.leb_spec (fin (calls t) (s_c s t)) j); [lia|]. now rewrite N, Q, P.
Qed.
Print Assumptions C95_no_stray_work.

(** ** C96 *)
Theorem C96_never_stuck : forall nw calls os s t,
  (forall t, 0 < cl_max (calls t)) -> run nw calls os init = Some s -> (forall m, s_c s t <> Thrown m) ->
  exists s', solo nw calls t s s' /\ s_c s' t = End.
Proof. intros nw calls os s t M H. exact (can_finish nw calls M s t (reach_inv nw calls M os s H)). Qed.
Print Assumptions C96_never_stuck.

(** ** a concrete execution: two writers; call 0 has four pieces, the third one skipped; call 1 has
    two and finds no free writer, so it writes the first one itself. *)
Definition calls_x (t : nat) : call :=
  match t with 0 => mkCall 4 3 (fun j => j =? 2) | _ => mkCall 2 2 (fun _ => false) end.
Definition after (os : list act) (P : st -> Prop) : Prop :=
  match run 2 calls_x os init with Some s => P s | None => False end.
Definition ops1 : list act :=
  [C 0; C 0; C 1; C 1; C 1; W 0; W 0; C 0; C 0; C 1; W 1; W 1; W 1; W 0; W 0; W 0].
Definition ops2 : list act :=
  [W 0; W 1; C 0; C 0; C 0; W 0; W 1; C 0; C 0; C 0; C 0; C 1; C 1; C 1; C 0; C 0; C 0; C 0; C 0; C 0; C 0].
Example writers_busy : after ops1 (fun s =>
  s_c s 0 = Asg 0 [0; 1] 2 /\ s_c s 1 = Asg 0 [] 1 /\
  w_pc (s_w s 0) = Busy 0 0 /\ w_pc (s_w s 1) = Busy 0 1 /\ s_cnt s 1 0 = 1).
Proof. vm_compute. auto. Qed.
Example writers_done : after (ops1 ++ ops2) (fun s =>
  s_c s 0 = End /\ map (s_cnt s 0) [0; 1; 2; 3; 4] = [1; 1; 0; 1; 0] /\
  s_c s 1 = Next 1 /\ w_use (s_w s 0) = false).
Proof. vm_compute. auto. Qed.
