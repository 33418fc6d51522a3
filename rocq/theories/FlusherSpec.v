(** What the statements about asynchronous flush requests say. *)
From Verif Require Import Base KeyModel LogFormatModel MemTableModel LogMgrModel DbModel DbProofs FlusherModel.
Local Open Scope N_scope.

(** What a flush request asks for, when the flush starts with [x] and ends with [x']: up to its
    number everything is in the tables; without a number and without a limit everything that was
    synced, or everything if it says "beyond the last sync". *)
Definition asked (r : areq) (x x' : hdl) : Prop :=
  let fo := ao_flush (a_opt r) in
  (a_seq r <> NIL -> forall k, In k (h_hist x') -> r_seq k <= a_seq r -> In k (d_tab (h_db x'))) /\
  (a_seq r = NIL -> o_limit fo = 0 ->
     if o_beyond fo then forall k, In k (h_hist x') -> In k (d_tab (h_db x'))
     else forall y, lm_synced_seq (d_log (h_db x)) = Ok y -> forall k, In k (h_hist x') -> r_seq k <= y -> In k (d_tab (h_db x'))).

(** Options and number of a request include those of an earlier one. *)
Definition covers (o : aopt) (s : N) (o0 : aopt) (s0 : N) : Prop :=
  o = o0 /\ (s = s0 \/ s <> NIL /\ s0 <> NIL /\ s0 <= s \/ s = NIL /\ s0 <> NIL /\ o_beyond (ao_flush o) = true /\ o_limit (ao_flush o) = 0).

Section Reach.
Variable hash : key -> N * N.

(** Conditions: a request goes to an open database and is a new one; user operations and flushes
    are as in [allowed]. *)
Definition wallowed (c : cfg) (rs : list areq) (w : world) (o : wop) : Prop :=
  match o with
  | WPush r => (exists x, h_at (a_ptr r) (w_dbs w) = Some x /\ h_uid x = a_uid r) /\ ~ In (a_id r) (map a_id rs)
  | WUser p o' => forall x, h_at p (w_dbs w) = Some x -> allowed c (h_hist x) (h_db x) o'
  | WFlush n => forall e x, nth_error (w_run w) n = Some (mkJb e true true) -> h_at (e_ptr e) (w_dbs w) = Some x ->
                  ao_sync_only (e_opt e) = false -> allowed c (h_hist x) (h_db x) (OFlush (ao_flush (e_opt e)) (e_seq e))
  | WStop => False
  | _ => True
  end.
Definition new_reqs (o : wop) : list areq := match o with WPush r => [r] | _ => [] end.

(** [rs]: the requests so far; [an]: the answers so far. *)
Inductive wreach (c : cfg) (auto : bool) : list areq -> list answer -> world -> Prop :=
| wreach_new : wreach c auto [] [] w_new
| wreach_step : forall rs an w o a w', wreach c auto rs an w -> wallowed c rs w o ->
    w_step hash c auto o w = Some (a, w') -> wreach c auto (rs ++ new_reqs o) (an ++ a) w'.

(** A waiting request is only joined by requests that cover it, and its database stays open. *)
Definition merges_well (w : world) (o : wop) : Prop :=
  match o with
  | WPush r => forall e, In e (w_q w) -> e_ptr e = a_ptr r -> covers (a_opt r) (a_seq r) (e_opt e) (e_seq e)
  | WClose p => forall e, In e (w_q w) -> e_ptr e <> p
  | _ => True
  end.
Inductive mreach (c : cfg) (auto : bool) : list areq -> list answer -> world -> Prop :=
| mreach_new : mreach c auto [] [] w_new
| mreach_step : forall rs an w o a w', mreach c auto rs an w -> wallowed c rs w o -> merges_well w o ->
    w_step hash c auto o w = Some (a, w') -> mreach c auto (rs ++ new_reqs o) (an ++ a) w'.

(** Steps of the flusher threads alone. *)
Inductive thread_run (c : cfg) (auto : bool) : list answer -> world -> world -> Prop :=
| thread_done : forall w, thread_run c auto [] w w
| thread_step : forall o a w w1 b w2, (o = WPop \/ (exists n, o = WSync n (fun _ => false)) \/ (exists n, o = WFlush n)) ->
    w_step hash c auto o w = Some (a, w1) -> thread_run c auto b w1 w2 -> thread_run c auto (a ++ b) w w2.
End Reach.
