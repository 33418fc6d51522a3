(** C131: a handle obtained from a group works until its owner closes it, whatever the order in which
    handles are closed, and after the last one everything is closed.  Refuted for the group closed
    before a named database, and for DB::open beside a group; proved for the careful order, and,
    without logging, that no order reads a deleted object. *)
From Coq Require Import Arith List Bool.
Import ListNotations.
From Verif Require Import GroupLifeModel GroupLifeSpec GroupLifeProofs.
Local Open Scope nat_scope.

(** Missing for the full statement: the careful order ([careful]), which the interface does not ask
    for. *)
Theorem C131_safe_partial : forall lg l s,
  careful lg l init = true -> run lg l init = Some s -> s_bad s = false.
Proof. exact safe. Qed.

(** After the last close no database and no group object is left, so the next open starts afresh. *)
Theorem C131_closed_partial : forall lg l s,
  careful lg l init = true -> run lg l init = Some s -> s_held s = [] -> s_dbs s = [] /\ s_grps s = [].
Proof. exact all_closed. Qed.

(** DBGroup::open is refused exactly while someone has the path open with DB::open. *)
Theorem C131_refused_partial : forall lg l s,
  careful lg l init = true -> run lg l init = Some s ->
  (fst (group_open s) = None <-> 1 <= count is_direct (s_held s)).
Proof. exact group_refused. Qed.

(** Any order: the object behind a handle exists as long as the handle is held. *)
Theorem C131_exists_partial : forall lg l s n o,
  run lg l init = Some s -> In (HN n o) (s_held s) -> exists b, In b (s_dbs s) /\ d_id b = o.
Proof. intros lg l s n o E H. exact (exists_while_held lg l s (HN n o) E H). Qed.

(** Any order: two handles are the same database if and only if the names are the same. *)
Theorem C131_names_partial : forall lg l s n m o p,
  run lg l init = Some s -> In (HN n o) (s_held s) -> In (HN m p) (s_held s) -> (n = m <-> o = p).
Proof. exact one_per_name. Qed.

(** Any order, databases opened without logging: nothing deleted is read. *)
Theorem C131_quiet_partial : forall l s, run false l init = Some s -> s_bad s = false.
Proof. exact quiet. Qed.

(** Group, then named database: DB::close of the named database writes to the logger that was
    deleted with the default database. *)
Theorem C131_order_refuted : exists l s h s',
  run true l init = Some s /\ s_bad s = false /\ In h (s_held s) /\
  step true (DClose h) s = Some s' /\ s_bad s' = true.
Proof.
  exists [GOpen; GNamed 1 0 0; GClose 1 0]. eexists. exists (HN 1 2). eexists.
  split; [vm_compute; reflexivity|]. split; [reflexivity|]. split; [now left|]. split; vm_compute; reflexivity.
Qed.

(** The group is opened again while the named database is open: openDB of the new group hands out
    the old database, and the first call on that handle reads the deleted logger, though the group
    it was got from is open. *)
Theorem C131_reopened_refuted : exists l s g o n p s1 s2,
  run true l init = Some s /\ s_bad s = false /\ In (HG g o) (s_held s) /\
  step true (GNamed g o n) s = Some s1 /\ s_held s1 = HN (S n) p :: s_held s /\ s_bad s1 = false /\
  step true (Use (HN (S n) p)) s1 = Some s2 /\ s_bad s2 = true.
Proof.
  exists [GOpen; GNamed 1 0 0; GClose 1 0; GOpen]. eexists. exists 4, 3, 0, 2. eexists. eexists.
  split; [vm_compute; reflexivity|]. split; [reflexivity|]. split; [now left|].
  split; [vm_compute; reflexivity|]. split; [reflexivity|]. split; [reflexivity|]. split; vm_compute; reflexivity.
Qed.

(** DB::open beside a group: its DB::close does nothing, so every handle is closed and the database
    is still open. *)
Theorem C131_beside_refuted : exists lg l s,
  run lg l init = Some s /\ s_held s = [] /\ s_dbs s <> [] /\ s_grps s <> [].
Proof.
  exists true, [GOpen; DOpen; DClose (HO 0); GClose 1 0]. eexists.
  split; [vm_compute; reflexivity|]. split; [reflexivity|]. split; discriminate.
Qed.

(** Two owners of the group, two names, one name twice, both kinds of use, a refused open at the end. *)
Definition case_acts : list act :=
  [GOpen; GOpen; GNamed 1 0 0; GNamed 1 0 4; GDefault 1 0; GNamed 1 0 0; Use (HN 1 2); GClose 1 0;
   DClose (HN 1 2); Use (HN 1 2); Use (HN 5 3); DClose (HN 5 3); DClose (HN 1 2); GClose 1 0; DOpen; GOpen; Use (HO 4)].
Example C131_case :
  careful true case_acts init = true /\
  match run true case_acts init with
  | Some s => s_held s = [HO 4] /\ s_dbs s = [mkDb 4 0 1 None 4] /\ fst (group_open s) = None
  | None => False
  end /\
  match run true (case_acts ++ [DClose (HO 4)]) init with
  | Some s => s_held s = [] /\ careful true (case_acts ++ [DClose (HO 4)]) init = true
  | None => False
  end.
Proof. vm_compute. repeat split. Qed.
Example C131_quiet_case :
  match run false [GOpen; GNamed 1 0 0; GNamed 1 0 4; GClose 1 0; Use (HN 1 2); GOpen; GNamed 5 4 0; DOpen; DClose (HN 5 3)] init with
  | Some s => s_held s = [HO 4; HN 1 2; HG 5 4; HN 1 2]
  | None => False
  end.
Proof. vm_compute. reflexivity. Qed.

Print Assumptions C131_safe_partial.
Print Assumptions C131_closed_partial.
Print Assumptions C131_refused_partial.
Print Assumptions C131_exists_partial.
Print Assumptions C131_names_partial.
Print Assumptions C131_quiet_partial.
Print Assumptions C131_order_refuted.
Print Assumptions C131_reopened_refuted.
Print Assumptions C131_beside_refuted.
