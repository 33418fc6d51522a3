(** Properties of groups of named databases (C97, C98). *)
From Verif Require Import Base Crc32Model KeyModel FileModel DbGroupModel DbGroupSpec DbGroupProofs.
Local Open Scope N_scope.

(** ** C97: the manifest of a group round-trips *)

Definition of_names (l : list name) : dbm := fold_left (fun m n => add_kvs n m) l dbm_new.

Theorem C97_round_trip : forall l f, Forall good l -> NoDup l -> N.of_nat (length l) + 1 < 2 ^ 32 ->
  dbm_load (dbm_store f (of_names l)) = LOk (of_names l) /\
  (forall n, n2i_find n (d_n2i (of_names l)) <> None <-> In n l).
Proof. exact names_round_trip. Qed.
Print Assumptions C97_round_trip.

(** ** C98: a name denotes one database for ever *)

(** Full statement: [one_to_one] for every history that does not end in undefined behaviour, and no
    history does.  Missing here: names with a zero byte or of more than 255 bytes, and crashes
    while a new name is added; see the refutations. *)
Theorem C98_one_to_one_partial : forall os, Forall plain os -> N.of_nat (length os) + 2 < 2 ^ 32 ->
  exists g tr, grun os g_create [] = Some (g, tr) /\ one_to_one tr /\ (forall n i, In (n, i) tr -> 1 <= i).
Proof. exact one_to_one_run. Qed.
Print Assumptions C98_one_to_one_partial.

(** Opening, closing and opening again a database whose name has a zero byte: another number, so
    its data are gone; and two such names get the same number. *)
Definition nA : name := [97; 0; 98].
Definition nB : name := [97].
Theorem C98_zero_byte_refuted : exists os g tr, grun os g_create [] = Some (g, tr) /\
  In (nA, 1) tr /\ In (nA, 2) tr /\ In (nB, 1) tr.
Proof.
  exists [OpenDb nA; Reopen; OpenDb nB; OpenDb nA]. eexists. eexists.
  split; [vm_compute; reflexivity|]. cbn. auto.
Qed.
Print Assumptions C98_zero_byte_refuted.

(** A name of 256 bytes: the next opening of the group writes outside a buffer. *)
Theorem C98_long_name_refuted : exists n, blen n = 256 /\ Forall (fun b => 0 < b < 256) n /\
  grun [OpenDb n] g_create [] <> None /\ grun [OpenDb n; Reopen] g_create [] = None.
Proof.
  exists (repeat 120 256). split; [reflexivity|]. split.
  - apply Forall_forall. intros b H. apply repeat_spec in H. subst. lia.
  - split; [vm_compute; discriminate | vm_compute; reflexivity].
Qed.
Print Assumptions C98_long_name_refuted.

(** A crash while a second name is added, after the data of the file but not its new length have
    reached the disk: the file does not pass its check, which nobody looks at, and the second name
    is given the number, and so the data, of the first. *)
Definition n1 : name := [97; 108; 105; 99; 101].
Definition n2 : name := [98; 111; 98].
Definition torn : list N :=
  let old := of_names [n1] in firstn (length (dbm_encode old)) (dbm_encode (add_kvs n2 old)).
Theorem C98_crash_refuted : exists g tr,
  grun [OpenDb n1; CrashIn n2 torn; OpenDb n2] g_create [] = Some (g, tr) /\ In (n1, 1) tr /\ In (n2, 1) tr.
Proof. eexists. eexists. split; [vm_compute; reflexivity|]. cbn. auto. Qed.
Print Assumptions C98_crash_refuted.

(** ** a history that meets the hypotheses *)
Definition hist : list gop := [Crash true; OpenDb n1; OpenDb n2; Reopen; OpenDb n2; Crash true; OpenDb nB; OpenDb n1; Reopen; OpenDb nB].
Example hist_plain : Forall plain hist.
Proof.
  assert (G : good n1 /\ good n2 /\ good nB).
  { unfold good, n1, n2, nB. repeat split; try discriminate; repeat constructor; lia. }
  destruct G as [G1 [G2 G3]]. unfold hist. repeat (apply Forall_cons; [cbn [plain]; auto|]). apply Forall_nil.
Qed.
Example hist_numbers : match grun hist g_create [] with
  | Some (_, tr) => tr = [(nB, 3); (n1, 1); (nB, 3); (n2, 2); (n2, 2); (n1, 1)]
  | None => False
  end.
Proof. vm_compute. reflexivity. Qed.
