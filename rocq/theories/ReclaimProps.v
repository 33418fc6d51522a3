(** * C117, C118: log-store mode, memtables freed and loaded again *)
From Verif Require Import Base KeyModel LogFormatModel LogManifestModel BloomModel MemTableModel LogMgrModel DbModel DbProofs
  RecoverModel RecoverSpec ReclaimModel ReclaimSpec ReclaimProofs3.
Local Open Scope N_scope.

(** ** C117.  Freeing memtables changes no answer *)

(** [lreach hash c tr h s] (ReclaimSpec.v): the calls and evictions [tr], with their answers, lead
    from a new database to [s], and [h] are the writes acknowledged.  Reads return the last write of
    the key, whatever has been freed and loaded again in between. *)
Theorem C117_get_latest : forall hash c tr h s k, cfg_ok c -> c_lso c = true -> lreach hash c tr h s -> idle s ->
  fst (l_get hash c k s) = spec_get h k.
Proof. intros hash. exact (reclaim_get hash). Qed.
Print Assumptions C117_get_latest.

(** Every record can be read by its number. *)
Theorem C117_get_by_number : forall hash c tr h s r, cfg_ok c -> c_lso c = true -> lreach hash c tr h s -> idle s -> In r h ->
  fst (l_get_seq hash c (r_seq r) s) = Ok r.
Proof. intros hash. exact (reclaim_get_seq hash). Qed.
Print Assumptions C117_get_by_number.

(** The same calls without the evictions get the same answers and leave the same files on disk. *)
Theorem C117_evictions_invisible : forall hash c tr h s, cfg_ok c -> c_lso c = true -> lreach hash c tr h s ->
  exists s0, lreach hash c (calls tr) h s0 /\ none_freed s0 /\ same_disk s0 s.
Proof. intros hash. exact (reclaim_invisible hash). Qed.
Print Assumptions C117_evictions_invisible.

(** No call dereferences a freed memtable. *)
Theorem C117_never_undefined : forall hash c tr h s, cfg_ok c -> c_lso c = true -> lreach hash c tr h s ->
  forall o x, In (o, x) tr -> x <> AWrite Undef /\ x <> ARead Undef.
Proof. intros hash. exact (reclaim_defined hash). Qed.
Print Assumptions C117_never_undefined.

(** A case: one record per log file, key 1 written twice; after a sync, two of the four memtables are
    freed; one of them is loaded again by a read; a further write and sync follow. *)
Definition cfg_log : cfg := mkC false true 1 false.
Definition wr (k v : N) : lop := LWrite (OSet false (ins k v)).
Definition case_ops : list lop :=
  [wr 1 1; wr 2 2; wr 1 3; wr 4 4; LSync true; LEvict 1; LEvict 2; LGet [2]; wr 5 5; LSync true; LSeq 3].
Definition case_run := l_run hash0 cfg_log case_ops (l_new cfg_log).

Example C117_case_answers : exists xs s, case_run = Some (xs, s) /\
  nth_error xs 7 = Some (ARead (Ok (mkRec 2 INS [2] [] [2]))) /\ nth_error xs 10 = Some (ARead (Ok (mkRec 3 INS [1] [] [3]))) /\
  (exists xs1 s1, l_run hash0 cfg_log (firstn 7 case_ops) (l_new cfg_log) = Some (xs1, s1) /\ l_out s1 1 = true /\ l_out s1 2 = true) /\
  l_out s 1 = false /\ l_out s 2 = false.
Proof.
  destruct case_run as [[xs s]|] eqn:E; [|vm_compute in E; discriminate].
  destruct (l_run hash0 cfg_log (firstn 7 case_ops) (l_new cfg_log)) as [[xs1 s1]|] eqn:E1; [|vm_compute in E1; discriminate].
  exists xs, s. split; [reflexivity|]. vm_compute in E, E1. injection E as <- <-. injection E1 as <- <-.
  split; [reflexivity|]. split; [reflexivity|]. split; [|split; reflexivity].
  eexists _, _. split; [reflexivity|]. split; reflexivity.
Qed.

(** The run is one of the runs of the theorems: a checked version of [l_run] that tests the conditions
    of [guard] for writes without a number of the user. *)
Definition guard_b (h : list rec) (o : lop) : bool :=
  match o with
  | LWrite (OSet full r) => (r_seq r =? NIL) && (top h + 2 <? NIL) && negb (full && match h with [] => true | _ => false end)
  | LWrite _ => false
  | _ => true
  end.

Fixpoint checked (c : cfg) (os : list lop) (tr : list (lop * lans)) (h : list rec) (s : lsdb) : option (list (lop * lans) * list rec * lsdb) :=
  match os with
  | [] => Some (tr, h, s)
  | o :: os => if guard_b h o then match l_step hash0 c o s with
                 | Some (x, s') => checked c os (tr ++ [(o, x)]) (h ++ acks o x) s'
                 | None => None end else None
  end.

Lemma guard_b_ok : forall c h s o, (top h <? NIL) = true -> guard_b h o = true -> guard c h s o.
Proof.
  intros c h s o Ht H. destruct o as [w|b|k|n|n]; try exact I. destruct w; try discriminate H. cbn [guard_b] in H.
  apply andb_true_iff in H. destruct H as [H H3]. apply andb_true_iff in H. destruct H as [H1 H2].
  apply N.eqb_eq in H1. apply N.ltb_lt in H2. apply N.ltb_lt in Ht.
  cbn [guard allowed]. split; [rewrite H1; reflexivity|]. split; [intros Q; contradiction|]. split; [intros _; exact H2|].
  split; [intros ->; destruct h; [discriminate H3|discriminate]|]. intros Q. rewrite H1 in Q. exfalso. exact (N.lt_irrefl _ (N.lt_le_trans _ _ _ Ht Q)).
Qed.

Lemma checked_reach : forall c os tr h s tr' h' s', lreach hash0 c tr h s ->
  checked c os tr h s = Some (tr', h', s') -> lreach hash0 c tr' h' s'.
Proof.
  intros c os. induction os as [|o os IH]; intros tr h s tr' h' s' L E; cbn [checked] in E.
  - injection E as <- <- <-. exact L.
  - destruct (guard_b h o) eqn:G; [|discriminate]. destruct (l_step hash0 c o s) as [[x s1]|] eqn:Es; [|discriminate].
    apply (IH _ _ _ _ _ _ (lr_step hash0 c tr h s o x s1 L
      ltac:(destruct o as [w|b|k|n|n]; try exact I; destruct w; try discriminate G; apply guard_b_ok; [|exact G];
            cbn [guard_b] in G; apply andb_true_iff in G; destruct G as [G _]; apply andb_true_iff in G; destruct G as [_ G];
            apply N.ltb_lt in G; apply N.ltb_lt; apply N.le_lt_trans with (top h + 2); [apply N.le_add_r|exact G]) Es) E).
Qed.

Example C117_case : cfg_ok cfg_log /\ c_lso cfg_log = true /\ exists tr h s, lreach hash0 cfg_log tr h s /\ map fst tr = case_ops /\ idle s /\ length h = 5%nat /\
  fst (l_get hash0 cfg_log [1] s) = Ok (mkRec 3 INS [1] [] [3]) /\ length (calls tr) = 9%nat.
Proof.
  split; [vm_compute; repeat split; try discriminate; reflexivity|]. split; [reflexivity|].
  destruct (checked cfg_log case_ops [] [] (l_new cfg_log)) as [[[tr h] s]|] eqn:E; [|vm_compute in E; discriminate].
  assert (L := checked_reach _ _ _ _ _ _ _ _ (lr_new hash0 cfg_log) E).
  exists tr, h, s. split; [exact L|]. clear L. vm_compute in E. injection E as <- <- <-.
  split; [reflexivity|]. split; [reflexivity|]. split; [reflexivity|]. split; vm_compute; reflexivity.
Qed.

(** ** C118.  Reads through a snapshot *)

(** As long as none of the log files of the snapshot has been freed, the answers are those of a
    database that frees nothing. *)
Theorem C118_snapshot_unfreed_partial : forall hash c tr h s, cfg_ok c -> c_lso c = true -> lreach hash c tr h s ->
  exists s0, lreach hash c (calls tr) h s0 /\ none_freed s0 /\
    forall chk k ns, (forall n, In n ns -> l_out s n = false) -> l_snap_get hash chk k ns s = l_snap_get hash chk k ns s0.
Proof. intros hash. exact (reclaim_snapshot hash). Qed.
Print Assumptions C118_snapshot_unfreed_partial.

(** Four log files, synced; the memtable of the second is freed; a snapshot is opened and a key of the
    first file is read: the search comes to the second file and dereferences its null memtable.  The
    same call on the database itself loads the file and finds the key. *)
Theorem C118_snapshot_null_refuted : exists xs s ns,
  l_run hash0 cfg_log [wr 1 1; wr 2 2; wr 3 3; wr 4 4; LSync true; LEvict 1] (l_new cfg_log) = Some (xs, s) /\
  l_snapshot 4 s = Ok ns /\ l_snap_get hash0 4 [1] ns s = Undef /\
  fst (l_get hash0 cfg_log [1] s) = Ok (mkRec 1 INS [1] [] [1]).
Proof.
  destruct (l_run hash0 cfg_log [wr 1 1; wr 2 2; wr 3 3; wr 4 4; LSync true; LEvict 1] (l_new cfg_log)) as [[xs s]|] eqn:E; [|vm_compute in E; discriminate].
  exists xs, s, [0; 1; 2; 3]. split; [reflexivity|]. vm_compute in E. injection E as <- <-. split; [vm_compute; reflexivity|]. split; vm_compute; reflexivity.
Qed.
Print Assumptions C118_snapshot_null_refuted.

(** The same with a snapshot opened, and read successfully, before the memtable is freed. *)
Theorem C118_open_snapshot_null_refuted : exists xs s xs' s' ns,
  l_run hash0 cfg_log [wr 1 1; wr 2 2; wr 3 3; wr 4 4; LSync true] (l_new cfg_log) = Some (xs, s) /\
  l_snapshot 4 s = Ok ns /\ l_snap_get hash0 4 [1] ns s = Ok (mkRec 1 INS [1] [] [1]) /\
  l_run hash0 cfg_log [LEvict 1] s = Some (xs', s') /\ l_snap_get hash0 4 [1] ns s' = Undef.
Proof.
  destruct (l_run hash0 cfg_log [wr 1 1; wr 2 2; wr 3 3; wr 4 4; LSync true] (l_new cfg_log)) as [[xs s]|] eqn:E; [|vm_compute in E; discriminate].
  destruct (l_run hash0 cfg_log [LEvict 1] s) as [[xs' s']|] eqn:E'; [|vm_compute in E; injection E as <- <-; vm_compute in E'; discriminate].
  exists xs, s, xs', s', [0; 1; 2; 3]. split; [reflexivity|]. vm_compute in E. injection E as <- <-. split; [vm_compute; reflexivity|].
  split; [vm_compute; reflexivity|]. split; [exact E'|]. vm_compute in E'. injection E' as <- <-. vm_compute; reflexivity.
Qed.
Print Assumptions C118_open_snapshot_null_refuted.
