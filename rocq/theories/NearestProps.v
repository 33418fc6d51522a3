(** Properties of nearest-key search. *)
From Verif Require Import Base KeyModel KeyProofs LogFormatModel BloomModel MemTableModel LogMgrModel DbModel LogMgrProofs DbProofs DbProps
  LsmModel LsmProofs LsmProofs2 LsmProofs5 LsmProps FullModel FullProofs FullProps IterProps DbIterProofs4 NearestModel NearestSpec NearestProofs.
From Coq Require Import Lia.
Local Open Scope N_scope.

(** C16: with GREATER, GREATER_OR_EQUAL, SMALLER or SMALLER_OR_EQUAL the call returns the newest
    write of a key on that side such that no live key of the side is closer, and KEY_NOT_FOUND only
    if the side has no live key; whatever mixture of writes, flushes and compactions came before.
    (As documented, the write returned may be a deletion.)  Conditions: no batch is being written;
    keys are not empty; no table of a level other than its first one is empty; a flushed key of a
    log file still has a record in the tables.  Missing: the cases without these conditions, see the
    refutations below, and reading through a snapshot. *)
Theorem C16_nearest_partial : forall hash part c tc h f o k, cfg_ok c -> c_lso c = false -> tcfg_ok part tc -> freach hash part c tc h f ->
  d_bat (fd_db f) = None -> o <> EQ -> (forall r, In r h -> r_key r <> []) ->
  (forall ts, In ts (l_up (fd_lsm f)) -> filled ts) -> flushed_kept f ->
  match f_nearest c o k f with
  | Ok r => side o k (r_key r) /\ last_write h (r_key r) = Some r /\
            forall a y, last_write h a = Some y -> is_ins y = true -> side o k a -> ~ nearer o a (r_key r)
  | Fail e => e = KEY_NOT_FOUND /\ forall a y, last_write h a = Some y -> is_ins y = true -> ~ side o k a
  | Undef => False
  end.
Proof. exact nearest_spec. Qed.
Print Assumptions C16_nearest_partial.

(** C16 for a database on which nothing was ever deleted: the record returned is a live one. *)
Theorem C16_nearest_no_deletion_partial : forall hash part c tc h f o k, cfg_ok c -> c_lso c = false -> tcfg_ok part tc -> freach hash part c tc h f ->
  d_bat (fd_db f) = None -> o <> EQ -> (forall r, In r h -> r_key r <> [] /\ is_del r = false) ->
  (forall ts, In ts (l_up (fd_lsm f)) -> filled ts) ->
  match f_nearest c o k f with
  | Ok r => side o k (r_key r) /\ last_write h (r_key r) = Some r /\
            forall a y, last_write h a = Some y -> is_ins y = true -> side o k a -> ~ nearer o a (r_key r)
  | Fail e => e = KEY_NOT_FOUND /\ forall a y, last_write h a = Some y -> is_ins y = true -> ~ side o k a
  | Undef => False
  end.
Proof.
  intros hash part c tc h f o k Cok Hl Tok H Hb Ho Hh Hf. apply (nearest_spec hash part c tc h f o k Cok Hl Tok H Hb Ho (fun r Hr => proj1 (Hh r Hr)) Hf).
  exact (kept_only_sets hash part c tc h f Cok Tok H Hb (fun r Hr => proj2 (Hh r Hr))).
Qed.
Print Assumptions C16_nearest_no_deletion_partial.

(** ** Cases *)
Definition near_kv (o : sopt) (k : key) (f : fdb) : option (key * list N) := match f_nearest ex_c o k f with Ok r => Some (kv r) | _ => None end.

(** Keys 2 to 9 in two level-1 tables, level 0 and the log, 5 and 7 overwritten. *)
Definition ex_near_ops : list fop :=
  [w 2 20; w 5 50; w 7 70] ++ fl ++ [FTab (LZero (fun n => Nat.even n) all_ok true every 0); w 5 51; w 9 90] ++ fl ++ [w 7 71; w 4 40].
Example ex_near : exists h f, at_end ex_near_ops = Some (h, f) /\ freach xhash xpart ex_c xc0 h f /\ d_bat (fd_db f) = None /\
  (forall r, In r h -> r_key r <> [] /\ is_del r = false) /\ (forall ts, In ts (l_up (fd_lsm f)) -> filled ts) /\
  map (fun ts => map (fun t => map r_key (b_docs t)) ts) (l_zero (fd_lsm f) :: l_up (fd_lsm f)) = [[[[5]; [9]]]; [[]; [[2]; [5]]; [[7]]]] /\
  map (fun k => near_kv GE [k] f) [1; 3; 5; 6; 8; 10] = [Some ([2], [20]); Some ([4], [40]); Some ([5], [51]); Some ([7], [71]); Some ([9], [90]); None] /\
  map (fun k => near_kv S_ [k] f) [1; 3; 5; 6; 8; 10] = [None; Some ([2], [20]); Some ([4], [40]); Some ([5], [51]); Some ([7], [71]); Some ([9], [90])].
Proof.
  destruct (at_end ex_near_ops) as [[h f]|] eqn:E; [|vm_compute in E; discriminate]. exists h, f. split; [reflexivity|].
  split; [apply (at_end_reach ex_near_ops); [safe_ops|exact E]|]. vm_compute in E. injection E as <- <-. split; [reflexivity|].
  split. { intros r Hr. repeat (destruct Hr as [<-|Hr]; [split; [discriminate|reflexivity]|]). destruct Hr. }
  split; [|split; [reflexivity|split; reflexivity]].
  intros ts Hts. repeat (destruct Hts as [<-|Hts]; [intros t Ht; repeat (destruct Ht as [<-|Ht]; [discriminate|]); destruct Ht|]). destruct Hts.
Qed.

(** A reachable database, written by [os], where the search gives [x] although [k'] is live with
    value [v] and should have been returned. *)
Definition near_wrong (os : list fop) (o : sopt) (k : key) (x : option (key * list N)) (k' : key) (v : list N) : Prop :=
  exists h f y, at_end os = Some (h, f) /\ freach xhash xpart ex_c xc0 h f /\ near_kv o k f = x /\
    last_write h k' = Some y /\ is_ins y = true /\ r_val y = v /\ side o k k' /\ (forall a, nearer o a k' -> side o k a -> forall z, last_write h a = Some z -> is_ins z = false) /\
    x <> Some (k', v).
Lemma last_among : forall h a z, last_write h a = Some z -> is_ins z = true -> In a (map r_key (filter is_ins h)).
Proof. intros h a z E I. unfold last_write in E. apply find_some in E as [E1 E2]. apply andb_true_iff in E2 as [E2 _]. apply keqb_true in E2. subst a. apply in_map. apply filter_In. split; [now apply in_rev|exact I]. Qed.
Lemma near_check : forall h o k k', forallb (fun a => negb (if is_greater o then kltb a k' else kltb k' a) || match last_write h a with Some z => negb (is_ins z) | None => true end
    || negb (match o with GE => kleb k a | G => kltb k a | SE => kleb a k | S_ => kltb a k | EQ => keqb a k end)) (map r_key (filter is_ins h)) = true ->
  forall a, nearer o a k' -> side o k a -> forall z, last_write h a = Some z -> is_ins z = false.
Proof.
  intros h o k k' H a Na Sa z E. destruct (is_ins z) eqn:I; [|reflexivity]. exfalso. rewrite forallb_forall in H. specialize (H a (last_among h a z E I)). rewrite E, I in H. cbn [negb] in H.
  assert ((if is_greater o then kltb a k' else kltb k' a) = true) as Q1. { unfold nearer in Na. destruct (is_greater o); now apply kltb_true. }
  assert (match o with GE => kleb k a | G => kltb k a | SE => kleb a k | S_ => kltb a k | EQ => keqb a k end = true) as Q2.
  { destruct o; cbn [side] in Sa; first [now apply kleb_true|now apply kltb_true|now apply keqb_true]. }
  rewrite Q1, Q2 in H. discriminate.
Qed.

Definition side_b (o : sopt) (k a : key) : bool := match o with GE => kleb k a | G => kltb k a | SE => kleb a k | S_ => kltb a k | EQ => keqb a k end.
Lemma near_wrong_ok : forall os o k x k' v, safe_tab os -> x <> Some (k', v) ->
  match at_end os with
  | Some (h, f) => near_kv o k f = x /\ match last_write h k' with Some y => is_ins y = true /\ r_val y = v | None => False end /\ side_b o k k' = true /\
      forallb (fun a => negb (if is_greater o then kltb a k' else kltb k' a) || match last_write h a with Some z => negb (is_ins z) | None => true end
        || negb (side_b o k a)) (map r_key (filter is_ins h)) = true
  | None => False
  end -> near_wrong os o k x k' v.
Proof.
  intros os o k x k' v S Hx H. destruct (at_end os) as [[h f]|] eqn:E; [|destruct H]. destruct H as (H1 & H2 & H3 & H4). destruct (last_write h k') as [y|] eqn:Ey; [|destruct H2]. destruct H2 as [H2 H2'].
  exists h, f, y. split; [exact E|]. split; [exact (at_end_reach os h f S E)|]. split; [exact H1|]. split; [exact Ey|]. split; [exact H2|]. split; [exact H2'|]. split; [|split; [exact (near_check h o k k' H4)|exact Hx]].
  destruct o; cbn [side side_b] in *; first [now apply kleb_true|now apply kltb_true|now apply keqb_true].
Qed.

(** C16 refuted: key 5 was deleted, flushed and purged from the tables, but its log file, which is
    only partly flushed, still lists it; the search stops there in this file and the new value of
    key 7 in the same file is missed: the old value is returned. *)
Theorem C16_stale_value_refuted : near_wrong ([w 5 50; w 7 70] ++ fl ++ [down0; del_ 5] ++ fl ++ [down0; w 7 71]) GE [5] (Some ([7], [70])) [7] [71].
Proof. apply near_wrong_ok; [safe_ops|discriminate|vm_compute; repeat split]. Qed.
Print Assumptions C16_stale_value_refuted.

(** C16 refuted: the only key of the middle table of level 1 was deleted and purged; the search for
    a key above 2 looks into the table of key 2 and into the next one, now empty, only. *)
Theorem C16_empty_table_refuted : near_wrong ([w 1 10; w 4 40; w 7 70] ++ fl ++ [FTab (LZero all_ok all_ok true every 0); del_ 4] ++ fl ++ [down0]) G [2] None [7] [70].
Proof. apply near_wrong_ok; [safe_ops|discriminate|vm_compute; repeat split]. Qed.
Print Assumptions C16_empty_table_refuted.

(** C16 refuted: while a batch is being written, its first key hides the visible keys behind it. *)
Theorem C16_batch_hides_refuted : near_wrong [w 7 70; FOp (OBegin [mkRec NIL INS [5] [] [50]; mkRec NIL INS [9] [] [90]]); FOp OPut] G [2] None [7] [70].
Proof. apply near_wrong_ok; [safe_ops|discriminate|vm_compute; repeat split]. Qed.
Print Assumptions C16_batch_hides_refuted.

(** C16 refuted for snapshots: key 5, written after the snapshot was opened, hides key 7, which
    the snapshot has. *)
Theorem C16_snapshot_hides_refuted : exists h d h' d' sn,
  run xhash true ex_c [ex_put 7 70] [] (db_new ex_c) = Some (h, d) /\ open_snap 0 d = Ok sn /\
  run xhash true ex_c [ex_put 5 50] h d = Some (h', d') /\ reach xhash ex_c h d /\ reach xhash ex_c h' d' /\
  ex_val (snap_get xhash sn [7] d') = Some [70] /\ snap_nearest sn G [2] d' = Fail KEY_NOT_FOUND /\
  (exists r, snap_nearest sn G [2] d = Ok r /\ r_key r = [7]).
Proof.
  destruct (run xhash true ex_c [ex_put 7 70] [] (db_new ex_c)) as [[h d]|] eqn:E; [|vm_compute in E; discriminate].
  assert (R : reach xhash ex_c h d) by (eapply run_reach; [apply reach_new|exact E]).
  destruct (open_snap 0 d) as [sn| |] eqn:E2; [|vm_compute in E; injection E as <- <-; vm_compute in E2; discriminate..].
  destruct (run xhash true ex_c [ex_put 5 50] h d) as [[h' d']|] eqn:E3; [|vm_compute in E; injection E as <- <-; vm_compute in E3; discriminate].
  exists h, d, h', d', sn. split; [reflexivity|]. split; [exact E2|]. split; [exact E3|]. split; [exact R|]. split; [eapply run_reach; [exact R|exact E3]|].
  vm_compute in E. injection E as <- <-. vm_compute in E2. injection E2 as <-. vm_compute in E3. injection E3 as <- <-.
  split; [reflexivity|]. split; [reflexivity|]. vm_compute. eexists. split; reflexivity.
Qed.
Print Assumptions C16_snapshot_hides_refuted.
