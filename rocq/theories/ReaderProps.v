(** C112: lookups in the tables while flushes and compactions run. *)
From Coq Require Import List NArith Bool Lia Arith.
From Verif Require Import Base LogFormatModel KeyModel BloomModel MemTableModel LsmModel LsmProofs2 LsmProofs5 LsmProps ReaderModel ReaderSpec ReaderProofs4.
Import ListNotations.
Local Open Scope N_scope.

(** Whatever flushes, compactions, splits and merges other threads do meanwhile, a lookup returns
    the version of the key that was the newest one in the tables at some moment between the call
    and the return ([table_answer]: it may report a deleted key as not found), if no level was
    added meanwhile and no table of the key's partition became the source of a compaction between
    the moment the lookup took the list of tables of level 0 and the moment it read them.
    [_partial]: both conditions are needed, see below. *)
Theorem C112_window_partial : forall hash part c k R s b g,
  tcfg_ok part c -> k <> [] -> lreach hash part c R s ->
  rexec hash part c k true (called R s) b -> f_rd b = RDone g ->
  num_levels (f_tabs b) = num_levels s -> bf_safe c (f_recs b) ->
  exists R', In R' (f_past b) /\ table_answer (newest_write R' k) g.
Proof. intros hash part c k R s b g Hc Hk. now apply rexec_answer. Qed.
Print Assumptions C112_window_partial.

(** ** Executions by computation *)

(** [Some o]: another thread; [None]: the lookup. *)
Definition calmb (b : conf) (s' : lsm) : bool :=
  match f_rd b with
  | RListed _ O ts => forallb (fun t => Bool.eqb (b_src (refresh 0 s' t)) (b_src t)) ts
  | _ => true
  end.
Fixpoint rrun (c : tcfg) (k : key) (calm : bool) (evs : list (option lop)) (b : conf) : option conf :=
  match evs with
  | [] => Some b
  | Some o :: evs' =>
      match lstep xhash xpart c o (f_tabs b) with
      | Some s' => if (l_next s' <=? NIL) && (negb calm || calmb b s') then rrun c k calm evs' (other b o s') else None
      | None => None
      end
  | None :: evs' => rrun c k calm evs' (own xhash xpart c k b)
  end.

Lemma calmb_ok : forall b s', calmb b s' = true -> no_source b s'.
Proof.
  intros b s' H. unfold calmb, no_source in *. destruct (f_rd b) as [|n i|n [|i] ts|g]; auto. intros t Ht. rewrite forallb_forall in H.
  apply Bool.eqb_prop. exact (H t Ht).
Qed.
Lemma rrun_exec : forall c k calm evs a b b', (forall o, In (Some o) evs -> lop_ok o /\ o <> LReload) -> rexec xhash xpart c k calm a b ->
  rrun c k calm evs b = Some b' -> rexec xhash xpart c k calm a b'.
Proof.
  intros c k calm evs a. induction evs as [|[o|] evs IH]; intros b b' Ho Hb H; cbn [rrun] in H.
  - injection H as <-. exact Hb.
  - destruct (lstep xhash xpart c o (f_tabs b)) as [s'|] eqn:E; [|discriminate].
    destruct ((l_next s' <=? NIL) && (negb calm || calmb b s')) eqn:Q; [|discriminate]. apply andb_true_iff in Q as [Q1 Q2]. apply N.leb_le in Q1.
    destruct (Ho o (or_introl eq_refl)) as [O1 O2]. apply IH in H; auto; [intros o' Ho'; apply Ho; now right|].
    apply rx_other; auto. intros ->. cbn [negb orb] in Q2. now apply calmb_ok.
  - apply IH in H; auto; [intros o' Ho'; apply Ho; now right|]. now apply rx_own.
Qed.
Ltac ops_ok := let o := fresh "o" in let Ho := fresh "Ho" in
  intros o Ho; repeat (destruct Ho as [<-|Ho]; [cbn; try exact I; try reflexivity; intros; reflexivity|]); destruct Ho.
Ltac evs_ok := let o := fresh "o" in let Ho := fresh "Ho" in
  intros o Ho; repeat (destruct Ho as [Ho|Ho]; [first [discriminate|injection Ho as <-; split; [cbn; try exact I; intros; reflexivity|discriminate]]|]); destruct Ho.

(** A lookup during which the level-0 table with the key is compacted to level 1, a newer version
    is flushed, and the level-1 table that the lookup already holds is split: it finds
    the version that was the newest when it was called, which is no longer in level 0 when level 0
    is read and no longer the newest one when level 1 is read. *)
Definition c112_pre : list lop :=
  [flush_of [ins 1 [5] [50]]; LZero never all_ok true every 0; flush_of [ins 2 [5] [51]; ins 3 [9] [90]]; LRoll 0].
Definition c112_evs : list (option lop) :=
  [None; Some (LZero never all_ok true every 0); None; Some (flush_of [ins 4 [7] [70]]); None; None;
   Some (flush_of [ins 5 [5] [52]]); Some (LSplit (fun _ => true) all_ok 1 2); None; Some (flush_of [ins 6 [5] [53]]); None].
Example ex_window : exists R s b, lreach xhash xpart xc0 R s /\ rexec xhash xpart xc0 [5] true (called R s) b /\
  f_rd b = RDone (Got (ins 2 [5] [51])) /\ num_levels (f_tabs b) = num_levels s /\ bf_safe xc0 (f_recs b) /\
  newest_write (f_recs b) [5] = Some (ins 6 [5] [53]).
Proof.
  destruct (lrun xhash xpart xc0 c112_pre [] (lsm_new xc0)) as [[R s]|] eqn:E; [|vm_compute in E; discriminate].
  exists R, s. destruct (rrun xc0 [5] true c112_evs (called R s)) as [b|] eqn:E2; [|vm_compute in E; injection E as <- <-; vm_compute in E2; discriminate].
  exists b. split; [eapply lrun_reach; [apply lr_new| |exact E]; ops_ok|].
  split; [eapply rrun_exec; [|apply rx_none|exact E2]; evs_ok|].
  vm_compute in E. injection E as <- <-. vm_compute in E2. injection E2 as <-. split; [vm_compute; reflexivity|]. split; [vm_compute; reflexivity|].
  split; [now left|vm_compute; reflexivity].
Qed.

(** C112: the number of levels is read once, at the beginning.  If the first compaction of level 0
    to a new level runs during the lookup, a key that is in the database all the time is reported
    as not found. *)
Theorem C112_level_added_refuted : exists R s b r, lreach xhash xpart xc0 R s /\ rexec xhash xpart xc0 [5] true (called R s) b /\
  bf_safe xc0 (f_recs b) /\ is_ins r = true /\ (forall R', In R' (f_past b) -> newest_write R' [5] = Some r) /\
  f_rd b = RDone (GotErr KEY_NOT_FOUND) /\ tm_get xhash xpart xc0 [5] (f_tabs b) = Got r.
Proof.
  destruct (lrun xhash xpart xc0 [flush_of [ins 1 [5] [50]]] [] (lsm_new xc0)) as [[R s]|] eqn:E; [|vm_compute in E; discriminate].
  exists R, s. destruct (rrun xc0 [5] true [None; Some (LZero never all_ok true every 0); None; None; None] (called R s)) as [b|] eqn:E2;
    [|vm_compute in E; injection E as <- <-; vm_compute in E2; discriminate].
  exists b, (ins 1 [5] [50]). split; [eapply lrun_reach; [apply lr_new| |exact E]; ops_ok|].
  split; [eapply rrun_exec; [|apply rx_none|exact E2]; evs_ok|].
  vm_compute in E. injection E as <- <-. vm_compute in E2. injection E2 as <-. split; [now left|]. split; [reflexivity|].
  split; [intros R' HR'; repeat (destruct HR' as [<-|HR']; [vm_compute; reflexivity|]); destruct HR'|].
  split; vm_compute; reflexivity.
Qed.
Print Assumptions C112_level_added_refuted.

(** C112: the same for the compaction of the last level to a new one. *)
Theorem C112_migration_refuted : exists R s b r, lreach xhash xpart xc0 R s /\ rexec xhash xpart xc0 [5] true (called R s) b /\
  (1 < num_levels s)%nat /\ is_ins r = true /\ (forall R', In R' (f_past b) -> newest_write R' [5] = Some r) /\
  f_rd b = RDone (GotErr KEY_NOT_FOUND) /\ tm_get xhash xpart xc0 [5] (f_tabs b) = Got r.
Proof.
  destruct (lrun xhash xpart xc0 [flush_of [ins 1 [5] [50]]; LZero never all_ok true every 0] [] (lsm_new xc0)) as [[R s]|] eqn:E; [|vm_compute in E; discriminate].
  exists R, s. destruct (rrun xc0 [5] true [None; None; None; Some (LDown never all_ok true every 1 2); None; None; None] (called R s)) as [b|] eqn:E2;
    [|vm_compute in E; injection E as <- <-; vm_compute in E2; discriminate].
  exists b, (ins 1 [5] [50]). split; [eapply lrun_reach; [apply lr_new| |exact E]; ops_ok|].
  split; [eapply rrun_exec; [|apply rx_none|exact E2]; evs_ok|].
  vm_compute in E. injection E as <- <-. vm_compute in E2. injection E2 as <-. split; [vm_compute; auto|]. split; [reflexivity|].
  split; [intros R' HR'; repeat (destruct HR' as [<-|HR']; [vm_compute; reflexivity|]); destruct HR'|].
  split; vm_compute; reflexivity.
Qed.
Print Assumptions C112_migration_refuted.

(** C112: the state of the tables is looked at after the list is taken.  If one compaction of the
    key's partition ends and the next one begins in between, the list has no normal table; with a
    version of the key in both tables of the list, the lookup succeeds without a record. *)
Theorem C112_next_source_refuted : exists R s b r, lreach xhash xpart xc0 R s /\ rexec xhash xpart xc0 [5] false (called R s) b /\
  num_levels (f_tabs b) = num_levels s /\ is_ins r = true /\ (forall R', In R' (f_past b) -> newest_write R' [5] = Some r) /\
  f_rd b = RDone GotNothing /\ tm_get xhash xpart xc0 [5] (f_tabs b) = Got r.
Proof.
  destruct (lrun xhash xpart xc0 [flush_of [ins 1 [9] [90]]; LZero never all_ok true every 0; flush_of [ins 2 [5] [50]]; LRoll 0; flush_of [ins 3 [5] [51]]] [] (lsm_new xc0)) as [[R s]|] eqn:E; [|vm_compute in E; discriminate].
  exists R, s. destruct (rrun xc0 [5] false [None; None; Some (LZero never all_ok true every 0); Some (LRoll 0); None] (called R s)) as [b|] eqn:E2;
    [|vm_compute in E; injection E as <- <-; vm_compute in E2; discriminate].
  exists b, (ins 3 [5] [51]). split; [eapply lrun_reach; [apply lr_new| |exact E]; ops_ok|].
  split; [eapply rrun_exec; [|apply rx_none|exact E2]; evs_ok|].
  vm_compute in E. injection E as <- <-. vm_compute in E2. injection E2 as <-. split; [vm_compute; reflexivity|]. split; [reflexivity|].
  split; [intros R' HR'; repeat (destruct HR' as [<-|HR']; [vm_compute; reflexivity|]); destruct HR'|].
  split; vm_compute; reflexivity.
Qed.
Print Assumptions C112_next_source_refuted.
