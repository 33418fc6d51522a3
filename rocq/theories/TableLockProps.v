(** C37 and C61: background jobs on tables. *)
From Coq Require Import List NArith Bool Lia.
From Verif Require Import Base KeyModel LogFormatModel MemTableModel LsmModel LsmProofs2 LsmProofs5 LsmProps TableLockModel TableLockProofs TableLock2Proofs.
Import ListNotations.
Local Open Scope N_scope.

(** C37: in every execution, whatever jobs start, lock, work, fail and end in whatever order, two
    jobs never have the same table locked. *)
Theorem C37_exclusive : forall hash part c s i j a b, jreach hash part c s ->
  nth_error (j_jobs s) i = Some a -> nth_error (j_jobs s) j = Some b -> i <> j ->
  forall x, In x (jb_hold a) -> ~ In x (jb_hold b).
Proof. intros hash part c s i j a b H Ha Hb N. exact (jobs_exclusive hash part c s H i j a b Ha Hb N). Qed.
Print Assumptions C37_exclusive.

(** C37: an attempt to lock either gets all the tables it asks for, none of which was locked, or
    the job ends: the tables, the other jobs and their locks are as before, and its own earlier
    locks are released.  It fails only if one of the tables, or the level, is locked. *)
Theorem C37_lock_outcome : forall hash part c s o n j s', jreach hash part c s -> o = KLock n \/ o = KLockDst n ->
  nth_error (j_jobs s) n = Some j -> j_step hash part c o s = Some s' ->
  j_lsm s' = j_lsm s /\
  ((exists j', j_jobs s' = j' :: without n (j_jobs s) /\ (forall x, In x (jb_hold j') <-> In x (wanted j) \/ In x (jb_hold j)) /\
      (forall x, In x (wanted j) -> ~ In x (j_locked s)) /\
      (forall x, In x (j_locked s') <-> In x (wanted j) \/ In x (j_locked s)))
   \/ (j_jobs s' = without n (j_jobs s) /\ (forall x, In x (j_locked s') <-> In x (j_locked s) /\ ~ In x (jb_hold j)) /\
       ((exists x, In x (wanted j) /\ In x (j_locked s)) \/ (jb_hold j = [] /\ level_locked (jb_lv j) (j_jobs s) = true)))).
Proof. exact lock_outcome. Qed.
Print Assumptions C37_lock_outcome.

(** C37: a table is locked exactly while a job has it; without jobs nothing is locked. *)
Theorem C37_locks_released : forall hash part c s, jreach hash part c s ->
  (forall x, In x (j_locked s) <-> exists j, In j (j_jobs s) /\ In x (jb_hold j)) /\ (j_jobs s = [] -> j_locked s = []).
Proof. intros hash part c s H. split; [exact (locked_iff hash part c s H)|exact (idle_unlocked hash part c s H)]. Qed.
Print Assumptions C37_locks_released.

(** C37: a job that works has locked every table it works on. *)
Theorem C37_work_under_locks : forall hash part c s j, jreach hash part c s -> In j (j_jobs s) -> jb_ready j = true ->
  In (b_num (jb_v j)) (jb_hold j) /\ forall ts t, jb_dst j = Some ts -> In t ts -> In (b_num t) (jb_hold j).
Proof. intros hash part c s j H J R. exact (proj1 (jreach_cv hash part c s H j J) R). Qed.
Print Assumptions C37_work_under_locks.

(** C37: a table that a job has locked (in level 0: one that is being compacted) is neither
    removed nor changed by flushes, by other jobs or by operations, until that job works. *)
Theorem C37_locked_untouched : forall hash part c s o s' i a n lv t, jreach hash part c s -> j_step hash part c o s = Some s' ->
  nth_error (j_jobs s) i = Some a -> In n (jb_hold a) -> o <> KWork i ->
  tbl_at n (level lv (j_lsm s)) = Some t -> (lv = O -> b_src t = true) -> tbl_at n (level lv (j_lsm s')) = Some t.
Proof. exact locked_untouched. Qed.
Print Assumptions C37_locked_untouched.

(** C37: two compactions of the same level to the next one never both have locks; and while one has,
    a compaction of that level in one step is refused. *)
Theorem C37_one_compaction_per_level : forall hash part c s, jreach hash part c s ->
  (forall i j a b, nth_error (j_jobs s) i = Some a -> nth_error (j_jobs s) j = Some b -> i <> j ->
     is_down a = true -> is_down b = true -> jb_hold a <> [] -> jb_hold b <> [] -> jb_lv a <> jb_lv b) /\
  (forall i a o, nth_error (j_jobs s) i = Some a -> is_down a = true -> jb_hold a <> [] ->
     match o with LZero _ _ _ _ _ => jb_lv a = O | LDown _ _ _ _ lv _ => lv = jb_lv a | _ => False end -> j_step hash part c (KOp o) s = None).
Proof. intros hash part c s H. split; [exact (one_down hash part c s H)|exact (level_op_blocked hash part c s)]. Qed.
Print Assumptions C37_one_compaction_per_level.

(** C61, partial: if every job, when it works, finds the tables that it chose still in use and
    would choose the same ones, then lookups return the newest records, whatever the order of the
    steps.  Missing: the condition, which the code does not check. *)
Theorem C61_valid_choices_partial : forall hash part c R s k, tcfg_ok part c -> kreach hash part still_valid c R s -> bf_safe c R -> k <> [] ->
  match newest_write R k with
  | None => tm_get hash part c k (j_lsm s) = GotErr KEY_NOT_FOUND
  | Some r => tm_get hash part c k (j_lsm s) = Got r \/ (is_del r = true /\ tm_get hash part c k (j_lsm s) = GotErr KEY_NOT_FOUND)
  end.
Proof. exact fresh_latest. Qed.
Print Assumptions C61_valid_choices_partial.

(** ** Executions *)

Fixpoint krun (hash : key -> N * N) (part : key -> N) (c : tcfg) (os : list kop) (R : list rec) (s : jst) : option (list rec * jst) :=
  match os with
  | [] => Some (R, s)
  | o :: os' => match j_step hash part c o s with
                | Some s' => if l_next (j_lsm s') <=? NIL then krun hash part c os' (R ++ kflushed o) s' else None
                | None => None
                end
  end.
Definition any_step (o : kop) (s : jst) : Prop := True.
Lemma krun_reach : forall hash part c os R s R' s', kreach hash part any_step c R s -> (forall o, In o os -> kop_ok o) ->
  krun hash part c os R s = Some (R', s') -> kreach hash part any_step c R' s'.
Proof.
  intros hash part c. induction os as [|o os IH]; intros R s R' s' H Ok E; cbn [krun] in E.
  - injection E as <- <-. exact H.
  - destruct (j_step hash part c o s) as [s1|] eqn:S1; [|discriminate]. destruct (N.leb_spec (l_next (j_lsm s1)) NIL) as [L|L]; [|discriminate].
    eapply IH; [|intros o' I; apply Ok; now right|exact E]. econstructor; eauto; [apply Ok; now left|exact I].
Qed.
Ltac kops_ok := intros o Ho; repeat (destruct Ho as [<-|Ho]; [cbn; try exact I; try reflexivity; intros; reflexivity|]); destruct Ho.

(** Two jobs at the same time: a compaction from level 0 into level 1 and an in-place compaction
    of another table of level 1. *)
Definition ex_jobs : list kop :=
  [KOp (flush_of [ins 1 [1] [10]; ins 2 [5] [50]; ins 3 [9] [90]]); KOp (LZero never all_ok true every 0);
   KOp (LSplit (fun _ => true) all_ok 1 2); KOp (flush_of [ins 4 [1] [11]]); KOp (LRoll 0);
   KPick (JDown never all_ok) 0 1; KPick (JPlace false) 1 5; KLock 1; KRange 0; KLock 1; KLockDst 1].
Example ex_jobs_run :
  match krun xhash xpart xc0 ex_jobs [] (j_new xc0) with
  | Some (R, s) => length (j_jobs s) = 2%nat /\ map jb_hold (j_jobs s) = [[3; 1]; [5]] /\ forallb jb_ready (j_jobs s) = true /\
      match krun xhash xpart xc0 [KWork 0; KOp (flush_of [ins 5 [9] [91]]); KWork 0] R s with
      | Some (R', s') => j_locked s' = [] /\ tm_get xhash xpart xc0 [1] (j_lsm s') = Got (ins 4 [1] [11]) /\
                         tm_get xhash xpart xc0 [9] (j_lsm s') = Got (ins 5 [9] [91])
      | None => False
      end
  | None => False
  end.
Proof. vm_compute. repeat split. Qed.

Example ex_jobs_valid : exists R s, kreach xhash xpart still_valid xc0 R s /\ length (j_jobs s) = 1%nat /\ bf_safe xc0 R /\
  newest_write R [1] = Some (ins 4 [1] [11]) /\ tm_get xhash xpart xc0 [1] (j_lsm s) = Got (ins 4 [1] [11]).
Proof.
  assert (H : forall os R s R' s', kreach xhash xpart still_valid xc0 R s -> (forall o, In o os -> kop_ok o /\ match o with KWork _ => False | _ => True end) ->
            krun xhash xpart xc0 os R s = Some (R', s') -> kreach xhash xpart still_valid xc0 R' s').
  { induction os as [|o os IH]; intros R s R' s' H Ok E; cbn [krun] in E.
    - injection E as <- <-. exact H.
    - destruct (j_step xhash xpart xc0 o s) as [s1|] eqn:S1; [|discriminate]. destruct (N.leb_spec (l_next (j_lsm s1)) NIL) as [L|L]; [|discriminate].
      eapply IH; [|intros o' I; apply Ok; now right|exact E]. destruct (Ok o (or_introl eq_refl)) as [O1 O2]. econstructor; eauto.
      destruct o; try exact I. destruct O2. }
  destruct (krun xhash xpart xc0 ex_jobs [] (j_new xc0)) as [[R s]|] eqn:E; [|vm_compute in E; discriminate].
  destruct (j_step xhash xpart xc0 (KWork 0) s) as [s'|] eqn:E2; [|vm_compute in E; injection E as <- <-; vm_compute in E2; discriminate].
  exists (R ++ kflushed (KWork 0)), s'. split.
  - eapply kr_step; [eapply H; [apply kr_new| |exact E]|exact I| |exact E2|].
    + intros o Ho. repeat (destruct Ho as [<-|Ho]; [cbn; split; try exact I; try reflexivity; intros; reflexivity|]). destruct Ho.
    + vm_compute in E. injection E as <- <-. intros j J. cbn [nth_error j_jobs] in J. injection J as <-. repeat split.
    + vm_compute in E. injection E as <- <-. vm_compute in E2. injection E2 as <-. discriminate.
  - vm_compute in E. injection E as <- <-. vm_compute in E2. injection E2 as <-. repeat split; vm_compute; auto.
Qed.

(** C61 refuted: a compaction lists the tables of the next level before it locks them.  A split of one
    of them comes in between, and the compaction then locks the number of the removed table, writes
    its records there and removes its source: the newest value of the key is lost. *)
Definition c61_dst : list kop :=
  [KOp (flush_of [ins 1 [1] [10]; ins 2 [5] [50]; ins 3 [9] [90]]); KOp (LZero never all_ok true every 0);
   KOp (flush_of [ins 4 [1] [11]]); KOp (LRoll 0); KPick (JDown never all_ok) 0 1; KLock 0; KRange 0;
   KOp (LSplit (fun _ => true) all_ok 1 2); KLockDst 0; KWork 0].
Theorem C61_stale_destination_refuted : exists R s, kreach xhash xpart any_step xc0 R s /\ j_jobs s = [] /\
  newest_write R [1] = Some (ins 4 [1] [11]) /\ tm_get xhash xpart xc0 [1] (j_lsm s) = Got (ins 1 [1] [10]).
Proof.
  destruct (krun xhash xpart xc0 c61_dst [] (j_new xc0)) as [[R s]|] eqn:E; [|vm_compute in E; discriminate].
  exists R, s. split.
  - eapply krun_reach; [apply kr_new| |exact E]. kops_ok.
  - vm_compute in E. injection E as <- <-. repeat split; vm_compute; reflexivity.
Qed.
Print Assumptions C61_stale_destination_refuted.

(** C61 refuted: a job is chosen for a table that is merged into its neighbour before the job locks
    it.  A newer value reaches the neighbour; the in-place compaction then brings the removed table
    back, with the old value. *)
Definition c61_victim : list kop :=
  [KOp (flush_of [ins 1 [1] [10]; ins 2 [5] [50]; ins 3 [9] [90]]); KOp (LZero never all_ok true every 0);
   KOp (LSplit (fun _ => true) all_ok 1 2); KPick (JPlace false) 1 4; KOp (LMerge 1 4);
   KOp (flush_of [ins 4 [5] [51]]); KOp (LZero never all_ok true every 0); KLock 0; KWork 0].
Theorem C61_stale_victim_refuted : exists R s, kreach xhash xpart any_step xc0 R s /\ j_jobs s = [] /\
  newest_write R [5] = Some (ins 4 [5] [51]) /\ tm_get xhash xpart xc0 [5] (j_lsm s) = Got (ins 2 [5] [50]).
Proof.
  destruct (krun xhash xpart xc0 c61_victim [] (j_new xc0)) as [[R s]|] eqn:E; [|vm_compute in E; discriminate].
  exists R, s. split.
  - eapply krun_reach; [apply kr_new| |exact E]. kops_ok.
  - vm_compute in E. injection E as <- <-. repeat split; vm_compute; reflexivity.
Qed.
Print Assumptions C61_stale_victim_refuted.

(** C61 refuted: a merge of a table that an in-place compaction has replaced meanwhile does not find
    its table in the level, takes the last table as the one before it and overwrites newer values
    there. *)
Definition c61_merge : list kop :=
  [KOp (flush_of [ins 1 [1] [10]; ins 2 [5] [50]; ins 3 [9] [90]]); KOp (LZero never all_ok true every 0);
   KOp (LSplit (fun _ => true) all_ok 1 2); KPick JMerge 1 5; KOp (LPlace false 1 5);
   KOp (flush_of [ins 4 [9] [91]]); KOp (LZero never all_ok true every 0); KRange 0; KLock 0; KWork 0].
Theorem C61_stale_merge_refuted : exists R s, kreach xhash xpart any_step xc0 R s /\ j_jobs s = [] /\
  newest_write R [9] = Some (ins 4 [9] [91]) /\ tm_get xhash xpart xc0 [9] (j_lsm s) = Got (ins 3 [9] [90]).
Proof.
  destruct (krun xhash xpart xc0 c61_merge [] (j_new xc0)) as [[R s]|] eqn:E; [|vm_compute in E; discriminate].
  exists R, s. split.
  - eapply krun_reach; [apply kr_new| |exact E]. kops_ok.
  - vm_compute in E. injection E as <- <-. repeat split; vm_compute; reflexivity.
Qed.
Print Assumptions C61_stale_merge_refuted.
