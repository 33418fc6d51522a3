(** Properties C21, C22, C23, C26 and C47: the tables of a database. *)
From Coq Require Import List NArith Bool Lia Arith.
From Verif Require Import Base LogFormatModel KeyModel KeyProofs BloomModel MemTableModel LsmModel LsmProofs LsmProofs2 LsmProofs3 LsmProofs4 LsmProofs5.
Import ListNotations.
Local Open Scope N_scope.

(** Vocabulary of the statements, from the proof files:
    - [lreach hash part c R s] (LsmProofs5.v): [s] is reached from a new table section by any
      sequence of the operations of LsmModel.v, in which no write and no file creation fails;
      [R] lists all records that were flushed, in the order in which they were;
    - [newest_write R k] (LsmProofs2.v): the last record of [R] with key [k];
    - [tcfg_ok part c] (LsmProofs5.v): level extension mode; keys are mapped to existing
      partitions;
    - [bf_safe c R] (LsmProofs2.v): no bloom filters, or not used by lookups, or [R] has no
      deletion. *)

(** C21: a lookup returns the newest version that was flushed. *)
Theorem C21_latest_in_tables : forall hash part c R s k, tcfg_ok part c -> lreach hash part c R s -> bf_safe c R -> k <> [] ->
  match newest_write R k with
  | None => tm_get hash part c k s = GotErr KEY_NOT_FOUND
  | Some r => tm_get hash part c k s = Got r \/ (is_del r = true /\ tm_get hash part c k s = GotErr KEY_NOT_FOUND)
  end.
Proof. exact tables_answer. Qed.
Print Assumptions C21_latest_in_tables.

(** C22, guarded: without bloom filters in the read path a deleted key is never found again. *)
Theorem C22_deleted_stays_deleted_partial : forall hash part c R s k r,
  tcfg_ok part c -> lreach hash part c R s -> tc_bits c = 0 \/ tc_bfget c = false -> k <> [] ->
  newest_write R k = Some r -> is_del r = true ->
  tm_get hash part c k s = Got r \/ tm_get hash part c k s = GotErr KEY_NOT_FOUND.
Proof.
  intros hash part c R s k r Hc H S Hk W D. pose proof (tables_answer hash part c R s k Hc H) as A.
  rewrite W in A. destruct A as [A|[_ A]]; [|exact Hk|now left|now right]. destruct S; [now left|right; now left].
Qed.
Print Assumptions C22_deleted_stays_deleted_partial.

(** C23, in level extension mode, with and without bloom filters. *)
Theorem C23_success_has_record_partial : forall hash part c R s k, tcfg_ok part c -> lreach hash part c R s ->
  match tm_get hash part c k s with
  | Got r => r_key r = k /\ In r R
  | GotNothing => False
  | GotErr e => e = KEY_NOT_FOUND
  end.
Proof. exact got_has_record. Qed.
Print Assumptions C23_success_has_record_partial.

(** C26: the outputs of a split hold the records of the table, in order; each record is in the
    output whose range contains it; lookups are not affected. *)
Theorem C26_split : forall hash part c R s cut mk lv num s', tcfg_ok part c -> lreach hash part c R s ->
  (forall j, mk j = true) -> split hash c cut mk lv num s = Some s' -> l_next s' <= NIL ->
  (exists v outs, In v (level lv s) /\ b_num v = num /\ (1 < length outs)%nat /\ concat (map b_docs outs) = b_docs v /\
    (forall t, In t (level lv s') <-> (In t (level lv s) /\ b_num t <> num) \/ In t outs) /\
    (forall t d, In t (level lv s') -> In d (b_docs t) ->
       kle (b_min t) (r_key d) /\ forall u, In u (level lv s') -> klt (b_min t) (b_min u) -> klt (r_key d) (b_min u))) /\
  (bf_safe c R -> forall k, k <> [] -> tm_get hash part c k s' = tm_get hash part c k s).
Proof.
  intros hash part c R s cut mk lv num s' Hc H Hmk Hs Hn. destruct (lreach_inv hash part c R s Hc H) as [HI _].
  destruct (split_keeps hash part c R s cut mk lv num s' HI Hmk Hs Hn) as [HI' _].
  destruct (split_exact hash part c R s cut mk lv num s' HI Hmk Hs Hn) as (v & outs & A1 & A2 & A3 & A4 & A5 & A6 & A7). split.
  - exists v, outs. repeat (split; [assumption|]). exact A6.
  - intros S k Hk. rewrite (get_view hash part c R s k HI S (proj2 (proj2 Hc) k) Hk), (get_view hash part c R s' k HI' S (proj2 (proj2 Hc) k) Hk).
    now rewrite A7.
Qed.
Print Assumptions C26_split.

(** ** Concrete executions *)

Fixpoint lrun hash part (c : tcfg) (ops : list lop) (R : list rec) (s : lsm) : option (list rec * lsm) :=
  match ops with
  | [] => Some (R, s)
  | o :: ops' => match lstep hash part c o s with
                 | Some s' => if l_next s' <=? NIL then lrun hash part c ops' (R ++ lflushed o) s' else None
                 | None => None
                 end
  end.

Lemma lrun_reach : forall hash part c ops R s R' s', lreach hash part c R s -> (forall o, In o ops -> lop_ok o) ->
  lrun hash part c ops R s = Some (R', s') -> lreach hash part c R' s'.
Proof.
  intros hash part c ops. induction ops as [|o ops IH]; intros R s R' s' H Ho E; cbn [lrun] in E; [injection E as <- <-; exact H|].
  destruct (lstep hash part c o s) as [s1|] eqn:St; [|discriminate]. destruct (l_next s1 <=? NIL) eqn:L; [|discriminate]. apply N.leb_le in L.
  apply (IH (R ++ lflushed o) s1); [|intros x Hx; apply Ho; now right|exact E].
  eapply lr_step; [exact H|apply Ho; now left|exact St|exact L].
Qed.

Definition xhash (k : key) : N * N := (match k with x :: _ => x | [] => 0 end, 1).
Definition xpart (k : key) : N := 0.
Definition all_ok : nat -> bool := fun _ => true.
Definition every : rec -> bool := fun _ => true.
Definition never : nat -> bool := fun _ => false.
Definition first_only : nat -> bool := fun i => Nat.leb 1 i.
Definition ins (n : N) (k v : list N) : rec := mkRec n INS k [] v.
Definition del (n : N) (k : list N) : rec := mkRec n DEL k [] [].
Definition flush_of (rs : list rec) : lop := LFlush (fun _ => false) rs.

(** Without bloom filters. *)
Definition xc0 : tcfg := mkTC 1 0 true true true.
(** With bloom filters, as by default when their size is set. *)
Definition xc1 : tcfg := mkTC 1 1024 true true true.

Lemma xc0_ok : tcfg_ok xpart xc0.
Proof. split; [reflexivity|]. split; [discriminate|reflexivity]. Qed.
Lemma xc1_ok : tcfg_ok xpart xc1.
Proof. split; [reflexivity|]. split; [discriminate|reflexivity]. Qed.

(** Three versions of a key in three levels, a compaction that was cancelled, a split, a merge
    and a reload. *)
Definition ex_lsm_ops : list lop :=
  [flush_of [ins 1 [1] [10]; ins 2 [5] [50]; ins 3 [9] [90]]; LZero never all_ok true every 0;
   LSplit (fun _ => true) all_ok 1 2; LDown never all_ok true every 1 3;
   flush_of [ins 4 [5] [51]; del 5 [9]]; LZero never all_ok true every 0; LReload;
   flush_of [ins 6 [5] [52]]; LZero never all_ok false (fun r => r_seq r =? 4) 0; flush_of [ins 7 [7] [70]];
   LMerge 2 4].
Example ex_lsm_run :
  match lrun xhash xpart xc0 ex_lsm_ops [] (lsm_new xc0) with
  | Some (R, s) => length R = 7%nat /\ num_levels s = 3%nat /\
      tm_get xhash xpart xc0 [5] s = Got (ins 6 [5] [52]) /\
      tm_get xhash xpart xc0 [1] s = Got (ins 1 [1] [10]) /\
      tm_get xhash xpart xc0 [9] s = Got (del 5 [9]) /\
      tm_get xhash xpart xc0 [8] s = GotErr KEY_NOT_FOUND
  | None => False
  end.
Proof. vm_compute. repeat split. Qed.

Example ex_lsm_reach : exists R s, lreach xhash xpart xc0 R s /\ bf_safe xc0 R /\ newest_write R [5] = Some (ins 6 [5] [52]) /\
  tm_get xhash xpart xc0 [5] s = Got (ins 6 [5] [52]).
Proof.
  destruct (lrun xhash xpart xc0 ex_lsm_ops [] (lsm_new xc0)) as [[R s]|] eqn:E; [|vm_compute in E; discriminate].
  exists R, s. split.
  - eapply lrun_reach; [apply lr_new| |exact E]. intros o Ho. repeat (destruct Ho as [<-|Ho]; [cbn; try exact I; try reflexivity; intros; reflexivity|]). destruct Ho.
  - vm_compute in E. injection E as <- <-. repeat split; try (now left); vm_compute; reflexivity.
Qed.

(** C22: the deletion of a key is not entered in the bloom filter of the table it is flushed to:
    lookups skip that table and return the older value from the next level. *)
Definition c22_ops : list lop := [flush_of [ins 1 [1] [10]]; LZero never all_ok true every 0; flush_of [del 2 [1]]].
Theorem C22_flushed_deletion_refuted : exists R s, lreach xhash xpart xc1 R s /\
  newest_write R [1] = Some (del 2 [1]) /\ tm_get xhash xpart xc1 [1] s = Got (ins 1 [1] [10]).
Proof.
  destruct (lrun xhash xpart xc1 c22_ops [] (lsm_new xc1)) as [[R s]|] eqn:E; [|vm_compute in E; discriminate].
  exists R, s. split; [|vm_compute in E; injection E as <- <-; split; vm_compute; reflexivity].
  eapply lrun_reach; [apply lr_new| |exact E]. intros o Ho.
  repeat (destruct Ho as [<-|Ho]; [cbn; try exact I; try reflexivity; intros; reflexivity|]). destruct Ho.
Qed.
Print Assumptions C22_flushed_deletion_refuted.

(** C22: the same for the deletions that are moved by a merge of two tables of a level.  Before
    the merge the key is reported as deleted, after it the old value is back. *)
Definition c22_merge_pre : list lop :=
  [flush_of [ins 1 [5] [50]]; LZero never all_ok true every 0; LDown never all_ok true every 1 0;
   flush_of [ins 2 [1] [10]; del 3 [5]]; LZero first_only all_ok true every 0].
Theorem C22_merged_deletion_refuted : exists R s s', lreach xhash xpart xc1 R s /\ lstep xhash xpart xc1 (LMerge 1 5) s = Some s' /\
  newest_write R [5] = Some (del 3 [5]) /\
  tm_get xhash xpart xc1 [5] s = Got (del 3 [5]) /\ tm_get xhash xpart xc1 [5] s' = Got (ins 1 [5] [50]).
Proof.
  destruct (lrun xhash xpart xc1 c22_merge_pre [] (lsm_new xc1)) as [[R s]|] eqn:E; [|vm_compute in E; discriminate].
  exists R, s. destruct (lstep xhash xpart xc1 (LMerge 1 5) s) as [s'|] eqn:E2.
  - exists s'. split; [|vm_compute in E; injection E as <- <-; vm_compute in E2; injection E2 as <-; repeat split; vm_compute; reflexivity].
    eapply lrun_reach; [apply lr_new| |exact E]. intros o Ho.
    repeat (destruct Ho as [<-|Ho]; [cbn; try exact I; try reflexivity; intros; reflexivity|]). destruct Ho.
  - vm_compute in E. injection E as <- <-. vm_compute in E2. discriminate.
Qed.
Print Assumptions C22_merged_deletion_refuted.

(** C47: a record that cannot be written ends the flush of its partition without an error: the
    records after it are missing from the tables although the flush succeeds (and the log files
    that hold them are removed). *)
Theorem C47_failed_write_refuted : exists R s bad rs s', lreach xhash xpart xc0 R s /\
  lstep xhash xpart xc0 (LFlush bad rs) s = Some s' /\
  (exists r, In r rs /\ bad r = false /\ newest_write (R ++ rs) (r_key r) = Some r /\
     tm_get xhash xpart xc0 (r_key r) s' = GotErr KEY_NOT_FOUND).
Proof.
  exists [], (lsm_new xc0), (fun r => r_seq r =? 1), [ins 1 [1] [10]; ins 2 [2] [20]]. eexists. split; [apply lr_new|].
  split; [reflexivity|]. exists (ins 2 [2] [20]). split; [right; now left|]. split; [reflexivity|]. split; vm_compute; reflexivity.
Qed.
Print Assumptions C47_failed_write_refuted.

(** C47: a table file that cannot be created makes a compaction, or a split, drop the records
    meant for it; the source table is removed all the same. *)
Definition c47_ops : list lop := [flush_of [ins 1 [1] [10]; ins 2 [2] [20]]].
Theorem C47_failed_create_refuted : exists R s o s', lreach xhash xpart xc0 R s /\
  (exists over mk sel, o = LZero over mk true sel 0) /\ lstep xhash xpart xc0 o s = Some s' /\
  tm_get xhash xpart xc0 [1] s = Got (ins 1 [1] [10]) /\ tm_get xhash xpart xc0 [1] s' = GotErr KEY_NOT_FOUND.
Proof.
  destruct (lrun xhash xpart xc0 c47_ops [] (lsm_new xc0)) as [[R s]|] eqn:E; [|vm_compute in E; discriminate].
  exists R, s, (LZero never (fun _ => false) true every 0).
  destruct (lstep xhash xpart xc0 (LZero never (fun _ => false) true every 0) s) as [s'|] eqn:E2.
  - exists s'. split; [|split; [now exists never, (fun _ => false), every|]].
    + eapply lrun_reach; [apply lr_new| |exact E]. intros o Ho.
      repeat (destruct Ho as [<-|Ho]; [cbn; try exact I; try reflexivity; intros; reflexivity|]). destruct Ho.
    + vm_compute in E. injection E as <- <-. vm_compute in E2. injection E2 as <-. repeat split; vm_compute; reflexivity.
  - vm_compute in E. injection E as <- <-. vm_compute in E2. discriminate.
Qed.
Print Assumptions C47_failed_create_refuted.

(** A split that has an effect. *)
Example ex_split : match lrun xhash xpart xc0 (firstn 2 ex_lsm_ops) [] (lsm_new xc0) with
  | Some (_, s) => match split xhash xc0 (fun _ => true) all_ok 1 2 s with
                   | Some s' => map b_docs (level 1 s) = [[ins 1 [1] [10]; ins 2 [5] [50]; ins 3 [9] [90]]] /\
                                map b_docs (level 1 s') = [[ins 1 [1] [10]]; [ins 2 [5] [50]]; [ins 3 [9] [90]]]
                   | None => False
                   end
  | None => False
  end.
Proof. vm_compute. split; reflexivity. Qed.
