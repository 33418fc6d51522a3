(** Properties C108 and C109: opening a database with another number of level-0 partitions. *)
From Coq Require Import List NArith Bool Lia Arith.
From Verif Require Import Base LogFormatModel KeyModel KeyProofs BloomModel MemTableModel LsmModel LsmProofs2 LsmProofs5 LsmProps AdjustModel AdjustSpec AdjustProofs.
Import ListNotations.
Local Open Scope N_scope.

(** C108: whatever was flushed is found after any history of flushes, compactions, splits, merges,
    reopenings, interrupted changes and completed changes of the number of partitions, where a
    change is completed while the older table of each partition comes first. *)
Theorem C108_changes : forall hash hp c R s k, (forall n k, 0 < n -> hp n k < n) -> areach hash hp c R s -> bf_safe c R -> k <> [] ->
  match newest_write R k with
  | None => tm_get hash (hp (tc_parts c)) c k s = GotErr KEY_NOT_FOUND
  | Some r => tm_get hash (hp (tc_parts c)) c k s = Got r \/
              (is_del r = true /\ tm_get hash (hp (tc_parts c)) c k s = GotErr KEY_NOT_FOUND)
  end.
Proof. intros hash hp c R s k Hp H S Hk. exact (areach_answer hash hp Hp c R s k H S Hk). Qed.
Print Assumptions C108_changes.

(** C108: that is so if no partition was between two tables at some point and the database was
    not opened since, before now. *)
Theorem C108_first_reopen : forall hash hp c R s R' s', (forall n k, 0 < n -> hp n k < n) -> areach hash hp c R s ->
  (forall t, In t (l_zero s) -> b_src t = false) -> quiet hash hp c R s R' s' ->
  areach hash hp c R' s' /\ older_first (l_zero (reload s')).
Proof. intros hash hp c R s R' s' Hp. exact (quiet_order hash hp Hp c R s R' s'). Qed.
Print Assumptions C108_first_reopen.

(** C108: a change can be completed from every such state; then there is one empty table for
    each partition of the new number and none for others. *)
Theorem C108_completes : forall hash hp c R p ov mk s, (forall n k, 0 < n -> hp n k < n) -> areach hash hp c R s -> (forall n j, mk n j = true) ->
  0 < p <= NIL -> older_first (l_zero s) ->
  exists s', adjust hash c p ov mk s = Some s' /\
    (l_next s' <= NIL -> forall h, if h <? p then exists t, by_hash h (l_zero s') = [t] /\ b_docs t = [] else by_hash h (l_zero s') = []).
Proof. intros hash hp c R p ov mk s Hp. exact (adjust_done hash hp Hp c R p ov mk s). Qed.
Print Assumptions C108_completes.

(** ** Concrete executions *)

Definition xhp (n : N) (k : key) : N := match k with x :: _ => x mod n | [] => 0 end.
Lemma xhp_lt : forall n k, 0 < n -> xhp n k < n.
Proof. intros n [|x k] H; unfold xhp; [exact H|]. apply N.mod_lt. lia. Qed.

Inductive aop := AL (o : lop) | AK (fin : bool) (sel : rec -> bool) (num : N).
Fixpoint arun (c : tcfg) (ops : list aop) (R : list rec) (s : lsm) : option (list rec * lsm) :=
  match ops with
  | [] => Some (R, s)
  | AL o :: ops' => match lstep xhash (xhp (tc_parts c)) c o s with
                    | Some s' => if l_next s' <=? NIL then arun c ops' (R ++ lflushed o) s' else None
                    | None => None
                    end
  | AK fin sel num :: ops' => match compact_keep xhash c never all_ok fin sel num s with
                      | Some s' => if l_next s' <=? NIL then arun c ops' R s' else None
                      | None => None
                      end
  end.
Lemma arun_reach : forall c ops R s R' s', areach xhash xhp c R s -> (forall o, In (AL o) ops -> lop_ok o) ->
  arun c ops R s = Some (R', s') -> areach xhash xhp c R' s'.
Proof.
  intros c ops. induction ops as [|o ops IH]; intros R s R' s' H Ho E; cbn [arun] in E; [injection E as <- <-; exact H|].
  destruct o as [o|fin sel num].
  - destruct (lstep xhash (xhp (tc_parts c)) c o s) as [s1|] eqn:St; [|discriminate]. destruct (N.leb_spec (l_next s1) NIL) as [L|L]; [|discriminate].
    eapply IH; [|intros o' I; apply Ho; now right|exact E]. eapply ar_step; eauto. apply Ho. now left.
  - destruct (compact_keep _ _ _ _ _ _ _ _) as [s1|] eqn:St; [|discriminate]. destruct (N.leb_spec (l_next s1) NIL) as [L|L]; [|discriminate].
    eapply IH; [|intros o' I; apply Ho; now right|exact E]. eapply ar_keep; eauto. intros j. reflexivity.
Qed.

Lemma arun_quiet : forall c R0 s0 ops R s R' s', quiet xhash xhp c R0 s0 R s -> (forall a, In a ops -> exists o, a = AL o /\ o <> LReload /\ lop_ok o) ->
  arun c ops R s = Some (R', s') -> quiet xhash xhp c R0 s0 R' s'.
Proof.
  intros c R0 s0 ops. induction ops as [|a ops IH]; intros R s R' s' H Ho E; cbn [arun] in E; [injection E as <- <-; exact H|].
  destruct (Ho a (or_introl eq_refl)) as (o & -> & No & Ok).
  destruct (lstep xhash (xhp (tc_parts c)) c o s) as [s1|] eqn:St; [|discriminate]. destruct (N.leb_spec (l_next s1) NIL) as [L|L]; [|discriminate].
  eapply IH; [|intros o' I; apply Ho; now right|exact E]. eapply qu_step; eauto.
Qed.

(** Two partitions; a partition with two tables when the database is closed; then a change to
    three partitions. *)
Definition xc2 : tcfg := mkTC 2 0 true true true.
Definition adj_pre : list aop :=
  [AL (flush_of [ins 1 [1] [10]; ins 2 [2] [20]; ins 3 [4] [40]]); AL (LRoll 0); AL (flush_of [ins 4 [2] [21]; del 5 [4]])].
Definition adj_ops : list aop := adj_pre ++ [AL LReload].
Definition ovn : N -> nat -> bool := fun _ _ => false.
Definition mkt : N -> nat -> bool := fun _ _ => true.

Lemma lop_ok_ex : forall ops, (forall o, In (AL o) ops -> match o with LFlush bad _ => bad = (fun _ => false) | LRoll _ | LReload => True | _ => False end) ->
  forall o, In (AL o) ops -> lop_ok o.
Proof. intros ops H o I. specialize (H o I). destruct o; cbn [lop_ok]; try contradiction; auto. subst bad. auto. Qed.

Ltac ops_ok := apply lop_ok_ex; intros o I; repeat (destruct I as [I|I]; [try discriminate I; injection I as <-; cbn; auto|]); destruct I.

Example C108_case : exists R s s', areach xhash xhp xc2 R s /\ older_first (l_zero s) /\ length (l_zero s) = 3%nat /\
  adjust xhash xc2 3 ovn mkt s = Some s' /\ areach xhash xhp (with_parts 3 xc2) R s' /\
  tm_get xhash (xhp 3) (with_parts 3 xc2) [1] s' = Got (ins 1 [1] [10]) /\
  tm_get xhash (xhp 3) (with_parts 3 xc2) [2] s' = Got (ins 4 [2] [21]) /\
  tm_get xhash (xhp 3) (with_parts 3 xc2) [4] s' = GotErr KEY_NOT_FOUND.
Proof.
  assert (N0 : areach xhash xhp xc2 [] (lsm_new xc2)) by (apply ar_new; [reflexivity|split; vm_compute; congruence]).
  destruct (arun xc2 adj_pre [] (lsm_new xc2)) as [[R s0]|] eqn:E; [|vm_compute in E; discriminate].
  assert (Q : quiet xhash xhp xc2 [] (lsm_new xc2) R s0).
  { eapply arun_quiet; [apply qu_none| |exact E]. intros a I.
    repeat (destruct I as [<-|I]; [eexists; split; [reflexivity|split; [discriminate|cbn; auto]]|]). destruct I. }
  destruct (C108_first_reopen xhash xhp xc2 [] (lsm_new xc2) R s0 xhp_lt N0) as [A O]; [|exact Q|].
  { intros t It. vm_compute in It. repeat (destruct It as [<-|It]; [reflexivity|]). destruct It. }
  assert (A1 : areach xhash xhp xc2 R (reload s0)).
  { rewrite <- (app_nil_r R). eapply (ar_step xhash xhp xc2 R s0 LReload); [exact A|exact I|reflexivity|].
    destruct (areach_inv xhash xhp xhp_lt _ _ _ A) as (_ & HI & _). apply (li_nil _ _ _ _ _ HI). }
  exists R, (reload s0). destruct (adjust xhash xc2 3 ovn mkt (reload s0)) as [s'|] eqn:Ad.
  - exists s'. split; [exact A1|]. split; [exact O|]. clear Q A O N0. vm_compute in E. injection E as <- <-.
    split; [reflexivity|]. split; [reflexivity|]. split.
    + eapply ar_adjust; [exact A1| | | |exact Ad|]; [reflexivity|split; vm_compute; congruence| |].
      * intros h. vm_compute. destruct h as [|[p|p|]]; reflexivity.
      * vm_compute in Ad. injection Ad as <-. vm_compute. discriminate.
    + vm_compute in Ad. injection Ad as <-. vm_compute. auto.
  - exfalso. clear -E Ad. vm_compute in E. injection E as <- <-. vm_compute in Ad. discriminate.
Qed.

(** C109, refuted: the database is opened twice, with a flush in between, before the number of
    partitions is changed; an old value comes back. *)
Theorem C109_second_reopen_refuted : exists ops R s s', areach xhash xhp xc2 R s /\
  arun xc2 ops [] (lsm_new xc2) = Some (R, s) /\ adjust xhash xc2 3 ovn mkt s = Some s' /\
  newest_write R [2] = Some (ins 4 [2] [21]) /\ tm_get xhash (xhp 2) xc2 [2] s = Got (ins 4 [2] [21]) /\
  tm_get xhash (xhp 3) (with_parts 3 xc2) [2] s' = Got (ins 2 [2] [20]) /\
  newest_write R [4] = Some (del 5 [4]) /\
  tm_get xhash (xhp 3) (with_parts 3 xc2) [4] s' = Got (ins 3 [4] [40]).
Proof.
  set (ops := adj_pre ++ [AL LReload; AL (flush_of [ins 6 [7] [70]]); AL LReload]). exists ops.
  destruct (arun xc2 ops [] (lsm_new xc2)) as [[R s]|] eqn:E; [|vm_compute in E; discriminate]. exists R, s.
  assert (A : areach xhash xhp xc2 R s).
  { eapply arun_reach; [apply ar_new; [reflexivity|split; vm_compute; congruence]| |exact E]. ops_ok. }
  destruct (adjust xhash xc2 3 ovn mkt s) as [s'|] eqn:Ad.
  - exists s'. split; [exact A|]. split; [reflexivity|]. split; [reflexivity|]. clear A. vm_compute in E. injection E as <- <-.
    vm_compute in Ad. injection Ad as <-. vm_compute. auto.
  - exfalso. clear A. vm_compute in E. injection E as <- <-. vm_compute in Ad. discriminate.
Qed.
Print Assumptions C109_second_reopen_refuted.

(** C109, refuted: the first change is interrupted after its first compaction; the change at the
    next opening brings an old value back. *)
Theorem C109_interrupted_refuted : exists ops R s s', areach xhash xhp xc2 R s /\
  arun xc2 (adj_pre ++ AL LReload :: AK true every 0 :: ops) [] (lsm_new xc2) = Some (R, s) /\ ops = [AL LReload] /\
  adjust xhash xc2 3 ovn mkt s = Some s' /\
  newest_write R [2] = Some (ins 4 [2] [21]) /\ tm_get xhash (xhp 2) xc2 [2] s = Got (ins 4 [2] [21]) /\
  tm_get xhash (xhp 3) (with_parts 3 xc2) [2] s' = Got (ins 2 [2] [20]).
Proof.
  exists [AL LReload]. set (ops := adj_pre ++ [AL LReload; AK true every 0; AL LReload]).
  change (adj_pre ++ AL LReload :: AK true every 0 :: [AL LReload]) with ops.
  destruct (arun xc2 ops [] (lsm_new xc2)) as [[R s]|] eqn:E; [|vm_compute in E; discriminate]. exists R, s.
  assert (A : areach xhash xhp xc2 R s).
  { eapply arun_reach; [apply ar_new; [reflexivity|split; vm_compute; congruence]| |exact E]. ops_ok. }
  destruct (adjust xhash xc2 3 ovn mkt s) as [s'|] eqn:Ad.
  - exists s'. split; [exact A|]. split; [reflexivity|]. split; [reflexivity|]. split; [reflexivity|]. clear A. vm_compute in E. injection E as <- <-.
    vm_compute in Ad. injection Ad as <-. vm_compute. auto.
  - exfalso. clear A. vm_compute in E. injection E as <- <-. vm_compute in Ad. discriminate.
Qed.
Print Assumptions C109_interrupted_refuted.
