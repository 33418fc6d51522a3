(** C113, C114: tables of a level whose key ranges overlap. *)
From Coq Require Import List NArith Bool Lia Arith Sorted.
From Verif Require Import Base LogFormatModel KeyModel KeyProofs BloomModel BloomProofs MemTableModel LsmModel LsmProps RepairModel RepairSpec RepairProofs3.
Import ListNotations.
Local Open Scope N_scope.

(** C113: if the tables overlap at most their neighbours, a key in two tables has its newer version
    in the first, and bloom filters do not hide moved tombstones, then after opening and after any
    repairs, complete or given up anywhere, a lookup finds the newest version in the level (or
    nothing instead of a tombstone, in the last level).  [_partial]: without the conditions it is
    refuted below. *)
Theorem C113_mended_partial : forall hash c purge ts fl l k,
  overlaps_next hash c (map with_min ts) -> moves_seen c (map with_min ts) -> newer_first (map with_min ts) ->
  mended hash c purge ts fl l -> k <> [] ->
  exists o, lookup hash c fl k l = inl o /\
    (newest k ts o \/ (purge = true /\ o = None /\ exists r, is_del r = true /\ newest k ts (Some r))).
Proof. exact mended_lookup. Qed.
Print Assumptions C113_mended_partial.

(** C113: a finished repair leaves no key in an earlier table that belongs to the repaired one. *)
Theorem C113_separates_partial : forall hash c purge ts fl l n p i,
  overlaps_next hash c (map with_min ts) -> moves_seen c (map with_min ts) -> mended hash c purge ts fl l ->
  pbegin n fl l = Some p -> p_pc (psteps hash c purge i p) = PDone ->
  forall x v r, In x (p_mem (psteps hash c purge i p)) -> In v (p_mem (psteps hash c purge i p)) -> b_num v = n ->
  klt (b_min x) (b_min v) -> In r (b_docs x) -> klt (r_key r) (b_min v).
Proof.
  intros hash c purge ts fl l n p i Ho Hs H Hp Hd. destruct (mended_inv hash c purge ts fl l Ho Hs H) as (I1 & I2 & I3 & _).
  exact (repair_done hash c purge fl l n p i I1 I2 I3 Hp Hd).
Qed.
Print Assumptions C113_separates_partial.

(** C114: the same after a crash during a repair that is not between the two commits. *)
Theorem C114_crash_partial : forall hash c purge ts fl l n p i fl2 l2 k,
  overlaps_next hash c (map with_min ts) -> moves_seen c (map with_min ts) -> newer_first (map with_min ts) ->
  mended hash c purge ts fl l -> pbegin n fl l = Some p -> p_pc (psteps hash c purge i p) <> PSyncVictim ->
  mended hash c purge (p_disk (psteps hash c purge i p)) fl2 l2 -> k <> [] ->
  exists o, lookup hash c fl2 k l2 = inl o /\
    (newest k ts o \/ (purge = true /\ o = None /\ exists r, is_del r = true /\ newest k ts (Some r))).
Proof. exact crash_lookup. Qed.
Print Assumptions C114_crash_partial.

(** ** Concrete levels *)

Definition rt (n : N) (m : key) (ds : list rec) : tbl := mkT n false 0 m ds None.
(** Table 4 has two keys in the range of table 2, one of them newer than the version there. *)
Definition c113_tabs : list tbl :=
  [rt 4 [1] [ins 1 [1] [10]; ins 7 [5] [51]; ins 3 [7] [70]]; rt 2 [5] [ins 2 [5] [50]; ins 5 [6] [60]]; rt 9 [8] [ins 6 [9] [90]]].

(** Boolean checks of the hypotheses for concrete levels without filters. *)
Fixpoint ascb {A} (f : A -> A -> bool) (l : list A) : bool :=
  match l with [] => true | a :: l' => forallb (f a) l' && ascb f l' end.
Lemma ascb_ok : forall A (f : A -> A -> bool) (R : A -> A -> Prop) l, (forall a b, f a b = true -> R a b) -> ascb f l = true -> StronglySorted R l.
Proof.
  intros A f R l H. induction l as [|a l IH]; intros E; [constructor|]. cbn [ascb] in E. apply andb_true_iff in E as [E1 E2].
  constructor; [auto|]. apply Forall_forall. intros x Hx. rewrite forallb_forall in E1. auto.
Qed.
Definition overlapsb (l : list tbl) : bool :=
  ascb (fun a b => kltb (b_min a) (b_min b)) l && ascb (fun a b => negb (b_num a =? b_num b)) l &&
  forallb (fun t => ascb (fun a b => kltb (r_key a) (r_key b)) (b_docs t) &&
                    forallb (fun r => kleb (b_min t) (r_key r) && negb (is_nil (r_key r))) (b_docs t) &&
                    match b_bf t with None => true | _ => false end) l &&
  forallb (fun x => forallb (fun y => forallb (fun z => negb (kltb (b_min x) (b_min y)) || negb (kltb (b_min y) (b_min z)) ||
     forallb (fun r => kltb (r_key r) (b_min z)) (b_docs x)) l) l) l.
Lemma overlapsb_ok : forall l, overlapsb l = true -> overlaps_next xhash xc0 l /\ moves_seen xc0 l.
Proof.
  intros l H. unfold overlapsb in H. apply andb_true_iff in H as [H H4]. apply andb_true_iff in H as [H H3]. apply andb_true_iff in H as [H1 H2].
  rewrite forallb_forall in H3.
  assert (T : forall t, In t l -> b_bf t = None).
  { intros t Ht. specialize (H3 t Ht). apply andb_true_iff in H3 as [_ H3]. now destruct (b_bf t). }
  split.
  - split; [apply (ascb_ok _ _ _ _ (fun a b => proj1 (kltb_true _ _)) H1)|]. split.
    { assert (D : StronglySorted (fun a b => b_num a <> b_num b) l) by (refine (ascb_ok _ _ _ _ _ H2); intros a b E; apply negb_true_iff, N.eqb_neq in E; exact E).
      clear - D. induction D as [|a l D IH F]; [constructor|]. cbn [map]. constructor; [|exact IH]. intros Q. apply in_map_iff in Q as (u & E & Hu).
      rewrite Forall_forall in F. specialize (F u Hu). congruence. }
    split.
    + intros t Ht. pose proof (H3 t Ht) as Q. apply andb_true_iff in Q as [Q _]. apply andb_true_iff in Q as [Q1 Q2].
      assert (S : StronglySorted (fun a b => klt (r_key a) (r_key b)) (b_docs t)) by apply (ascb_ok _ _ _ _ (fun a b => proj1 (kltb_true _ _)) Q1).
      split; [exact S|]. intros r Hr. rewrite forallb_forall in Q2. specialize (Q2 r Hr). apply andb_true_iff in Q2 as [A1 A2]. apply kleb_true in A1.
      split; [exact A1|]. split; [intros E; rewrite E in A2; discriminate|]. unfold tf_get. rewrite (T t Ht).
      assert (G : fd_get (r_key r) (b_docs t) = Some r) by (apply LsmProofs.fd_get_some; auto). now rewrite G.
    + intros x y z r Hx Hy Hz L1 L2 Hr. rewrite forallb_forall in H4. specialize (H4 x Hx). rewrite forallb_forall in H4. specialize (H4 y Hy).
      rewrite forallb_forall in H4. specialize (H4 z Hz). apply kltb_true in L1, L2. rewrite L1, L2 in H4. cbn [negb orb] in H4.
      rewrite forallb_forall in H4. apply kltb_true. auto.
  - split; [intros t f Ht E; rewrite (T t Ht) in E; discriminate|]. right. left. exact T.
Qed.
Definition newerb (l : list tbl) : bool :=
  forallb (fun x => forallb (fun y => negb (kltb (b_min x) (b_min y)) ||
    forallb (fun a => forallb (fun b => negb (keqb (r_key a) (r_key b)) || (r_seq b <? r_seq a)) (b_docs y)) (b_docs x)) l) l.
Lemma newerb_ok : forall l, newerb l = true -> newer_first l.
Proof.
  intros l H x y a b Hx Hy L Ha Hb E. unfold newerb in H. rewrite forallb_forall in H. specialize (H x Hx). rewrite forallb_forall in H. specialize (H y Hy).
  apply kltb_true in L. rewrite L in H. cbn [negb orb] in H. rewrite forallb_forall in H. specialize (H a Ha). rewrite forallb_forall in H. specialize (H b Hb).
  rewrite E, keqb_refl in H. cbn [negb orb] in H. now apply N.ltb_lt.
Qed.

Example ex_mended : overlaps_next xhash xc0 (map with_min c113_tabs) /\ moves_seen xc0 (map with_min c113_tabs) /\ newer_first (map with_min c113_tabs) /\
  snd (open_level c113_tabs) = [2] /\
  lookup xhash xc0 [2] [7] (fst (open_level c113_tabs)) = inl (Some (ins 3 [7] [70])) /\
  lookup xhash xc0 [2] [5] (fst (open_level c113_tabs)) = inl (Some (ins 7 [5] [51])) /\
  exists p, pbegin 2 [2] (fst (open_level c113_tabs)) = Some p /\ p_pc (psteps xhash xc0 false 1 p) = PMove [ins 3 [7] [70]] /\
    p_pc (psteps xhash xc0 false 6 p) = PDone /\ p_fl (psteps xhash xc0 false 6 p) = [] /\
    map b_docs (p_mem (psteps xhash xc0 false 6 p)) =
      [[ins 1 [1] [10]]; [ins 7 [5] [51]; ins 5 [6] [60]; ins 3 [7] [70]]; [ins 6 [9] [90]]].
Proof.
  destruct (overlapsb_ok (map with_min c113_tabs)) as [O1 O2]; [vm_compute; reflexivity|]. split; [exact O1|split; [exact O2|]].
  split; [apply newerb_ok; vm_compute; reflexivity|]. split; [vm_compute; reflexivity|]. split; [vm_compute; reflexivity|]. split; [vm_compute; reflexivity|].
  eexists. split; [vm_compute; reflexivity|]. split; [vm_compute; reflexivity|]. split; [vm_compute; reflexivity|]. split; vm_compute; reflexivity.
Qed.
(** The crash theorem: before the commits and after them. *)
Example ex_crash : exists p, pbegin 2 [2] (fst (open_level c113_tabs)) = Some p /\
  p_pc (psteps xhash xc0 false 3 p) = PSyncTarget /\ p_disk (psteps xhash xc0 false 3 p) = fst (open_level c113_tabs) /\
  p_pc (psteps xhash xc0 false 5 p) = PClear /\ p_disk (psteps xhash xc0 false 5 p) = p_mem (psteps xhash xc0 false 5 p) /\
  p_disk (psteps xhash xc0 false 5 p) <> fst (open_level c113_tabs).
Proof.
  eexists. split; [vm_compute; reflexivity|]. split; [vm_compute; reflexivity|]. split; [vm_compute; reflexivity|]. split; [vm_compute; reflexivity|].
  split; [vm_compute; reflexivity|]. vm_compute. discriminate.
Qed.

(** C113: if the newer version is in the second table, a lookup succeeds without a record. *)
Theorem C113_duplicate_refuted : exists ts k r, overlaps_next xhash xc0 (map with_min ts) /\ moves_seen xc0 (map with_min ts) /\ k <> [] /\
  newest k ts (Some r) /\ is_ins r = true /\ lookup xhash xc0 (snd (open_level ts)) k (fst (open_level ts)) = inr None.
Proof.
  exists [rt 4 [1] [ins 1 [1] [10]; ins 2 [5] [50]]; rt 2 [5] [ins 7 [5] [51]]], [5], (ins 7 [5] [51]).
  destruct (overlapsb_ok (map with_min [rt 4 [1] [ins 1 [1] [10]; ins 2 [5] [50]]; rt 2 [5] [ins 7 [5] [51]]])) as [O1 O2]; [vm_compute; reflexivity|].
  split; [exact O1|split; [exact O2|]]. split; [discriminate|]. split; [|split; vm_compute; reflexivity]. split.
  - split; [reflexivity|]. exists (rt 2 [5] [ins 7 [5] [51]]). split; [right; now left|now left].
  - intros r' (E & t & Ht & Hr). destruct Ht as [<-|[<-|[]]]; cbn in Hr; [destruct Hr as [<-|[<-|[]]]|destruct Hr as [<-|[]]]; vm_compute; try discriminate; congruence.
Qed.
Print Assumptions C113_duplicate_refuted.

(** C113: a table that overlaps the next two: its keys in the range of the second one are not found,
    neither after opening nor after the repair. *)
Theorem C113_far_refuted : exists ts k r fl l, StronglySorted (fun a b => klt (b_min a) (b_min b)) ts /\ (forall t, In t ts -> table_ok xhash xc0 t) /\ newer_first ts /\
  k <> [] /\ newest k ts (Some r) /\ is_ins r = true /\
  lookup xhash xc0 (snd (open_level ts)) k (fst (open_level ts)) = inl None /\
  mended xhash xc0 false ts fl l /\ fl = [] /\ lookup xhash xc0 fl k l = inl None.
Proof.
  pose (ts := [rt 4 [1] [ins 1 [1] [10]; ins 2 [7] [70]]; rt 2 [3] [ins 3 [3] [30]]; rt 5 [6] [ins 4 [6] [60]]]).
  assert (E : exists p, pbegin 2 (snd (open_level ts)) (fst (open_level ts)) = Some p /\ p_fl (psteps xhash xc0 false 5 p) = [] /\
    lookup xhash xc0 (p_fl (psteps xhash xc0 false 5 p)) [7] (p_mem (psteps xhash xc0 false 5 p)) = inl None).
  { eexists. split; [vm_compute; reflexivity|]. split; vm_compute; reflexivity. }
  destruct E as (p & E1 & E2 & E3).
  exists ts, [7], (ins 2 [7] [70]), (p_fl (psteps xhash xc0 false 5 p)), (p_mem (psteps xhash xc0 false 5 p)).
  split; [refine (ascb_ok _ _ _ _ (fun a b => proj1 (kltb_true _ _)) _); vm_compute; reflexivity|].
  split. { intros t Ht. destruct (overlapsb_ok [t]) as [(_ & _ & O & _) _]; [destruct Ht as [<-|[<-|[<-|[]]]]; vm_compute; reflexivity|]. apply O. now left. }
  split; [apply newerb_ok; vm_compute; reflexivity|]. split; [discriminate|]. split.
  { split; [split; [reflexivity|]; exists (rt 4 [1] [ins 1 [1] [10]; ins 2 [7] [70]]); split; [now left|right; now left]|].
    intros r' (E & t & Ht & Hr). destruct Ht as [<-|[<-|[<-|[]]]]; cbn in Hr; [destruct Hr as [<-|[<-|[]]]|destruct Hr as [<-|[]]|destruct Hr as [<-|[]]]; vm_compute; try discriminate; try (vm_compute in E; discriminate). }
  split; [reflexivity|]. split; [vm_compute; reflexivity|]. split; [eapply me_fix; [apply me_open|exact E1]|]. split; [exact E2|exact E3].
Qed.
Print Assumptions C113_far_refuted.

(** C113: the min key of a table in the file is too big.  It is corrected and the table takes its
    place in the order of the min keys, but it is flagged as if it still followed the table before
    it in the file; keys of it that belong to that table's range are not found. *)
Theorem C113_min_key_refuted : exists ts k r, newer_first ts /\ k <> [] /\ newest k ts (Some r) /\ is_ins r = true /\
  NoDup (map b_num ts) /\ (forall t, In t ts -> b_min t <> []) /\
  (forall t, In t (map with_min ts) -> table_ok xhash xc0 t) /\
  lookup xhash xc0 (snd (open_level ts)) k (fst (open_level ts)) = inl None.
Proof.
  exists [rt 4 [4] [ins 1 [4] [40]]; rt 2 [6] [ins 2 [3] [30]; ins 3 [7] [70]]], [7], (ins 3 [7] [70]).
  split; [apply newerb_ok; vm_compute; reflexivity|]. split; [discriminate|]. split.
  { split; [split; [reflexivity|]; exists (rt 2 [6] [ins 2 [3] [30]; ins 3 [7] [70]]); split; [right; now left|right; now left]|].
    intros r' (E & t & Ht & Hr). destruct Ht as [<-|[<-|[]]]; cbn in Hr; [destruct Hr as [<-|[]]|destruct Hr as [<-|[<-|[]]]]; vm_compute; try discriminate; try (vm_compute in E; discriminate). }
  split; [reflexivity|]. split; [repeat constructor; cbn; intuition discriminate|].
  split; [intros t [<-|[<-|[]]]; discriminate|].
  split. { intros t Ht. destruct (overlapsb_ok [t]) as [(_ & _ & O & _) _]; [destruct Ht as [<-|[<-|[]]]; vm_compute; reflexivity|]. apply O. now left. }
  vm_compute. reflexivity.
Qed.
Print Assumptions C113_min_key_refuted.

(** C113: a lookup reads the second table, then the repair moves one record, then the lookup reads the
    first table: the key is not found although it is found before and after this step. *)
Theorem C113_race_refuted : exists ts p p' k r v t, overlaps_next xhash xc0 (map with_min ts) /\ moves_seen xc0 (map with_min ts) /\ newer_first (map with_min ts) /\
  pbegin 2 (snd (open_level ts)) (fst (open_level ts)) = Some p /\ p' = pstep xhash xc0 false p /\
  lookup xhash xc0 (p_fl p) k (p_mem p) = inl (Some r) /\ lookup xhash xc0 (p_fl p') k (p_mem p') = inl (Some r) /\
  nth_error (points (p_fl p) k (p_mem p)) 0 = Some v /\ nth_error (points (p_fl p') k (p_mem p')) 1 = Some t /\
  length (points (p_fl p) k (p_mem p)) = 2%nat /\
  read_tabs xhash xc0 k [v; t] = inl None.
Proof.
  exists [rt 4 [1] [ins 3 [7] [70]]; rt 2 [5] [ins 5 [6] [60]]]. eexists. eexists. exists [7], (ins 3 [7] [70]). eexists. eexists.
  split; [apply overlapsb_ok; vm_compute; reflexivity|]. split; [apply overlapsb_ok; vm_compute; reflexivity|]. split; [apply newerb_ok; vm_compute; reflexivity|].
  split; [vm_compute; reflexivity|]. split; [reflexivity|]. split; [vm_compute; reflexivity|]. split; [vm_compute; reflexivity|].
  split; [vm_compute; reflexivity|]. split; [vm_compute; reflexivity|]. split; vm_compute; reflexivity.
Qed.
Print Assumptions C113_race_refuted.

(** C113: with bloom filters, a tombstone that the repair moves is not found any more, so that an old
    value in a lower level is visible again (this level is not the last one). *)
Definition bf_with (ks : list key) : option bloom := fold_left (fun b k => bf_add xhash k b) ks (new_bf xc1).
Definition rb (n : N) (m : key) (ds : list rec) : tbl := mkT n false 0 m ds (bf_with (map r_key ds)).
Theorem C113_tombstone_refuted : exists ts fl l k r, overlaps_next xhash xc1 (map with_min ts) /\ newer_first (map with_min ts) /\
  mended xhash xc1 false ts fl l /\ is_del r = true /\
  lookup xhash xc1 (snd (open_level ts)) k (fst (open_level ts)) = inl (Some r) /\ lookup xhash xc1 fl k l = inl None.
Proof.
  pose (ts := [rb 4 [1] [ins 1 [1] [10]; del 3 [7]]; rb 2 [5] [ins 5 [6] [60]]]).
  assert (E : exists p, pbegin 2 (snd (open_level ts)) (fst (open_level ts)) = Some p /\
    lookup xhash xc1 (p_fl (psteps xhash xc1 false 5 p)) [7] (p_mem (psteps xhash xc1 false 5 p)) = inl None).
  { eexists. split; [vm_compute; reflexivity|]. vm_compute. reflexivity. }
  destruct E as (p & E1 & E2).
  exists ts, (p_fl (psteps xhash xc1 false 5 p)), (p_mem (psteps xhash xc1 false 5 p)), [7], (del 3 [7]).
  split. { split; [refine (ascb_ok _ _ _ _ (fun a b => proj1 (kltb_true _ _)) _); vm_compute; reflexivity|].
    split; [repeat constructor; cbn; intuition discriminate|]. split.
    - intros t Ht. split.
      + refine (ascb_ok _ _ _ _ (fun a b => proj1 (kltb_true _ _)) _). destruct Ht as [<-|[<-|[]]]; vm_compute; reflexivity.
      + intros r Hr. destruct Ht as [<-|[<-|[]]]; cbn in Hr; [destruct Hr as [<-|[<-|[]]]|destruct Hr as [<-|[]]]; (split; [vm_compute; discriminate|split; [discriminate|vm_compute; reflexivity]]).
    - intros x y z r Hx Hy Hz L1 L2. exfalso. destruct Hx as [<-|[<-|[]]], Hy as [<-|[<-|[]]], Hz as [<-|[<-|[]]]; vm_compute in L1, L2; discriminate. }
  split; [apply newerb_ok; vm_compute; reflexivity|]. split; [eapply me_fix; [apply me_open|exact E1]|]. split; [reflexivity|]. split; [vm_compute; reflexivity|exact E2].
Qed.
Print Assumptions C113_tombstone_refuted.

(** C114: the file from which the records are removed is committed before the file they went to; after
    a crash in between they are gone. *)
Theorem C114_crash_refuted : exists ts p i k r, overlaps_next xhash xc0 (map with_min ts) /\ moves_seen xc0 (map with_min ts) /\ newer_first (map with_min ts) /\
  pbegin 2 (snd (open_level ts)) (fst (open_level ts)) = Some p /\ k <> [] /\ newest k ts (Some r) /\ is_ins r = true /\
  newest k (p_disk (psteps xhash xc0 false i p)) None.
Proof.
  exists [rt 4 [1] [ins 3 [7] [70]]; rt 2 [5] [ins 5 [6] [60]]]. eexists. exists 3%nat, [7], (ins 3 [7] [70]).
  split; [apply overlapsb_ok; vm_compute; reflexivity|]. split; [apply overlapsb_ok; vm_compute; reflexivity|]. split; [apply newerb_ok; vm_compute; reflexivity|].
  split; [vm_compute; reflexivity|]. split; [discriminate|]. split.
  { split; [split; [reflexivity|]; exists (rt 4 [1] [ins 3 [7] [70]]); split; now left|].
    intros r' (E & t & Ht & Hr). destruct Ht as [<-|[<-|[]]]; cbn in Hr; destruct Hr as [<-|[]]; vm_compute; try discriminate; try (vm_compute in E; discriminate). }
  split; [reflexivity|]. intros r' (E & t & Ht & Hr). vm_compute in Ht. destruct Ht as [<-|[<-|[]]]; cbn in Hr; [destruct Hr|destruct Hr as [<-|[]]]. vm_compute in E. discriminate.
Qed.
Print Assumptions C114_crash_refuted.
