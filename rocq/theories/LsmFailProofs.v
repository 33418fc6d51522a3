(** Flushes in which some records cannot be written (C47), and lookups between the steps of a
    compaction in L0-only mode (C49). *)
From Coq Require Import List NArith Bool Lia Sorted.
From Verif Require Import Base LogFormatModel KeyModel KeyProofs BloomModel BloomProofs MemTableModel
  LsmModel LsmProofs LsmProofs2 LsmProofs3 LsmProofs4 LsmProofs5 MergeModel MergeProofs MergeProofs2.
Import ListNotations.
Local Open Scope N_scope.

Section Hash.
Variable hash : key -> N * N.
Variable part : key -> N.

(** The records of a flush that reach the tables: all but those that are refused and those that
    follow a refused one of the same partition.  [stop]: the partitions that had one. *)
Fixpoint kept (bad : rec -> bool) (stop : list N) (rs : list rec) : list rec :=
  match rs with
  | [] => []
  | r :: rs' => if is_cmd r || existsb (N.eqb (part (r_key r))) stop then kept bad stop rs'
                else if bad r then kept bad (part (r_key r) :: stop) rs'
                else r :: kept bad stop rs'
  end.

Lemma kept_in : forall bad rs stop r, In r (kept bad stop rs) -> In r rs /\ bad r = false.
Proof.
  intros bad rs. induction rs as [|x rs IH]; intros stop r H; cbn [kept] in H; [destruct H|].
  destruct (is_cmd x || existsb (N.eqb (part (r_key x))) stop).
  - destruct (IH _ _ H). split; [now right|assumption].
  - destruct (bad x) eqn:B.
    + destruct (IH _ _ H). split; [now right|assumption].
    + destruct H as [<-|H]; [split; [now left|exact B]|]. destruct (IH _ _ H). split; [now right|assumption].
Qed.

(** Nothing refused: everything but the commands is kept. *)
Lemma kept_all : forall bad rs, (forall r, In r rs -> bad r = false) ->
  kept bad [] rs = filter (fun r => negb (is_cmd r)) rs.
Proof.
  intros bad rs. induction rs as [|x rs IH]; intros H; [reflexivity|]. cbn [kept filter existsb].
  rewrite orb_false_r. destruct (is_cmd x); cbn [negb]; [apply IH; intros; apply H; now right|].
  rewrite (H x (or_introl eq_refl)). f_equal. apply IH. intros; apply H; now right.
Qed.

Lemma kept_stopped : forall bad h rs stop t, In h stop ->
  tf_batch hash part (fun _ => false) h (kept bad stop rs) t = t.
Proof.
  intros bad h rs. induction rs as [|r rs IH]; intros stop t H; [reflexivity|]. cbn [kept].
  destruct (is_cmd r || existsb (N.eqb (part (r_key r))) stop) eqn:E; [now apply IH|].
  destruct (bad r); [apply IH; now right|]. cbn [tf_batch].
  assert (X : part (r_key r) =? h = false).
  { apply N.eqb_neq. intros X. apply orb_false_iff in E as [_ E].
    assert (Y : existsb (N.eqb (part (r_key r))) stop = true)
      by (apply existsb_exists; exists h; split; [exact H|now apply N.eqb_eq]).
    congruence. }
  rewrite X. cbn [negb orb]. now apply IH.
Qed.

Lemma tf_batch_kept : forall bad h rs stop t, ~ In h stop ->
  tf_batch hash part bad h rs t = tf_batch hash part (fun _ => false) h (kept bad stop rs) t.
Proof.
  intros bad h rs. induction rs as [|r rs IH]; intros stop t H; [reflexivity|]. cbn [kept tf_batch].
  destruct (is_cmd r) eqn:C; cbn [orb].
  { rewrite orb_true_r. now apply IH. }
  rewrite orb_false_r. destruct (N.eqb_spec (part (r_key r)) h) as [E|E]; cbn [negb].
  - assert (X : existsb (N.eqb (part (r_key r))) stop = false).
    { apply not_true_iff_false. intros X. apply existsb_exists in X as (y & Y1 & Y2).
      apply N.eqb_eq in Y2. apply H. congruence. }
    rewrite X. destruct (bad r).
    + rewrite kept_stopped; [reflexivity|]. left. exact E.
    + cbn [tf_batch]. rewrite C. destruct (N.eqb_spec (part (r_key r)) h); [|contradiction].
      cbn [negb orb]. now apply IH.
  - destruct (existsb (N.eqb (part (r_key r))) stop); [now apply IH|].
    destruct (bad r).
    + apply IH. intros [X|X]; [contradiction|now apply H].
    + cbn [tf_batch]. destruct (N.eqb_spec (part (r_key r)) h); [contradiction|]. cbn [negb orb]. now apply IH.
Qed.

Lemma batch_parts_kept : forall bad rs n h l,
  batch_parts hash part bad rs n h l = batch_parts hash part (fun _ => false) (kept bad [] rs) n h l.
Proof.
  intros bad rs n. induction n as [|n IH]; intros h l; [reflexivity|]. cbn [batch_parts]. rewrite IH.
  f_equal. unfold batch_part. destruct (smallest_normal (by_hash h l)) as [t|]; [|reflexivity].
  unfold upd_tbl. apply map_ext. intros u. destruct (b_num u =? b_num t); [|reflexivity].
  apply tf_batch_kept. intros [].
Qed.

Lemma set_batch_kept : forall c bad rs s,
  set_batch hash part c bad rs s = set_batch hash part c (fun _ => false) (kept bad [] rs) s.
Proof. intros. unfold set_batch. now rewrite batch_parts_kept. Qed.

Lemma failed_flush_reach : forall c R s bad rs s', lreach hash part c R s ->
  lstep hash part c (LFlush bad rs) s = Some s' -> l_next s' <= NIL -> lreach hash part c (R ++ kept bad [] rs) s'.
Proof.
  intros c R s bad rs s' H E L. apply (lr_step hash part c R s (LFlush (fun _ => false) (kept bad [] rs)) s'); auto.
  - intros r _. reflexivity.
  - cbn [lstep] in *. now rewrite <- set_batch_kept.
Qed.

(** ** Between the steps of a compaction *)

(** Lookups depend on the tables of the key's partition (and the upper levels). *)
Lemma tm_get_ext : forall c k s s', by_hash (part k) (l_zero s) = by_hash (part k) (l_zero s') -> l_up s = l_up s' ->
  tm_get hash part c k s = tm_get hash part c k s'.
Proof.
  intros c k s s' H U. unfold tm_get, num_levels. rewrite U. generalize 0%nat as lv. generalize (S (length (l_up s'))) as n.
  induction n as [|n IH]; intros lv; [reflexivity|]. cbn [levels_get]. rewrite IH.
  replace (level_get hash part c k lv s) with (level_get hash part c k lv s'); [reflexivity|].
  unfold level_get. destruct lv; cbn [tables_point]; [now rewrite H|now rewrite U].
Qed.

Lemma by_hash_add : forall h t l, b_hash t <> h -> by_hash h (add_tbl t l) = by_hash h l.
Proof.
  intros h t l H. unfold by_hash. induction l as [|u l IH]; cbn [add_tbl filter].
  - destruct (N.eqb_spec (b_hash t) h); [contradiction|reflexivity].
  - destruct (kltb (b_min u) (b_min t)); cbn [filter].
    + now rewrite IH.
    + destruct (N.eqb_spec (b_hash t) h); [contradiction|reflexivity].
Qed.

Lemma by_hash_upd : forall h n f l, (forall t, b_hash (f t) = b_hash t) ->
  (forall t, In t l -> b_num t = n -> b_hash t <> h) -> by_hash h (upd_tbl n f l) = by_hash h l.
Proof.
  intros h n f l Hf. induction l as [|u l IH]; intros H; [reflexivity|]. cbn [upd_tbl map by_hash filter].
  fold (upd_tbl n f l). fold (by_hash h (upd_tbl n f l)). fold (by_hash h l). rewrite IH by (intros; apply H; auto with datatypes).
  destruct (N.eqb_spec (b_num u) n) as [E|E]; [|reflexivity]. rewrite Hf.
  destruct (N.eqb_spec (b_hash u) h) as [X|X]; [|reflexivity]. exfalso. exact (H u (or_introl eq_refl) E X).
Qed.

Lemma by_hash_rm : forall h n l, (forall t, In t l -> b_num t = n -> b_hash t <> h) -> by_hash h (rm_tbl n l) = by_hash h l.
Proof.
  intros h n l. induction l as [|u l IH]; intros H; [reflexivity|]. cbn [rm_tbl by_hash filter].
  destruct (N.eqb_spec (b_num u) n) as [E|E]; cbn [negb filter].
  - fold (rm_tbl n l). fold (by_hash h (rm_tbl n l)). fold (by_hash h l). rewrite IH by (intros; apply H; auto with datatypes).
    destruct (N.eqb_spec (b_hash u) h) as [X|X]; [|reflexivity]. exfalso. exact (H u (or_introl eq_refl) E X).
  - fold (rm_tbl n l). fold (by_hash h (rm_tbl n l)). fold (by_hash h l). now rewrite IH by (intros; apply H; auto with datatypes).
Qed.

(** The steps of a compaction of partition [h], starting with [s]: the tables chosen belong to
    [h], and the numbers are distinct. *)
Definition own (h : N) (n : N) (l : list tbl) : Prop := forall t, In t l -> b_num t = n -> b_hash t = h.

Lemma ins_num_in : forall t l x, In x (ins_num t l) <-> x = t \/ In x l.
Proof.
  intros t l. induction l as [|u l IH]; intros x; cbn [ins_num]; [cbn; intuition congruence|].
  destruct (b_num t <? b_num u); cbn [In]; [intuition congruence|]. rewrite IH. intuition congruence.
Qed.
Lemma by_num_in : forall l x, In x (by_num l) <-> In x l.
Proof.
  intros l. induction l as [|u l IH]; intros x; [reflexivity|]. change (by_num (u :: l)) with (ins_num u (by_num l)).
  rewrite ins_num_in, IH. cbn [In]. intuition congruence.
Qed.
Lemma two_in : forall l a b, two l = (a, b) -> (forall x, a = Some x -> In x l) /\ (forall x, b = Some x -> In x l).
Proof.
  intros l a b H. unfold two in H. pose proof (by_num_in l) as B.
  destruct (by_num l) as [|p [|q r]]; injection H as <- <-; split; intros x E; try discriminate E; injection E as <-; apply B; cbn; auto.
Qed.

Lemma own_num : forall h l t, NoDup (map b_num l) -> In t l -> b_hash t = h -> own h (b_num t) l.
Proof. intros h l t N I E u Iu Eu. now rewrite (num_inj l u t N Iu I Eu). Qed.
Lemma own_add : forall h n t l, b_hash t = h -> own h n l -> own h n (add_tbl t l).
Proof. intros h n t l E O u Hu Nu. apply add_tbl_in in Hu as [-> |Hu]; [exact E|now apply O]. Qed.
Lemma own_upd : forall h n m f l, (forall t, b_hash (f t) = b_hash t) -> (forall t, b_num (f t) = b_num t) -> own h n l -> own h n (upd_tbl m f l).
Proof.
  intros h n m f l F1 F2 O u Hu Nu. apply upd_tbl_in in Hu as (t & It & ->). destruct (b_num t =? m).
  - rewrite F1. apply O; [exact It|]. now rewrite <- F2.
  - now apply O.
Qed.
Lemma own_rm : forall h n m l, own h n l -> own h n (rm_tbl m l).
Proof. intros h n m l O u Hu Nu. apply rm_tbl_in in Hu as [Hu _]. now apply O. Qed.

Lemma z_steps_shape : forall c keep h s ss, NoDup (map b_num (l_zero s)) -> z_steps hash c keep h s = Some ss ->
  forall s', In s' ss -> (forall h', h' <> h -> by_hash h' (l_zero s') = by_hash h' (l_zero s)) /\ l_up s' = l_up s.
Proof.
  intros c keep h s ss N H s' Hs'. unfold z_steps in H. destruct (z_begin c h s) as [[[o m] s1]|] eqn:B; [|discriminate].
  injection H as <-.
  assert (P : (forall h', h' <> h -> by_hash h' (l_zero s1) = by_hash h' (l_zero s)) /\ l_up s1 = l_up s /\
              own h (b_num o) (l_zero s1) /\ (forall x, m = Some x -> own h (b_num x) (l_zero s1))).
  { unfold z_begin in B. destruct (two (srcs h (l_zero s))) as [[o1|] m1] eqn:T1.
    - injection B as <- <- <-. destruct (two_in _ _ _ T1) as [I1 I2]. repeat split; auto.
      + specialize (I1 _ eq_refl). apply filter_In in I1 as [I1 _]. apply by_hash_in in I1 as [A1 A2]. now apply own_num.
      + intros x E. specialize (I2 _ E). apply filter_In in I2 as [I2 _]. apply by_hash_in in I2 as [A1 A2]. now apply own_num.
    - destruct (two (normals h (l_zero s))) as [[o2|] m2] eqn:T2; [|discriminate]. injection B as <- <- <-. cbn [l_zero l_up].
      destruct (two_in _ _ _ T2) as [I1 I2]. specialize (I1 _ eq_refl). apply filter_In in I1 as [I1 _]. apply by_hash_in in I1 as [A1 A2].
      assert (Oo : own h (b_num o2) (l_zero s)) by now apply own_num.
      set (n := new_tbl c (l_next s) h []).
      assert (Oo2 : own h (b_num o2) (add_tbl n (l_zero s))) by now apply own_add.
      assert (Om : forall x, m2 = Some x -> own h (b_num x) (upd_tbl (b_num o2) set_src (add_tbl n (l_zero s)))).
      { intros x E. specialize (I2 _ E). apply filter_In in I2 as [I2 _]. apply by_hash_in in I2 as [B1 B2].
        apply own_upd; try reflexivity. apply own_add; [reflexivity|]. now apply own_num. }
      assert (Q : forall h', h' <> h -> by_hash h' (upd_tbl (b_num o2) set_src (add_tbl n (l_zero s))) = by_hash h' (l_zero s)).
      { intros h' Hh. rewrite by_hash_upd; [|reflexivity|intros t It Nt X; apply Hh; rewrite <- X; now apply Oo2].
        apply by_hash_add. cbn. congruence. }
      destruct m2 as [x|].
      + repeat split.
        * intros h' Hh. rewrite by_hash_upd; [now apply Q|reflexivity|]. intros t It Nt X. apply Hh. rewrite <- X. now apply (Om x eq_refl).
        * apply own_upd; try reflexivity. apply own_upd; try reflexivity. exact Oo2.
        * intros y E. injection E as <-. apply own_upd; try reflexivity. now apply Om.
      + repeat split; [exact Q| |discriminate]. apply own_upd; try reflexivity. exact Oo2. }
  destruct P as (P1 & P2 & P3 & P4).
  set (mt := merge_tbl hash c keep (l_next s1) h (b_docs o) (match m with Some m => b_docs m | None => [] end)) in *.
  assert (Mh : b_hash mt = h) by (apply (tf_sets_fields hash true false)).
  assert (Q2 : (forall h', h' <> h -> by_hash h' (l_zero (z_add hash c keep h o m s1)) = by_hash h' (l_zero s)) /\
               l_up (z_add hash c keep h o m s1) = l_up s /\
               own h (b_num o) (l_zero (z_add hash c keep h o m s1)) /\
               (forall x, m = Some x -> own h (b_num x) (l_zero (z_add hash c keep h o m s1)))).
  { unfold z_add. cbn [l_zero l_up]. fold mt. repeat split.
    - intros h' Hh. rewrite by_hash_add by congruence. now apply P1.
    - exact P2.
    - now apply own_add.
    - intros x E. apply own_add; [exact Mh|]. now apply P4. }
  set (s2 := z_add hash c keep h o m s1) in *. clearbody s2. destruct Q2 as (Q1 & Q2 & Q3 & Q4).
  assert (D : forall t z, (forall h', h' <> h -> by_hash h' (l_zero z) = by_hash h' (l_zero s)) -> l_up z = l_up s -> own h (b_num t) (l_zero z) ->
    (forall h', h' <> h -> by_hash h' (l_zero (z_drop t z)) = by_hash h' (l_zero s)) /\ l_up (z_drop t z) = l_up s).
  { intros t z Z1 Z2 Z3. unfold z_drop. cbn [l_zero l_up]. split; [|exact Z2]. intros h' Hh. rewrite by_hash_rm; [now apply Z1|].
    intros u Iu Nu X. apply Hh. rewrite <- X. now apply Z3. }
  destruct (D o s2 Q1 Q2 Q3) as [D1 D2].
  destruct m as [x|].
  - destruct Hs' as [<-|[<-|[<-|[<-|[]]]]]; [now split|now split|now split|].
    apply D; [exact D1|exact D2|]. unfold z_drop. cbn [l_zero]. apply own_rm. now apply Q4.
  - destruct Hs' as [<-|[<-|[<-|[]]]]; now split.
Qed.

(** What a lookup can deliver at all: a record that some table holds under the key. *)
Definition held (s : lsm) (r : rec) : Prop := exists l t, In l (l_zero s :: l_up s) /\ In t l /\ In r (b_docs t).

Lemma tf_get_held : forall c k t r, tf_get hash c k t = Ok r -> In r (b_docs t) /\ r_key r = k.
Proof.
  intros c k t r H. unfold LsmModel.tf_get in H. destruct (match b_bf t with Some f => _ | None => false end); [discriminate|].
  destruct (fd_get k (b_docs t)) as [x|] eqn:G; [|discriminate]. injection H as <-. now apply fd_get_in.
Qed.

Lemma search_held : forall c k skip ts latest r, search hash c k skip ts latest = inl (Some r) ->
  latest = Some r \/ exists t, In t ts /\ In r (b_docs t) /\ r_key r = k.
Proof.
  intros c k skip ts. induction ts as [|t ts IH]; intros latest r H; cbn [search] in H; [left; congruence|].
  destruct (match skip with Some n => b_num t =? n | None => false end).
  - destruct (IH _ _ H) as [?|(u & A & B)]; [now left|right; exists u; split; [now right|exact B]].
  - destruct (LsmModel.tf_get hash c k t) as [x|e|] eqn:G; [| |discriminate].
    + destruct (rec_empty latest || _); [|discriminate]. destruct (IH _ _ H) as [E|(u & A & B)].
      * injection E as ->. right. exists t. split; [now left|now apply (tf_get_held c k)].
      * right. exists u. split; [now right|exact B].
    + destruct e; try discriminate. destruct (IH _ _ H) as [?|(u & A & B)]; [now left|right; exists u; split; [now right|exact B]].
Qed.

Lemma floor_in : forall k l t, floor k l = Some t -> In t l.
Proof.
  intros k l. induction l as [|u l IH]; intros t; cbn [floor]; [discriminate|]. destruct (kleb (b_min u) k); [|discriminate].
  destruct (floor k l) as [w|]; intros X; injection X as <-; [right; auto|now left].
Qed.

Lemma tables_point_in : forall lv k s t, In t (tables_point part lv k s) -> exists l, In l (l_zero s :: l_up s) /\ In t l.
Proof.
  intros lv k s t H. destruct lv as [|i]; cbn [tables_point] in H.
  - apply by_hash_in in H as [H _]. exists (l_zero s). split; [now left|exact H].
  - destruct (floor k (nth i (l_up s) [])) as [u|] eqn:F; [|destruct H]. destruct H as [<-|[]]. apply floor_in in F.
    destruct (nth_in_some _ _ _ F) as [_ Y]. exists (nth i (l_up s) []). split; [now right|exact F].
Qed.

Lemma smallest_in : forall l best t, smallest l best = Some t -> best = Some t \/ In t l.
Proof.
  intros l. induction l as [|u l IH]; intros best t H; cbn [smallest] in H; [now left|].
  apply IH in H as [H|H]; [|right; now right].
  destruct (negb (b_src u) && _); [|now left]. injection H as ->. right. now left.
Qed.

Lemma tm_get_held : forall c k s r, tm_get hash part c k s = Got r -> r_key r = k /\ held s r.
Proof.
  intros c k s r. unfold tm_get. generalize 0%nat as lv. generalize (num_levels s) as n.
  induction n as [|n IH]; intros lv H; cbn [levels_get] in H; [discriminate|].
  destruct (level_get hash part c k lv s) as [[x|]|[e|]] eqn:G; [|now apply (IH (S lv))|discriminate|discriminate].
  destruct (rec_empty (Some x)); [discriminate|]. injection H as ->.
  assert (Hrest : forall skip, (match search hash c k skip (tables_point part lv k s) None with
            | inl l => inl (if rec_empty l then None else l) | inr e => inr e end) = inl (Some r) -> r_key r = k /\ held s r).
  { intros skip E. destruct (search hash c k skip (tables_point part lv k s) None) as [[y|]|y] eqn:Sr; [|cbn in E; discriminate|discriminate].
    destruct (rec_empty (Some y)); [discriminate|]. injection E as ->. apply search_held in Sr as [Sr|(t & A & B & C)]; [discriminate|].
    apply tables_point_in in A as (l & A1 & A2). split; [exact C|]. now exists l, t. }
  unfold level_get in G. destruct lv as [|i]; [|now apply (Hrest None)].
  destruct (smallest_normal (tables_point part 0 k s)) as [t|] eqn:Sm; [|now apply (Hrest None)].
  destruct (LsmModel.tf_get hash c k t) as [y|e|] eqn:T; [| |discriminate].
  - injection G as ->. apply (tf_get_held c k) in T as [T1 T2]. split; [exact T2|].
    apply smallest_in in Sm as [Sm|Sm]; [discriminate|]. apply tables_point_in in Sm as (l & A1 & A2). now exists l, t.
  - destruct e; try discriminate. now apply (Hrest (Some (b_num t))).
Qed.

Lemma held_add : forall t n z u r, held (mkL n (add_tbl t z) u) r -> In r (b_docs t) \/ held (mkL n z u) r.
Proof.
  intros t n z u r (l & x & A & B & C). destruct A as [<-|A].
  - cbn [l_zero] in B. apply add_tbl_in in B as [-> |B]; [now left|]. right. exists z, x. split; [now left|now split].
  - right. exists l, x. split; [now right|now split].
Qed.

Lemma held_upd : forall m n z u r, held (mkL n (upd_tbl m set_src z) u) r -> held (mkL n z u) r.
Proof.
  intros m n z u r (l & x & A & B & C). destruct A as [<-|A].
  - cbn [l_zero] in B. apply upd_tbl_in in B as (t & I & ->). exists z, t. split; [now left|]. split; [exact I|].
    now destruct (b_num t =? m).
  - exists l, x. split; [now right|now split].
Qed.

Lemma held_next : forall n n' z u r, held (mkL n z u) r -> held (mkL n' z u) r.
Proof. intros n n' z u r H. exact H. Qed.

(** No step of a compaction brings in a record that was not there. *)
Lemma z_steps_held : forall c keep h s ss, (forall t, In t (l_zero s) -> docs_ok (b_docs t)) -> z_steps hash c keep h s = Some ss ->
  forall s' r, In s' ss -> held s' r -> held s r.
Proof.
  intros c keep h s ss Hd H s' r Hs' Hr. unfold z_steps in H. destruct (z_begin c h s) as [[[o m] s1]|] eqn:B; [|discriminate].
  injection H as <-.
  assert (P : (forall r, held s1 r -> held s r) /\ In o (l_zero s) /\ (forall x, m = Some x -> In x (l_zero s))).
  { unfold z_begin in B. destruct (two (srcs h (l_zero s))) as [[o1|] m1] eqn:T1.
    - injection B as <- <- <-. destruct (two_in _ _ _ T1) as [I1 I2]. split; [auto|]. split.
      + specialize (I1 _ eq_refl). apply filter_In in I1 as [I1 _]. now apply by_hash_in in I1.
      + intros x E. specialize (I2 _ E). apply filter_In in I2 as [I2 _]. now apply by_hash_in in I2.
    - destruct (two (normals h (l_zero s))) as [[o2|] m2] eqn:T2; [|discriminate]. injection B as <- <- <-.
      destruct (two_in _ _ _ T2) as [I1 I2]. specialize (I1 _ eq_refl). apply filter_In in I1 as [I1 _]. apply by_hash_in in I1 as [A1 _].
      split; [|split; [exact A1|intros x E; specialize (I2 _ E); apply filter_In in I2 as [I2 _]; now apply by_hash_in in I2]].
      intros y Hy. destruct s as [n z u]. cbn [l_next l_zero l_up] in *.
      assert (Y : held (mkL (n + 1) (add_tbl (new_tbl c n h []) z) u) y).
      { destruct m2 as [x|]; repeat apply held_upd in Hy; exact Hy. }
      apply held_add in Y as [Y|Y]; [destruct Y|]. exact Y. }
  destruct P as (P1 & P2 & P3).
  assert (Q : forall r, held (z_add hash c keep h o m s1) r -> held s r).
  { intros y Hy. unfold z_add in Hy. apply held_add in Hy as [Hy|Hy].
    - rewrite merge_tbl_docs in Hy; [|now apply Hd|destruct m as [x|]; [now apply Hd, P3|constructor]].
      unfold merge_out in Hy. apply filter_In in Hy as [Hy _]. apply merge2_in in Hy as [Hy|Hy].
      + exists (l_zero s), o. split; [now left|now split].
      + destruct m as [x|]; [|destruct Hy]. exists (l_zero s), x. split; [now left|]. split; [now apply P3|exact Hy].
    - apply P1. destruct s1 as [n z u]. exact Hy. }
  set (s2 := z_add hash c keep h o m s1) in *. clearbody s2.
  assert (D : forall t z y, held (z_drop t z) y -> held z y).
  { intros t [n z u] y (l & x & A & B1 & C). unfold z_drop in *. cbn [l_next l_zero l_up] in *. destruct A as [<-|A].
    - apply rm_tbl_in in B1 as [B1 _]. exists z, x. split; [now left|now split].
    - exists l, x. split; [now right|now split]. }
  destruct m as [x|].
  - destruct Hs' as [<-|[<-|[<-|[<-|[]]]]]; [now apply P1|now apply Q|apply Q; now apply (D o)|apply Q; apply (D o); now apply (D x)].
  - destruct Hs' as [<-|[<-|[<-|[]]]]; [now apply P1|now apply Q|apply Q; now apply (D o)].
Qed.

Lemma window_lookup : forall c R s keep h ss s' k, tc_parts c <= NIL -> (forall k, part k < tc_parts c) -> zreach hash part c R s ->
  z_steps hash c keep h s = Some ss -> In s' ss ->
  (part k <> h -> tm_get hash part c k s' = tm_get hash part c k s) /\
  (forall r, tm_get hash part c k s' = Got r -> r_key r = k /\ In r R).
Proof.
  intros c R s keep h ss s' k Hc Hp H Hz Hs. destruct (zreach_inv hash part c R s Hc Hp H) as [HI _]. split.
  - intros Hk. destruct (z_steps_shape c keep h s ss (proj1 (zi_num _ _ _ _ _ HI)) Hz s' Hs) as [A B].
    apply tm_get_ext; [|exact B]. now apply A.
  - intros r G. apply tm_get_held in G as [G1 G2]. split; [exact G1|].
    assert (X : held s r).
    { apply (z_steps_held c keep h s ss) with (s' := s'); [|exact Hz|exact Hs|exact G2].
      intros t Ht. apply (zi_mem _ _ _ _ _ HI t Ht). }
    destruct X as (l & t & A & B & C). rewrite (zi_up _ _ _ _ _ HI) in A. destruct A as [<-|[]].
    destruct (zi_mem _ _ _ _ _ HI t B) as (_ & _ & _ & _ & _ & Gd). apply (gd_docs _ _ _ _ Gd). exact C.
Qed.
End Hash.
