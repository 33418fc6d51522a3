(** Lookups in L0-only mode, when no compaction is running and none was interrupted. *)
From Coq Require Import List NArith Bool Lia Sorted.
From Verif Require Import Base LogFormatModel KeyModel KeyProofs BloomModel BloomProofs MemTableModel LsmModel LsmProofs LsmProofs2 LsmProofs3 LsmProofs4 LsmProofs5 MergeModel MergeProofs.
Import ListNotations.
Local Open Scope N_scope.

Section Hash.
Variable hash : key -> N * N.
Variable part : key -> N.
Local Notation good := (good hash).

(** The tables of a partition: the one that takes the writes and the compacted one. *)
Definition shape (ts : list tbl) (w : tbl) (o : option tbl) : Prop :=
  match o with
  | None => ts = [w]
  | Some x => (ts = [w; x] \/ ts = [x; w]) /\ b_num w < b_num x
  end.
Definition other_docs (o : option tbl) : list rec := match o with Some x => b_docs x | None => [] end.

Record ZI (c : tcfg) (R : list rec) (s : lsm) : Prop := {
  zi_mem : forall t, In t (l_zero s) -> b_hash t < tc_parts c /\ b_min t = [] /\ b_src t = false /\ docs_ok (b_docs t) /\
             (forall d, In d (b_docs t) -> part (r_key d) = b_hash t) /\ good c R t;
  zi_shape : forall h, h < tc_parts c -> exists w o, shape (by_hash h (l_zero s)) w o /\
             forall a b, In a (b_docs w) -> In b (other_docs o) -> r_key a = r_key b -> r_seq b < r_seq a;
  zi_num : nums_ok (l_next s) (l_zero s);
  zi_nil : l_next s <= NIL;
  zi_up : l_up s = [] }.

Definition zv (k : key) (l : list tbl) : option rec :=
  match by_num (by_hash (part k) l) with
  | [w] => fd_get k (b_docs w)
  | [w; x] => orr (fd_get k (b_docs w)) (fd_get k (b_docs x))
  | _ => None
  end.

Lemma shape_in : forall ts w o, shape ts w o -> In w ts /\ (forall x, o = Some x -> In x ts) /\ (forall t, In t ts -> t = w \/ o = Some t).
Proof.
  intros ts w [x|] H; cbn [shape] in H.
  - destruct H as [[-> | ->] _]; (split; [cbn; tauto|]); split.
    + intros y E. injection E as <-. right; now left.
    + intros t [<-|[<-|[]]]; auto.
    + intros y E. injection E as <-. now left.
    + intros t [<-|[<-|[]]]; auto.
  - subst ts. split; [now left|]. split; [discriminate|]. intros t [<-|[]]. now left.
Qed.

Lemma shape_num : forall ts w o, shape ts w o -> by_num ts = match o with Some x => [w; x] | None => [w] end.
Proof.
  intros ts w [x|] H; cbn [shape] in H; [|now subst]. destruct H as [[-> | ->] L]; unfold by_num; cbn [fold_right ins_num].
  - destruct (N.ltb_spec (b_num w) (b_num x)); [reflexivity|lia].
  - destruct (N.ltb_spec (b_num x) (b_num w)); [lia|reflexivity].
Qed.

Lemma zv_shape : forall k l w o, shape (by_hash (part k) l) w o -> zv k l = orr (fd_get k (b_docs w)) (fd_get k (other_docs o)).
Proof.
  intros k l w o H. unfold zv. rewrite (shape_num _ _ _ H). destruct o; cbn [other_docs]; [reflexivity|]. cbn [fd_get find].
  now destruct (fd_get k (b_docs w)).
Qed.

Lemma shape_smallest : forall ts w o, shape ts w o -> (forall t, In t ts -> b_src t = false) -> b_num w < NIL -> smallest_normal ts = Some w.
Proof.
  intros ts w o H Hs L. unfold smallest_normal. destruct (shape_in _ _ _ H) as (I1 & I2 & _). pose proof (Hs w I1) as Sw.
  destruct o as [x|]; cbn [shape] in H.
  - pose proof (Hs x (I2 x eq_refl)) as Sx. destruct H as [[-> | ->] Lx]; cbn [smallest]; rewrite Sw, Sx; cbn [negb andb].
    + destruct (N.ltb_spec (b_num w) NIL); [|lia]. destruct (N.ltb_spec (b_num x) (b_num w)); [lia|reflexivity].
    + destruct (N.ltb_spec (b_num x) NIL) as [A|A]; [destruct (N.ltb_spec (b_num w) (b_num x)); [reflexivity|lia]|].
      destruct (N.ltb_spec (b_num w) NIL); [reflexivity|lia].
  - subst ts. cbn [smallest]. rewrite Sw. cbn [negb andb]. destruct (N.ltb_spec (b_num w) NIL); [reflexivity|lia].
Qed.

Lemma zi_get : forall c R s k, ZI c R s -> bf_safe c R -> part k < tc_parts c -> k <> [] ->
  tm_get hash part c k s = match zv k (l_zero s) with Some r => Got r | None => GotErr KEY_NOT_FOUND end.
Proof.
  intros c R s k HI S Hp Hk. destruct (zi_shape _ _ _ HI (part k) Hp) as (w & o & Hsh & _). rewrite (zv_shape _ _ _ _ Hsh).
  destruct (shape_in _ _ _ Hsh) as (I1 & I2 & I3).
  assert (Hin : forall t, In t (by_hash (part k) (l_zero s)) -> In t (l_zero s)) by (intros t Ht; apply filter_In in Ht; tauto).
  assert (Hg : forall t, In t (by_hash (part k) (l_zero s)) -> good c R t) by (intros t Ht; apply (zi_mem _ _ _ HI t (Hin t Ht))).
  assert (Hs : forall t, In t (by_hash (part k) (l_zero s)) -> b_src t = false) by (intros t Ht; apply (zi_mem _ _ _ HI t (Hin t Ht))).
  assert (Lw : b_num w < NIL) by (pose proof (proj2 (zi_num _ _ _ HI) w (Hin w I1)); pose proof (zi_nil _ _ _ HI); lia).
  unfold tm_get, num_levels. rewrite (zi_up _ _ _ HI). cbn [length levels_get level_get tables_point].
  rewrite (shape_smallest _ _ _ Hsh Hs Lw). rewrite (good_get hash c R k w (Hg w I1) S).
  destruct (fd_get k (b_docs w)) as [r|] eqn:Gw; cbn [orr].
  - apply fd_get_in in Gw as [_ E]. rewrite <- E in Hk. unfold rec_empty. destruct (r_key r); [congruence|reflexivity].
  - assert (Hse : search hash c k (Some (b_num w)) (by_hash (part k) (l_zero s)) None = inl (fd_get k (other_docs o))).
    { assert (Hx : forall x, o = Some x -> b_num x <> b_num w /\ tf_get hash c k x = match fd_get k (b_docs x) with Some r => Ok r | None => Fail KEY_NOT_FOUND end).
      { intros x ->. destruct Hsh as [_ L]. split; [lia|]. apply (good_get hash c R k x); [apply Hg; now apply I2|exact S]. }
      destruct o as [x|]; cbn [shape other_docs] in *.
      - destruct (Hx x eq_refl) as [Nx Gx]. apply N.eqb_neq in Nx. destruct Hsh as [[-> | ->] _]; cbn [search]; rewrite N.eqb_refl, Nx, Gx.
        + destruct (fd_get k (b_docs x)); [|reflexivity]. change (rec_empty None) with true. reflexivity.
        + destruct (fd_get k (b_docs x)); [|reflexivity]. change (rec_empty None) with true. reflexivity.
      - rewrite Hsh. cbn [search]. now rewrite N.eqb_refl. }
    rewrite Hse. destruct (fd_get k (other_docs o)) as [r|] eqn:G; [|reflexivity]. apply fd_get_in in G as [_ E]. rewrite <- E in Hk.
    cbn [rec_empty]. destruct (r_key r) eqn:Er; [congruence|]. cbn. now rewrite Er.
Qed.

(** ** Flush *)

Lemma by_hash_in : forall h l t, In t (by_hash h l) <-> In t l /\ b_hash t = h.
Proof. intros h l t. unfold by_hash. rewrite filter_In, N.eqb_eq. tauto. Qed.

Lemma flush_one : forall c R R0 rs h n l, nums_ok n l -> n <= NIL ->
  (forall t, In t l -> b_hash t < tc_parts c /\ b_min t = [] /\ b_src t = false /\ docs_ok (b_docs t) /\
     (forall d, In d (b_docs t) -> part (r_key d) = b_hash t) /\ good c R t) ->
  (forall h, h < tc_parts c -> exists w o, shape (by_hash h l) w o /\
     (forall a b, In a (b_docs w) -> In b (other_docs o) -> r_key a = r_key b -> r_seq b < r_seq a) /\ forall b, In b (other_docs o) -> In b R0) ->
  (forall r, In r rs -> In r R) -> (forall r x, In r rs -> In x R0 -> r_seq x < r_seq r) -> h < tc_parts c ->
  let l' := batch_part hash part (fun _ => false) rs h l in
  nums_ok n l' /\
  (forall t, In t l' -> b_hash t < tc_parts c /\ b_min t = [] /\ b_src t = false /\ docs_ok (b_docs t) /\
     (forall d, In d (b_docs t) -> part (r_key d) = b_hash t) /\ good c R t) /\
  (forall h, h < tc_parts c -> exists w o, shape (by_hash h l') w o /\
     (forall a b, In a (b_docs w) -> In b (other_docs o) -> r_key a = r_key b -> r_seq b < r_seq a) /\ forall b, In b (other_docs o) -> In b R0) /\
  forall k, part k < tc_parts c -> zv k l' = if part k =? h then orr (newest_write rs k) (zv k l) else zv k l.
Proof.
  intros c R R0 rs h n l Hn Hnil Hm Hsh HR Hseq Hh l'. destruct (Hsh h Hh) as (w & o & S1 & S2 & S3).
  destruct (shape_in _ _ _ S1) as (I1 & I2 & I3). pose proof (proj1 (by_hash_in _ _ _) I1) as [J1 J2].
  destruct (Hm w J1) as (M1 & M2 & M3 & M4 & M5 & M6).
  assert (Lw : b_num w < NIL) by (pose proof (proj2 Hn w J1); lia).
  assert (El' : l' = upd_tbl (b_num w) (tf_batch hash part (fun _ => false) h rs) l).
  { unfold l', batch_part. rewrite (shape_smallest _ _ _ S1); auto. intros t Ht. apply by_hash_in in Ht as [Ht _]. apply (Hm t Ht). }
  destruct (tf_batch_spec hash part c R (fun _ => false) h rs w) as (E1 & E2 & E3 & E4 & E5 & E6 & E7 & E8); auto.
  { intros d Hd. rewrite <- J2. auto. }
  set (w' := tf_batch hash part (fun _ => false) h rs w) in *.
  assert (Hin' : forall d, In d (b_docs w') -> In d (b_docs w) \/ In d rs).
  { intros d Hd. pose proof (E7 d Hd) as Pd.
    assert (G : fd_get (r_key d) (b_docs w') = Some d) by (apply fd_get_some; [exact E5|now split]).
    rewrite (E8 _ Pd) in G. destruct (newest_write rs (r_key d)) as [r|] eqn:W; cbn [orr] in G.
    - injection G as <-. apply newest_write_in in W. right. tauto.
    - apply fd_get_in in G. left. tauto. }
  set (g := fun x => if b_num x =? b_num w then tf_batch hash part (fun _ => false) h rs x else x).
  assert (Hgx : forall x, In x l -> (x = w /\ g x = w') \/ (x <> w /\ g x = x)).
  { intros x Hx. unfold g. destruct (N.eqb_spec (b_num x) (b_num w)) as [E|E].
    - left. assert (x = w) by (apply (num_inj l); auto; apply Hn). subst x. now split.
    - right. split; [congruence|reflexivity]. }
  change (upd_tbl (b_num w) (tf_batch hash part (fun _ => false) h rs) l) with (map g l) in El'. rewrite El'. clear El' l'.
  assert (Hby : forall h', by_hash h' (map g l) = map g (by_hash h' l)).
  { intros h'. unfold by_hash. rewrite filter_map. f_equal. apply filter_ext_in. intros x Hx. destruct (Hgx x Hx) as [[-> ->]|[_ ->]]; [now rewrite E3|reflexivity]. }
  assert (Hoth : forall h', h' <> h -> by_hash h' (map g l) = by_hash h' l).
  { intros h' N. rewrite Hby. rewrite <- (map_id (by_hash h' l)) at 2. apply map_ext_in. intros x Hx. apply by_hash_in in Hx as [Hx Ex].
    destruct (Hgx x Hx) as [[-> _]|[_ ->]]; [congruence|reflexivity]. }
  assert (Hsh' : shape (by_hash h (map g l)) w' o).
  { rewrite Hby. assert (Gw : g w = w') by (destruct (Hgx w J1) as [[_ X]|[X _]]; [exact X|congruence]).
    destruct o as [x|]; cbn [shape] in *.
    - destruct S1 as [S1 L]. assert (Gx : g x = x).
      { destruct (Hgx x) as [[-> _]|[_ X]]; [apply (proj1 (by_hash_in h l x)), I2; reflexivity|lia|exact X]. }
      rewrite E1. split; [|exact L]. destruct S1 as [-> | ->]; cbn [map]; rewrite Gw, Gx; auto.
    - rewrite S1. cbn [map]. now rewrite Gw. }
  split; [|split; [|split]].
  - split.
    + rewrite map_map. rewrite (map_ext_in _ b_num); [apply Hn|]. intros x Hx. destruct (Hgx x Hx) as [[-> ->]|[_ ->]]; [exact E1|reflexivity].
    + intros x Hx. apply in_map_iff in Hx as (y & <- & Hy). destruct (Hgx y Hy) as [[-> ->]|[_ ->]]; [rewrite E1|]; now apply Hn.
  - intros x Hx. apply in_map_iff in Hx as (y & <- & Hy). destruct (Hgx y Hy) as [[-> ->]|[_ ->]]; [|now apply Hm].
    rewrite E2, E3, E4. rewrite J2. rewrite J2 in M1. auto 10.
  - intros h' L. destruct (N.eq_dec h' h) as [->|N].
    + exists w', o. split; [exact Hsh'|]. split; [|exact S3]. intros a b Ha Hb E. destruct (Hin' a Ha) as [Ha'|Ha']; [now apply S2|].
      apply Hseq; auto.
    + rewrite (Hoth h' N). now apply Hsh.
  - intros k Hk. destruct (N.eqb_spec (part k) h) as [E|E].
    + rewrite <- E in Hsh', S1. rewrite (zv_shape _ _ _ _ Hsh'), (zv_shape _ _ _ _ S1), (E8 k E). now destruct (newest_write rs k).
    + unfold zv. now rewrite (Hoth _ E).
Qed.

Lemma flush_all : forall c R R0 rs n m h l, nums_ok n l -> n <= NIL ->
  (forall t, In t l -> b_hash t < tc_parts c /\ b_min t = [] /\ b_src t = false /\ docs_ok (b_docs t) /\
     (forall d, In d (b_docs t) -> part (r_key d) = b_hash t) /\ good c R t) ->
  (forall h, h < tc_parts c -> exists w o, shape (by_hash h l) w o /\
     (forall a b, In a (b_docs w) -> In b (other_docs o) -> r_key a = r_key b -> r_seq b < r_seq a) /\ forall b, In b (other_docs o) -> In b R0) ->
  (forall r, In r rs -> In r R) -> (forall r x, In r rs -> In x R0 -> r_seq x < r_seq r) -> h + N.of_nat m <= tc_parts c ->
  let l' := batch_parts hash part (fun _ => false) rs m h l in
  nums_ok n l' /\
  (forall t, In t l' -> b_hash t < tc_parts c /\ b_min t = [] /\ b_src t = false /\ docs_ok (b_docs t) /\
     (forall d, In d (b_docs t) -> part (r_key d) = b_hash t) /\ good c R t) /\
  (forall h, h < tc_parts c -> exists w o, shape (by_hash h l') w o /\
     (forall a b, In a (b_docs w) -> In b (other_docs o) -> r_key a = r_key b -> r_seq b < r_seq a) /\ forall b, In b (other_docs o) -> In b R0) /\
  forall k, part k < tc_parts c -> zv k l' = if (h <=? part k) && (part k <? h + N.of_nat m) then orr (newest_write rs k) (zv k l) else zv k l.
Proof.
  intros c R R0 rs n m. induction m as [|m IH]; intros h l Hn Hnil Hm Hsh HR Hseq Hh.
  - cbn [batch_parts]. repeat (split; [assumption|]). intros k _. destruct (N.leb_spec h (part k)); [|reflexivity].
    destruct (N.ltb_spec (part k) (h + N.of_nat 0)); [lia|reflexivity].
  - cbn [batch_parts]. destruct (flush_one c R R0 rs h n l Hn Hnil Hm Hsh HR Hseq) as (A1 & A2 & A3 & A4); [lia|].
    destruct (IH (h + 1) (batch_part hash part (fun _ => false) rs h l) A1 Hnil A2 A3 HR Hseq) as (B1 & B2 & B3 & B4); [lia|].
    repeat (split; [assumption|]). intros k Hk. rewrite (B4 k Hk), (A4 k Hk). destruct (N.eqb_spec (part k) h) as [E|E].
    + destruct (N.leb_spec (h + 1) (part k)); [lia|]. cbn [andb]. destruct (N.leb_spec h (part k)); [|lia].
      destruct (N.ltb_spec (part k) (h + N.of_nat (S m))); [reflexivity|lia].
    + destruct (N.leb_spec (h + 1) (part k)); destruct (N.leb_spec h (part k)); try lia; cbn [andb]; [|reflexivity].
      destruct (N.ltb_spec (part k) (h + 1 + N.of_nat m)); destruct (N.ltb_spec (part k) (h + N.of_nat (S m))); try lia; reflexivity.
Qed.

Lemma zflush_keeps : forall c R rs s, ZI c R s -> (forall k, part k < tc_parts c) -> (forall x r, In x R -> In r rs -> r_seq x < r_seq r) ->
  let s' := set_batch hash part c (fun _ => false) rs s in
  ZI c (R ++ rs) s' /\ forall k, zv k (l_zero s') = orr (newest_write rs k) (zv k (l_zero s)).
Proof.
  intros c R rs s HI Hp Hseq. unfold set_batch. cbn zeta. cbn [l_zero].
  destruct (flush_all c (R ++ rs) R rs (l_next s) (N.to_nat (tc_parts c)) 0 (l_zero s)) as (A1 & A2 & A3 & A4).
  { apply (zi_num _ _ _ HI). } { apply (zi_nil _ _ _ HI). }
  { intros t Ht. destruct (zi_mem _ _ _ HI t Ht) as (M1 & M2 & M3 & M4 & M5 & M6). repeat (split; [assumption|]).
    eapply good_mono; [exact M6|]. intros r Hr. apply in_app_iff. now left. }
  { intros h L. destruct (zi_shape _ _ _ HI h L) as (w & o & S1 & S2). exists w, o. split; [exact S1|]. split; [exact S2|].
    intros b Hb. destruct o as [x|]; [|destruct Hb]. destruct (shape_in _ _ _ S1) as (_ & I2 & _). specialize (I2 x eq_refl).
    apply by_hash_in in I2 as [I2 _]. destruct (zi_mem _ _ _ HI x I2) as (_ & _ & _ & _ & _ & G). apply (gd_docs _ _ _ _ G). exact Hb. }
  { intros r Hr. apply in_app_iff. now right. } { intros r x Hr Hx. now apply Hseq. } { lia. }
  split.
  - constructor; cbn [l_next l_zero l_up]; auto.
    + intros h L. destruct (A3 h L) as (w & o & S1 & S2 & _). exists w, o. now split.
    + apply (zi_nil _ _ _ HI).
    + apply (zi_up _ _ _ HI).
  - intros k. rewrite (A4 k (Hp k)). specialize (Hp k). destruct (N.leb_spec 0 (part k)); [|lia].
    destruct (N.ltb_spec (part k) (0 + N.of_nat (N.to_nat (tc_parts c)))); [reflexivity|lia].
Qed.

(** ** Reload *)

Lemma zreload_keeps : forall c R s, ZI c R s -> (forall k, part k < tc_parts c) -> ZI c R (reload s) /\ forall k, zv k (l_zero (reload s)) = zv k (l_zero s).
Proof.
  intros c R s HI Hp. assert (Hsh : forall h, h < tc_parts c -> exists w o, shape (by_hash h (rev (l_zero s))) w o /\ shape (by_hash h (l_zero s)) w o /\
    forall a b, In a (b_docs w) -> In b (other_docs o) -> r_key a = r_key b -> r_seq b < r_seq a).
  { intros h L. destruct (zi_shape _ _ _ HI h L) as (w & o & S1 & S2). exists w, o. split; [|now split].
    unfold by_hash. rewrite filter_rev'. fold (by_hash h (l_zero s)). destruct o as [x|]; cbn [shape] in *.
    - destruct S1 as [[-> | ->] L2]; cbn [rev app]; auto.
    - now rewrite S1. }
  split.
  - constructor; unfold reload; cbn [l_next l_zero l_up].
    + intros t Ht. apply in_rev in Ht. now apply (zi_mem _ _ _ HI).
    + intros h L. destruct (Hsh h L) as (w & o & S1 & _ & S2). exists w, o. now split.
    + destruct (zi_num _ _ _ HI) as [N1 N2]. split; [rewrite map_rev; now apply NoDup_rev|]. intros t Ht. apply in_rev in Ht. auto.
    + apply (zi_nil _ _ _ HI).
    + apply (zi_up _ _ _ HI).
  - intros k. destruct (Hsh _ (Hp k)) as (w & o & S1 & S2 & _). cbn [reload l_zero]. now rewrite (zv_shape _ _ _ _ S1), (zv_shape _ _ _ _ S2).
Qed.

(** ** Compaction *)

Lemma rm_upd_same : forall n f l, (forall t, b_num (f t) = b_num t) -> rm_tbl n (upd_tbl n f l) = rm_tbl n l.
Proof.
  intros n f l Hf. induction l as [|t l IH]; [reflexivity|]. cbn [upd_tbl map rm_tbl filter]. fold (upd_tbl n f l). fold (rm_tbl n (upd_tbl n f l)). fold (rm_tbl n l).
  destruct (b_num t =? n) eqn:E; cbn [negb].
  - rewrite Hf, E. exact IH.
  - rewrite E. cbn [negb]. now rewrite IH.
Qed.
Lemma rm_upd_other : forall n m f l, (forall t, b_num (f t) = b_num t) -> rm_tbl n (upd_tbl m f l) = upd_tbl m f (rm_tbl n l).
Proof.
  intros n m f l Hf. unfold rm_tbl, upd_tbl. rewrite filter_map. f_equal. apply filter_ext. intros t. destruct (b_num t =? m); [now rewrite Hf|reflexivity].
Qed.
Lemma rm_cons : forall n t l, b_num t <> n -> rm_tbl n (t :: l) = t :: rm_tbl n l.
Proof. intros n t l H. apply N.eqb_neq in H. unfold rm_tbl. cbn [filter]. now rewrite H. Qed.
Lemma upd_cons : forall n f t l, b_num t <> n -> upd_tbl n f (t :: l) = t :: upd_tbl n f l.
Proof. intros n f t l H. apply N.eqb_neq in H. unfold upd_tbl. cbn [map]. now rewrite H. Qed.

Lemma front : forall t l, b_min t = [] -> add_tbl t l = t :: l.
Proof. intros t l E. apply add_tbl_front. intros u _. unfold min_le. rewrite E. apply kle_nil. Qed.

Lemma zmerge_keeps : forall c R keep h s s', ZI c R s -> h < tc_parts c -> (forall k, part k < tc_parts c) ->
  zstep hash part c (ZCompact keep h) s = Some s' -> l_next s' <= NIL ->
  ZI c R s' /\ forall k, vle (zv k (l_zero s')) (zv k (l_zero s)).
Proof.
  intros c R keep h s s' HI Hh Hp H Hnil. destruct (zi_shape _ _ _ HI h Hh) as (w & o & S1 & S2).
  destruct (shape_in _ _ _ S1) as (I1 & I2 & I3). pose proof (proj1 (by_hash_in _ _ _) I1) as [J1 J2].
  destruct (zi_mem _ _ _ HI w J1) as (M1 & M2 & M3 & M4 & M5 & M6).
  pose proof (zi_num _ _ _ HI) as Hn. set (l := l_zero s) in *.
  assert (Hsrc : srcs h l = []).
  { apply filter_none. intros t Ht. apply by_hash_in in Ht as [Ht _]. apply (zi_mem _ _ _ HI t Ht). }
  assert (Hnor : normals h l = by_hash h l).
  { unfold normals. assert (X : forall t, In t (by_hash h l) -> negb (b_src t) = true).
    { intros t Ht. apply by_hash_in in Ht as [Ht _]. destruct (zi_mem _ _ _ HI t Ht) as (_ & _ & -> & _). reflexivity. }
    revert X. generalize (by_hash h l). induction l0 as [|t q IH]; intros X; [reflexivity|]. cbn [filter]. rewrite (X t (or_introl eq_refl)). f_equal. apply IH.
    intros u Hu. apply X. now right. }
  assert (Hnum : forall t, In t l -> b_num t < l_next s) by (apply Hn).
  assert (Ho : forall x, o = Some x -> In x l /\ b_hash x = h /\ b_num w < b_num x /\ docs_ok (b_docs x) /\ (forall d, In d (b_docs x) -> part (r_key d) = h) /\ good c R x).
  { intros x ->. specialize (I2 x eq_refl). apply by_hash_in in I2 as [X1 X2]. destruct (zi_mem _ _ _ HI x X1) as (_ & _ & _ & X3 & X4 & X5).
    rewrite X2 in X4. destruct S1 as [_ L]. auto 10. }
  assert (Hod : docs_ok (other_docs o)) by (destruct o as [x|]; [apply (Ho x eq_refl)|constructor]).
  set (n := new_tbl c (l_next s) h []). set (m := merge_tbl hash c keep (l_next s + 1) h (b_docs w) (other_docs o)).
  set (rest := match o with Some x => rm_tbl (b_num x) (rm_tbl (b_num w) l) | None => rm_tbl (b_num w) l end).
  assert (Mm : b_num m = l_next s + 1 /\ b_src m = false /\ b_hash m = h /\ b_min m = []) by (apply (tf_sets_fields hash true false)).
  destruct Mm as (Mm1 & Mm2 & Mm3 & Mm4).
  assert (Md : b_docs m = merge_out keep (b_docs w) (other_docs o)) by (apply merge_tbl_docs; assumption).
  assert (Es : s' = mkL (l_next s + 2) (m :: n :: rest) []).
  { unfold zstep, z_steps, z_begin in H. fold l in H. rewrite Hsrc, Hnor in H. unfold two in H at 1. cbn [by_num fold_right] in H.
    unfold two in H. rewrite (shape_num _ _ _ S1) in H. pose proof (Hnum w J1) as Lw.
    rewrite (front (new_tbl c (l_next s) h []) l eq_refl) in H. fold n in H.
    destruct o as [x|]; cbn [last] in H; match type of H with Some ?a = Some _ => assert (EH : a = s') by congruence; rewrite <- EH; clear EH end; unfold z_drop, z_add; cbn [l_next l_zero l_up]; rewrite (zi_up _ _ _ HI).
    - destruct (Ho x eq_refl) as (X1 & X2 & X3 & _). pose proof (Hnum x X1) as Lx. fold m.
      rewrite (front m _ Mm4). replace (l_next s + 1 + 1) with (l_next s + 2) by lia. apply (f_equal (fun z => mkL (l_next s + 2) z [])). unfold rest.
      rewrite (upd_cons (b_num w)) by (cbn; lia). rewrite (upd_cons (b_num x)) by (cbn; lia).
      rewrite (rm_cons (b_num w) m) by lia. rewrite (rm_cons (b_num w) n) by (cbn; lia). rewrite (rm_cons (b_num x) m) by lia. rewrite (rm_cons (b_num x) n) by (cbn; lia).
      do 2 f_equal. rewrite (rm_upd_other (b_num w) (b_num x)) by reflexivity. rewrite rm_upd_same by reflexivity. now rewrite rm_upd_same by reflexivity.
    - fold m. rewrite (front m _ Mm4). replace (l_next s + 1 + 1) with (l_next s + 2) by lia. apply (f_equal (fun z => mkL (l_next s + 2) z [])). unfold rest.
      rewrite (upd_cons (b_num w)) by (cbn; lia). rewrite (rm_cons (b_num w) m) by lia. rewrite (rm_cons (b_num w) n) by (cbn; lia).
      do 2 f_equal. now rewrite rm_upd_same by reflexivity. }
  subst s'. cbn [l_next l_zero] in *. clear H.
  assert (Hrest : forall t, In t rest <-> In t l /\ b_num t <> b_num w /\ forall x, o = Some x -> b_num t <> b_num x).
  { intros t. unfold rest. destruct o as [x|]; rewrite ?rm_tbl_in; split.
    - intros [[A B] C]. repeat split; auto. intros y E. injection E as <-. exact C.
    - intros (A & B & C). repeat split; auto.
    - intros [A B]. repeat split; auto. discriminate.
    - intros (A & B & _). now split. }
  assert (Hrh : by_hash h rest = []).
  { apply filter_none. intros t Ht. apply Hrest in Ht as (A & B & C). destruct (N.eqb_spec (b_hash t) h) as [E|]; [|reflexivity].
    exfalso. destruct (I3 t) as [-> |X]; [apply by_hash_in; now split|congruence|]. exact (C t X eq_refl). }
  assert (Hro : forall h', h' <> h -> by_hash h' rest = by_hash h' l).
  { intros h' Nh. unfold rest, by_hash, rm_tbl. destruct o as [x|]; rewrite ?filter_filter; apply filter_ext_in; intros t Ht.
    - destruct (Ho x eq_refl) as (X1 & X2 & _). destruct (N.eqb_spec (b_num t) (b_num w)) as [E|E].
      + assert (t = w) by (apply (num_inj l); auto; apply Hn). subst t. cbn. destruct (N.eqb_spec (b_hash w) h'); [congruence|reflexivity].
      + destruct (N.eqb_spec (b_num t) (b_num x)) as [E2|E2]; [|reflexivity].
        assert (t = x) by (apply (num_inj l); auto; apply Hn). subst t. cbn. destruct (N.eqb_spec (b_hash x) h'); [congruence|reflexivity].
    - destruct (N.eqb_spec (b_num t) (b_num w)) as [E|E]; [|reflexivity].
      assert (t = w) by (apply (num_inj l); auto; apply Hn). subst t. cbn. destruct (N.eqb_spec (b_hash w) h'); [congruence|reflexivity]. }
  assert (Hb : forall h', by_hash h' (m :: n :: rest) = if h =? h' then [m; n] else by_hash h' l).
  { intros h'. unfold by_hash at 1. cbn [filter]. rewrite Mm3. change (b_hash n) with h. destruct (N.eqb_spec h h') as [<-|E].
    - fold (by_hash h rest). now rewrite Hrh.
    - fold (by_hash h' rest). apply Hro. congruence. }
  destruct (merge_spec keep (b_docs w) (other_docs o) M4 Hod) as (P1 & P2 & P3).
  assert (Hshn : shape [m; n] n (Some m)) by (split; [now right|rewrite Mm1; cbn; lia]).
  split.
  - constructor; cbn [l_next l_zero l_up]; auto.
    + intros t [<-|[<-|Ht]].
      * rewrite Mm2, Mm3, Mm4, Md. repeat (split; [solve [auto]|]). split.
        -- intros d Hd. destruct (P2 d Hd) as [[A|A] _]; [rewrite <- J2; auto|]. destruct o as [x|]; [|destruct A]. now apply (Ho x eq_refl).
        -- unfold m, merge_tbl. apply good_sets; [constructor|apply (good_new hash part)|].
           intros r Hr. destruct (P2 r Hr) as [[A|A] _]; [now apply (gd_docs _ _ _ _ M6)|]. destruct o as [x|]; [|destruct A].
           destruct (Ho x eq_refl) as (_ & _ & _ & _ & _ & G). now apply (gd_docs _ _ _ _ G).
      * unfold n. cbn [new_tbl b_hash b_min b_src b_docs]. repeat (split; [solve [auto]|]). split; [constructor|]. split; [intros d []|apply (good_new hash part)].
      * apply Hrest in Ht as (A & _). now apply (zi_mem _ _ _ HI).
    + intros h' L. rewrite Hb. destruct (N.eqb_spec h h') as [<-|E].
      * exists n, (Some m). split; [exact Hshn|]. intros a b [].
      * now apply (zi_shape _ _ _ HI).
    + split.
      * cbn [map]. constructor; [|constructor].
        -- rewrite Mm1. cbn [In]. change (b_num n) with (l_next s). intros [E|I]; [lia|]. apply in_map_iff in I as (t & E & Ht). apply Hrest in Ht as (A & _). specialize (Hnum t A). lia.
        -- change (b_num n) with (l_next s). intros I. apply in_map_iff in I as (t & E & Ht). apply Hrest in Ht as (A & _). specialize (Hnum t A). lia.
        -- unfold rest. destruct o as [x|]; [apply (nums_filter (l_next s))|]; apply (nums_filter (l_next s)); exact Hn.
      * intros t [<-|[<-|Ht]]; [lia|cbn; lia|]. apply Hrest in Ht as (A & _). specialize (Hnum t A). lia.
  - intros k. unfold zv at 1. rewrite Hb. destruct (N.eqb_spec h (part k)) as [E|E].
    + rewrite E in S1. rewrite (shape_num _ _ _ Hshn). rewrite (zv_shape _ _ _ _ S1). change (b_docs n) with (@nil rec). cbn [fd_get find orr].
      rewrite Md. unfold merge_out.
      assert (Hg : fd_get k (merge2 (b_docs w) (other_docs o)) = orr (fd_get k (b_docs w)) (fd_get k (other_docs o))).
      { rewrite merge2_get by assumption. destruct (fd_get k (b_docs w)) as [a|] eqn:Ga; [|now destruct (fd_get k (other_docs o))].
        destruct (fd_get k (other_docs o)) as [b|] eqn:Gb; [|reflexivity]. cbn [pick orr].
        apply fd_get_in in Ga as [A1 A2]. apply fd_get_in in Gb as [B1 B2]. specialize (S2 a b A1 B1).
        destruct (N.ltb_spec (r_seq b) (r_seq a)); [reflexivity|]. rewrite A2, B2 in S2. specialize (S2 eq_refl). lia. }
      rewrite <- Hg. pose proof (merge2_sorted _ _ M4 Hod) as Hs.
      destruct (fd_get k (filter (fun r => keep || negb (is_del r)) (merge2 (b_docs w) (other_docs o)))) as [r|] eqn:G.
      * left. symmetry. apply fd_get_in in G as [G1 G2]. apply filter_In in G1 as [G1 _]. apply fd_get_some; [exact Hs|now split].
      * destruct (fd_get k (merge2 (b_docs w) (other_docs o))) as [r|] eqn:G2; [|now left]. right. split; [reflexivity|]. exists r. split; [reflexivity|].
        apply fd_get_in in G2 as [G2 G3]. destruct (is_del r) eqn:D; [reflexivity|]. exfalso. apply (proj1 (fd_get_none _ _) G r); [|exact G3].
        apply filter_In. split; [exact G2|]. rewrite D. apply orb_true_r.
    + left. reflexivity.
Qed.

(** ** Executions *)

Inductive zreach (c : tcfg) : list rec -> lsm -> Prop :=
| zr_new : zreach c [] (lsm_new c)
| zr_flush : forall R s rs, zreach c R s -> (forall x r, In x R -> In r rs -> r_seq x < r_seq r) ->
    zreach c (R ++ rs) (set_batch hash part c (fun _ => false) rs s)
| zr_merge : forall R s keep h s', zreach c R s -> h < tc_parts c -> zstep hash part c (ZCompact keep h) s = Some s' -> l_next s' <= NIL ->
    zreach c R s'
| zr_reload : forall R s, zreach c R s -> zreach c R (reload s).

Lemma znew_ok : forall c, tc_parts c <= NIL -> ZI c [] (lsm_new c) /\ forall k, zv k (l_zero (lsm_new c)) = None.
Proof.
  intros c Hn. destruct (new_ok hash part c Hn) as [HI _].
  destruct (init_tbls_spec c (N.to_nat (tc_parts c)) 0 []) as (I1 & I2 & I3).
  { intros t []. } { constructor. } { intros j. cbn [filter]. destruct (N.ltb_spec j 0); [lia|reflexivity]. }
  replace (0 + N.of_nat (N.to_nat (tc_parts c))) with (tc_parts c) in * by lia.
  unfold lsm_new in *. set (l := init_tbls c (N.to_nat (tc_parts c)) 0 []) in *. cbn [l_zero].
  assert (Hb : forall h, by_hash h l = if h <? tc_parts c then [new_tbl c h h []] else []).
  { intros h. rewrite <- I3. apply filter_ext_in. intros t Ht. destruct (I1 t Ht) as (j & _ & ->). unfold nf. cbn [new_tbl b_src negb]. now rewrite andb_true_r. }
  split.
  - constructor; cbn [l_next l_zero l_up]; auto.
    + intros t Ht. destruct (I1 t Ht) as (j & J & ->). cbn [new_tbl b_hash b_min b_src b_docs]. repeat (split; [solve [auto]|]). split; [constructor|].
      split; [intros d []|apply (good_new hash part)].
    + intros h L. exists (new_tbl c h h []), None. split; [|intros a b []]. cbn [shape]. rewrite Hb. destruct (N.ltb_spec h (tc_parts c)); [reflexivity|lia].
    + apply (li_num0 _ _ _ _ _ HI).
  - intros k. unfold zv. rewrite Hb. destruct (part k <? tc_parts c); reflexivity.
Qed.

Lemma zreach_inv : forall c R s, tc_parts c <= NIL -> (forall k, part k < tc_parts c) -> zreach c R s -> ZI c R s /\ forall k, vle (zv k (l_zero s)) (newest_write R k).
Proof.
  intros c R s Hc Hp H. induction H as [|R s rs H [IH1 IH2] Hs|R s keep h s' H [IH1 IH2] Hh Hz Hn|R s H [IH1 IH2]].
  - destruct (znew_ok c Hc) as [A B]. split; [exact A|]. intros k. rewrite B. now left.
  - destruct (zflush_keeps c R rs s IH1 Hp Hs) as [A B]. split; [exact A|]. intros k. rewrite B, newest_write_app.
    destruct (newest_write rs k); cbn [orr]; [apply vle_refl|apply IH2].
  - destruct (zmerge_keeps c R keep h s s' IH1 Hh Hp Hz Hn) as [A B]. split; [exact A|]. intros k. eapply vle_trans; [apply B|apply IH2].
  - destruct (zreload_keeps c R s IH1 Hp) as [A B]. split; [exact A|]. intros k. rewrite B. apply IH2.
Qed.

Lemma zero_answer : forall c R s k, tc_parts c <= NIL -> (forall k, part k < tc_parts c) -> zreach c R s -> bf_safe c R -> k <> [] ->
  table_answer (newest_write R k) (tm_get hash part c k s).
Proof.
  intros c R s k Hc Hp H S Hk. destruct (zreach_inv c R s Hc Hp H) as [HI V]. specialize (V k).
  rewrite (zi_get c R s k HI S (Hp k) Hk). destruct V as [-> |(-> & r & -> & D)]; cbn [table_answer].
  - destruct (newest_write R k); [now left|reflexivity].
  - right. now split.
Qed.
End Hash.
