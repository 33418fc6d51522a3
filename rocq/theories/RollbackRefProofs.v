(** With the conditions of [f_fine], every file of the database stays on disk. *)
From Verif Require Import Base RollbackRefModel.
From Coq Require Import Sorted ZifyBool.
Local Open Scope N_scope.

Record FInv (s : fstate) : Prop := {
  v_ne : fs_live s <> [];
  v_sort : StronglySorted N.lt (map o_num (fs_live s));
  v_max : forall o, In o (fs_live s) -> o_num o <= fs_max s;
  v_z : forall z o, In z (fs_zombie s) -> In o (fs_live s) -> o_num z < o_num o;
  v_pop : forall p o, In p (fs_popped s) -> In o (fs_live s) -> p < o_num o;
  v_pend : forall p o, In p (fs_pend s) -> In o (fs_live s) -> p < o_num o \/ (fs_rolling s = true /\ fs_max s < p);
  v_dir : all_there s
}.

Lemma lookup_unlink : forall n m d, n <> m -> lookup n (unlink m d) = lookup n d.
Proof.
  intros n m d H. unfold lookup, unlink. induction d as [|[a b] d IH]; [reflexivity|]. cbn [filter find fst].
  destruct (a =? m) eqn:E1; cbn [negb]; [destruct (a =? n) eqn:E2; [lia|exact IH]|].
  cbn [find fst]. destruct (a =? n); [reflexivity|exact IH].
Qed.

Lemma lookup_cons : forall n m i d, n <> m -> lookup n ((m, i) :: d) = lookup n d.
Proof. intros n m i d H. unfold lookup. cbn [find fst]. destruct (m =? n) eqn:E; [lia|reflexivity]. Qed.

Lemma unlink_all : forall l d n, ~ In n l -> lookup n (fold_left (fun d n => unlink n d) l d) = lookup n d.
Proof.
  induction l as [|a l IH]; intros d n H; [reflexivity|]. cbn [fold_left]. rewrite IH by (intros Q; apply H; right; exact Q).
  apply lookup_unlink. intros ->. apply H. left; reflexivity.
Qed.

Lemma in_destroy : forall p n d l, In p (destroy n d l) -> In p l \/ p = n.
Proof.
  intros p n d l. unfold destroy. destruct (lookup n d); [|auto]. intros H. apply in_app_or in H. destruct H as [H|[<-|[]]]; auto.
Qed.

(** Changing the counts of live files changes nothing else. *)
Lemma live_map : forall s h, FInv s -> (forall x, o_num (h x) = o_num x /\ o_ino (h x) = o_ino x) -> FInv (set_live (map h (fs_live s)) s).
Proof.
  intros s h [V1 V2 V3 V4 V5 V6 V7] Hh.
  assert (IN : forall o, In o (map h (fs_live s)) -> exists x, In x (fs_live s) /\ o_num o = o_num x /\ o_ino o = o_ino x).
  { intros o Ho. apply in_map_iff in Ho. destruct Ho as (x & <- & Hx). exists x. destruct (Hh x) as [-> ->]. auto. }
  constructor; cbn [set_live fs_live fs_zombie fs_dir fs_pend fs_popped fs_max fs_rolling].
  - destruct (fs_live s); [congruence|discriminate].
  - rewrite map_map. rewrite (map_ext _ o_num) by (intros; apply Hh). exact V2.
  - intros o Ho. destruct (IN o Ho) as (x & Hx & E1 & E2). rewrite E1. apply V3, Hx.
  - intros z o Hz Ho. destruct (IN o Ho) as (x & Hx & E1 & E2). rewrite E1. apply V4; assumption.
  - intros p o Hp Ho. destruct (IN o Ho) as (x & Hx & E1 & E2). rewrite E1. apply V5; assumption.
  - intros p o Hp Ho. destruct (IN o Ho) as (x & Hx & E1 & E2). rewrite E1. apply V6; assumption.
  - intros o Ho. cbn [set_live fs_live] in Ho. destruct (IN o Ho) as (x & Hx & E1 & E2). rewrite E1, E2. apply V7, Hx.
Qed.

Lemma fold_remove : forall gone s, (forall x, In x gone -> o_refs x = 0) ->
  let s' := fold_left (fun a x => remove_obj x a) gone s in
  fs_live s' = fs_live s /\ fs_zombie s' = fs_zombie s /\ fs_dir s' = fs_dir s /\ fs_popped s' = fs_popped s /\
  fs_ino s' = fs_ino s /\ forall p, In p (fs_pend s') -> In p (fs_pend s) \/ exists x, In x gone /\ p = o_num x.
Proof.
  induction gone as [|g gone IH]; intros s H; cbv zeta in *; [cbn [fold_left]; auto 10|]. cbn [fold_left].
  destruct (IH (remove_obj g s) ltac:(intros x Hx; apply H; right; exact Hx)) as (I1 & I2 & I3 & I4 & I5 & I6).
  rewrite I1, I2, I3, I4, I5. unfold remove_obj in *. rewrite (H g (or_introl eq_refl)) in *. cbn [N.eqb] in *.
  cbn [fs_live fs_zombie fs_dir fs_popped fs_ino fs_pend] in *. repeat (split; [reflexivity|]).
  intros p Hp. destruct (I6 p Hp) as [Q|(x & X1 & X2)].
  - apply in_destroy in Q. destruct Q as [Q|Q]; [left; exact Q|right; exists g; split; [left; reflexivity|exact Q]].
  - right. exists x. split; [right; exact X1|exact X2].
Qed.

Lemma sorted_filter : forall n l, StronglySorted N.lt (map o_num l) -> StronglySorted N.lt (map o_num (filter (fun x => o_num x <=? n) l)).
Proof.
  intros n. induction l as [|a l IH]; intros H; [constructor|]. cbn [map filter] in *. apply StronglySorted_inv in H. destruct H as [H1 H2].
  destruct (o_num a <=? n); [|apply IH, H1]. cbn [map]. constructor; [apply IH, H1|]. rewrite Forall_forall in *. intros x Hx.
  apply H2. apply in_map_iff in Hx. destruct Hx as (y & <- & Hy). apply filter_In in Hy. apply in_map, Hy.
Qed.

Lemma sorted_last : forall l x, StronglySorted N.lt (map o_num l) -> (forall o, In o l -> o_num o < o_num x) -> StronglySorted N.lt (map o_num (l ++ [x])).
Proof.
  induction l as [|a l IH]; intros x H Hx; [repeat constructor|]. cbn [map app] in *. apply StronglySorted_inv in H. destruct H as [H1 H2].
  constructor; [apply IH; [exact H1|intros o Ho; apply Hx; right; exact Ho]|]. rewrite Forall_forall in *. rewrite map_app. intros y Hy.
  apply in_app_or in Hy. destruct Hy as [Hy|[<-|[]]]; [apply H2, Hy|apply Hx; left; reflexivity].
Qed.

Lemma f_step_inv : forall o s, FInv s -> f_fine o s -> FInv (f_step o s).
Proof.
  intros o s HV Hf. assert (HV0 := HV). destruct HV as [V1 V2 V3 V4 V5 V6 V7].
  assert (W : exists w, In w (fs_live s)) by (destruct (fs_live s) as [|w l]; [congruence|exists w; left; reflexivity]).
  destruct W as (w & Hw). destruct o as [|n|i| |n| | |]; cbn [f_step].
  - (* a new file *)
    destruct (fs_rolling s) eqn:ER; [exact HV0|].
    constructor; cbn [fs_live fs_zombie fs_dir fs_pend fs_popped fs_max fs_rolling].
    + destruct (fs_live s); discriminate.
    + apply sorted_last; [exact V2|]. intros o Ho. cbn [o_num]. specialize (V3 o Ho). lia.
    + intros o Ho. apply in_app_or in Ho. destruct Ho as [Ho|[<-|[]]]; [specialize (V3 o Ho); lia|cbn [o_num]; lia].
    + intros z o Hz Ho. apply in_app_or in Ho. destruct Ho as [Ho|[<-|[]]]; [apply V4; assumption|]. cbn [o_num].
      assert (X := V4 z w Hz Hw). specialize (V3 w Hw). lia.
    + intros p o Hp Ho. apply in_app_or in Ho. destruct Ho as [Ho|[<-|[]]]; [apply V5; assumption|]. cbn [o_num].
      assert (X := V5 p w Hp Hw). specialize (V3 w Hw). lia.
    + intros p o Hp Ho. left. apply in_app_or in Ho. destruct Ho as [Ho|[<-|[]]].
      * destruct (V6 p o Hp Ho) as [Q|[Q _]]; [exact Q|congruence].
      * cbn [o_num]. destruct (V6 p w Hp Hw) as [Q|[Q _]]; [specialize (V3 w Hw); lia|congruence].
    + intros o Ho. cbn [fs_live fs_dir] in *. apply in_app_or in Ho. destruct Ho as [Ho|[<-|[]]].
      * assert (X := V3 o Ho). rewrite lookup_cons by lia. rewrite lookup_unlink by lia. apply V7, Ho.
      * cbn [o_num o_ino]. unfold lookup. cbn [find fst]. rewrite N.eqb_refl. reflexivity.
  - apply live_map; [exact HV0|]. intros x. destruct (o_num x =? n); auto.
  - (* release *)
    destruct (find _ (fs_zombie s)) as [z|] eqn:EZ.
    + apply find_some in EZ. destruct EZ as [Hz _]. destruct (o_refs z =? 1).
      * constructor; cbn [fs_live fs_zombie fs_dir fs_pend fs_popped fs_max fs_rolling]; try assumption.
        -- intros y o Hy Ho. apply filter_In in Hy. apply V4; [apply Hy|exact Ho].
        -- intros p o Hp Ho. apply in_destroy in Hp. destruct Hp as [Hp| ->]; [apply V6; assumption|left; apply V4; assumption].
      * constructor; cbn [fs_live fs_zombie fs_dir fs_pend fs_popped fs_max fs_rolling]; try assumption.
        intros y o Hy Ho. apply in_map_iff in Hy. destruct Hy as (x & <- & Hx). destruct (o_ino x =? i); cbn [sub_ref o_num]; apply V4; assumption.
    + apply live_map; [exact HV0|]. intros x. destruct (o_ino x =? i); auto.
  - (* the oldest file *)
    destruct (fs_live s) as [|o1 [|o2 t]] eqn:EL; [exact HV0|exact HV0|]. destruct (fs_rolling s) eqn:ER; [exact HV0|]. cbn [tl].
    assert (LT : forall o, In o (o2 :: t) -> o_num o1 < o_num o).
    { cbn [map] in V2. apply StronglySorted_inv in V2. destruct V2 as [_ V2]. rewrite Forall_forall in V2. intros o Ho.
      apply V2. change (o_num o2 :: map o_num t) with (map o_num (o2 :: t)). apply in_map, Ho. }
    assert (S2 : StronglySorted N.lt (map o_num (o2 :: t))) by (cbn [map] in *; apply StronglySorted_inv in V2; apply V2).
    unfold remove_obj. destruct (o_refs o1 =? 0);
      (constructor; cbn [set_live fs_live fs_zombie fs_dir fs_pend fs_popped fs_max fs_rolling];
       [discriminate|exact S2|intros o Ho; apply V3; right; exact Ho| | | |]).
    + intros z o Hz Ho. apply V4; [exact Hz|right; exact Ho].
    + intros p o Hp Ho. apply V5; [exact Hp|right; exact Ho].
    + intros p o Hp Ho. apply in_destroy in Hp. destruct Hp as [Hp| ->]; [rewrite ER in *; apply V6; [exact Hp|right; exact Ho]|left; apply LT, Ho].
    + intros o Ho. apply V7. rewrite EL. right; exact Ho.
    + intros z o Hz Ho. apply in_app_or in Hz. destruct Hz as [Hz|[<-|[]]]; [apply V4; [exact Hz|right; exact Ho]|apply LT, Ho].
    + intros p o Hp Ho. apply V5; [exact Hp|right; exact Ho].
    + intros p o Hp Ho. rewrite ER in *. apply V6; [exact Hp|right; exact Ho].
    + intros o Ho. apply V7. rewrite EL. right; exact Ho.
  - (* rollback *)
    destruct (fs_rolling s || negb (existsb (fun x => o_num x =? n) (fs_live s))) eqn:EC; [exact HV0|].
    apply orb_false_iff in EC. destruct EC as [ER EX]. apply negb_false_iff, existsb_exists in EX. destruct EX as (y & Hy & Ey).
    cbn [f_fine] in Hf.
    destruct (fold_remove (filter (fun x => n <? o_num x) (fs_live s)) (set_live (filter (fun x => o_num x <=? n) (fs_live s)) s)) as (F1 & F2 & F3 & F4 & F5 & F6).
    { intros x Hx. apply filter_In in Hx. destruct Hx as [Hx Q]. apply Hf; [exact Hx|lia]. }
    cbn [set_live fs_live fs_zombie fs_dir fs_pend fs_popped] in F1, F2, F3, F4, F6.
    constructor; cbn [fs_live fs_zombie fs_dir fs_pend fs_popped fs_max fs_rolling]; rewrite ?F1, ?F2, ?F3, ?F4.
    + intros Q. assert (X : In y (filter (fun x => o_num x <=? n) (fs_live s))) by (apply filter_In; split; [exact Hy|lia]). rewrite Q in X. destruct X.
    + apply sorted_filter, V2.
    + intros o Ho. apply filter_In in Ho. lia.
    + intros z o Hz Ho. apply filter_In in Ho. apply V4; [exact Hz|apply Ho].
    + intros p o Hp Ho. apply filter_In in Ho. apply V5; [exact Hp|apply Ho].
    + intros p o Hp Ho. apply filter_In in Ho. destruct Ho as [Ho _]. destruct (F6 p Hp) as [Q|(x & X1 & X2)].
      * destruct (V6 p o Q Ho) as [Z|[Z _]]; [left; exact Z|congruence].
      * right. apply filter_In in X1. split; [reflexivity|lia].
    + intros o Ho. cbn [fs_live fs_dir] in *. apply filter_In in Ho. apply V7, Ho.
  - (* rollback, the rest *)
    destruct (fs_rolling s) eqn:ER; [|exact HV0].
    constructor; cbn [fs_live fs_zombie fs_dir fs_pend fs_popped fs_max fs_rolling]; try assumption; [intros p o []|].
    intros o Ho. cbn [fs_live fs_dir] in *. rewrite unlink_all; [apply V7, Ho|]. intros Q. destruct (V6 _ o Q Ho) as [Z|[_ Z]]; [lia|].
    specialize (V3 o Ho). lia.
  - (* the remover *)
    cbn [f_fine] in Hf. destruct (fs_pend s) as [|p l] eqn:EP; [exact HV0|].
    constructor; cbn [fs_live fs_zombie fs_dir fs_pend fs_popped fs_max fs_rolling]; try assumption.
    + intros q o Hq Ho. apply in_app_or in Hq. destruct Hq as [Hq|[<-|[]]]; [apply V5; assumption|].
      destruct (V6 p o (or_introl eq_refl) Ho) as [Z|[Z _]]; [exact Z|congruence].
    + intros q o Hq Ho. apply V6; [right; exact Hq|exact Ho].
  - destruct (fs_popped s) as [|p l] eqn:EP; [exact HV0|].
    constructor; cbn [fs_live fs_zombie fs_dir fs_pend fs_popped fs_max fs_rolling]; try assumption.
    + intros q o Hq Ho. apply V5; [right; exact Hq|exact Ho].
    + intros o Ho. cbn [fs_live fs_dir] in *. assert (X := V5 p o (or_introl eq_refl) Ho). rewrite lookup_unlink by lia. apply V7, Ho.
Qed.

Lemma freach_inv : forall s, freach_ s -> FInv s.
Proof.
  intros s H. induction H as [|s o H IH Hf]; [|apply f_step_inv; assumption].
  constructor; cbn; try (intros; contradiction).
  - discriminate.
  - repeat constructor.
  - intros o [<-|[]]. cbn. lia.
  - intros o [<-|[]]. reflexivity.
Qed.
