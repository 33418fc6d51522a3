(** SizedBuf: one owner for each block. *)
From Verif Require Import Base BufModel BufSpec.
From Coq Require Import ZifyBool.
Local Open Scope N_scope.

(** ** Memory *)
Lemma blk_id : forall id w b, blk id w = Some b -> bl_id b = id.
Proof. intros id w b H. apply find_some in H. lia. Qed.

Lemma blk_add : forall id k d w, blk id (add_block k d w) =
  match blk id w with Some b => Some b | None => if w_next w =? id then Some (mkBl (w_next w) k d) else None end.
Proof.
  intros id k d w. unfold blk, add_block. cbn [w_heap]. induction (w_heap w) as [|b l IH]; cbn [app find]; [reflexivity|].
  destruct (bl_id b =? id); [reflexivity|exact IH].
Qed.

Lemma blk_drop : forall id j w, blk id (drop_block j w) = if id =? j then None else blk id w.
Proof.
  intros id j w. unfold blk, drop_block. cbn [w_heap]. induction (w_heap w) as [|b l IH]; cbn [filter find]; [destruct (id =? j); reflexivity|].
  destruct (bl_id b =? j) eqn:E1; cbn [negb find].
  - rewrite IH. destruct (id =? j) eqn:E2; [reflexivity|]. replace (bl_id b =? id) with false by lia. reflexivity.
  - destruct (bl_id b =? id) eqn:E2; [replace (id =? j) with false by lia; reflexivity|exact IH].
Qed.

Lemma blk_set_data : forall id j d w, blk id (set_data j d w) =
  if id =? j then match blk j w with Some b => Some (mkBl j (bl_kind b) d) | None => None end else blk id w.
Proof.
  intros id j d w. unfold blk, set_data. cbn [w_heap]. induction (w_heap w) as [|b l IH]; cbn [map find]; [destruct (id =? j); reflexivity|].
  destruct (bl_id b =? j) eqn:E1; cbn [bl_id].
  - destruct (id =? j) eqn:E2; [replace (j =? id) with true by lia; reflexivity|].
    replace (j =? id) with false by lia. replace (bl_id b =? id) with false by lia. exact IH.
  - destruct (id =? j) eqn:E2; [replace (bl_id b =? id) with false by lia; exact IH|]. destruct (bl_id b =? id); [reflexivity|exact IH].
Qed.

Lemma put_same : forall v b w, w_var (put v b w) v = b.
Proof. intros v b w. cbn [put w_var]. rewrite N.eqb_refl. reflexivity. Qed.
Lemma put_other : forall v b w x, x <> v -> w_var (put v b w) x = w_var w x.
Proof. intros v b w x H. cbn [put w_var]. replace (x =? v) with false by lia. reflexivity. Qed.
Lemma cut32_le : forall s, cut32 s <= s.
Proof. intro s. apply N.mod_le. discriminate. Qed.

(** ** The invariant *)
Definition kind_ok (s : sbuf) (b : block) : Prop := bl_kind b = (if s_free s then KMalloc else KNew) /\ (s_free s = true -> s_del s = false).
Record WI (w : world) : Prop := {
  wi_lt : forall id b, blk id w = Some b -> id < w_next w;
  wi_own : forall v, owns w v -> exists id b, s_ptr (w_var w v) = Some id /\ blk id w = Some b /\ kind_ok (w_var w v) b /\
             s_size (w_var w v) <= N.of_nat (length (bl_data b));
  wi_one : forall v x, owns w v -> owns w x -> s_ptr (w_var w v) = s_ptr (w_var w x) -> v = x;
  wi_leak : forall id b, blk id w = Some b -> bl_kind b <> KUser -> exists v, owns w v /\ s_ptr (w_var w v) = Some id
}.

Lemma wi_new : WI w_new.
Proof. constructor; cbn; try discriminate; intros; unfold owns in *; cbn in *; destruct H; discriminate. Qed.

Lemma wi_ext : forall w w', w_heap w' = w_heap w -> w_next w' = w_next w -> (forall x, w_var w' x = w_var w x) -> WI w -> WI w'.
Proof.
  intros w w' Eh En Ev [A B C D]. assert (Eb : forall id, blk id w' = blk id w) by (intro id; unfold blk; rewrite Eh; reflexivity).
  constructor; unfold owns in *.
  - intros id b H. rewrite Eb in H. rewrite En. eauto.
  - intros v. rewrite Ev. intros H. destruct (B v H) as (id & b & H1). exists id, b. rewrite Eb. exact H1.
  - intros v x. rewrite !Ev. apply C.
  - intros id b H. rewrite Eb in H. intros Hk. destruct (D id b H Hk) as (v & Hv). exists v. rewrite Ev. exact Hv.
Qed.

Lemma own_put : forall w v b x, owns (put v b w) x -> (x = v /\ (s_free b = true \/ s_del b = true)) \/ (x <> v /\ owns w x).
Proof.
  intros w v b x H. unfold owns in *. destruct (N.eq_dec x v) as [->|n]; [rewrite put_same in H; left; auto|].
  rewrite (put_other _ _ _ _ n) in H. right; auto.
Qed.
Lemma own_put_other : forall w v b x, x <> v -> owns w x -> owns (put v b w) x.
Proof. intros w v b x n H. unfold owns. rewrite (put_other _ _ _ _ n). exact H. Qed.

(** A variable that owns nothing gets something it does not own. *)
Lemma wi_put : forall w v b, WI w -> ~ owns w v -> s_free b = false -> s_del b = false -> WI (put v b w).
Proof.
  intros w v b [A B C D] Hv H1 H2. assert (P : forall x, owns (put v b w) x -> x <> v /\ owns w x).
  { intros x Hx. destruct (own_put _ _ _ _ Hx) as [[_ [X|X]]|X]; [congruence|congruence|exact X]. }
  constructor.
  - exact A.
  - intros x Hx. destruct (P x Hx) as [n Ho]. rewrite (put_other _ _ _ _ n). apply B, Ho.
  - intros x y Hx Hy. destruct (P x Hx) as [n Ho]. destruct (P y Hy) as [n' Ho']. rewrite (put_other _ _ _ _ n), (put_other _ _ _ _ n'). apply C; assumption.
  - intros id k E Hk. destruct (D id k E Hk) as (x & Hx & Ex). exists x. assert (x <> v) by (intros ->; contradiction).
    split; [apply own_put_other; assumption|rewrite put_other; assumption].
Qed.

(** It gets a new block. *)
Lemma wi_give : forall w v k d n, WI w -> ~ owns w v -> n <= N.of_nat (length d) ->
  WI (put v (mkS (match k with KMalloc => true | _ => false end) (match k with KNew => true | _ => false end) n (Some (w_next w))) (add_block k d w)).
Proof.
  intros w v k d n [A B C D] Hv Hn. set (b := mkS _ _ n (Some (w_next w))).
  assert (Hnew : blk (w_next w) (add_block k d w) = Some (mkBl (w_next w) k d)).
  { rewrite blk_add, N.eqb_refl. destruct (blk (w_next w) w) as [z|] eqn:E; [apply A in E; lia|reflexivity]. }
  assert (Hold : forall id z, blk id w = Some z -> blk id (add_block k d w) = Some z) by (intros id z E; rewrite blk_add, E; reflexivity).
  assert (P : forall x, owns (put v b (add_block k d w)) x -> (x = v /\ k <> KUser) \/ (x <> v /\ owns w x)).
  { intros x Hx. destruct (own_put _ _ _ _ Hx) as [[-> X]|X]; [left; split; [reflexivity|]; destruct k; cbn in X; destruct X; discriminate|right; exact X]. }
  assert (Q : forall x, owns w x -> s_ptr (w_var w x) <> Some (w_next w)).
  { intros x Hx E. destruct (B x Hx) as (id & z & E1 & E2 & _). apply A in E2. assert (id = w_next w) by congruence. lia. }
  constructor.
  - intros id z E. cbn [put add_block w_next]. change (blk id (put v b (add_block k d w))) with (blk id (add_block k d w)) in E. rewrite blk_add in E.
    destruct (blk id w) as [y|] eqn:Ey; [apply A in Ey; lia|]. destruct (w_next w =? id) eqn:En; [lia|discriminate].
  - intros x Hx. destruct (P x Hx) as [[-> Hk]|[nx Ho]].
    + rewrite put_same. exists (w_next w), (mkBl (w_next w) k d). split; [reflexivity|]. split; [exact Hnew|]. split; [|exact Hn].
      unfold kind_ok, b. cbn. destruct k; [split; reflexivity|split; [reflexivity|discriminate]|congruence].
    + rewrite (put_other _ _ _ _ nx). destruct (B x Ho) as (id & z & E1 & E2 & E3). exists id, z. split; [exact E1|]. split; [apply Hold, E2|exact E3].
  - intros x y Hx Hy E. destruct (P x Hx) as [[-> _]|[nx Ho]]; destruct (P y Hy) as [[-> _]|[ny Ho']]; [reflexivity| | |].
    + rewrite put_same, (put_other _ _ _ _ ny) in E. exfalso. apply (Q y Ho'). symmetry. exact E.
    + rewrite put_same, (put_other _ _ _ _ nx) in E. exfalso. apply (Q x Ho). exact E.
    + rewrite (put_other _ _ _ _ nx), (put_other _ _ _ _ ny) in E. apply C; assumption.
  - intros id z E Hk. change (blk id (put v b (add_block k d w))) with (blk id (add_block k d w)) in E. rewrite blk_add in E.
    destruct (blk id w) as [y|] eqn:Ey.
    + injection E as ->. destruct (D id z Ey Hk) as (x & Hx & Ex). exists x. assert (x <> v) by (intros ->; contradiction).
      split; [apply own_put_other; assumption|rewrite put_other; assumption].
    + destruct (w_next w =? id) eqn:En; [|discriminate]. injection E as <-. cbn [bl_kind] in Hk. exists v. unfold owns. rewrite put_same. unfold b. cbn.
      split; [destruct k; [left; reflexivity|right; reflexivity|congruence]|f_equal; lia].
Qed.

(** The owner's block goes. *)
Lemma wi_drop : forall w v id, WI w -> owns w v -> s_ptr (w_var w v) = Some id -> WI (put v s_empty (drop_block id w)).
Proof.
  intros w v id [A B C D] Hv Ev. assert (P : forall x, owns (put v s_empty (drop_block id w)) x -> x <> v /\ owns w x).
  { intros x Hx. destruct (own_put _ _ _ _ Hx) as [[_ [X|X]]|X]; [discriminate|discriminate|exact X]. }
  assert (Bk : forall j, blk j (put v s_empty (drop_block id w)) = if j =? id then None else blk j w) by (intro j; apply blk_drop).
  constructor.
  - intros j b E. rewrite Bk in E. destruct (j =? id); [discriminate|]. apply A in E. exact E.
  - intros x Hx. destruct (P x Hx) as [n Ho]. rewrite (put_other _ _ _ _ n). destruct (B x Ho) as (j & b & E1 & E2 & E3). exists j, b.
    change (w_var (drop_block id w) x) with (w_var w x). split; [exact E1|]. split; [|exact E3]. rewrite Bk.
    destruct (j =? id) eqn:E; [|exact E2]. exfalso. apply n. apply C; [exact Ho|exact Hv|]. rewrite E1, Ev. f_equal. lia.
  - intros x y Hx Hy. destruct (P x Hx) as [n Ho]. destruct (P y Hy) as [n' Ho']. rewrite (put_other _ _ _ _ n), (put_other _ _ _ _ n'). apply C; assumption.
  - intros j b E Hk. rewrite Bk in E. destruct (j =? id) eqn:Ej; [discriminate|]. destruct (D j b E Hk) as (x & Hx & Ex). exists x.
    assert (x <> v) by (intros ->; rewrite Ev in Ex; injection Ex as ->; lia). split; [apply own_put_other; assumption|rewrite put_other; assumption].
Qed.

Lemma wi_move : forall w src dst, WI w -> ~ owns w dst -> WI (b_move src dst w).
Proof.
  intros w src dst I Hd. destruct (N.eq_dec src dst) as [->|ne].
  - (* to itself: only if it owns nothing *)
    apply (wi_ext (put dst s_empty w)); try reflexivity.
    + intro x. unfold b_move. cbn [put w_var]. destruct (x =? dst); reflexivity.
    + apply wi_put; auto.
  - destruct I as [A B C D]. unfold b_move.
    assert (V1 : forall x, w_var (put src s_empty (put dst (w_var w src) w)) x = if x =? src then s_empty else if x =? dst then w_var w src else w_var w x) by reflexivity.
    assert (P : forall x, owns (put src s_empty (put dst (w_var w src) w)) x -> exists y, owns w y /\ w_var (put src s_empty (put dst (w_var w src) w)) x = w_var w y /\
       ((x = dst /\ y = src) \/ (x <> src /\ x <> dst /\ y = x))).
    { intros x Hx. unfold owns in Hx. rewrite V1 in Hx. destruct (x =? src) eqn:E1; [destruct Hx; discriminate|]. destruct (x =? dst) eqn:E2.
      - exists src. rewrite V1, E1, E2. split; [exact Hx|]. split; [reflexivity|]. left. split; [lia|reflexivity].
      - exists x. rewrite V1, E1, E2. split; [exact Hx|]. split; [reflexivity|]. right. split; [lia|]. split; [lia|reflexivity]. }
    constructor.
    + exact A.
    + intros x Hx. destruct (P x Hx) as (y & Y1 & Y2 & _). rewrite Y2. apply B, Y1.
    + intros x x' Hx Hx' E. destruct (P x Hx) as (y & Y1 & Y2 & Y3). destruct (P x' Hx') as (y' & Y1' & Y2' & Y3'). rewrite Y2, Y2' in E.
      assert (y = y') by (apply C; assumption). destruct Y3 as [[? ?]|(? & ? & ?)]; destruct Y3' as [[? ?]|(? & ? & ?)]; congruence.
    + intros id b E Hk. destruct (D id b E Hk) as (x & Hx & Ex). assert (x <> dst) by (intros ->; contradiction).
      destruct (N.eq_dec x src) as [->|n2].
      * exists dst. unfold owns. rewrite V1. replace (dst =? src) with false by lia. rewrite N.eqb_refl. auto.
      * exists x. unfold owns. rewrite V1. replace (x =? src) with false by lia. replace (x =? dst) with false by lia. auto.
Qed.

(** Memory of the caller goes. *)
Lemma wi_gone : forall w id b, WI w -> blk id w = Some b -> bl_kind b = KUser -> WI (drop_block id w).
Proof.
  intros w id b [A B C D] Eb Hk. constructor.
  - intros j z E. rewrite blk_drop in E. destruct (j =? id); [discriminate|]. apply A in E. exact E.
  - intros x Hx. destruct (B x Hx) as (j & z & E1 & E2 & E3 & E4). exists j, z. split; [exact E1|]. split; [|auto]. rewrite blk_drop.
    destruct (j =? id) eqn:E; [|exact E2]. exfalso. assert (j = id) by lia. subst j. assert (z = b) by congruence. subst z.
    destruct E3 as [E3 _]. rewrite Hk in E3. destruct (s_free (w_var w x)); discriminate.
  - exact C.
  - intros j z E Hz. rewrite blk_drop in E. destruct (j =? id); [discriminate|]. apply (D j z E Hz).
Qed.

(** The bytes of a block change; the owner's size may change with them. *)
Lemma wi_data : forall w v id b d n, WI w -> blk id w = Some b -> (forall x, owns w x -> s_ptr (w_var w x) = Some id -> x = v) ->
  (owns w v -> s_ptr (w_var w v) = Some id -> n <= N.of_nat (length d)) ->
  (s_ptr (w_var w v) <> Some id \/ ~ owns w v -> n = s_size (w_var w v)) ->
  WI (put v (mkS (s_free (w_var w v)) (s_del (w_var w v)) n (s_ptr (w_var w v))) (set_data id d w)).
Proof.
  intros w v id b d n [A B C D] Eb Hown Hn Hn2. set (s := mkS _ _ n _).
  assert (Bk : forall j, blk j (put v s (set_data id d w)) = if j =? id then Some (mkBl id (bl_kind b) d) else blk j w).
  { intro j. change (blk j (put v s (set_data id d w))) with (blk j (set_data id d w)). rewrite blk_set_data, Eb. reflexivity. }
  assert (F : forall x, s_free (w_var (put v s (set_data id d w)) x) = s_free (w_var w x) /\ s_del (w_var (put v s (set_data id d w)) x) = s_del (w_var w x) /\
     s_ptr (w_var (put v s (set_data id d w)) x) = s_ptr (w_var w x)).
  { intro x. destruct (N.eq_dec x v) as [->|e]; [rewrite put_same; auto|rewrite put_other by exact e; auto]. }
  assert (O : forall x, owns (put v s (set_data id d w)) x <-> owns w x).
  { intro x. unfold owns. destruct (F x) as (-> & -> & _). tauto. }
  constructor.
  - intros j z E. rewrite Bk in E. destruct (j =? id) eqn:Ej; [apply A in Eb; cbn [put set_data w_next]; lia|]. apply A in E. exact E.
  - intros x Hx. apply O in Hx. destruct (B x Hx) as (j & z & E1 & E2 & E3 & E4). destruct (F x) as (F1 & F2 & F3).
    unfold kind_ok. rewrite F1, F2, F3. destruct (j =? id) eqn:Ej.
    + assert (j = id) by lia. subst j. assert (z = b) by congruence. subst z. assert (x = v) by (apply Hown; assumption). subst x.
      exists id, (mkBl id (bl_kind b) d). split; [exact E1|]. split; [rewrite Bk, N.eqb_refl; reflexivity|]. split; [exact E3|]. rewrite put_same. cbn. auto.
    + exists j, z. split; [exact E1|]. split; [rewrite Bk, Ej; exact E2|]. split; [exact E3|].
      destruct (N.eq_dec x v) as [->|e]; [|rewrite put_other by exact e; exact E4]. rewrite put_same. cbn [s s_size]. rewrite Hn2; [exact E4|].
      left. rewrite E1. intros Z. injection Z as Z. lia.
  - intros x y Hx Hy. destruct (F x) as (_ & _ & ->). destruct (F y) as (_ & _ & ->). apply C; apply O; assumption.
  - intros j z E Hz. rewrite Bk in E. assert (Q : exists z', blk j w = Some z' /\ bl_kind z' = bl_kind z).
    { destruct (j =? id) eqn:Ej; [|eauto]. injection E as <-. exists b. split; [|reflexivity]. replace j with id by lia. exact Eb. }
    destruct Q as (z' & E' & Ek). rewrite <- Ek in Hz. destruct (D j z' E' Hz) as (x & Hx & Ex). exists x. destruct (F x) as (_ & _ & ->). split; [apply O; exact Hx|exact Ex].
Qed.

Lemma wi_free : forall w v, WI w -> exists w', b_free v w = Some w' /\ WI w' /\ ~ owns w' v.
Proof.
  intros w v I. unfold b_free. destruct (s_free (w_var w v)) eqn:Ef.
  - assert (Ho : owns w v) by (left; exact Ef). destruct (wi_own w I v Ho) as (id & b & E1 & E2 & E3 & _). destruct E3 as [E3 _]. rewrite Ef in E3.
    rewrite E1. cbn [release]. rewrite E2, E3. exists (b_clear v (drop_block id w)). split; [reflexivity|]. split; [apply wi_drop; assumption|].
    unfold owns, b_clear. rewrite put_same. cbn. intros [X|X]; discriminate.
  - destruct (s_del (w_var w v)) eqn:Ed.
    + assert (Ho : owns w v) by (right; exact Ed). destruct (wi_own w I v Ho) as (id & b & E1 & E2 & E3 & _). destruct E3 as [E3 _]. rewrite Ef in E3.
      rewrite E1. cbn [release]. rewrite E2, E3. exists (b_clear v (drop_block id w)). split; [reflexivity|]. split; [apply wi_drop; assumption|].
      unfold owns, b_clear. rewrite put_same. cbn. intros [X|X]; discriminate.
    + exists w. split; [reflexivity|]. split; [exact I|]. unfold owns. rewrite Ef, Ed. intros [X|X]; discriminate.
Qed.

Lemma firstn_all_len : forall (n : nat) (l : list N), (n <= length l)%nat -> length (firstn n l) = n.
Proof. intros n l H. rewrite firstn_length. lia. Qed.

Lemma wi_resize : forall w v n moves fill, WI w -> n <> 0 -> exists w', b_resize v n moves fill w = Some w' /\ WI w' /\ (owns w' v <-> owns w v).
Proof.
  intros w v n moves fill I Hn. unfold b_resize. destruct (s_free (w_var w v)) eqn:Ef; cbn [negb]; [|exists w; split; [reflexivity|]; split; [exact I|tauto]].
  assert (Ho : owns w v) by (left; exact Ef). destruct (wi_own w I v Ho) as (id & b & E1 & E2 & E3 & E4). destruct E3 as [E3 Edel]. specialize (Edel Ef). rewrite Ef in E3.
  rewrite E1, E2, E3. replace (n =? 0) with false by lia.
  set (d := firstn (N.to_nat n) (bl_data b ++ fill ++ repeat 0 (N.to_nat n))).
  assert (Hd : cut32 n <= N.of_nat (length d)).
  { unfold d. rewrite firstn_all_len; [rewrite N2Nat.id; apply cut32_le|]. rewrite !app_length, repeat_length. lia. }
  destruct moves.
  - eexists. split; [reflexivity|]. split.
    + assert (I1 := wi_drop w v id I Ho E1).
      assert (I2 := wi_give _ v KMalloc d (cut32 n) I1 ltac:(unfold owns; rewrite put_same; cbn; intros [X|X]; discriminate) Hd).
      (* the deletion flag is not set: the block is of one kind *)
      eapply wi_ext; [| | |exact I2]; try reflexivity.
      intro x. cbn [put add_block drop_block w_var w_next]. destruct (x =? v) eqn:Ex; [|reflexivity].
      rewrite Edel. reflexivity.
    + unfold owns. rewrite put_same. cbn. rewrite Ef. tauto.
  - eexists. split; [reflexivity|]. split.
    + rewrite <- E1. rewrite <- Ef. apply (wi_data w v id b d (cut32 n) I E2); auto.
      * intros x Hx Ex. apply (wi_one w I x v Hx Ho). congruence.
      * intros [X|X]; [congruence|contradiction].
    + unfold owns. rewrite put_same. cbn. rewrite Ef. tauto.
Qed.

(** ** Sizes are 32-bit numbers *)
Definition small (w : world) : Prop := forall v, s_size (w_var w v) < 2 ^ 32.
Lemma cut32_lt : forall s, cut32 s < 2 ^ 32.
Proof. intro s. apply N.mod_lt. discriminate. Qed.
Lemma cut32_small : forall s, s < 2 ^ 32 -> cut32 s = s.
Proof. intros s H. apply N.mod_small. exact H. Qed.
Lemma small_put : forall v b w, s_size b < 2 ^ 32 -> small w -> small (put v b w).
Proof. intros v b w H I x. cbn [put w_var]. destruct (x =? v); [exact H|apply I]. Qed.
Lemma small_var : forall w w', w_var w' = w_var w -> small w -> small w'.
Proof. intros w w' E I x. rewrite E. apply I. Qed.
Lemma small_empty : s_size s_empty < 2 ^ 32.
Proof. reflexivity. Qed.

Lemma small_alloc : forall v s d w w', small w -> b_alloc v s d w = Some w' -> small w'.
Proof.
  intros v s d w w' I E. unfold b_alloc in E. destruct (s =? 0); [injection E as <-; apply small_put; [apply small_empty|exact I]|].
  destruct (match d with Some p => _ | None => _ end); [|discriminate]. injection E as <-.
  apply small_put; [apply cut32_lt|]. apply (small_var (b_clear v w)); [reflexivity|]. apply small_put; [apply small_empty|exact I].
Qed.

Lemma small_release : forall k p w w', release k p w = Some w' -> w_var w' = w_var w.
Proof.
  intros k p w w' E. unfold release in E. destruct p as [id|]; [|injection E as <-; reflexivity].
  destruct (blk id w) as [b|]; [|discriminate]. destruct (bl_kind b), k; try discriminate; injection E as <-; reflexivity.
Qed.

Lemma small_step : forall o w w', small w -> bstep o w = Some w' -> small w'.
Proof.
  intros o w w' I E. destruct o; cbn [bstep] in E.
  - injection E as <-. apply small_put; [apply cut32_lt|exact I].
  - destruct (blk id w) as [b|]; [|discriminate]. destruct (bl_kind b); try discriminate. injection E as <-. exact I.
  - injection E as <-. apply small_put; [apply cut32_lt|exact I].
  - eapply small_alloc; eassumption.
  - injection E as <-. apply small_put; [apply I|exact I].
  - injection E as <-. unfold b_set_buf, b_set. apply small_put; [cbn [s_size]; rewrite put_same; apply cut32_lt|]. apply small_put; [apply cut32_lt|exact I].
  - injection E as <-. apply small_put; [apply small_empty|]. apply small_put; [apply I|exact I].
  - eapply small_alloc; eassumption.
  - injection E as <-. apply small_put; [apply I|exact I].
  - unfold b_free in E. destruct (s_free (w_var w v)).
    + destruct (release KMalloc (s_ptr (w_var w v)) w) as [w1|] eqn:Er; [|discriminate]. injection E as <-.
      apply small_put; [apply small_empty|]. eapply small_var; [eapply small_release; exact Er|exact I].
    + destruct (s_del (w_var w v)); [|injection E as <-; exact I].
      destruct (release KNew (s_ptr (w_var w v)) w) as [w1|] eqn:Er; [|discriminate]. injection E as <-.
      apply small_put; [apply small_empty|]. eapply small_var; [eapply small_release; exact Er|exact I].
  - unfold b_resize in E. destruct (negb (s_free (w_var w v))); [injection E as <-; exact I|].
    destruct (s_ptr (w_var w v)) as [id|].
    + destruct (blk id w) as [b|]; [|discriminate]. destruct (bl_kind b); try discriminate. destruct (n =? 0); [injection E as <-; exact I|].
      destruct moves; injection E as <-; (apply small_put; [apply cut32_lt|exact I]).
    + injection E as <-. apply small_put; [apply cut32_lt|exact I].
  - injection E as <-. apply small_put; [apply small_empty|exact I].
  - injection E as <-. apply small_put; [apply I|exact I].
  - injection E as <-. apply small_put; [apply I|exact I].
  - unfold b_poke in E. destruct (s_ptr (w_var w v)) as [id|]; [|discriminate]. destruct (blk id w) as [b|]; [|discriminate].
    destruct (i <? N.of_nat (length (bl_data b))); [|discriminate]. injection E as <-. exact I.
Qed.

(** ** Every careful step works and keeps the invariant *)
Lemma peek_len : forall p n w l, peek p n w = Some l -> N.of_nat (length l) = n.
Proof.
  intros p n w l E. unfold peek in E. destruct (blk p w) as [b|]; [|discriminate]. destruct (n <=? _) eqn:H; [|discriminate]. injection E as <-.
  rewrite firstn_length. lia.
Qed.

Lemma wi_alloc : forall w v s d, WI w -> ~ owns w v -> (forall p, d = Some p -> s <> 0 -> peek p (cut32 s) w <> None) ->
  exists w', b_alloc v s d w = Some w' /\ WI w'.
Proof.
  intros w v s d I Hv Hp. unfold b_alloc. destruct (s =? 0) eqn:E0; [eexists; split; [reflexivity|apply wi_put; auto]|].
  assert (Q : exists bytes, (match d with Some p => peek p (cut32 s) w | None => Some (repeat 0 (N.to_nat (cut32 s))) end) = Some bytes /\ N.of_nat (length bytes) = cut32 s).
  { destruct d as [p|].
    - destruct (peek p (cut32 s) w) as [l|] eqn:E; [exists l; split; [reflexivity|eapply peek_len; exact E]|]. exfalso. apply (Hp p eq_refl); [lia|exact E].
    - eexists. split; [reflexivity|]. rewrite repeat_length. lia. }
  destruct Q as (bytes & -> & L). eexists. split; [reflexivity|].
  assert (I1 : WI (b_clear v w)) by (apply wi_put; auto).
  apply (wi_give (b_clear v w) v KMalloc bytes (cut32 s) I1); [|lia]. unfold owns, b_clear. rewrite put_same. cbn. intros [X|X]; discriminate.
Qed.

Lemma bytes_peek : forall w v, small w -> bytes_of w v <> None -> forall p, s_ptr (w_var w v) = Some p -> s_size (w_var w v) <> 0 ->
  peek p (cut32 (s_size (w_var w v))) w <> None.
Proof.
  intros w v S H p E Hs. unfold bytes_of in H. rewrite cut32_small by apply S. replace (s_size (w_var w v) =? 0) with false in H by lia. rewrite E in H. exact H.
Qed.

Lemma wi_put_own : forall w v b, WI w -> ~ owns w v -> ~ (s_free b = true \/ s_del b = true) -> WI (put v b w).
Proof.
  intros w v b I Hv Hb. apply wi_put; [exact I|exact Hv| |]; [destruct (s_free b) eqn:E|destruct (s_del b) eqn:E]; try reflexivity; exfalso; apply Hb; auto.
Qed.

Lemma kind_eq_user : forall b, bl_kind b = KUser \/ bl_kind b <> KUser.
Proof. intro b. destruct (bl_kind b); [right; discriminate|right; discriminate|left; reflexivity]. Qed.
Lemma wi_poke : forall w v id b d, WI w -> s_ptr (w_var w v) = Some id -> blk id w = Some b -> length d = length (bl_data b) -> WI (set_data id d w).
Proof.
  intros w v id b d I Ev Eb L. destruct (kind_eq_user b) as [Hk|Hk].
  - destruct I as [A B C D]. constructor.
    + intros j z E. rewrite blk_set_data, Eb in E. destruct (j =? id) eqn:Ej; [apply A in Eb; cbn [set_data w_next]; lia|]. apply A in E. exact E.
    + intros x Hx. destruct (B x Hx) as (j & z & E1 & E2 & E3 & E4). exists j, z. split; [exact E1|]. split; [|auto]. rewrite blk_set_data.
      destruct (j =? id) eqn:Ej; [|exact E2]. exfalso. assert (j = id) by lia. subst j. assert (z = b) by congruence. subst z.
      destruct E3 as [E3 _]. rewrite Hk in E3. destruct (s_free (w_var w x)); discriminate.
    + exact C.
    + intros j z E Hz. rewrite blk_set_data, Eb in E. destruct (j =? id) eqn:Ej; [injection E as <-; cbn in Hz; contradiction|]. apply (D j z E Hz).
  - destruct (wi_leak w I id b Eb Hk) as (x & Hx & Ex). destruct (wi_own w I x Hx) as (j & z & E1 & E2 & E3 & E4).
    assert (j = id) by congruence. subst j. assert (z = b) by congruence. subst z.
    apply (wi_ext (put x (mkS (s_free (w_var w x)) (s_del (w_var w x)) (s_size (w_var w x)) (s_ptr (w_var w x))) (set_data id d w))); try reflexivity.
    + intro y. cbn [put set_data w_var]. destruct (y =? x) eqn:Ey; [|reflexivity]. replace y with x by lia. destruct (w_var w x); reflexivity.
    + apply (wi_data w x id b d); auto.
      * intros y Hy Ey. apply (wi_one w I y x Hy Hx). congruence.
      * intros _ _. rewrite L. exact E4.
Qed.

Lemma upd_len : forall i x l, length (upd_nth i x l) = length l.
Proof. intros i x l. revert i. induction l as [|y l IH]; intros [|i]; cbn; auto. Qed.

Lemma step_ok : forall o w, WI w -> small w -> careful o w -> exists w', bstep o w = Some w' /\ WI w'.
Proof.
  intros o w I S H. destruct o; cbn [bstep careful] in *.
  - eexists. split; [reflexivity|]. apply wi_give; [exact I|exact H|apply cut32_le].
  - destruct H as (b & Eb & Hk). rewrite Eb, Hk. eexists. split; [reflexivity|]. eapply wi_gone; eassumption.
  - eexists. split; [reflexivity|]. apply wi_put; auto.
  - destruct H as [H1 H2]. apply wi_alloc; assumption.
  - destruct H as [H1 H2]. eexists. split; [reflexivity|]. apply wi_put_own; [exact I|exact H1|exact H2].
  - destruct H as [H1 H2]. eexists. split; [reflexivity|]. unfold b_set_buf, b_set.
    assert (O : ~ owns (put v (mkS false false (cut32 (s_size (w_var w src))) (s_ptr (w_var w src))) w) v) by (unfold owns; rewrite put_same; cbn; intros [X|X]; discriminate).
    apply wi_put_own; [apply wi_put; auto|exact O|]. cbn [s_free s_del]. destruct (N.eq_dec src v) as [->|n]; [exact O|]. rewrite (put_other _ _ _ _ n). exact H2.
  - eexists. split; [reflexivity|]. apply wi_move; assumption.
  - destruct H as [H1 H2]. apply wi_alloc; [exact I|exact H1|]. intros p Ep Hs. apply bytes_peek; auto.
  - eexists. split; [reflexivity|]. apply wi_put; auto.
  - destruct (wi_free w v I) as (w' & E & I' & _). eauto.
  - destruct (wi_resize w v n moves fill I H) as (w' & E & I' & _). eauto.
  - eexists. split; [reflexivity|]. apply wi_put; auto.
  - contradiction.
  - contradiction.
  - destruct H as (id & b & E1 & E2 & H). unfold b_poke. rewrite E1, E2. replace (i <? _) with true by lia. eexists. split; [reflexivity|].
    eapply wi_poke; [exact I|exact E1|exact E2|apply upd_len].
Qed.

Lemma breach_wi : forall w, breach w -> WI w /\ small w.
Proof.
  induction 1 as [|w o w' H [I S] Hc E]; [split; [apply wi_new|intro v; reflexivity]|].
  destruct (step_ok o w I S Hc) as (w1 & E1 & I1). assert (w1 = w') by congruence. subst w1. split; [exact I1|eapply small_step; eassumption].
Qed.

(** ** What one buffer's calls do to the others *)
Lemma bytes_same : forall w w' v, w_var w' v = w_var w v -> (forall p, s_ptr (w_var w v) = Some p -> s_size (w_var w v) <> 0 -> blk p w' = blk p w) ->
  bytes_of w' v = bytes_of w v.
Proof.
  intros w w' v Ev Eb. unfold bytes_of, peek. rewrite Ev. destruct (s_size (w_var w v) =? 0) eqn:Es; [reflexivity|].
  destruct (s_ptr (w_var w v)) as [p|]; [|reflexivity]. rewrite (Eb p eq_refl) by lia. reflexivity.
Qed.

Lemma alloc_frame : forall v s d w w' x, b_alloc v s d w = Some w' -> x <> v -> w_var w' x = w_var w x /\
  forall p b, blk p w = Some b -> blk p w' = Some b.
Proof.
  intros v s d w w' x E n. unfold b_alloc in E. destruct (s =? 0).
  - injection E as <-. split; [apply put_other, n|auto].
  - destruct (match d with Some p => _ | None => _ end) as [l|]; [|discriminate]. injection E as <-. split.
    + rewrite put_other by exact n. cbn [add_block w_var]. apply put_other, n.
    + intros p b Eb. change (blk p (put v (mkS true false (cut32 s) (Some (w_next w))) (add_block KMalloc l (b_clear v w)))) with (blk p (add_block KMalloc l (b_clear v w))).
      rewrite blk_add. change (blk p (b_clear v w)) with (blk p w). rewrite Eb. reflexivity.
Qed.

Lemma release_frame : forall k p w w' x q b, WI w -> owns w x -> s_ptr (w_var w x) = p -> release k p w = Some w' -> Some q <> p -> blk q w = Some b -> blk q w' = Some b.
Proof.
  intros k p w w' x q b I Hx Ex E n Eb. unfold release in E. destruct p as [id|]; [|injection E as <-; exact Eb].
  destruct (blk id w) as [z|]; [|discriminate]. destruct (bl_kind z), k; try discriminate; injection E as <-; rewrite blk_drop;
    (destruct (q =? id) eqn:Eq; [exfalso; apply n; f_equal; lia|exact Eb]).
Qed.

(** A buffer the call does not touch stays as it is, and so does the memory it owns. *)
Lemma frame_var : forall o w w' v, bstep o w = Some w' -> ~ touches o w v -> w_var w' v = w_var w v.
Proof.
  intros o w w' v E T. destruct o; cbn [bstep touches] in *.
  - injection E as <-. rewrite put_other by congruence. reflexivity.
  - destruct (blk id w) as [b|]; [|discriminate]. destruct (bl_kind b); try discriminate. injection E as <-. reflexivity.
  - injection E as <-. apply put_other. congruence.
  - eapply alloc_frame; [exact E|congruence].
  - injection E as <-. apply put_other. congruence.
  - injection E as <-. unfold b_set_buf, b_set. rewrite !put_other by congruence. reflexivity.
  - injection E as <-. unfold b_move. rewrite !put_other by tauto || (intros ->; tauto). reflexivity.
  - eapply alloc_frame; [exact E|congruence].
  - injection E as <-. apply put_other. congruence.
  - unfold b_free in E. destruct (s_free (w_var w v0)).
    + destruct (release KMalloc (s_ptr (w_var w v0)) w) as [w1|] eqn:Er; [|discriminate]. injection E as <-.
      unfold b_clear. rewrite put_other by congruence. rewrite (small_release _ _ _ _ Er). reflexivity.
    + destruct (s_del (w_var w v0)); [|injection E as <-; reflexivity].
      destruct (release KNew (s_ptr (w_var w v0)) w) as [w1|] eqn:Er; [|discriminate]. injection E as <-.
      unfold b_clear. rewrite put_other by congruence. rewrite (small_release _ _ _ _ Er). reflexivity.
  - unfold b_resize in E. destruct (negb (s_free (w_var w v0))); [injection E as <-; reflexivity|].
    destruct (s_ptr (w_var w v0)) as [id|].
    + destruct (blk id w) as [b|]; [|discriminate]. destruct (bl_kind b); try discriminate. destruct (n =? 0); [injection E as <-; reflexivity|].
      destruct moves; injection E as <-; rewrite put_other by congruence; reflexivity.
    + injection E as <-. rewrite put_other by congruence; reflexivity.
  - injection E as <-. apply put_other. congruence.
  - injection E as <-. apply put_other. congruence.
  - injection E as <-. apply put_other. congruence.
  - unfold b_poke in E. destruct (s_ptr (w_var w v0)) as [id|]; [|discriminate]. destruct (blk id w) as [b|]; [|discriminate].
    destruct (i <? N.of_nat (length (bl_data b))); [|discriminate]. injection E as <-. reflexivity.
Qed.

Lemma frame_blk : forall o w w' v p b, WI w -> careful o w -> bstep o w = Some w' -> ~ touches o w v -> owns w v -> s_ptr (w_var w v) = Some p ->
  blk p w = Some b -> blk p w' = Some b.
Proof.
  intros o w w' v p b I Hc E T Ho Ep Eb. 
  assert (A : forall k d, blk p (add_block k d w) = Some b) by (intros k d; rewrite blk_add, Eb; reflexivity).
  assert (Other : forall x, x <> v -> owns w x -> s_ptr (w_var w x) <> Some p).
  { intros x n Hx Ex. apply n. apply (wi_one w I x v Hx Ho). congruence. }
  destruct o; cbn [bstep touches careful] in *.
  - injection E as <-. apply A.
  - destruct Hc as (z & Ez & Hk). rewrite Ez, Hk in E. injection E as <-. rewrite blk_drop. destruct (p =? id) eqn:Eq; [|exact Eb].
    exfalso. assert (p = id) by lia. subst p. assert (z = b) by congruence. subst z. destruct (wi_own w I v Ho) as (j & z & E1 & E2 & [E3 _] & _).
    assert (z = b) by congruence. subst z. rewrite Hk in E3. destruct (s_free (w_var w v)); discriminate.
  - injection E as <-. exact Eb.
  - destruct (alloc_frame _ _ _ _ _ v E) as [_ F]; [congruence|]. apply F, Eb.
  - injection E as <-. exact Eb.
  - injection E as <-. exact Eb.
  - injection E as <-. exact Eb.
  - destruct (alloc_frame _ _ _ _ _ v E) as [_ F]; [congruence|]. apply F, Eb.
  - injection E as <-. exact Eb.
  - unfold b_free in E. destruct (s_free (w_var w v0)) eqn:Ef.
    + assert (Hx : owns w v0) by (left; exact Ef).
      destruct (release KMalloc (s_ptr (w_var w v0)) w) as [w1|] eqn:Er; [|discriminate]. injection E as <-.
      change (blk p (b_clear v0 w1)) with (blk p w1). eapply release_frame; [exact I|exact Hx|reflexivity|exact Er| |exact Eb]. intro Z. apply (Other v0); auto.
    + destruct (s_del (w_var w v0)) eqn:Ed; [|injection E as <-; exact Eb]. assert (Hx : owns w v0) by (right; exact Ed).
      destruct (release KNew (s_ptr (w_var w v0)) w) as [w1|] eqn:Er; [|discriminate]. injection E as <-.
      change (blk p (b_clear v0 w1)) with (blk p w1). eapply release_frame; [exact I|exact Hx|reflexivity|exact Er| |exact Eb]. intro Z. apply (Other v0); auto.
  - unfold b_resize in E. destruct (s_free (w_var w v0)) eqn:Ef; cbn [negb] in E; [|injection E as <-; exact Eb].
    assert (Hx : owns w v0) by (left; exact Ef). assert (Z := Other v0 T Hx).
    destruct (s_ptr (w_var w v0)) as [id|].
    + destruct (blk id w) as [z|]; [|discriminate]. destruct (bl_kind z); try discriminate. replace (n =? 0) with false in E by lia.
      assert (p =? id = false) by (destruct (p =? id) eqn:Q; [exfalso; apply Z; f_equal; lia|reflexivity]).
      destruct moves; injection E as <-.
      * match goal with |- blk p (put ?a ?b ?c) = _ => change (blk p (put a b c)) with (blk p c) end. rewrite blk_add, blk_drop. rewrite H, Eb. reflexivity.
      * match goal with |- blk p (put ?a ?b ?c) = _ => change (blk p (put a b c)) with (blk p c) end. rewrite blk_set_data, H. exact Eb.
    + injection E as <-. apply A.
  - injection E as <-. exact Eb.
  - contradiction.
  - contradiction.
  - unfold b_poke in E. destruct (s_ptr (w_var w v0)) as [id|]; [|discriminate]. destruct (blk id w) as [z|]; [|discriminate].
    destruct (i <? N.of_nat (length (bl_data z))); [|discriminate]. injection E as <-. rewrite blk_set_data.
    destruct (p =? id) eqn:Q; [exfalso; apply T; rewrite Ep; f_equal; lia|exact Eb].
Qed.

Lemma frame_step : forall o w w' v, WI w -> careful o w -> bstep o w = Some w' -> ~ touches o w v -> owns w v \/ s_size (w_var w v) = 0 ->
  w_var w' v = w_var w v /\ bytes_of w' v = bytes_of w v.
Proof.
  intros o w w' v I Hc E T Ho. assert (F := frame_var o w w' v E T). split; [exact F|]. apply bytes_same; [exact F|].
  intros p Ep Hs. destruct Ho as [Ho|Ho]; [|contradiction]. destruct (wi_own w I v Ho) as (j & b & E1 & E2 & _). assert (j = p) by congruence. subst j.
  rewrite E2. eapply frame_blk; eassumption.
Qed.

Lemma rest_frame : forall v w w', brest v w w' -> WI w -> small w -> owns w v \/ s_size (w_var w v) = 0 ->
  w_var w' v = w_var w v /\ bytes_of w' v = bytes_of w v.
Proof.
  intros v w w' H. induction H as [w|w o w1 w2 Hc T E H IH]; intros I S Ho; [auto|].
  destruct (frame_step o w w1 v I Hc E T Ho) as [F1 F2]. destruct (step_ok o w I S Hc) as (wx & Ex & Ix). assert (wx = w1) by congruence. subst wx.
  destruct (IH Ix (small_step _ _ _ S E)) as [G1 G2].
  - unfold owns. rewrite F1. exact Ho.
  - split; congruence.
Qed.

Lemma rest_reach : forall v w w', brest v w w' -> breach w -> breach w'.
Proof. intros v w w' H. induction H as [w|w o w1 w2 Hc T E H IH]; intro R; [exact R|]. apply IH. econstructor; eassumption. Qed.

(** ** Copies *)
Lemma peek_add : forall p n k d w l, peek p n w = Some l -> peek p n (add_block k d w) = Some l.
Proof. intros p n k d w l E. unfold peek in *. rewrite blk_add. destruct (blk p w); [exact E|discriminate]. Qed.

Lemma copy_bytes : forall w src dst w', WI w -> small w -> bytes_of w src <> None -> bstep (BCopy src dst) w = Some w' ->
  bytes_of w' dst = bytes_of w src /\ (owns w' dst \/ s_size (w_var w' dst) = 0).
Proof.
  intros w src dst w' I S Hb E. cbn [bstep] in E. unfold b_copy, b_alloc in E. unfold bytes_of in Hb |- *. 
  destruct (s_size (w_var w src) =? 0) eqn:E0.
  - injection E as <-. unfold b_clear. rewrite put_same. auto.
  - rewrite cut32_small in E by apply S. destruct (s_ptr (w_var w src)) as [p|]; [|contradiction].
    destruct (peek p (s_size (w_var w src)) w) as [l|] eqn:El; [|contradiction]. injection E as <-. unfold owns. rewrite !put_same. cbn [s_size s_ptr s_free].
    rewrite E0. split; [|auto]. unfold peek.
    match goal with |- context [blk _ (put ?a ?b ?c)] => change (blk (w_next w) (put a b c)) with (blk (w_next w) c) end.
    rewrite blk_add. change (blk (w_next w) (b_clear dst w)) with (blk (w_next w) w).
    destruct (blk (w_next w) w) as [z|] eqn:Ez; [apply (wi_lt w I) in Ez; lia|]. cbn [b_clear put w_next]. rewrite N.eqb_refl. cbn [bl_data].
    assert (L := peek_len _ _ _ _ El). replace (s_size (w_var w src) <=? N.of_nat (length l)) with true by lia.
    rewrite firstn_all2 by lia. reflexivity.
Qed.

(** Writing into the copy does not change the source. *)
Lemma copy_source : forall w src dst w1 i x w2, WI w -> bytes_of w src <> None -> src <> dst -> bstep (BCopy src dst) w = Some w1 ->
  bstep (BPoke dst i x) w1 = Some w2 -> bytes_of w2 src = bytes_of w src.
Proof.
  intros w src dst w1 i x w2 I Hb n E E2. assert (F := alloc_frame _ _ _ _ _ src E n). destruct F as [F1 F2].
  cbn [bstep] in E, E2. unfold b_poke in E2. destruct (s_ptr (w_var w1 dst)) as [id|] eqn:Ed; [|discriminate]. destruct (blk id w1) as [z|] eqn:Ez; [|discriminate].
  destruct (i <? N.of_nat (length (bl_data z))); [|discriminate]. injection E2 as <-. apply bytes_same; [exact F1|].
  intros p Ep Hs. unfold bytes_of, peek in Hb. replace (s_size (w_var w src) =? 0) with false in Hb by lia. rewrite Ep in Hb.
  destruct (blk p w) as [y|] eqn:Ey; [|contradiction]. rewrite blk_set_data. destruct (p =? id) eqn:Q; [|apply F2, Ey].
  exfalso. apply (wi_lt w I) in Ey. unfold b_copy, b_alloc in E. replace (s_size (w_var w src) =? 0) with false in E by lia.
  destruct (match s_ptr (w_var w src) with Some p => _ | None => _ end) as [l|]; [|discriminate]. injection E as <-. rewrite put_same in Ed. cbn in Ed.
  injection Ed as <-. lia.
Qed.

(** ** Records *)
Lemma copy_shape : forall w src dst w', WI w -> small w -> bstep (BCopy src dst) w = Some w' ->
  (forall x, x <> dst -> w_var w' x = w_var w x) /\
  ((w_var w' dst = s_empty /\ forall q, blk q w' = blk q w) \/
   (exists p n d, w_var w' dst = mkS true false n (Some p) /\ blk p w = None /\ forall q, blk q w' = if q =? p then Some (mkBl p KMalloc d) else blk q w)).
Proof.
  intros w src dst w' I S E. split; [intros x n; exact (proj1 (alloc_frame _ _ _ _ _ x E n))|].
  cbn [bstep] in E. unfold b_copy, b_alloc in E. destruct (s_size (w_var w src) =? 0); [injection E as <-; left; split; [apply put_same|reflexivity]|].
  destruct (match s_ptr (w_var w src) with Some p => _ | None => _ end) as [l|]; [|discriminate]. injection E as <-.
  assert (Z : blk (w_next w) w = None) by (destruct (blk (w_next w) w) as [z|] eqn:Ez; [apply (wi_lt w I) in Ez; lia|reflexivity]).
  right. exists (w_next w), (cut32 (s_size (w_var w src))), l. split; [apply put_same|]. split; [exact Z|]. intro q.
  match goal with |- blk q (put ?a ?b ?c) = _ => change (blk q (put a b c)) with (blk q c) end. rewrite blk_add.
  change (blk q (b_clear dst w)) with (blk q w). change (w_next (b_clear dst w)) with (w_next w).
  destruct (q =? w_next w) eqn:Q.
  - replace q with (w_next w) by lia. rewrite Z, N.eqb_refl. reflexivity.
  - destruct (blk q w); [reflexivity|]. replace (w_next w =? q) with false by lia. reflexivity.
Qed.

Lemma free_shape_empty : forall w v, w_var w v = s_empty -> b_free v w = Some w.
Proof. intros w v E. unfold b_free. rewrite E. reflexivity. Qed.
Lemma free_shape : forall w v n p d, w_var w v = mkS true false n (Some p) -> blk p w = Some (mkBl p KMalloc d) ->
  exists w', b_free v w = Some w' /\ (forall x, x <> v -> w_var w' x = w_var w x) /\ forall q, blk q w' = if q =? p then None else blk q w.
Proof.
  intros w v n p d E Eb. unfold b_free. rewrite E. cbn [s_free s_ptr release]. rewrite Eb. cbn [bl_kind]. eexists. split; [reflexivity|]. split.
  - intros x nx. unfold b_clear. rewrite put_other by exact nx. reflexivity.
  - intro q. change (blk q (b_clear v (drop_block p w))) with (blk q (drop_block p w)). apply blk_drop.
Qed.

Lemma copy_free : forall w v (f g : N -> option block),
  (w_var w v = s_empty /\ forall q, f q = g q) \/
  (exists p n d, w_var w v = mkS true false n (Some p) /\ g p = None /\ forall q, f q = if q =? p then Some (mkBl p KMalloc d) else g q) ->
  (forall q, blk q w = f q) ->
  exists w1, b_free v w = Some w1 /\ (forall x, x <> v -> w_var w1 x = w_var w x) /\ forall q, blk q w1 = g q.
Proof.
  intros w v f g H Ef. destruct H as [[E H]|(p & n & d & E & Eg & H)].
  - exists w. split; [apply free_shape_empty, E|]. split; [reflexivity|]. intro q. rewrite Ef. apply H.
  - destruct (free_shape w v n p d E) as (w1 & E1 & V1 & B1); [rewrite Ef, H, N.eqb_refl; reflexivity|]. exists w1. split; [exact E1|]. split; [exact V1|].
    intro q. rewrite B1, Ef, H. destruct (q =? p) eqn:Q; [replace q with p by lia; auto|reflexivity].
Qed.

Lemma own_var : forall w w' v, w_var w' v = w_var w v -> owns w' v <-> owns w v.
Proof. intros w w' v E. unfold owns. rewrite E. tauto. Qed.

(** A copy to one buffer leaves the bytes of another alone. *)
Lemma copy_others : forall w src dst w' x, WI w -> small w -> bstep (BCopy src dst) w = Some w' -> x <> dst -> bytes_of w x <> None -> bytes_of w' x = bytes_of w x.
Proof.
  intros w src dst w' x I S E n Hb. destruct (alloc_frame _ _ _ _ _ x E n) as [F1 F2]. apply bytes_same; [exact F1|]. intros p Ep Hs.
  unfold bytes_of, peek in Hb. replace (s_size (w_var w x) =? 0) with false in Hb by lia. rewrite Ep in Hb. destruct (blk p w) as [b|] eqn:Eb; [|contradiction].
  apply F2, Eb.
Qed.

Lemma clone_ok : forall w a src, breach w -> NoDup (vars a ++ vars src) -> (forall v, In v (vars a) -> ~ owns w v) ->
  s_ptr (w_var w (rc_key a)) = None -> s_ptr (w_var w (rc_val a)) = None -> (forall v, In v (vars src) -> bytes_of w v <> None) ->
  exists w1, r_clone a src w = Some (true, w1) /\ breach w1 /\
    bytes_of w1 (rc_key a) = bytes_of w (rc_key src) /\ bytes_of w1 (rc_val a) = bytes_of w (rc_val src) /\ bytes_of w1 (rc_meta a) = bytes_of w (rc_meta src) /\
    exists w2, brun (r_free a) w1 = Some w2 /\ forall id, blk id w2 = blk id w.
Proof.
  intros w a src R Nd Na Pk Pv Hb. destruct a as [k v m]. destruct src as [sk sv sm]. unfold vars in *. cbn [rc_key rc_val rc_meta app] in *.
  assert (D : k <> v /\ k <> m /\ v <> m /\ k <> sk /\ k <> sv /\ k <> sm /\ v <> sk /\ v <> sv /\ v <> sm /\ m <> sk /\ m <> sv /\ m <> sm).
  { apply NoDup_cons_iff in Nd. destruct Nd as [N1 Nd]. apply NoDup_cons_iff in Nd. destruct Nd as [N2 Nd]. apply NoDup_cons_iff in Nd. destruct Nd as [N3 _]. cbn [In] in N1, N2, N3.
    repeat split; intro Z; symmetry in Z; tauto. }
  clear Nd. destruct D as (d1 & d2 & d3 & d4 & d5 & d6 & d7 & d8 & d9 & d10 & d11 & d12).
  assert (Nk := Na k ltac:(cbn; auto)). assert (Nv := Na v ltac:(cbn; auto)). assert (Nm := Na m ltac:(cbn; auto)).
  assert (Bk := Hb sk ltac:(cbn; auto)). assert (Bv := Hb sv ltac:(cbn; auto)). assert (Bm := Hb sm ltac:(cbn; auto)). clear Na Hb.
  unfold r_clone. cbn [rc_key rc_val rc_meta]. rewrite Pk, Pv. cbn [brun].
  destruct (breach_wi w R) as [I S].
  assert (C1 : careful (BCopy sk k) w) by (split; assumption). destruct (step_ok _ w I S C1) as (w1 & E1 & I1). assert (S1 := small_step _ _ _ S E1).
  destruct (copy_shape _ _ _ _ I S E1) as [V1 H1]. rewrite E1.
  assert (C2 : careful (BCopy sv v) w1).
  { split; [rewrite (own_var w) by (apply V1; congruence); exact Nv|]. rewrite (copy_others w sk k w1 sv); auto. }
  destruct (step_ok _ w1 I1 S1 C2) as (w2 & E2 & I2). assert (S2 := small_step _ _ _ S1 E2). destruct (copy_shape _ _ _ _ I1 S1 E2) as [V2 H2]. rewrite E2.
  assert (Q1 : bytes_of w1 sm = bytes_of w sm) by (apply (copy_others w sk k); auto).
  assert (Q2 : bytes_of w2 sm = bytes_of w sm) by (rewrite <- Q1; apply (copy_others w1 sv v); auto; congruence).
  assert (C3 : careful (BCopy sm m) w2).
  { split; [rewrite (own_var w1) by (apply V2; congruence); rewrite (own_var w) by (apply V1; congruence); exact Nm|]. congruence. }
  destruct (step_ok _ w2 I2 S2 C3) as (w3 & E3 & I3). destruct (copy_shape _ _ _ _ I2 S2 E3) as [V3 H3]. rewrite E3.
  destruct (copy_bytes w sk k w1 I S Bk E1) as [P1 O1].
  assert (Q3 : bytes_of w1 sv = bytes_of w sv) by (apply (copy_others w sk k); auto).
  destruct (copy_bytes w1 sv v w2 I1 S1 ltac:(congruence) E2) as [P2 O2].
  destruct (copy_bytes w2 sm m w3 I2 S2 ltac:(congruence) E3) as [P3 O3].
  assert (P1' : bytes_of w2 k = bytes_of w1 k) by (apply (copy_others w1 sv v); auto; congruence).
  assert (P1'' : bytes_of w3 k = bytes_of w2 k) by (apply (copy_others w2 sm m); auto; congruence).
  assert (P2' : bytes_of w3 v = bytes_of w2 v) by (apply (copy_others w2 sm m); auto; congruence).
  exists w3. split; [reflexivity|]. split; [eapply br_step; [eapply br_step; [eapply br_step; [exact R|exact C1|exact E1]|exact C2|exact E2]|exact C3|exact E3]|].
  split; [congruence|]. split; [congruence|]. split; [congruence|].
  (* freeing them: the last block first *)
  cbn [r_free rc_key rc_val rc_meta brun bstep].
  assert (K3 : w_var w3 k = w_var w1 k) by (rewrite V3 by congruence; apply V2; congruence).
  assert (V3' : w_var w3 v = w_var w2 v) by (apply V3; congruence).
  (* key *)
  assert (G1 : exists f, (forall q, blk q w3 = f q) /\ exists g, ((w_var w3 k = s_empty /\ forall q, f q = g q) \/
     (exists p n d, w_var w3 k = mkS true false n (Some p) /\ g p = None /\ forall q, f q = if q =? p then Some (mkBl p KMalloc d) else g q)) /\
     ((forall q, blk q w = blk q w1 /\ g q = blk q w3) \/ exists p d, blk p w = None /\ (forall q, blk q w1 = if q =? p then Some (mkBl p KMalloc d) else blk q w) /\ forall q, g q = if q =? p then None else blk q w3)).
  { exists (fun q => blk q w3). split; [reflexivity|]. destruct H1 as [[A B]|(p & n & d & A & Bn & B)].
    - exists (fun q => blk q w3). split; [left; split; [congruence|reflexivity]|]. left. intro q. rewrite B. auto.
    - exists (fun q => if q =? p then None else blk q w3). split.
      + right. exists p, n, d. split; [congruence|]. split; [rewrite N.eqb_refl; reflexivity|]. intro q. destruct (q =? p) eqn:Q; [|reflexivity].
        replace q with p by lia.
        assert (Z1 : blk p w1 = Some (mkBl p KMalloc d)) by (rewrite B, N.eqb_refl; reflexivity).
        assert (Z2 : blk p w2 = Some (mkBl p KMalloc d)) by (destruct (alloc_frame _ _ _ _ _ k E2) as [_ F]; [congruence|]; apply F, Z1).
        destruct (alloc_frame _ _ _ _ _ k E3) as [_ F]; [congruence|]. apply F, Z2.
      + right. exists p, d. auto. }
  destruct G1 as (f & Ff & g & Hg & Hg2). destruct (copy_free w3 k f g Hg Ff) as (x1 & X1 & XV1 & XB1). rewrite X1.
  (* value *)
  assert (G2 : exists g2, ((w_var x1 v = s_empty /\ forall q, g q = g2 q) \/
     (exists p n d, w_var x1 v = mkS true false n (Some p) /\ g2 p = None /\ forall q, g q = if q =? p then Some (mkBl p KMalloc d) else g2 q)) /\
     forall q, blk q w1 = blk q w2 /\ g2 q = g q \/ blk q w1 = None /\ g2 q = None).
  { assert (Xv : w_var x1 v = w_var w2 v) by (rewrite XV1 by congruence; exact V3'). destruct H2 as [[A B]|(p & n & d & A & Bn & B)].
    - exists g. split; [left; split; [congruence|reflexivity]|]. intro q. left. rewrite B. auto.
    - exists (fun q => if q =? p then None else g q). split.
      + right. exists p, n, d. split; [congruence|]. split; [rewrite N.eqb_refl; reflexivity|]. intro q. destruct (q =? p) eqn:Q; [|reflexivity].
        replace q with p by lia. assert (Z2 : blk p w2 = Some (mkBl p KMalloc d)) by (rewrite B, N.eqb_refl; reflexivity).
        assert (Z3 : blk p w3 = Some (mkBl p KMalloc d)) by (destruct (alloc_frame _ _ _ _ _ v E3) as [_ F]; [congruence|]; apply F, Z2).
        destruct Hg2 as [Hg2|(p' & d' & Hn & Hw1 & Hg2)]; [rewrite (proj2 (Hg2 p)); exact Z3|]. rewrite Hg2. destruct (p =? p') eqn:Pp; [|exact Z3].
        exfalso. rewrite Hw1, Pp in Bn. discriminate.
      + intro q. cbv beta. destruct (q =? p) eqn:Q; [right; replace q with p by lia; auto|left; rewrite B, Q; auto]. }
  destruct G2 as (g2 & Hh & Hh2). destruct (copy_free x1 v g g2 Hh XB1) as (x2 & X2 & XV2 & XB2). rewrite X2.
  (* meta *)
  assert (Xm : w_var x2 m = w_var w3 m) by (rewrite XV2 by congruence; apply XV1; congruence).
  assert (G3 : exists x3, b_free m x2 = Some x3 /\ forall q, blk q x3 = blk q w).
  { assert (Key : forall q, blk q w3 = blk q w2 -> g2 q = blk q w).
    { intros q Eq. destruct (Hh2 q) as [[Y1 Y2]|[Y1 Y2]].
      - rewrite Y2. destruct Hg2 as [Hg2|(p' & d' & Hn & Hw1 & Hg2)]; [destruct (Hg2 q) as [U1 U2]; congruence|].
        rewrite Hg2. destruct (q =? p') eqn:Pp; [replace q with p' by lia; congruence|]. rewrite Eq, <- Y1, Hw1, Pp. reflexivity.
      - rewrite Y2. destruct Hg2 as [Hg2|(p' & d' & Hn & Hw1 & Hg2)]; [destruct (Hg2 q) as [U1 U2]; congruence|].
        rewrite Hw1 in Y1. destruct (q =? p'); congruence. }
    destruct H3 as [[A B]|(p & n & d & A & Bn & B)].
    - exists x2. split; [apply free_shape_empty; congruence|]. intro q. rewrite XB2. apply Key, B.
    - assert (Bw1 : blk p w1 = None).
      { destruct (blk p w1) as [z|] eqn:Z; [|reflexivity]. destruct (alloc_frame _ _ _ _ _ k E2) as [_ F]; [congruence|]. apply F in Z. congruence. }
      assert (Bw : blk p w = None).
      { destruct (blk p w) as [z|] eqn:Z; [|reflexivity]. destruct (alloc_frame _ _ _ _ _ v E1) as [_ F]; [congruence|]. apply F in Z. congruence. }
      assert (Zg : g p = blk p w3).
      { destruct Hg2 as [Hg2|(p' & d' & Hn & Hw1 & Hg2)]; [apply Hg2|]. rewrite Hg2. destruct (p =? p') eqn:Pp; [|reflexivity].
        exfalso. rewrite Hw1, Pp in Bw1. discriminate. }
      assert (Zx : blk p x2 = Some (mkBl p KMalloc d)).
      { rewrite XB2. destruct Hh as [[_ Hh]|(p' & n' & d' & A' & Hn' & Hh)].
        - rewrite <- Hh, Zg, B, N.eqb_refl. reflexivity.
        - specialize (Hh p). destruct (p =? p') eqn:Pp; [|rewrite <- Hh, Zg, B, N.eqb_refl; reflexivity]. exfalso.
          assert (p = p') by lia. subst p'. rewrite XV1 in A' by congruence. rewrite V3' in A'. 
          destruct H2 as [[A2 _]|(p2 & n2 & e2 & A2 & B2n & B2)]; [rewrite A2 in A'; discriminate|]. rewrite A2 in A'. injection A' as <- <-.
          rewrite B2, N.eqb_refl in Bn. discriminate. }
      destruct (free_shape x2 m n p d ltac:(congruence) Zx) as (x3 & X3 & _ & XB3). exists x3. split; [exact X3|]. intro q. rewrite XB3.
      destruct (q =? p) eqn:Q; [replace q with p by lia; congruence|]. rewrite XB2. apply Key. rewrite B, Q. reflexivity. }
  destruct G3 as (x3 & X3 & XB3). rewrite X3. exists x3. split; [reflexivity|exact XB3].
Qed.

Lemma nodup6 : forall k v m bk bv bm : N, NoDup [k; v; m; bk; bv; bm] ->
  k <> v /\ k <> m /\ v <> m /\ k <> bk /\ k <> bv /\ k <> bm /\ v <> bk /\ v <> bv /\ v <> bm /\ m <> bk /\ m <> bv /\ m <> bm /\ bk <> bv /\ bk <> bm /\ bv <> bm.
Proof.
  intros k v m bk bv bm Nd. apply NoDup_cons_iff in Nd. destruct Nd as [N1 Nd]. apply NoDup_cons_iff in Nd. destruct Nd as [N2 Nd]. apply NoDup_cons_iff in Nd.
  destruct Nd as [N3 Nd]. apply NoDup_cons_iff in Nd. destruct Nd as [N4 Nd]. apply NoDup_cons_iff in Nd. destruct Nd as [N5 _].
  assert (X : forall (x y : N) l, ~ In x l -> In y l -> x <> y) by (intros x y l A B ->; contradiction).
  repeat split; [apply (X _ _ _ N1)|apply (X _ _ _ N1)|apply (X _ _ _ N2)|apply (X _ _ _ N1)|apply (X _ _ _ N1)|apply (X _ _ _ N1)|apply (X _ _ _ N2)|
    apply (X _ _ _ N2)|apply (X _ _ _ N2)|apply (X _ _ _ N3)|apply (X _ _ _ N3)|apply (X _ _ _ N3)|apply (X _ _ _ N4)|apply (X _ _ _ N4)|apply (X _ _ _ N5)]; cbn; auto 10.
Qed.

Lemma brun_cons : forall o t w w1 r, bstep o w = Some w1 -> brun t w1 = r -> brun (o :: t) w = r.
Proof. intros o t w w1 r E H. cbn [brun]. rewrite E. exact H. Qed.
Lemma ex_world : forall w : world, exists x, x = w.
Proof. eauto. Qed.

Lemma move_ok : forall w a b, breach w -> NoDup (vars a ++ vars b) -> (forall v, In v (vars b) -> ~ owns w v) ->
  exists w', brun (r_move a b) w = Some w' /\ breach w' /\ w_heap w' = w_heap w /\
    w_var w' (rc_key b) = w_var w (rc_key a) /\ w_var w' (rc_val b) = w_var w (rc_val a) /\ w_var w' (rc_meta b) = w_var w (rc_meta a) /\
    (forall v, In v (vars a) -> w_var w' v = s_empty) /\ forall v, ~ In v (vars a ++ vars b) -> w_var w' v = w_var w v.
Proof.
  intros w a b R Nd Nb. destruct a as [k v m]. destruct b as [bk bv bm]. unfold vars in *. cbn [rc_key rc_val rc_meta app] in *.
  assert (D := nodup6 _ _ _ _ _ _ Nd).
  clear Nd. assert (N1 := Nb bk ltac:(cbn; auto)). assert (N2 := Nb bv ltac:(cbn; auto)). assert (N3 := Nb bm ltac:(cbn; auto)). clear Nb.
  destruct (ex_world (b_move k bk w)) as [w1 E1]. destruct (ex_world (b_move v bv w1)) as [w2 E2]. destruct (ex_world (b_move m bm w2)) as [w3 E3].
  assert (V1 : forall x, w_var w1 x = if x =? k then s_empty else if x =? bk then w_var w k else w_var w x) by (rewrite E1; reflexivity).
  assert (V2 : forall x, w_var w2 x = if x =? v then s_empty else if x =? bv then w_var w1 v else w_var w1 x) by (rewrite E2; reflexivity).
  assert (V3 : forall x, w_var w3 x = if x =? m then s_empty else if x =? bm then w_var w2 m else w_var w2 x) by (rewrite E3; reflexivity).
  assert (E : forall x y, x <> y -> (x =? y) = false) by (intros x y; apply N.eqb_neq).
  destruct D as (e1 & e2 & e3 & e4 & e5 & e6 & e7 & e8 & e9 & e10 & e11 & e12 & e13 & e14 & e15).
  assert (R1 : breach w1) by (apply (br_step w (BMove k bk)); [exact R|exact N1|rewrite E1; reflexivity]).
  assert (R2 : breach w2).
  { apply (br_step w1 (BMove v bv)); [exact R1| |rewrite E2; reflexivity]. cbn [careful]. rewrite (own_var w); [exact N2|]. rewrite V1, !E by (assumption || (apply not_eq_sym; assumption)). reflexivity. }
  assert (R3 : breach w3).
  { apply (br_step w2 (BMove m bm)); [exact R2| |rewrite E3; reflexivity]. cbn [careful]. rewrite (own_var w); [exact N3|]. rewrite V2, !E by (assumption || (apply not_eq_sym; assumption)). rewrite V1, !E by (assumption || (apply not_eq_sym; assumption)). reflexivity. }
  assert (Zk : w_var w3 k = s_empty) by (rewrite V3, !E by (assumption || (apply not_eq_sym; assumption)); rewrite V2, !E by (assumption || (apply not_eq_sym; assumption)); rewrite V1, N.eqb_refl; reflexivity).
  assert (Zv : w_var w3 v = s_empty) by (rewrite V3, !E by (assumption || (apply not_eq_sym; assumption)); rewrite V2, N.eqb_refl; reflexivity).
  assert (Zm : w_var w3 m = s_empty) by (rewrite V3, N.eqb_refl; reflexivity).
  assert (NE : forall w0 x, w_var w0 x = s_empty -> ~ owns w0 x) by (intros w0 x Z; unfold owns; rewrite Z; cbn; intros [Q|Q]; discriminate).
  assert (VC : forall x w0 y, w_var w0 x = s_empty -> w_var (b_clear x w0) y = w_var w0 y).
  { intros x w0 y Z. unfold b_clear. cbn [put w_var]. destruct (y =? x) eqn:Q; [apply N.eqb_eq in Q; rewrite Q; symmetry; exact Z|reflexivity]. }
  destruct (ex_world (b_clear k w3)) as [w4 E4]. destruct (ex_world (b_clear v w4)) as [w5 E5]. destruct (ex_world (b_clear m w5)) as [w6 E6].
  assert (Hh : w_heap w6 = w_heap w) by (transitivity (w_heap w3); [rewrite E6; cbn [b_clear put w_heap]; rewrite E5; cbn [b_clear put w_heap]; rewrite E4; reflexivity|]; rewrite E3; cbn [b_move put w_heap]; rewrite E2; cbn [b_move put w_heap]; rewrite E1; reflexivity).
  assert (V4 : forall y, w_var w4 y = w_var w3 y) by (intro y; rewrite E4; apply VC, Zk).
  assert (V5 : forall y, w_var w5 y = w_var w3 y) by (intro y; rewrite E5; rewrite VC by (rewrite V4; exact Zv); apply V4).
  assert (V6 : forall y, w_var w6 y = w_var w3 y) by (intro y; rewrite E6; rewrite VC by (rewrite V5; exact Zm); apply V5).
  assert (R4 : breach w4) by (apply (br_step w3 (BClear k)); [exact R3|apply NE, Zk|rewrite E4; reflexivity]).
  assert (R5 : breach w5) by (apply (br_step w4 (BClear v)); [exact R4|apply NE; rewrite V4; exact Zv|rewrite E5; reflexivity]).
  assert (R6 : breach w6) by (apply (br_step w5 (BClear m)); [exact R5|apply NE; rewrite V5; exact Zm|rewrite E6; reflexivity]).
  exists w6. split.
  { unfold r_move. cbn [rc_key rc_val rc_meta].
    apply (brun_cons _ _ _ w1); [rewrite E1; reflexivity|]. apply (brun_cons _ _ _ w2); [rewrite E2; reflexivity|].
    apply (brun_cons _ _ _ w3); [rewrite E3; reflexivity|]. apply (brun_cons _ _ _ w4); [rewrite E4; reflexivity|].
    apply (brun_cons _ _ _ w5); [rewrite E5; reflexivity|]. apply (brun_cons _ _ _ w6); [rewrite E6; reflexivity|]. reflexivity. }
  split; [exact R6|]. split; [exact Hh|]. rewrite !V6.
  split; [rewrite V3, !E by (assumption || (apply not_eq_sym; assumption)); rewrite V2, !E by (assumption || (apply not_eq_sym; assumption)); rewrite V1, E, N.eqb_refl by (assumption || (apply not_eq_sym; assumption)); reflexivity|].
  split; [rewrite V3, !E by (assumption || (apply not_eq_sym; assumption)); rewrite V2, E, N.eqb_refl by (assumption || (apply not_eq_sym; assumption)); rewrite V1, !E by (assumption || (apply not_eq_sym; assumption)); reflexivity|].
  split; [rewrite V3, E, N.eqb_refl by (assumption || (apply not_eq_sym; assumption)); rewrite V2, !E by (assumption || (apply not_eq_sym; assumption)); rewrite V1, !E by (assumption || (apply not_eq_sym; assumption)); reflexivity|].
  split.
  - intros x [<-|[<-|[<-|[]]]]; rewrite V6; assumption.
  - intros x Hx. assert (X : forall y, In y [k; v; m; bk; bv; bm] -> x =? y = false) by (intros y Hy; apply E; intros ->; exact (Hx Hy)).
    rewrite V6, V3, !X by (cbn; auto 10). rewrite V2, !X by (cbn; auto 10). rewrite V1, !X by (cbn; auto 10). reflexivity.
Qed.

(** ** Sizes *)
Lemma set_bytes : forall w v p b s, blk p w = Some b -> s <= N.of_nat (length (bl_data b)) -> s < 2 ^ 32 ->
  bytes_of (b_set v s (Some p) w) v = Some (firstn (N.to_nat s) (bl_data b)).
Proof.
  intros w v p b s E L H. unfold bytes_of, b_set. rewrite put_same. cbn [s_size s_ptr]. rewrite cut32_small by exact H.
  destruct (s =? 0) eqn:E0; [replace s with 0 by lia; reflexivity|]. unfold peek.
  change (blk p (put v (mkS false false s (Some p)) w)) with (blk p w). rewrite E. replace (s <=? _) with true by lia. reflexivity.
Qed.

Lemma mem_bytes : forall d v, N.of_nat (length d) < 2 ^ 32 -> forall w w', WI w -> bstep (BMem KUser d v) w = Some w' -> bytes_of w' v = Some d.
Proof.
  intros d v H w w' I E. cbn [bstep] in E. injection E as <-. unfold bytes_of. rewrite put_same. cbn [s_size s_ptr]. rewrite cut32_small by exact H.
  destruct (N.of_nat (length d) =? 0) eqn:E0; [destruct d; [reflexivity|cbn in E0; discriminate]|]. unfold peek.
  match goal with |- context [blk _ (put ?a ?b ?c)] => change (blk (w_next w) (put a b c)) with (blk (w_next w) c) end.
  rewrite blk_add. destruct (blk (w_next w) w) as [z|] eqn:Ez; [apply (wi_lt w I) in Ez; lia|]. rewrite N.eqb_refl. cbn [bl_data].
  rewrite N.leb_refl, Nat2N.id, firstn_all. reflexivity.
Qed.

Lemma bytes_len : forall w v l, bytes_of w v = Some l -> N.of_nat (length l) = s_size (w_var w v).
Proof.
  intros w v l E. unfold bytes_of in E. destruct (s_size (w_var w v) =? 0) eqn:E0; [injection E as <-; cbn; lia|].
  destruct (s_ptr (w_var w v)) as [p|]; [|discriminate]. eapply peek_len; exact E.
Qed.

Lemma huge_bytes : forall w v l, small w -> bytes_of w v = Some l -> N.of_nat (length l) < 2 ^ 32.
Proof. intros w v l S E. rewrite (bytes_len _ _ _ E). apply S. Qed.

Lemma huge_witness : forall n, 2 ^ 32 <= n -> exists d w', N.of_nat (length d) = n /\ bstep (BMem KUser d 0) w_new = Some w' /\ bytes_of w' 0 <> Some d.
Proof.
  intros n H. exists (repeat 7 (N.to_nat n)). eexists. assert (L : N.of_nat (length (repeat 7 (N.to_nat n))) = n) by (rewrite repeat_length; lia).
  split; [exact L|]. split; [reflexivity|]. intro E. apply huge_bytes in E; [lia|]. apply small_put; [apply cut32_lt|]. intro x. reflexivity.
Qed.
