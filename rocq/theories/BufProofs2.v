(** SizedBuf and Record: the theorems' proofs put together, and the counterexamples. *)
From Verif Require Import Base BufModel BufSpec BufProofs.
From Coq Require Import ZifyBool.
Local Open Scope N_scope.

(** Running a program carefully. *)
Fixpoint carefuls (os : list bop) (w : world) : Prop :=
  match os with [] => True | o :: t => careful o w /\ match bstep o w with Some w1 => carefuls t w1 | None => False end end.
Lemma breach_run : forall os w w', breach w -> carefuls os w -> brun os w = Some w' -> breach w'.
Proof.
  induction os as [|o t IH]; intros w w' R H E; cbn [brun carefuls] in *; [injection E as <-; exact R|]. destruct H as [Hc H].
  destruct (bstep o w) as [w1|] eqn:E1; [|discriminate]. apply (IH w1 w'); [econstructor; eassumption|exact H|exact E].
Qed.

Ltac care := cbn [careful]; match goal with
  | |- True => exact Logic.I
  | |- ~ owns _ _ => let X := fresh in intros [X|X]; vm_compute in X; discriminate
  | |- _ /\ _ => split; care
  | |- forall p, _ = Some p -> _ => intros ? [= <-] _; vm_compute; discriminate
  | |- forall p, None = Some p -> _ => intros ? [=]
  | |- exists _ _, _ => eexists; eexists; split; [vm_compute; reflexivity|split; [vm_compute; reflexivity|vm_compute; reflexivity]]
  | |- _ <> _ => vm_compute; discriminate
  end.
Ltac cares := repeat (cbn [carefuls]; match goal with
  | |- True => exact Logic.I
  | |- careful _ _ /\ _ => split; [care|let X := fresh in match goal with |- context [bstep ?o ?w] => let t := eval vm_compute in (bstep o w) in change (bstep o w) with t end; cbv beta iota]
  end).

Lemma free_gone : forall w v, breach w -> exists w', bstep (BFree v) w = Some w' /\ ~ owns w' v /\
  (owns w v -> exists id b, s_ptr (w_var w v) = Some id /\ blk id w = Some b /\ blk id w' = None).
Proof.
  intros w v R. destruct (breach_wi w R) as [I S]. destruct (wi_free w v I) as (w' & E & I' & N). exists w'. split; [exact E|]. split; [exact N|].
  intro Ho. destruct (wi_own w I v Ho) as (id & b & E1 & E2 & [E3 _] & _). exists id, b. split; [exact E1|]. split; [exact E2|].
  unfold b_free in E. rewrite E1 in E. cbn [release] in E. rewrite E2, E3 in E. destruct (s_free (w_var w v)) eqn:Ef.
  - injection E as <-. change (blk id (b_clear v (drop_block id w))) with (blk id (drop_block id w)). rewrite blk_drop, N.eqb_refl. reflexivity.
  - destruct (s_del (w_var w v)) eqn:Ed; [|destruct Ho; congruence]. injection E as <-.
    change (blk id (b_clear v (drop_block id w))) with (blk id (drop_block id w)). rewrite blk_drop, N.eqb_refl. reflexivity.
Qed.

Lemma resize_zero : exists w w1, breach w /\ owns w 0 /\ bytes_of w 0 = Some [1; 2; 3] /\
  bstep (BResize 0 0 false []) w = Some w1 /\ owns w1 0 /\ bytes_of w1 0 = None /\ bstep (BFree 0) w1 = None.
Proof.
  eexists. eexists. split; [eapply (breach_run [BMem KMalloc [1; 2; 3] 0] w_new); [apply br_new|cares|vm_compute; reflexivity]|].
  split; [left; reflexivity|]. split; [reflexivity|]. split; [vm_compute; reflexivity|]. split; [left; reflexivity|]. split; reflexivity.
Qed.

Lemma alloc_bytes : forall w v p b s, breach w -> blk p w = Some b -> s <= N.of_nat (length (bl_data b)) -> s < 2 ^ 32 ->
  exists w', bstep (BAlloc v s (Some p)) w = Some w' /\ bytes_of w' v = Some (firstn (N.to_nat s) (bl_data b)).
Proof.
  intros w v p b s R E L H. destruct (breach_wi w R) as [I S]. cbn [bstep]. unfold b_alloc. destruct (s =? 0) eqn:E0.
  - eexists. split; [reflexivity|]. unfold bytes_of, b_clear. rewrite put_same. replace s with 0 by lia. reflexivity.
  - rewrite cut32_small by exact H. assert (Ep : peek p s w = Some (firstn (N.to_nat s) (bl_data b))).
    { unfold peek. rewrite E. replace (s <=? _) with true by lia. reflexivity. }
    rewrite Ep. eexists. split; [reflexivity|]. unfold bytes_of. rewrite put_same. cbn [s_size s_ptr]. rewrite E0. unfold peek.
    match goal with |- context [blk _ (put ?a ?b ?c)] => change (blk (w_next w) (put a b c)) with (blk (w_next w) c) end.
    rewrite blk_add. change (blk (w_next w) (b_clear v w)) with (blk (w_next w) w).
    destruct (blk (w_next w) w) as [z|] eqn:Ez; [apply (wi_lt w I) in Ez; lia|]. cbn [b_clear put w_next]. rewrite N.eqb_refl. cbn [bl_data].
    assert (Q := peek_len _ _ _ _ Ep). replace (s <=? _) with true by lia. rewrite firstn_all2 by lia. reflexivity.
Qed.

Lemma nth_app_l : forall i (a b : list N), (i < length a)%nat -> nth i (a ++ b) 0 = nth i a 0.
Proof. intros. apply app_nth1. assumption. Qed.
Lemma nth_firstn : forall i n (l : list N), (i < n)%nat -> nth i (firstn n l) 0 = nth i l 0.
Proof. induction i as [|i IH]; intros [|n] [|x l] H; cbn; try reflexivity; try lia. apply IH. lia. Qed.

Lemma resize_bytes : forall w v n moves fill l, breach w -> bytes_of w v = Some l -> s_free (w_var w v) = true -> n <> 0 -> n < 2 ^ 32 ->
  exists w' l', bstep (BResize v n moves fill) w = Some w' /\ bytes_of w' v = Some l' /\ N.of_nat (length l') = n /\
    forall i, N.of_nat i < n -> (i < length l)%nat -> nth i l' 0 = nth i l 0.
Proof.
  intros w v n moves fill l R Hl Ef Hn H. destruct (breach_wi w R) as [I S]. assert (Ho : owns w v) by (left; exact Ef).
  destruct (wi_own w I v Ho) as (id & b & E1 & E2 & [E3 Ed] & E4). rewrite Ef in E3. specialize (Ed Ef).
  cbn [bstep]. unfold b_resize. rewrite Ef, E1, E2, E3. cbn [negb]. replace (n =? 0) with false by lia. rewrite cut32_small by exact H.
  set (d := firstn (N.to_nat n) (bl_data b ++ fill ++ repeat 0 (N.to_nat n))).
  assert (Ld : N.of_nat (length d) = n) by (unfold d; rewrite firstn_all_len; [lia|]; rewrite !app_length, repeat_length; lia).
  assert (Pre : forall i, N.of_nat i < n -> (i < length l)%nat -> nth i d 0 = nth i l 0).
  { intros i H1 H2. unfold d. rewrite nth_firstn by lia. unfold bytes_of in Hl. rewrite E1 in Hl. unfold peek in Hl. rewrite E2 in Hl.
    destruct (s_size (w_var w v) =? 0); [injection Hl as <-; cbn in H2; lia|]. destruct (s_size (w_var w v) <=? _); [|discriminate]. injection Hl as <-.
    rewrite firstn_length in H2. rewrite nth_firstn by lia. rewrite nth_app_l by lia. reflexivity. }
  assert (Bytes : forall w' p k, w_var w' v = mkS true (s_del (w_var w v)) n (Some p) -> blk p w' = Some (mkBl p k d) -> bytes_of w' v = Some d).
  { intros w' p k Ev Eb. unfold bytes_of. rewrite Ev. cbn [s_size s_ptr]. replace (n =? 0) with false by lia. unfold peek. rewrite Eb. cbn [bl_data].
    replace (n <=? _) with true by lia. rewrite firstn_all2 by lia. reflexivity. }
  destruct moves; eexists; exists d.
  - split; [reflexivity|]. split; [|split; [exact Ld|exact Pre]]. apply (Bytes _ (w_next w) KMalloc); [rewrite put_same; reflexivity|].
    match goal with |- blk _ (put ?a ?b ?c) = _ => change (blk (w_next w) (put a b c)) with (blk (w_next w) c) end.
    rewrite blk_add, blk_drop. destruct (w_next w =? id); cbn [drop_block w_next]; rewrite ?N.eqb_refl; [reflexivity|].
    destruct (blk (w_next w) w) as [z|] eqn:Ez; [apply (wi_lt w I) in Ez; lia|]. reflexivity.
  - split; [reflexivity|]. split; [|split; [exact Ld|exact Pre]]. apply (Bytes _ id (bl_kind b)); [rewrite put_same; reflexivity|].
    match goal with |- blk _ (put ?a ?b ?c) = _ => change (blk id (put a b c)) with (blk id c) end. rewrite blk_set_data, N.eqb_refl, E2. reflexivity.
Qed.

Lemma huge5_aux : forall n, n = 2 ^ 32 + 5 -> exists d w', N.of_nat (length d) = n /\ bstep (BMem KUser d 0) w_new = Some w' /\ bytes_of w' 0 <> Some d /\ s_size (w_var w' 0) = cut32 n.
Proof.
  intros n H. exists (repeat 7 (N.to_nat n)). eexists. assert (L : N.of_nat (length (repeat 7 (N.to_nat n))) = n) by (rewrite repeat_length; lia).
  split; [exact L|]. split; [reflexivity|]. split.
  - intro E. apply huge_bytes in E; [rewrite L, H in E; vm_compute in E; discriminate|]. apply small_put; [apply cut32_lt|]. intro x. reflexivity.
  - rewrite put_same. cbn [s_size]. rewrite L. reflexivity.
Qed.
Lemma huge5 : exists d w', N.of_nat (length d) = 2 ^ 32 + 5 /\ bstep (BMem KUser d 0) w_new = Some w' /\ bytes_of w' 0 <> Some d /\ s_size (w_var w' 0) = 5.
Proof.
  destruct (huge5_aux (2 ^ 32 + 5) eq_refl) as (d & w' & H1 & H2 & H3 & H4). exists d, w'. split; [exact H1|]. split; [exact H2|]. split; [exact H3|].
  rewrite H4. reflexivity.
Qed.

Lemma copy_rest : forall w src dst w1 w2, breach w -> careful (BCopy src dst) w -> bstep (BCopy src dst) w = Some w1 -> brest dst w1 w2 ->
  bytes_of w2 dst = bytes_of w src.
Proof.
  intros w src dst w1 w2 R Hc E H. destruct (breach_wi w R) as [I S]. destruct (copy_bytes w src dst w1 I S (proj2 Hc) E) as [E1 Ho].
  assert (R1 : breach w1) by (econstructor; eassumption). destruct (breach_wi w1 R1) as [I1 S1]. destruct (rest_frame dst w1 w2 H I1 S1 Ho) as [_ E2]. congruence.
Qed.
Lemma owner_rest : forall w v w', breach w -> owns w v -> brest v w w' -> owns w' v /\ bytes_of w' v = bytes_of w v.
Proof.
  intros w v w' R Ho H. destruct (breach_wi w R) as [I S]. destruct (rest_frame v w w' H I S (or_introl Ho)) as [E1 E2]. split; [|exact E2].
  apply (own_var w w' v E1). exact Ho.
Qed.
Lemma move_bytes : forall w src dst w', src <> dst -> bstep (BMove src dst) w = Some w' ->
  bytes_of w' dst = bytes_of w src /\ bytes_of w' src = Some [] /\ (owns w' dst <-> owns w src) /\ ~ owns w' src.
Proof.
  intros w src dst w' n E. cbn [bstep] in E. injection E as <-.
  assert (V1 : w_var (b_move src dst w) dst = w_var w src) by (unfold b_move; rewrite put_other by congruence; apply put_same).
  assert (V2 : w_var (b_move src dst w) src = s_empty) by apply put_same.
  split; [unfold bytes_of; rewrite V1; reflexivity|]. split; [unfold bytes_of; rewrite V2; reflexivity|]. unfold owns. rewrite V1, V2. cbn.
  split; [tauto|intros [X|X]; discriminate].
Qed.

Lemma below6 : forall (P : N -> Prop), P 0 -> P 1 -> P 2 -> P 3 -> P 4 -> P 5 -> forall v, v < 6 -> P v.
Proof.
  intros P P0 P1 P2 P3 P4 P5 v H. assert (D : v = 0 \/ v = 1 \/ v = 2 \/ v = 3 \/ v = 4 \/ v = 5) by lia.
  destruct D as [-> | [-> | [-> | [-> | [-> | ->]]]]]; assumption.
Qed.
Ltac none := apply below6; let X := fresh in intros [X|X]; vm_compute in X; discriminate.

Lemma clone_leak : exists w w1 w2 id b, breach w /\ r_is_empty (mkR 0 1 2) w = true /\ owns w 2 /\ s_ptr (w_var w 2) = Some id /\
  r_clone (mkR 0 1 2) (mkR 3 4 5) w = Some (true, w1) /\ brun (r_free (mkR 0 1 2) ++ r_free (mkR 3 4 5)) w1 = Some w2 /\
  blk id w2 = Some b /\ bl_kind b = KMalloc /\ forall v, v < 6 -> ~ owns w2 v.
Proof.
  eexists. eexists. eexists. eexists. eexists.
  split; [eapply (breach_run [BMem KMalloc [8] 2; BMem KMalloc [1] 3; BMem KUser [2; 3] 4] w_new); [apply br_new|cares|vm_compute; reflexivity]|].
  split; [reflexivity|]. split; [left; reflexivity|]. split; [reflexivity|]. split; [vm_compute; reflexivity|]. split; [vm_compute; reflexivity|].
  split; [vm_compute; reflexivity|]. split; [reflexivity|]. none.
Qed.
Lemma clone_refuse : exists w, breach w /\ r_is_empty (mkR 0 1 2) w = true /\ (forall v, v < 6 -> ~ owns w v) /\
  r_clone (mkR 0 1 2) (mkR 3 4 5) w = Some (false, w).
Proof.
  eexists. split; [eapply (breach_run [BMem KUser [] 0; BMem KUser [1] 3] w_new); [apply br_new|cares|vm_compute; reflexivity]|].
  split; [reflexivity|]. split; [none|]. vm_compute. reflexivity.
Qed.
