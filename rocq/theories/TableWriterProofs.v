(** Proofs about the pool of table writers. *)
From Coq Require Import List Arith Bool Lia.
From Verif Require Import TableWriterModel TableWriterSpec.
Import ListNotations.

Lemma put_same {A} (f : nat -> A) i v : put f i v i = v.
Proof. unfold put. now rewrite Nat.eqb_refl. Qed.
Lemma put_other {A} (f : nat -> A) i v x : x <> i -> put f i v x = f x.
Proof. unfold put. intros H. destruct (Nat.eqb_spec x i); [contradiction | reflexivity]. Qed.

Lemma nth_in {A} (l : list A) k x : nth_error l k = Some x -> In x l /\ k < length l.
Proof. intros H. split; [eapply nth_error_In; eauto | apply nth_error_Some; congruence]. Qed.
Lemma nodup_nth {A} (l : list A) a b x : NoDup l -> nth_error l a = Some x -> nth_error l b = Some x -> a = b.
Proof. intros N Ha Hb. apply (proj1 (NoDup_nth_error l) N); [apply (nth_in _ _ _ Ha) | congruence]. Qed.

Lemma NoDup_firstn {A} (l : list A) : forall k, NoDup l -> NoDup (firstn k l).
Proof.
  induction l as [|a l IH]; intros [|k] N; cbn; try constructor; inversion N; subst.
  - intros H. apply H1. rewrite <- (firstn_skipn k l). apply in_or_app. now left.
  - now apply IH.
Qed.
Lemma in_firstn {A} (l : list A) k x : In x (firstn k l) -> In x l.
Proof. intros H. rewrite <- (firstn_skipn k l). apply in_or_app. now left. Qed.
Lemma existsb_in i ls : existsb (Nat.eqb i) ls = true <-> In i ls.
Proof.
  rewrite existsb_exists. split.
  - intros (x & H & E). apply Nat.eqb_eq in E. now subst.
  - intros H. exists i. split; [exact H | apply Nat.eqb_refl].
Qed.

Definition base (c : call) (p : cpc) : nat :=
  match p with Out => 0 | Next ii => ii | Asg ii _ _ | Own ii _ _ | Wt ii _ _ | Rt ii _ => ii | End => cl_n c | Thrown m => m end.
Definition fin (c : call) (p : cpc) : nat :=
  match p with Out => 0 | Next ii => ii | Asg _ _ jj | Own _ _ jj => jj
  | Wt ii ls _ | Rt ii ls => ii + length ls + 1 | End => cl_n c | Thrown m => m end.
Definition wf (c : call) (p : cpc) : Prop :=
  match p with
  | Out | End => True
  | Next ii | Thrown ii => ii <= cl_n c
  | Asg ii ls jj => ii <= jj <= ii + length ls + 1 /\ ii + length ls + 1 <= cl_n c
  | Own ii ls jj => jj = ii + length ls /\ ii + length ls + 1 <= cl_n c /\ cl_skip c jj = false
  | Wt ii ls jj => ii <= jj <= ii + length ls /\ ii + length ls + 1 <= cl_n c
  | Rt ii ls => ii + length ls + 1 <= cl_n c
  end.
Definition pay (s : st) (i : nat) := w_pay (s_w s i).
Definition rested (s : st) (p : cpc) : Prop :=
  match p with
  | Wt ii ls jj => forall k i, k < jj - ii -> nth_error ls k = Some i -> pay s i = None
  | Rt ii ls => forall i, In i ls -> pay s i = None
  | _ => True
  end.
Definition pc_ok (w : writer) : Prop :=
  match w_pc w with Do | Fin => w_pay w <> None | Busy t j => w_pay w = Some (t, j) | _ => True end.
Definition expect (c : call) (ww : nat -> writer) (p : cpc) (j : nat) : nat :=
  if cl_skip c j then 0
  else if j <? base c p then 1
  else if fin c p <=? j then 0
  else match nth_error (leased p) (j - base c p) with
       | None => 1
       | Some i => match w_pay (ww i) with
                   | None => 1
                   | Some _ => match w_pc (ww i) with Fin => 1 | _ => 0 end
                   end
       end.

Section Pool.
Variable nw : nat.
Variable calls : nat -> call.
Hypothesis MX : forall t, 0 < cl_max (calls t).

Record Inv (s : st) : Prop := mkInv {
  i_wf : forall t, wf (calls t) (s_c s t);
  i_rest : forall t, rested s (s_c s t);
  i_nd : forall t, NoDup (leased (s_c s t));
  i_use : forall t i, In i (leased (s_c s t)) -> i < nw /\ w_use (s_w s i) = true;
  i_dis : forall t t' i, In i (leased (s_c s t)) -> In i (leased (s_c s t')) -> t = t';
  i_own : forall i, w_use (s_w s i) = true -> exists t, In i (leased (s_c s t));
  i_pay : forall i t j, pay s i = Some (t, j) ->
    nth_error (leased (s_c s t)) (j - base (calls t) (s_c s t)) = Some i /\
    base (calls t) (s_c s t) <= j < fin (calls t) (s_c s t) /\ cl_skip (calls t) j = false;
  i_pc : forall i, pc_ok (s_w s i);
  i_cnt : forall t j, s_cnt s t j = expect (calls t) (s_w s) (s_c s t) j;
  i_null : s_null s = false }.

Lemma inv_init : Inv init.
Proof.
  constructor; cbn; auto; try (intros; constructor); try discriminate; try contradiction.
  - intros t j. unfold expect. cbn. now destruct (cl_skip (calls t) j).
Qed.

(** ** steps of writers *)
Lemma inv_writer s i w' cnt' : Inv s ->
  w_use w' = w_use (s_w s i) -> (w_pay w' = w_pay (s_w s i) \/ w_pay w' = None) -> pc_ok w' ->
  (forall t j, cnt' t j = expect (calls t) (put (s_w s) i w') (s_c s t) j) ->
  Inv (mkS (put (s_w s) i w') (s_c s) cnt' (s_null s)).
Proof.
  intros I U P Q E.
  assert (PP : forall x, w_pay (put (s_w s) i w' x) = pay s x \/ w_pay (put (s_w s) i w' x) = None).
  { intros x. unfold put. destruct (Nat.eqb_spec x i); [subst; exact P | now left]. }
  assert (UU : forall x, w_use (put (s_w s) i w' x) = w_use (s_w s x)).
  { intros x. unfold put. destruct (Nat.eqb_spec x i); [now subst | reflexivity]. }
  constructor; cbn.
  - apply (i_wf s I).
  - intros t. pose proof (i_rest s I t) as R. destruct (s_c s t); cbn in *; auto; unfold pay in *; cbn.
    + intros k x K N. destruct (PP x) as [-> | ->]; [eapply R; eauto | reflexivity].
    + intros x N. destruct (PP x) as [-> | ->]; [apply R; auto | reflexivity].
  - apply (i_nd s I).
  - intros t x H. rewrite UU. apply (i_use s I t x H).
  - apply (i_dis s I).
  - intros x. rewrite UU. apply (i_own s I).
  - intros x t j. unfold pay at 1. cbn. destruct (PP x) as [-> | ->]; [apply (i_pay s I) | discriminate].
  - intros x. unfold put. destruct (Nat.eqb_spec x i); [exact Q | apply (i_pc s I)].
  - exact E.
  - apply (i_null s I).
Qed.

Lemma expect_same c ww ww' p j :
  (forall i, w_pay (ww' i) = w_pay (ww i) /\ (w_pc (ww' i) = Fin <-> w_pc (ww i) = Fin)) ->
  expect c ww' p j = expect c ww p j.
Proof.
  intros H. unfold expect. destruct (cl_skip c j); auto. destruct (j <? base c p); auto.
  destruct (fin c p <=? j); auto. destruct (nth_error (leased p) (j - base c p)) as [i|]; auto.
  destruct (H i) as (-> & F). destruct (w_pay (ww i)); auto.
  destruct (w_pc (ww i)) eqn:A; destruct (w_pc (ww' i)) eqn:B; auto;
    exfalso; destruct F as (F1 & F2); try (specialize (F1 eq_refl); congruence); try (specialize (F2 eq_refl); congruence).
Qed.

Lemma inv_goes s i p : Inv s -> pc_ok (mkW (w_use (s_w s i)) (w_pay (s_w s i)) p) ->
  (p = Fin <-> w_pc (s_w s i) = Fin) ->
  Inv (set_w s i (mkW (w_use (s_w s i)) (w_pay (s_w s i)) p)).
Proof.
  intros I Q F. apply inv_writer; cbn; auto.
  intros t j. rewrite (i_cnt s I). symmetry. apply expect_same. intros x. unfold put.
  destruct (Nat.eqb_spec x i); [subst; cbn; auto | tauto].
Qed.

Lemma inv_wstep i s s' : Inv s -> wstep nw i s = Some s' -> Inv s'.
Proof.
  intros I. unfold wstep. destruct (nw <=? i); [discriminate|].
  pose proof (i_pc s I i) as Q. unfold pc_ok in Q. destruct (w_pc (s_w s i)) eqn:P; intros H.
  - injection H as <-. apply inv_goes; cbn; auto. rewrite P; split; discriminate.
  - injection H as <-. apply inv_goes; cbn; auto.
    + destruct (w_pay (s_w s i)) eqn:Y; cbn; auto. unfold pc_ok. cbn. congruence.
    + rewrite P. destruct (w_pay (s_w s i)); split; discriminate.
  - destruct (w_pay (s_w s i)) as [[t j]|] eqn:Y; [|congruence]. injection H as <-.
    rewrite <- Y. apply inv_goes; cbn; auto. rewrite P; split; discriminate.
  - injection H as <-. unfold wrote, set_w. cbn.
    destruct (i_pay s I i t j Q) as (N & B & K).
    apply (inv_writer s i (mkW (w_use (s_w s i)) (w_pay (s_w s i)) Fin) (put (s_cnt s) t (put (s_cnt s t) j (S (s_cnt s t j)))) I);
      cbn; auto.
    + unfold pc_ok. cbn. congruence.
    + intros t' j'. unfold put at 1. destruct (Nat.eqb_spec t' t) as [->|T].
      * unfold put at 1. destruct (Nat.eqb_spec j' j) as [->|J].
        { rewrite (i_cnt s I). unfold expect. rewrite K.
          destruct (Nat.ltb_spec j (base (calls t) (s_c s t))); [lia|].
          destruct (Nat.leb_spec (fin (calls t) (s_c s t)) j); [lia|].
          rewrite N, put_same. cbn. now rewrite Q, P. }
        { rewrite (i_cnt s I). unfold expect. destruct (cl_skip (calls t) j'); auto.
          destruct (Nat.ltb_spec j' (base (calls t) (s_c s t))); auto.
          destruct (Nat.leb_spec (fin (calls t) (s_c s t)) j'); auto.
          destruct (nth_error (leased (s_c s t)) (j' - base (calls t) (s_c s t))) as [x|] eqn:NX; auto.
          rewrite put_other; auto. intros ->.
          pose proof (nodup_nth _ _ _ _ (i_nd s I t) N NX). lia. }
      * rewrite (i_cnt s I). unfold expect. destruct (cl_skip (calls t') j'); auto.
        destruct (Nat.ltb_spec j' (base (calls t') (s_c s t'))); auto.
        destruct (Nat.leb_spec (fin (calls t') (s_c s t')) j'); auto.
        destruct (nth_error (leased (s_c s t')) (j' - base (calls t') (s_c s t'))) as [x|] eqn:NX; auto.
        rewrite put_other; auto. intros ->. apply T.
        apply (i_dis s I _ _ i); eapply nth_error_In; eauto.
  - injection H as <-. apply (inv_writer s i (mkW (w_use (s_w s i)) None Tell)); cbn; auto.
    + intros t j. rewrite (i_cnt s I). unfold expect. destruct (cl_skip (calls t) j); auto.
      destruct (Nat.ltb_spec j (base (calls t) (s_c s t))); auto.
      destruct (Nat.leb_spec (fin (calls t) (s_c s t)) j); auto.
      destruct (nth_error (leased (s_c s t)) (j - base (calls t) (s_c s t))) as [x|] eqn:NX; auto.
      unfold put. destruct (Nat.eqb_spec x i); [|reflexivity]. subst. cbn.
      rewrite P. now destruct (w_pay (s_w s i)).
  - injection H as <-. apply inv_goes; cbn; auto. rewrite P; split; discriminate.
Qed.

(** ** steps of calls *)

(** A call moves on while it keeps its writers, and no writer changes. *)
Lemma inv_move s t p cnt' : Inv s -> leased p = leased (s_c s t) -> wf (calls t) p -> rested s p ->
  base (calls t) p = base (calls t) (s_c s t) -> fin (calls t) (s_c s t) <= fin (calls t) p ->
  (forall j, fin (calls t) (s_c s t) <= j -> cnt' t j = expect (calls t) (s_w s) p j) ->
  (forall t' j, t' <> t \/ j < fin (calls t) (s_c s t) -> cnt' t' j = s_cnt s t' j) ->
  base (calls t) (s_c s t) <= fin (calls t) (s_c s t) ->
  Inv (mkS (s_w s) (put (s_c s) t p) cnt' (s_null s)).
Proof.
  intros I L Wf R B F E E' BF.
  assert (LL : forall t', leased (put (s_c s) t p t') = leased (s_c s t')).
  { intros t'. unfold put. destruct (Nat.eqb_spec t' t); [now subst | reflexivity]. }
  constructor; cbn.
  - intros t'. unfold put. destruct (Nat.eqb_spec t' t); [now subst | apply (i_wf s I)].
  - intros t'. unfold put. destruct (Nat.eqb_spec t' t).
    + subst. destruct p; cbn in *; auto.
    + pose proof (i_rest s I t') as Q. destruct (s_c s t'); cbn in *; auto.
  - intros t'. rewrite LL. apply (i_nd s I).
  - intros t' i. rewrite LL. apply (i_use s I).
  - intros t1 t2 i. rewrite !LL. apply (i_dis s I).
  - intros i H. destruct (i_own s I i H) as (t' & T). exists t'. now rewrite LL.
  - intros i t' j H. destruct (i_pay s I i t' j H) as (N & BB & K).
    rewrite LL. unfold put. destruct (Nat.eqb_spec t' t); [subst; rewrite B | auto]. repeat split; auto; lia.
  - apply (i_pc s I).
  - intros t' j. unfold put. destruct (Nat.eqb_spec t' t) as [->|T].
    + destruct (Nat.le_gt_cases (fin (calls t) (s_c s t)) j) as [J|J]; [now apply E|].
      rewrite E' by auto. rewrite (i_cnt s I). unfold expect. rewrite L, B.
      destruct (cl_skip (calls t) j); auto. destruct (j <? base (calls t) (s_c s t)); auto.
      destruct (Nat.leb_spec (fin (calls t) (s_c s t)) j); [lia|].
      destruct (Nat.leb_spec (fin (calls t) p) j); [lia|]. reflexivity.
    + rewrite E' by auto. apply (i_cnt s I).
  - apply (i_null s I).
Qed.

Lemma expect_beyond c ww p j : base c p <= j -> fin c p <= j -> expect c ww p j = 0.
Proof.
  intros B F. unfold expect. destruct (cl_skip c j); auto.
  destruct (Nat.ltb_spec j (base c p)); [lia|]. destruct (Nat.leb_spec (fin c p) j); [auto | lia].
Qed.

Lemma wf_fin c p : wf c p -> base c p <= fin c p.
Proof. destruct p; cbn; lia. Qed.

Lemma mark_w b ls s i : s_w (mark b ls s) i = if existsb (Nat.eqb i) ls then mkW b (w_pay (s_w s i)) (w_pc (s_w s i)) else s_w s i.
Proof. reflexivity. Qed.
Lemma mark_pay b ls s i : w_pay (s_w (mark b ls s) i) = pay s i /\ w_pc (s_w (mark b ls s) i) = w_pc (s_w s i).
Proof. rewrite mark_w. unfold pay. now destruct (existsb (Nat.eqb i) ls). Qed.

Lemma lease_in num s i : In i (lease nw num s) -> i < nw /\ w_use (s_w s i) = false.
Proof.
  unfold lease. intros H. apply in_firstn in H. apply filter_In in H as (A & B).
  apply in_seq in A. apply negb_true_iff in B. split; [lia | exact B].
Qed.
Lemma lease_nd num s : NoDup (lease nw num s).
Proof. apply NoDup_firstn, NoDup_filter, seq_NoDup. Qed.
Lemma lease_len num s : length (lease nw num s) <= num.
Proof. unfold lease. rewrite firstn_length. lia. Qed.

Lemma used_pay s i : Inv s -> pay s i <> None -> w_use (s_w s i) = true.
Proof.
  intros I H. destruct (pay s i) as [[t j]|] eqn:P; [|contradiction].
  destruct (i_pay s I i t j P) as (N & _). apply (i_use s I t i). eapply nth_error_In; eauto.
Qed.

Lemma inv_lease s t ii : Inv s -> s_c s t = Next ii -> ii < cl_n (calls t) ->
  let ls := lease nw (min (ii + cl_max (calls t)) (cl_n (calls t)) - ii - 1) s in
  Inv (set_c (mark true ls s) t (Asg ii ls ii)).
Proof.
  intros I P L ls. assert (LI := lease_in (min (ii + cl_max (calls t)) (cl_n (calls t)) - ii - 1) s). fold ls in LI.
  assert (FREE : forall t' i, In i (leased (s_c s t')) -> ~ In i ls).
  { intros t' i H H'. destruct (LI i H') as (_ & U). destruct (i_use s I t' i H). congruence. }
  constructor; cbn.
  - intros t'. unfold put. destruct (Nat.eqb_spec t' t); [|apply (i_wf s I)]. subst. cbn.
    pose proof (MX t). assert (Q := lease_len (min (ii + cl_max (calls t)) (cl_n (calls t)) - ii - 1) s). fold ls in Q. lia.
  - intros t'. unfold put. destruct (Nat.eqb_spec t' t); [exact Logic.I|].
    pose proof (i_rest s I t') as Q. destruct (s_c s t'); cbn in *; auto; unfold pay; cbn; intros.
    + destruct (mark_pay true ls s i) as (A & _). cbn in A. rewrite A. now apply (Q k i).
    + destruct (mark_pay true ls s i) as (A & _). cbn in A. rewrite A. now apply Q.
  - intros t'. unfold put. destruct (Nat.eqb_spec t' t); [apply lease_nd | apply (i_nd s I)].
  - intros t' i H. unfold put in H. destruct (Nat.eqb_spec t' t); cbn in H.
    + rewrite (proj2 (existsb_in i ls) H). cbn. split; [apply (LI i H) | reflexivity].
    + destruct (i_use s I t' i H). destruct (existsb (Nat.eqb i) ls); auto.
  - intros t1 t2 i. unfold put. destruct (Nat.eqb_spec t1 t), (Nat.eqb_spec t2 t); subst; cbn; auto.
    + intros A B. exfalso. exact (FREE _ _ B A).
    + intros A B. exfalso. exact (FREE _ _ A B).
    + apply (i_dis s I).
  - intros i. destruct (existsb (Nat.eqb i) ls) eqn:X.
    + intros _. exists t. rewrite put_same. cbn. now apply existsb_in.
    + intros U. destruct (i_own s I i U) as (t' & T). exists t'. rewrite put_other; auto.
      intros ->. rewrite P in T. contradiction.
  - intros i t' j H. unfold pay in H. cbn in H. destruct (mark_pay true ls s i) as (A0 & _). cbn in A0. rewrite A0 in H.
    destruct (i_pay s I i t' j H) as (N & B & K). rewrite put_other; auto.
    intros ->. rewrite P in B. cbn in B. lia.
  - intros i. pose proof (i_pc s I i) as Q. unfold pc_ok in *. destruct (existsb (Nat.eqb i) ls); auto.
  - intros t' j. transitivity (expect (calls t') (s_w s) (put (s_c s) t (Asg ii ls ii) t') j).
    + rewrite (i_cnt s I). unfold put. destruct (Nat.eqb_spec t' t); [|reflexivity]. subst. rewrite P.
      unfold expect. cbn [base fin leased]. destruct (cl_skip (calls t) j); auto.
      destruct (Nat.ltb_spec j ii); auto. destruct (Nat.leb_spec ii j); [auto | lia].
    + symmetry. apply expect_same. intros i. destruct (mark_pay true ls s i) as (A & B).
      cbn in A, B. rewrite A, B. split; [reflexivity | tauto].
  - apply (i_null s I).
Qed.

Lemma inv_return s t ii ls q : Inv s -> s_c s t = Rt ii ls ->
  (q = Next (ii + length ls + 1) \/ q = Thrown (ii + length ls + 1)) ->
  Inv (set_c (mark false ls s) t q).
Proof.
  intros I P Q.
  assert (LQ : leased q = []) by (destruct Q; subst; reflexivity).
  assert (BQ : base (calls t) q = ii + length ls + 1 /\ fin (calls t) q = ii + length ls + 1) by (destruct Q; subst; auto).
  pose proof (i_wf s I t) as Wt0. rewrite P in Wt0. cbn in Wt0.
  pose proof (i_rest s I t) as R0. rewrite P in R0. cbn in R0.
  assert (FREE : forall t' i, t' <> t -> In i (leased (s_c s t')) -> ~ In i ls).
  { intros t' i T H H'. apply T. apply (i_dis s I _ _ i H). now rewrite P. }
  constructor; cbn.
  - intros t'. unfold put. destruct (Nat.eqb_spec t' t); [|apply (i_wf s I)]. subst. destruct Q; subst; exact Wt0.
  - intros t'. unfold put. destruct (Nat.eqb_spec t' t); [destruct Q; subst; exact Logic.I|].
    pose proof (i_rest s I t') as Z. destruct (s_c s t'); cbn in *; auto; unfold pay; cbn; intros.
    + destruct (mark_pay false ls s i) as (A & _). cbn in A. rewrite A. now apply (Z k i).
    + destruct (mark_pay false ls s i) as (A & _). cbn in A. rewrite A. now apply Z.
  - intros t'. unfold put. destruct (Nat.eqb_spec t' t); [rewrite LQ; constructor | apply (i_nd s I)].
  - intros t' i H. unfold put in H. destruct (Nat.eqb_spec t' t); [rewrite LQ in H; contradiction|].
    destruct (existsb (Nat.eqb i) ls) eqn:X; [|apply (i_use s I t' i H)].
    apply existsb_in in X. exfalso. eapply FREE; eauto.
  - intros t1 t2 i. unfold put. destruct (Nat.eqb_spec t1 t), (Nat.eqb_spec t2 t); subst; rewrite ?LQ; try contradiction.
    apply (i_dis s I).
  - intros i. destruct (existsb (Nat.eqb i) ls) eqn:X; [discriminate|].
    intros U. destruct (i_own s I i U) as (t' & T). exists t'. rewrite put_other; auto.
    intros ->. rewrite P in T. cbn in T. apply existsb_in in T. congruence.
  - intros i t' j H. unfold pay in H. cbn in H. destruct (mark_pay false ls s i) as (A0 & _). cbn in A0. rewrite A0 in H.
    destruct (i_pay s I i t' j H) as (N & B & K). rewrite put_other; auto.
    intros ->. rewrite P in N. cbn in N. rewrite R0 in H; [discriminate | eapply nth_error_In; eauto].
  - intros i. pose proof (i_pc s I i) as Z. unfold pc_ok in *. destruct (existsb (Nat.eqb i) ls); auto.
  - intros t' j. transitivity (expect (calls t') (s_w s) (put (s_c s) t q t') j).
    + rewrite (i_cnt s I). unfold put. destruct (Nat.eqb_spec t' t); [|reflexivity]. subst. rewrite P.
      unfold expect. cbn [base fin leased]. destruct BQ as (-> & ->). destruct (cl_skip (calls t) j); auto.
      destruct (Nat.ltb_spec j ii); destruct (Nat.ltb_spec j (ii + length ls + 1)); auto; try lia.
      * destruct (Nat.leb_spec (ii + length ls + 1) j); [lia|].
        destruct (nth_error ls (j - ii)) as [x|] eqn:X; auto.
        assert (Y := R0 x (nth_error_In _ _ X)). unfold pay in Y. now rewrite Y.
      * destruct (Nat.leb_spec (ii + length ls + 1) j); [auto | lia].
    + symmetry. apply expect_same. intros i. destruct (mark_pay false ls s i) as (A & B).
      cbn in A, B. rewrite A, B. split; [reflexivity | tauto].
  - apply (i_null s I).
Qed.

Lemma inv_give s t ii ls jj i : Inv s -> s_c s t = Asg ii ls jj -> nth_error ls (jj - ii) = Some i ->
  cl_skip (calls t) jj = false ->
  Inv (set_c (set_w s i (mkW (w_use (s_w s i)) (Some (t, jj)) (w_pc (s_w s i)))) t (Asg ii ls (S jj))).
Proof.
  intros I P N K. pose proof (i_wf s I t) as Wf. rewrite P in Wf. cbn in Wf.
  destruct (nth_in _ _ _ N) as (IN & LEN).
  assert (IL : In i (leased (s_c s t))) by (rewrite P; exact IN).
  assert (PN : pay s i = None).
  { destruct (pay s i) as [[t' j']|] eqn:Y; [|reflexivity]. destruct (i_pay s I i t' j' Y) as (A & B & _).
    assert (t' = t) by (apply (i_dis s I _ _ i); [eapply nth_error_In; eauto | exact IL]). subst t'.
    rewrite P in A, B. cbn in A, B. pose proof (i_nd s I t) as D. rewrite P in D. cbn in D.
    pose proof (nodup_nth _ _ _ _ D A N). lia. }
  assert (PC := i_pc s I i). unfold pc_ok in PC. unfold pay in PN. rewrite PN in PC.
  assert (LL : forall t', leased (put (s_c s) t (Asg ii ls (S jj)) t') = leased (s_c s t')).
  { intros t'. unfold put. destruct (Nat.eqb_spec t' t); [subst; now rewrite P | reflexivity]. }
  assert (UU : forall x, w_use (put (s_w s) i (mkW (w_use (s_w s i)) (Some (t, jj)) (w_pc (s_w s i))) x) = w_use (s_w s x)).
  { intros x. unfold put. destruct (Nat.eqb_spec x i); [now subst | reflexivity]. }
  constructor; cbn -[leased].
  - intros t'. unfold put. destruct (Nat.eqb_spec t' t); [|apply (i_wf s I)]. subst. cbn. lia.
  - intros t'. unfold put. destruct (Nat.eqb_spec t' t) as [->|T]; [exact Logic.I|].
    pose proof (i_rest s I t') as Z. assert (D := i_dis s I t' t i).
    destruct (s_c s t'); cbn in *; auto; unfold pay; cbn.
    + intros k x A B. rewrite put_other; [now apply (Z k x)|]. intros ->. apply T, D; [eapply nth_error_In; eauto | exact IL].
    + intros x A. rewrite put_other; [now apply Z|]. intros ->. now apply T, D.
  - intros t'. rewrite LL. apply (i_nd s I).
  - intros t' x. rewrite LL, UU. apply (i_use s I).
  - intros t1 t2 x. rewrite !LL. apply (i_dis s I).
  - intros x. rewrite UU. intros H. destruct (i_own s I x H) as (t' & T). exists t'. now rewrite LL.
  - intros x t' j. rewrite LL. unfold pay. cbn [s_w set_c set_w]. destruct (Nat.eq_dec x i) as [->|X].
    + rewrite put_same. cbn [w_pay]. intros E. injection E as <- <-. rewrite put_same. rewrite P. cbn.
      repeat split; auto; lia.
    + rewrite put_other by auto. intros H. destruct (i_pay s I x t' j H) as (A & B & C0).
      unfold put. destruct (Nat.eqb_spec t' t); [subst; rewrite P in *; cbn in * | auto]. repeat split; auto; lia.
  - intros x. unfold put. destruct (Nat.eqb_spec x i); [|apply (i_pc s I)].
    unfold pc_ok. cbn. destruct (w_pc (s_w s i)); auto; congruence.
  - intros t' j. rewrite (i_cnt s I).
    destruct (Nat.eq_dec t' t) as [->|T].
    + rewrite put_same, P. unfold expect. cbn [base fin leased]. destruct (cl_skip (calls t) j) eqn:KJ; auto.
      destruct (Nat.ltb_spec j ii); auto. destruct (Nat.leb_spec jj j) as [J|J].
      * destruct (Nat.leb_spec (S jj) j); [reflexivity|]. assert (j = jj) by lia. subst j. rewrite N, put_same. cbn.
        destruct (w_pc (s_w s i)) eqn:PQ; auto. congruence.
      * destruct (Nat.leb_spec (S jj) j); [lia|].
        destruct (nth_error ls (j - ii)) as [x|] eqn:X; auto. rewrite put_other; auto.
        intros ->. pose proof (i_nd s I t) as D. rewrite P in D. pose proof (nodup_nth _ _ _ _ D X N). lia.
    + rewrite put_other by auto. unfold expect. destruct (cl_skip (calls t') j); auto.
      destruct (j <? base (calls t') (s_c s t')); auto. destruct (fin (calls t') (s_c s t') <=? j); auto.
      destruct (nth_error (leased (s_c s t')) (j - base (calls t') (s_c s t'))) as [x|] eqn:X; auto.
      rewrite put_other; auto. intros ->. apply T. apply (i_dis s I _ _ i); [eapply nth_error_In; eauto | exact IL].
  - apply (i_null s I).
Qed.

Lemma inv_cstep t s s' : Inv s -> cstep nw calls t s = Some s' -> Inv s'.
Proof.
  intros I. unfold cstep. pose proof (i_wf s I t) as Wf. pose proof (i_rest s I t) as Re.
  destruct (s_c s t) eqn:P; cbn in Wf; intros H.
  - injection H as <-. apply inv_move; rewrite ?P; cbn; auto; try lia.
    + intros j _. rewrite (i_cnt s I), P. unfold expect. cbn. destruct (cl_skip (calls t) j); auto.
  - destruct (Nat.ltb_spec ii (cl_n (calls t))); injection H as <-.
    + now apply inv_lease.
    + apply inv_move; rewrite ?P; cbn; auto; try lia.
      intros j J. rewrite (i_cnt s I), P. unfold expect. cbn. assert (cl_n (calls t) = ii) as -> by lia. reflexivity.
  - destruct (Nat.ltb_spec jj (ii + length ls + 1)) as [L|L].
    + destruct (cl_skip (calls t) jj) eqn:K.
      * injection H as <-. apply inv_move; rewrite ?P; cbn; auto; try lia.
        intros j J. rewrite (i_cnt s I), P, expect_beyond by (cbn; lia).
        destruct (Nat.eq_dec j jj); [subst; unfold expect; now rewrite K | rewrite expect_beyond; cbn; lia].
      * destruct (nth_error ls (jj - ii)) as [i|] eqn:N; injection H as <-.
        { now apply inv_give. }
        { apply nth_error_None in N. apply inv_move; rewrite ?P; cbn; auto; try lia.
          - repeat split; auto; lia.
          - intros j J. rewrite (i_cnt s I), P, !expect_beyond; cbn; lia. }
    + injection H as <-. apply inv_move; rewrite ?P; cbn; auto; try lia.
      intros j J. rewrite (i_cnt s I), P, !expect_beyond; cbn; lia.
  - injection H as <-. destruct Wf as (-> & Wf & K).
    apply (inv_move s t (Asg ii ls (S (ii + length ls))) (put (s_cnt s) t (put (s_cnt s t) (ii + length ls) (S (s_cnt s t (ii + length ls))))) I); rewrite ?P; cbn; auto; try lia.
    + intros j J. rewrite put_same. unfold put. destruct (Nat.eqb_spec j (ii + length ls)).
      * subst. rewrite (i_cnt s I), P, expect_beyond by (cbn; lia). unfold expect. rewrite K. cbn [base fin leased].
        destruct (Nat.ltb_spec (ii + length ls) ii); auto. destruct (Nat.leb_spec (S (ii + length ls)) (ii + length ls)); [lia|].
        replace (ii + length ls - ii) with (length ls) by lia.
        now rewrite (proj2 (nth_error_None ls (length ls)) (le_n _)).
      * rewrite (i_cnt s I), P, !expect_beyond; cbn; lia.
    + intros t' j [T|J]; [now rewrite put_other|]. unfold put. destruct (Nat.eqb_spec t' t); auto. subst.
      destruct (Nat.eqb_spec j (ii + length ls)); [lia | reflexivity].
  - destruct (nth_error ls (jj - ii)) as [i|] eqn:N.
    + destruct (w_pay (s_w s i)) eqn:Y; injection H as <-; [exact I|].
      destruct (nth_in _ _ _ N) as (_ & LEN).
      apply inv_move; rewrite ?P; cbn [leased wf rested base fin] in *; auto; try lia.
      * intros k x Kx X. destruct (Nat.eq_dec k (jj - ii)); [subst; unfold pay; congruence | apply (Re k x); [lia | exact X]].
      * intros j J. rewrite (i_cnt s I), P, !expect_beyond; cbn; lia.
    + injection H as <-. apply nth_error_None in N. apply inv_move; rewrite ?P; cbn [leased wf rested base fin] in *; auto; try lia.
      * intros x X. apply In_nth_error in X as (k & X). apply (Re k x); [|exact X].
        destruct (nth_in _ _ _ X). lia.
      * intros j J. rewrite (i_cnt s I), P, !expect_beyond; cbn; lia.
  - injection H as <-. eapply inv_return; eauto.
  - discriminate.
  - discriminate.
Qed.

Lemma inv_step a s s' : Inv s -> step nw calls a s = Some s' -> Inv s'.
Proof.
  destruct a; cbn.
  - apply inv_wstep.
  - apply inv_cstep.
  - intros I. unfold xstep. destruct (s_c s t) eqn:P; try discriminate. intros H. injection H as <-. eapply inv_return; eauto.
Qed.
Lemma inv_run os : forall s s', Inv s -> run nw calls os s = Some s' -> Inv s'.
Proof.
  induction os as [|a os IH]; cbn; intros s s' I H; [congruence|].
  destruct (step nw calls a s) as [s1|] eqn:S; [|discriminate]. eapply IH; [eapply inv_step; eauto | exact H].
Qed.
Lemma reach_inv os s : run nw calls os init = Some s -> Inv s.
Proof. apply inv_run, inv_init. Qed.

(** ** what the calls get *)
Lemma all_once s t : Inv s -> s_c s t = End -> forall j, s_cnt s t j = if to_write (calls t) j then 1 else 0.
Proof.
  intros I P j. rewrite (i_cnt s I), P. unfold expect, to_write. cbn [base fin leased].
  destruct (cl_skip (calls t) j); [now rewrite andb_false_r|]. rewrite andb_true_r.
  destruct (Nat.ltb_spec j (cl_n (calls t))); auto. destruct (Nat.leb_spec (cl_n (calls t)) j); [auto | lia].
Qed.
Lemma once_at_most s t j : Inv s -> s_cnt s t j <= if to_write (calls t) j then 1 else 0.
Proof.
  intros I. rewrite (i_cnt s I). unfold expect, to_write. pose proof (i_wf s I t) as Wf.
  destruct (cl_skip (calls t) j); [rewrite andb_false_r; lia|]. rewrite andb_true_r.
  assert (fin (calls t) (s_c s t) <= cl_n (calls t)) by (destruct (s_c s t); cbn in *; lia).
  pose proof (wf_fin _ _ Wf).
  destruct (Nat.ltb_spec j (base (calls t) (s_c s t))); [destruct (Nat.ltb_spec j (cl_n (calls t))); lia|].
  destruct (Nat.leb_spec (fin (calls t) (s_c s t)) j); [lia|].
  destruct (Nat.ltb_spec j (cl_n (calls t))); [|lia].
  destruct (nth_error _ _) as [i|]; auto. destruct (w_pay _); auto. destruct (w_pc _); auto.
Qed.

(** ** a call can always finish *)
Lemma solo_trans t s1 s2 s3 : solo nw calls t s1 s2 -> solo nw calls t s2 s3 -> solo nw calls t s1 s3.
Proof. induction 1; intros; auto; [eapply solo_call | eapply solo_writer]; eauto. Qed.
Lemma solo_inv t s1 s2 : solo nw calls t s1 s2 -> Inv s1 -> Inv s2.
Proof. induction 1; intros I; auto; apply IHsolo; eapply inv_step; eauto. Qed.

Lemma wstep_c i s s' : wstep nw i s = Some s' -> s_c s' = s_c s.
Proof.
  unfold wstep. destruct (nw <=? i); [discriminate|]. destruct (w_pc (s_w s i)); [..|]; intros H;
    try (injection H as <-; reflexivity). destruct (w_pay (s_w s i)) as [[]|]; injection H as <-; reflexivity.
Qed.

(** distance of a writer with a payload from having emptied it *)
Definition far (p : wpc) : nat := match p with Tell => 6 | Idle => 5 | Look => 4 | Do => 3 | Busy _ _ => 2 | Fin => 1 end.
Lemma drain_step s i : Inv s -> i < nw -> pay s i <> None ->
  exists s1, wstep nw i s = Some s1 /\ (pay s1 i = None \/ far (w_pc (s_w s1 i)) < far (w_pc (s_w s i))).
Proof.
  intros I L P. unfold wstep. destruct (Nat.leb_spec nw i); [lia|]. unfold pay in *.
  destruct (w_pay (s_w s i)) as [[t j]|] eqn:Y; [|contradiction].
  destruct (w_pc (s_w s i)); eexists; (split; [reflexivity|]); cbn; rewrite ?put_same; cbn; auto; right; lia.
Qed.
Lemma drain n : forall s t i, Inv s -> In i (leased (s_c s t)) -> far (w_pc (s_w s i)) <= n ->
  exists s1, solo nw calls t s s1 /\ s_c s1 = s_c s /\ pay s1 i = None.
Proof.
  induction n as [|n IH]; intros s t i I L F.
  - exfalso. destruct (w_pc (s_w s i)); cbn in F; lia.
  - destruct (pay s i) as [q|] eqn:P; [|exists s; split; [constructor | auto]].
    destruct (drain_step s i I) as (s1 & S & D); [apply (i_use s I t i L) | congruence |].
    pose proof (wstep_c _ _ _ S) as E.
    destruct D as [D|D].
    + exists s1. split; [eapply solo_writer; eauto; constructor | auto].
    + destruct (IH s1 t i) as (s2 & A & B & C0); [eapply inv_wstep; eauto | now rewrite E | lia |].
      exists s2. split; [eapply solo_writer; eauto | split; congruence].
Qed.

Lemma wait_done n : forall s t ii ls jj, Inv s -> s_c s t = Wt ii ls jj -> ii + length ls - jj <= n ->
  exists s1, solo nw calls t s s1 /\ s_c s1 t = Rt ii ls.
Proof.
  induction n as [|n IH]; intros s t ii ls jj I P L;
    pose proof (i_wf s I t) as Wf; rewrite P in Wf; cbn in Wf.
  - exists (set_c s t (Rt ii ls)). split; [|cbn; apply put_same].
    eapply solo_call; [|constructor]. cbn. unfold cstep. rewrite P.
    now rewrite (proj2 (nth_error_None ls (jj - ii))) by lia.
  - destruct (nth_error ls (jj - ii)) as [i|] eqn:N.
    + destruct (drain 6 s t i I) as (s1 & A & B & C0).
      * rewrite P. cbn. eapply nth_error_In; eauto.
      * destruct (w_pc (s_w s i)); cbn; lia.
      * assert (I1 := solo_inv _ _ _ A I).
        assert (ST : step nw calls (C t) s1 = Some (set_c s1 t (Wt ii ls (S jj)))).
        { cbn. unfold cstep. rewrite B, P, N. unfold pay in C0. now rewrite C0. }
        destruct (IH (set_c s1 t (Wt ii ls (S jj))) t ii ls (S jj)) as (s2 & D & E).
        { eapply inv_step; eauto. } { cbn. apply put_same. } { lia. }
        exists s2. split; [|exact E]. eapply solo_trans; [exact A|]. eapply solo_call; eauto.
    + exists (set_c s t (Rt ii ls)). split; [|cbn; apply put_same].
      eapply solo_call; [|constructor]. cbn. unfold cstep. now rewrite P, N.
Qed.

Lemma assign_done n : forall s t ii ls jj, Inv s -> s_c s t = Asg ii ls jj -> ii + length ls + 1 - jj <= n ->
  exists s1 kk, solo nw calls t s s1 /\ s_c s1 t = Wt ii ls kk.
Proof.
  induction n as [|n IH]; intros s t ii ls jj I P L;
    pose proof (i_wf s I t) as Wf; rewrite P in Wf; cbn in Wf.
  - exists (set_c s t (Wt ii ls ii)), ii. split; [|cbn; apply put_same].
    eapply solo_call; [|constructor]. cbn. unfold cstep. rewrite P.
    destruct (Nat.ltb_spec jj (ii + length ls + 1)); [lia | reflexivity].
  - destruct (Nat.ltb_spec jj (ii + length ls + 1)) as [J|J].
    + destruct (cl_skip (calls t) jj) eqn:K.
      { assert (ST : step nw calls (C t) s = Some (set_c s t (Asg ii ls (S jj)))).
        { cbn. unfold cstep. rewrite P, K. destruct (Nat.ltb_spec jj (ii + length ls + 1)); [reflexivity | lia]. }
        destruct (IH _ t ii ls (S jj) (inv_step _ _ _ I ST)) as (s2 & kk & D & E); [cbn; apply put_same | lia |].
        exists s2, kk. split; [eapply solo_call; eauto | exact E]. }
      destruct (nth_error ls (jj - ii)) as [i|] eqn:N.
      { assert (ST : step nw calls (C t) s =
          Some (set_c (set_w s i (mkW (w_use (s_w s i)) (Some (t, jj)) (w_pc (s_w s i)))) t (Asg ii ls (S jj)))).
        { cbn. unfold cstep. rewrite P, K, N. destruct (Nat.ltb_spec jj (ii + length ls + 1)); [reflexivity | lia]. }
        destruct (IH _ t ii ls (S jj) (inv_step _ _ _ I ST)) as (s2 & kk & D & E); [cbn; apply put_same | lia |].
        exists s2, kk. split; [eapply solo_call; eauto | exact E]. }
      assert (ST : step nw calls (C t) s = Some (set_c s t (Own ii ls jj))).
      { cbn. unfold cstep. rewrite P, K, N. destruct (Nat.ltb_spec jj (ii + length ls + 1)); [reflexivity | lia]. }
      assert (S2 : step nw calls (C t) (set_c s t (Own ii ls jj)) =
        Some (set_c (wrote (set_c s t (Own ii ls jj)) t jj) t (Asg ii ls (S jj)))).
      { cbn. unfold cstep. cbn. now rewrite put_same. }
      assert (I2 := inv_step _ _ _ (inv_step _ _ _ I ST) S2).
      destruct (IH _ t ii ls (S jj) I2) as (s2 & kk & D & E); [cbn; apply put_same | lia |].
      exists s2, kk. split; [eapply solo_call; [exact ST | eapply solo_call; eauto] | exact E].
    + exists (set_c s t (Wt ii ls ii)), ii. split; [|cbn; apply put_same].
      eapply solo_call; [|constructor]. cbn. unfold cstep. rewrite P.
      destruct (Nat.ltb_spec jj (ii + length ls + 1)); [lia | reflexivity].
Qed.

Definition ended (p : cpc) : Prop := match p with End | Thrown _ => True | _ => False end.

Lemma finish_rt s t ii ls : Inv s -> s_c s t = Rt ii ls ->
  exists s1, solo nw calls t s s1 /\ s_c s1 t = Next (ii + length ls + 1).
Proof.
  intros I P. eexists. split; [eapply solo_call; [|constructor]; cbn; unfold cstep; rewrite P; reflexivity|].
  cbn. apply put_same.
Qed.
Lemma finish_wt s t ii ls jj : Inv s -> s_c s t = Wt ii ls jj ->
  exists s1, solo nw calls t s s1 /\ s_c s1 t = Next (ii + length ls + 1).
Proof.
  intros I P. destruct (wait_done _ s t ii ls jj I P (le_n _)) as (s1 & A & B).
  destruct (finish_rt s1 t ii ls (solo_inv _ _ _ A I) B) as (s2 & D & E).
  exists s2. split; [eapply solo_trans; eauto | exact E].
Qed.
Lemma finish_asg s t ii ls jj : Inv s -> s_c s t = Asg ii ls jj ->
  exists s1, solo nw calls t s s1 /\ s_c s1 t = Next (ii + length ls + 1).
Proof.
  intros I P. destruct (assign_done _ s t ii ls jj I P (le_n _)) as (s1 & kk & A & B).
  destruct (finish_wt s1 t ii ls kk (solo_inv _ _ _ A I) B) as (s2 & D & E).
  exists s2. split; [eapply solo_trans; eauto | exact E].
Qed.
Lemma finish_next n : forall s t ii, Inv s -> s_c s t = Next ii -> cl_n (calls t) - ii <= n ->
  exists s1, solo nw calls t s s1 /\ s_c s1 t = End.
Proof.
  induction n as [|n IH]; intros s t ii I P L; destruct (Nat.ltb_spec ii (cl_n (calls t))) as [J|J]; try lia.
  - exists (set_c s t End). split; [|cbn; apply put_same]. eapply solo_call; [|constructor]. cbn. unfold cstep.
    rewrite P. destruct (Nat.ltb_spec ii (cl_n (calls t))); [lia | reflexivity].
  - set (ls := lease nw (min (ii + cl_max (calls t)) (cl_n (calls t)) - ii - 1) s).
    assert (ST : step nw calls (C t) s = Some (set_c (mark true ls s) t (Asg ii ls ii))).
    { cbn. unfold cstep. rewrite P. destruct (Nat.ltb_spec ii (cl_n (calls t))); [reflexivity | lia]. }
    assert (I1 := inv_step _ _ _ I ST).
    destruct (finish_asg (set_c (mark true ls s) t (Asg ii ls ii)) t ii ls ii I1) as (s2 & A & B); [cbn; apply put_same|].
    destruct (IH s2 t (ii + length ls + 1)) as (s3 & D & E); [eapply solo_inv; eauto | exact B | lia |].
    exists s3. split; [|exact E]. eapply solo_call; [exact ST|]. eapply solo_trans; eauto.
  - exists (set_c s t End). split; [|cbn; apply put_same]. eapply solo_call; [|constructor]. cbn. unfold cstep.
    rewrite P. destruct (Nat.ltb_spec ii (cl_n (calls t))); [lia | reflexivity].
Qed.

Lemma can_finish s t : Inv s -> (forall m, s_c s t <> Thrown m) -> exists s1, solo nw calls t s s1 /\ s_c s1 t = End.
Proof.
  intros I T.
  assert (NX : forall s1 m, solo nw calls t s s1 -> s_c s1 t = Next m -> exists s2, solo nw calls t s s2 /\ s_c s2 t = End).
  { intros s1 m A B. destruct (finish_next _ s1 t m (solo_inv _ _ _ A I) B (le_n _)) as (s2 & D & E).
    exists s2. split; [eapply solo_trans; eauto | exact E]. }
  destruct (s_c s t) eqn:P.
  - apply (NX (set_c s t (Next 0)) 0); [|cbn; apply put_same]. eapply solo_call; [|constructor]. cbn. unfold cstep. now rewrite P.
  - apply (NX s ii); [constructor | exact P].
  - destruct (finish_asg s t ii ls jj I P) as (s1 & A & B). eapply NX; eauto.
  - assert (S2 : step nw calls (C t) s = Some (set_c (wrote s t jj) t (Asg ii ls (S jj)))).
    { cbn. unfold cstep. cbn. now rewrite P. }
    destruct (finish_asg _ t ii ls (S jj) (inv_step _ _ _ I S2)) as (s1 & A & B); [cbn; apply put_same|].
    eapply NX; [|exact B]. eapply solo_call; eauto.
  - destruct (finish_wt s t ii ls jj I P) as (s1 & A & B). eapply NX; eauto.
  - destruct (finish_rt s t ii ls I P) as (s1 & A & B). eapply NX; eauto.
  - exists s. split; [constructor | exact P].
  - exfalso. exact (T m eq_refl).
Qed.
End Pool.

Lemma max_parallel_pos g r m : 0 < max_parallel g r m.
Proof.
  unfold max_parallel. destruct (Nat.eqb_spec g 0); cbn [negb]; [|lia]. destruct r; [lia|].
  destruct m as [[[fl co] tw]|]; [|lia]. destruct (fl + co =? 0); [lia|].
  destruct (Nat.eqb_spec ((tw + (fl + co) * 2 - 1) / (fl + co)) 0); [lia|].
  destruct (_ && _); lia.
Qed.
