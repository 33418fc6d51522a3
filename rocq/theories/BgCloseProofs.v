(* Proofs about closing a database beside background workers. *)
From Coq Require Import List Arith Bool Lia.
From Verif Require Import BgCloseModel BgCloseSpec.
Import ListNotations.

Ltac dif H := match type of H with context[if ?b then _ else _] => destruct b end.

(* --- lists --- *)

Lemma upd_length : forall A (l : list A) i x, length (upd l i x) = length l.
Proof. induction l; destruct i; simpl; intros; auto. Qed.

Lemma upd_same : forall A (l : list A) i x y,
  nth_error l i = Some y -> nth_error (upd l i x) i = Some x.
Proof. induction l; destruct i; simpl; intros; try discriminate; eauto. Qed.

Lemma upd_other : forall A (l : list A) i j x,
  i <> j -> nth_error (upd l i x) j = nth_error l j.
Proof. induction l; destruct i, j; simpl; intros; auto; try congruence. Qed.

Lemma upd_nth : forall A (l : list A) i j x y z,
  nth_error l i = Some z ->
  nth_error (upd l i x) j = Some y ->
  (j = i /\ y = x) \/ (j <> i /\ nth_error l j = Some y).
Proof.
  intros A l i j x y z H1 H2. destruct (Nat.eq_dec i j) as [E|E].
  - subst j. rewrite (upd_same _ _ _ _ _ H1) in H2. left. split; congruence.
  - rewrite upd_other in H2 by auto. right. auto.
Qed.

(* --- counting the workers of a database --- *)

Definition points (a : nat) (x : option (ptr * bool)) : bool :=
  match x with Some (p, _) => fst p =? a | None => false end.

Definition cnt (a : nat) (ws : list (option (ptr * bool))) : nat :=
  length (filter (points a) ws).

Definition b2n (b : bool) : nat := if b then 1 else 0.

Lemma cnt_cons : forall a x ws, cnt a (x :: ws) = b2n (points a x) + cnt a ws.
Proof. intros. unfold cnt. simpl. destruct (points a x); reflexivity. Qed.

Lemma cnt_upd : forall ws w a x y,
  nth_error ws w = Some y ->
  cnt a (upd ws w x) + b2n (points a y) = cnt a ws + b2n (points a x).
Proof.
  induction ws; destruct w; simpl; intros; try discriminate.
  - inversion H; subst. rewrite !cnt_cons. lia.
  - rewrite !cnt_cons. specialize (IHws _ a0 x _ H). lia.
Qed.

Lemma cnt_zero : forall ws a,
  (forall w p b, nth_error ws w = Some (Some (p, b)) -> fst p <> a) -> cnt a ws = 0.
Proof.
  induction ws; intros b H; [reflexivity|]. rewrite cnt_cons.
  rewrite IHws.
  - destruct a as [[p c]|]; simpl; auto.
    pose proof (H 0 p c eq_refl). apply Nat.eqb_neq in H0. rewrite H0. reflexivity.
  - intros w p c E. apply (H (S w) p c E).
Qed.

Lemma cnt_pos : forall ws a w p b,
  nth_error ws w = Some (Some (p, b)) -> fst p = a -> 0 < cnt a ws.
Proof.
  induction ws; destruct w; simpl; intros; try discriminate; rewrite cnt_cons.
  - inversion H; subst. simpl. rewrite Nat.eqb_refl. simpl. lia.
  - specialize (IHws _ _ _ _ H H0). lia.
Qed.

Lemma cnt_pos_inv : forall ws a, 0 < cnt a ws ->
  exists w p b, nth_error ws w = Some (Some (p, b)) /\ fst p = a.
Proof.
  induction ws; intros b H; [unfold cnt in H; simpl in H; lia|].
  rewrite cnt_cons in H. destruct (points b a) eqn:E.
  - destruct a as [[p c]|]; simpl in E; [|discriminate].
    exists 0, p, c. split; auto. apply Nat.eqb_eq; auto.
  - simpl in H. destruct (IHws _ H) as (w & p & c & H1 & H2).
    exists (S w), p, c. auto.
Qed.

Lemma cnt_repeat : forall n a, cnt a (repeat None n) = 0.
Proof. induction n; intros; simpl; auto. rewrite cnt_cons. simpl. auto. Qed.

(* --- objects that keep their identity --- *)

Lemma alive_upd : forall s s' a ob ob' p,
  nth_error (objs s) a = Some ob ->
  objs s' = upd (objs s) a ob' ->
  o_gen ob' = o_gen ob -> o_live ob' = o_live ob ->
  alive s' p = alive s p.
Proof.
  intros s s' a ob ob' p H E G L. unfold alive. rewrite E.
  destruct (Nat.eq_dec a (fst p)) as [D|D].
  - subst a. rewrite (upd_same _ _ _ _ _ H), H, G, L. reflexivity.
  - rewrite upd_other by auto. reflexivity.
Qed.

Lemma alive_objs : forall s s' p, objs s' = objs s -> alive s' p = alive s p.
Proof. intros. unfold alive. rewrite H. reflexivity. Qed.

Lemma alive_inv : forall s p, alive s p = true ->
  exists o, nth_error (objs s) (fst p) = Some o /\ o_live o = true /\ o_gen o = snd p.
Proof.
  unfold alive. intros. destruct (nth_error (objs s) (fst p)) as [o|]; [|discriminate].
  apply andb_true_iff in H. destruct H as [H1 H2]. apply Nat.eqb_eq in H2. eauto.
Qed.

(* the invariant of executions in which no wait expires *)
Record I (s : st) : Prop := {
  i_map : forall a o, nth_error (objs s) a = Some o -> o_map o = true -> o_live o = true;
  i_tasks : forall a o, nth_error (objs s) a = Some o -> o_live o = true ->
            o_tasks o = cnt a (workers s);
  i_busy : forall w p b, nth_error (workers s) w = Some (Some (p, b)) -> alive s p = true;
  i_lock : forall o a t, lock s = Some (o, a, t) ->
           t <= max_close_retry
           /\ (exists ob, nth_error (objs s) a = Some ob /\ o_live ob = true /\ o_map ob = false)
           /\ (forall w, o = Some w -> exists p, nth_error (workers s) w = Some (Some (p, false)))
}.

Lemma I_init : forall n, I (init n).
Proof.
  intros n. constructor; simpl.
  - intros a o H. destruct a; discriminate.
  - intros a o H. destruct a; discriminate.
  - intros w p b H. exfalso. apply nth_error_In in H. apply repeat_spec in H. discriminate.
  - intros; discriminate.
Qed.

Lemma scan_true : forall s, I s -> scan_ok s = true.
Proof.
  intros s HI. unfold scan_ok. apply forallb_forall. intros o H.
  apply In_nth_error in H. destruct H as [a H].
  pose proof (i_map _ HI a o H). destruct (o_map o); simpl; auto.
Qed.

(* an object is changed without its identity, the workers stay *)
Lemma I_obj : forall s s' a ob ob',
  I s -> nth_error (objs s) a = Some ob ->
  objs s' = upd (objs s) a ob' ->
  o_gen ob' = o_gen ob -> o_live ob' = o_live ob ->
  (o_map ob' = true -> o_map ob = true) ->
  o_tasks ob' = o_tasks ob ->
  workers s' = workers s ->
  (forall o a t, lock s' = Some (o, a, t) ->
           t <= max_close_retry
           /\ (exists ob, nth_error (objs s') a = Some ob /\ o_live ob = true /\ o_map ob = false)
           /\ (forall w, o = Some w -> exists p, nth_error (workers s') w = Some (Some (p, false)))) ->
  I s'.
Proof.
  intros s s' a ob ob' HI H E G L M T W K. constructor; auto.
  - intros b o Hb Mb. rewrite E in Hb. destruct (upd_nth _ _ _ _ _ _ _ H Hb) as [[-> ->]|[N Hb']].
    + rewrite L. apply (i_map _ HI _ _ H). auto.
    + apply (i_map _ HI _ _ Hb' Mb).
  - intros b o Hb Lb. rewrite E in Hb. rewrite W.
    destruct (upd_nth _ _ _ _ _ _ _ H Hb) as [[-> ->]|[N Hb']].
    + rewrite T. apply (i_tasks _ HI _ _ H). congruence.
    + apply (i_tasks _ HI _ _ Hb' Lb).
  - intros w p b Hw. rewrite W in Hw. rewrite (alive_upd s s' a ob ob' p H E G L).
    apply (i_busy _ HI _ _ _ Hw).
Qed.

(* a task is counted and taken *)
Lemma I_take : forall s w a o,
  I s -> lock s = None -> nth_error (workers s) w = Some None ->
  nth_error (objs s) a = Some o -> o_map o = true -> I (take s w a o).
Proof.
  intros s w a o HI HL HW HO HM.
  pose proof (i_map _ HI _ _ HO HM) as HV.
  assert (A : forall p, alive (take s w a o) p = alive s p).
  { intro p. apply (alive_upd s _ a o (with_tasks o (S (o_tasks o)))); auto. }
  constructor.
  - simpl. intros b x Hb Mb. destruct (upd_nth _ _ _ _ _ _ _ HO Hb) as [[-> ->]|[N Hb']].
    + simpl. auto.
    + apply (i_map _ HI _ _ Hb' Mb).
  - simpl. intros b x Hb Lb.
    pose proof (cnt_upd _ _ b (Some ((a, o_gen o), false)) _ HW) as C. simpl in C.
    destruct (upd_nth _ _ _ _ _ _ _ HO Hb) as [[-> ->]|[N Hb']].
    + simpl. rewrite Nat.eqb_refl in C. simpl in C.
      rewrite (i_tasks _ HI _ _ HO HV). lia.
    + assert (a <> b) by auto. apply Nat.eqb_neq in H. rewrite H in C. simpl in C.
      rewrite (i_tasks _ HI _ _ Hb' Lb). lia.
  - intros v p b Hv. rewrite A. simpl in Hv.
    destruct (upd_nth _ _ _ _ _ _ _ HW Hv) as [[-> E]|[N Hv']].
    + inversion E; subst. unfold alive. simpl. rewrite HO, HV, Nat.eqb_refl. reflexivity.
    + apply (i_busy _ HI _ _ _ Hv').
  - simpl. intros. congruence.
Qed.

Lemma I_ext : forall s s',
  I s -> objs s' = objs s -> workers s' = workers s -> lock s' = lock s -> I s'.
Proof.
  intros s s' HI EO EW EL. constructor.
  - rewrite EO. apply (i_map _ HI).
  - rewrite EO, EW. apply (i_tasks _ HI).
  - rewrite EW. intros. rewrite (alive_objs s s') by auto. apply (i_busy _ HI _ _ _ H).
  - rewrite EO, EW, EL. apply (i_lock _ HI).
Qed.

(* a worker changes its phase *)
Lemma I_phase : forall s w p b b',
  I s -> nth_error (workers s) w = Some (Some (p, b)) ->
  (b' = true -> inside s w = false) ->
  I (set_workers s (upd (workers s) w (Some (p, b')))).
Proof.
  intros s w p b b' HI HW HN. constructor; simpl.
  - apply (i_map _ HI).
  - intros a o H L. rewrite (i_tasks _ HI _ _ H L).
    pose proof (cnt_upd _ _ a (Some (p, b')) _ HW). simpl in H0. lia.
  - intros v q c Hv. rewrite (alive_objs s) by reflexivity.
    destruct (upd_nth _ _ _ _ _ _ _ HW Hv) as [[-> E]|[N Hv']].
    + inversion E; subst. apply (i_busy _ HI _ _ _ HW).
    + apply (i_busy _ HI _ _ _ Hv').
  - intros o a t HL. destruct (i_lock _ HI _ _ _ HL) as (H1 & H2 & H3).
    split; [auto|]. split; [auto|]. intros v ->.
    destruct (H3 v eq_refl) as [q Hq]. destruct (Nat.eq_dec w v) as [E|E].
    + subst v. exists p. rewrite (upd_same _ _ _ _ _ HW). destruct b'; auto.
      specialize (HN eq_refl). unfold inside in HN. rewrite HL in HN.
      rewrite Nat.eqb_refl in HN. discriminate.
    + exists q. rewrite upd_other; auto.
Qed.

Lemma I_end : forall s w p o,
  I s -> nth_error (workers s) w = Some (Some (p, false)) -> inside s w = false ->
  nth_error (objs s) (fst p) = Some o ->
  I (set_workers (set_objs s (upd (objs s) (fst p) (with_tasks o (o_tasks o - 1))))
                 (upd (workers s) w None)).
Proof.
  intros s w p o HI HW HN HO.
  assert (A : forall q, alive (set_workers (set_objs s (upd (objs s) (fst p) (with_tasks o (o_tasks o - 1))))
                 (upd (workers s) w None)) q = alive s q).
  { intro q. apply (alive_upd s _ (fst p) o (with_tasks o (o_tasks o - 1))); auto. }
  constructor.
  - simpl. intros b x Hb Mb. destruct (upd_nth _ _ _ _ _ _ _ HO Hb) as [[-> ->]|[N Hb']].
    + simpl. apply (i_map _ HI _ _ HO Mb).
    + apply (i_map _ HI _ _ Hb' Mb).
  - simpl. intros b x Hb Lb.
    pose proof (cnt_upd _ _ b None _ HW) as C. simpl in C.
    destruct (upd_nth _ _ _ _ _ _ _ HO Hb) as [[-> ->]|[N Hb']].
    + simpl in *. rewrite Nat.eqb_refl in C. simpl in C.
      rewrite (i_tasks _ HI _ _ HO Lb). lia.
    + assert (fst p <> b) by auto. apply Nat.eqb_neq in H. rewrite H in C. simpl in C.
      rewrite (i_tasks _ HI _ _ Hb' Lb). lia.
  - intros v q b Hv. rewrite A. simpl in Hv.
    destruct (upd_nth _ _ _ _ _ _ _ HW Hv) as [[-> E]|[N Hv']]; [discriminate|].
    apply (i_busy _ HI _ _ _ Hv').
  - simpl. intros c a t HL. destruct (i_lock _ HI _ _ _ HL) as (H1 & (ob & H2 & H3 & H4) & H5).
    split; [auto|]. split.
    + destruct (Nat.eq_dec (fst p) a) as [E|E].
      * subst a. rewrite HO in H2. inversion H2; subst ob.
        eexists. split; [eapply upd_same; eauto|]. auto.
      * exists ob. rewrite upd_other; auto.
    + intros v ->. destruct (H5 v eq_refl) as [q Hq]. exists q.
      rewrite upd_other; auto. intro E. subst v.
      unfold inside in HN. rewrite HL in HN. rewrite Nat.eqb_refl in HN. discriminate.
Qed.

Lemma I_open : forall s a g lg l',
  I s -> lock s = None ->
  (forall x, nth_error (objs s) a = Some x -> o_live x = false) ->
  nth_error l' a = Some (fresh g lg) ->
  (forall b, b <> a -> nth_error l' b = nth_error (objs s) b) ->
  I (set_objs s l').
Proof.
  intros s a g lg l' HI HL HD HA HB.
  assert (Z : cnt a (workers s) = 0).
  { apply cnt_zero. intros w p b Hw E. apply (i_busy _ HI) in Hw.
    apply alive_inv in Hw. destruct Hw as (o & H1 & H2 & H3). subst a.
    rewrite (HD _ H1) in H2. discriminate. }
  constructor; simpl.
  - intros b o H M. destruct (Nat.eq_dec b a) as [->|N].
    + rewrite HA in H. inversion H; reflexivity.
    + rewrite HB in H by auto. apply (i_map _ HI _ _ H M).
  - intros b o H L. destruct (Nat.eq_dec b a) as [->|N].
    + rewrite HA in H. inversion H; subst. rewrite Z. reflexivity.
    + rewrite HB in H by auto. apply (i_tasks _ HI _ _ H L).
  - intros w p b Hw. apply (i_busy _ HI) in Hw.
    apply alive_inv in Hw. destruct Hw as (o & H1 & H2 & H3).
    unfold alive. simpl. rewrite HB.
    + rewrite H1, H2, H3, Nat.eqb_refl. reflexivity.
    + intro E. rewrite E in H1. rewrite (HD _ H1) in H2. discriminate.
  - intros. congruence.
Qed.

Lemma I_free : forall s o a t ob,
  I s -> lock s = Some (o, a, t) -> nth_error (objs s) a = Some ob ->
  o_tasks ob = 0 ->
  I (set_lock (set_objs s (upd (objs s) a (freed ob))) None).
Proof.
  intros s o a t ob HI HL HO HT.
  destruct (i_lock _ HI _ _ _ HL) as (_ & (ob' & H2 & H3 & H4) & _).
  rewrite HO in H2. inversion H2; subst ob'. clear H2.
  pose proof (i_tasks _ HI _ _ HO H3) as C.
  constructor; simpl.
  - intros b x Hb Mb. destruct (upd_nth _ _ _ _ _ _ _ HO Hb) as [[-> ->]|[N Hb']].
    + simpl in Mb. congruence.
    + apply (i_map _ HI _ _ Hb' Mb).
  - intros b x Hb Lb. destruct (upd_nth _ _ _ _ _ _ _ HO Hb) as [[-> ->]|[N Hb']].
    + simpl in Lb. discriminate.
    + apply (i_tasks _ HI _ _ Hb' Lb).
  - intros w p b Hw. pose proof (i_busy _ HI _ _ _ Hw) as A.
    unfold alive in *. simpl. rewrite upd_other; auto.
    intro E. pose proof (cnt_pos _ _ _ _ _ Hw (eq_sym E)). lia.
  - intros; discriminate.
Qed.

(* no step is bad for the workers, and every step keeps the invariant *)
Lemma I_step : forall s e s', I s -> e <> EvGiveUp -> step s e = Go s' -> I s'.
Proof.
  intros s e s' HI NG H. destruct e; simpl in H; try congruence.
  - (* open *)
    destruct (lock s) eqn:HL; [discriminate|].
    destruct (nth_error (objs s) a) as [o|] eqn:HO.
    + destruct (o_live o) eqn:HV; [discriminate|]. inversion H; subst; clear H.
      eapply I_open; eauto.
      * intros x E. rewrite HO in E. inversion E; subst; auto.
      * eapply upd_same; eauto.
      * intros. rewrite upd_other; auto.
    + destruct (a =? length (objs s)) eqn:HA; [|discriminate].
      apply Nat.eqb_eq in HA. inversion H; subst; clear H.
      eapply (I_open s (length (objs s))); eauto.
      * intros x E. rewrite E in HO. discriminate.
      * rewrite nth_error_app2 by lia. rewrite Nat.sub_diag. reflexivity.
      * intros b N. destruct (Nat.lt_ge_cases b (length (objs s))).
        -- rewrite nth_error_app1; auto.
        -- assert (nth_error (objs s) b = None) by (apply nth_error_None; lia).
           rewrite H0. apply nth_error_None. rewrite app_length. simpl. lia.
  - (* ask *)
    destruct (nth_error (objs s) a); [|discriminate].
    destruct (o_live o && o_map o); [|discriminate].
    dif H; inversion H; subst; auto.
    eapply I_ext; eauto.
  - (* serve *)
    destruct (lock s) eqn:HL; [discriminate|].
    destruct (nth_error (workers s) w) as [[?|]|] eqn:HW; try discriminate.
    destruct (queue s) as [|p q] eqn:HQ; [discriminate|].
    destruct (nth_error (objs s) (fst p)) as [o|] eqn:HO.
    + destruct (o_map o) eqn:HM; inversion H; subst; clear H.
      * apply (I_ext (take (set_queue s q) w (fst p) o)); auto.
        apply I_take; auto. apply (I_ext s); auto.
      * eapply I_ext; eauto.
    + inversion H; subst. eapply I_ext; eauto.
  - (* pick *)
    destruct (lock s) eqn:HL; [discriminate|].
    destruct (nth_error (workers s) w) as [[?|]|] eqn:HW; try discriminate.
    destruct (nth_error (objs s) a) as [o|] eqn:HO; [|discriminate].
    destruct (scan_ok s); [|discriminate].
    destruct (o_map o) eqn:HM; inversion H; subst. apply I_take; auto.
  - (* enter *)
    destruct (nth_error (workers s) w) as [[[p []]|]|] eqn:HW; try discriminate.
    destruct (inside s w) eqn:HN; [discriminate|].
    destruct (alive s p); [|discriminate].
    destruct (nth_error (objs s) (fst p)); [|discriminate].
    destruct (o_map o); inversion H; subst. eapply I_phase; eauto.
  - (* leave *)
    destruct (nth_error (workers s) w) as [[[p []]|]|] eqn:HW; try discriminate.
    destruct (alive s p); inversion H; subst. eapply I_phase; eauto. discriminate.
  - (* end *)
    destruct (nth_error (workers s) w) as [[[p []]|]|] eqn:HW; try discriminate.
    destruct (inside s w) eqn:HN; [discriminate|].
    destruct (alive s p); [|discriminate].
    destruct (nth_error (objs s) (fst p)) eqn:HO; inversion H; subst.
    apply I_end; auto.
  - (* scan *)
    destruct (lock s) eqn:HL; [discriminate|]. destruct (rcl s); [|discriminate].
    destruct (scan_ok s); inversion H; subst. eapply I_ext; eauto.
  - (* reclaim *)
    destruct (rcl s) as [|p r]; [discriminate|].
    destruct (alive s p); inversion H; subst. eapply I_ext; eauto.
  - (* close *)
    destruct (lock s) eqn:HL; [discriminate|].
    destruct (nth_error (objs s) a) as [ob|] eqn:HO; [|discriminate].
    destruct (o_live ob && o_map ob) eqn:HM; [|discriminate].
    apply andb_true_iff in HM. destruct HM as [HV HM].
    assert (K : (forall w, o = Some w -> exists p, nth_error (workers s) w = Some (Some (p, false)))
                /\ s' = set_lock (set_objs s (upd (objs s) a (with_map ob false))) (Some (o, a, 0))).
    { destruct o as [w|].
      - destruct (nth_error (workers s) w) as [[[p []]|]|] eqn:HW; inversion H; subst.
        split; auto. intros v E. inversion E; subst. eauto.
      - inversion H; subst. split; auto. intros v E. discriminate. }
    destruct K as [K ->].
    eapply (I_obj s _ a ob (with_map ob false)); eauto; simpl; try discriminate.
    intros o' a' t' E. inversion E; subst. split; [lia|]. split; auto.
    exists (with_map ob false). split; [eapply upd_same; eauto|]. simpl. auto.
  - (* tick *)
    destruct (lock s) as [[[o a] t]|] eqn:HL; [|discriminate].
    destruct (nth_error (objs s) a) as [ob|] eqn:HO; [|discriminate].
    destruct ((0 <? o_tasks ob) && (t <? max_close_retry)) eqn:HT; inversion H; subst; clear H.
    apply andb_true_iff in HT. destruct HT as [_ HT]. apply Nat.ltb_lt in HT.
    destruct (i_lock _ HI _ _ _ HL) as (H1 & H2 & H3).
    constructor.
    + exact (i_map _ HI).
    + exact (i_tasks _ HI).
    + exact (i_busy _ HI).
    + simpl. intros o' a' t' E. inversion E; subst. split; [lia|]. split; auto.
  - (* free *)
    destruct (lock s) as [[[o a] t]|] eqn:HL; [|discriminate].
    destruct (nth_error (objs s) a) as [ob|] eqn:HO; [|discriminate].
    destruct ((o_tasks ob =? 0) && _) eqn:HT; inversion H; subst; clear H.
    apply andb_true_iff in HT. destruct HT as [HT _]. apply Nat.eqb_eq in HT.
    eapply I_free; eauto.
Qed.

(* the only step that can be bad is the log reclaimer's *)
Lemma bad_step : forall s e, I s -> step s e = Bad ->
  e = EvReclaim /\ exists p r, rcl s = p :: r /\ alive s p = false.
Proof.
  intros s e HI H. destruct e; simpl in H.
  - exfalso. destruct (lock s); [discriminate|]. destruct (nth_error (objs s) a).
    + destruct (o_live o); discriminate.
    + destruct (a =? length (objs s)); discriminate.
  - exfalso. destruct (nth_error (objs s) a); [|discriminate].
    destruct (o_live o && o_map o); [|discriminate]. dif H; discriminate.
  - exfalso. destruct (lock s); [discriminate|].
    destruct (nth_error (workers s) w) as [[?|]|]; try discriminate.
    destruct (queue s); [discriminate|].
    destruct (nth_error (objs s) (fst p)); [|discriminate]. destruct (o_map o); discriminate.
  - exfalso. rewrite (scan_true s HI) in H. destruct (lock s); [discriminate|].
    destruct (nth_error (workers s) w) as [[?|]|]; try discriminate.
    destruct (nth_error (objs s) a); [|discriminate]. destruct (o_map o); discriminate.
  - exfalso. destruct (nth_error (workers s) w) as [[[p []]|]|] eqn:HW; try discriminate.
    destruct (inside s w); [discriminate|]. rewrite (i_busy _ HI _ _ _ HW) in H.
    destruct (nth_error (objs s) (fst p)); [|discriminate]. destruct (o_map o); discriminate.
  - exfalso. destruct (nth_error (workers s) w) as [[[p []]|]|] eqn:HW; try discriminate.
    rewrite (i_busy _ HI _ _ _ HW) in H. discriminate.
  - exfalso. destruct (nth_error (workers s) w) as [[[p []]|]|] eqn:HW; try discriminate.
    destruct (inside s w); [discriminate|]. rewrite (i_busy _ HI _ _ _ HW) in H.
    destruct (nth_error (objs s) (fst p)); discriminate.
  - exfalso. rewrite (scan_true s HI) in H. destruct (lock s); [discriminate|].
    destruct (rcl s); discriminate.
  - split; auto. destruct (rcl s) as [|p r]; [discriminate|].
    destruct (alive s p) eqn:E; [discriminate|]. eauto.
  - exfalso. destruct (lock s); [discriminate|]. destruct (nth_error (objs s) a); [|discriminate].
    destruct (o_live o0 && o_map o0); [|discriminate]. destruct o as [w|]; [|discriminate].
    destruct (nth_error (workers s) w) as [[[p []]|]|]; discriminate.
  - exfalso. destruct (lock s) as [[[o a] t]|]; [|discriminate].
    destruct (nth_error (objs s) a); [|discriminate]. dif H; discriminate.
  - exfalso. destruct (lock s) as [[[o a] t]|]; [|discriminate].
    destruct (nth_error (objs s) a); [|discriminate]. dif H; discriminate.
  - exfalso. destruct (lock s) as [[[o a] t]|]; [|discriminate].
    destruct (nth_error (objs s) a); [|discriminate]. dif H; discriminate.
Qed.

Lemma exec_app : forall es s fs,
  exec s (es ++ fs) = match exec s es with Go s' => exec s' fs | x => x end.
Proof.
  induction es; intros; simpl; auto. destruct (step s a); auto.
Qed.

Lemma I_exec : forall es s s', I s -> patient es -> exec s es = Go s' -> I s'.
Proof.
  induction es as [|e es IH]; intros s s' HI HP H; simpl in H.
  - inversion H; subst; auto.
  - destruct (step s e) as [s1| |] eqn:E; try discriminate.
    apply (IH s1); auto.
    + eapply I_step; eauto. intro D. apply HP. left. auto.
    + intro D. apply HP. right. auto.
Qed.

(* --- the list of the log reclaimer --- *)

Definition R (s : st) : Prop := forall p, In p (rcl s) -> alive s p = true.

Lemma log_ptrs_in : forall l a p, In p (log_ptrs l a) ->
  exists o, nth_error l (fst p - a) = Some o /\ a <= fst p /\ o_map o = true
            /\ o_log o = true /\ snd p = o_gen o.
Proof.
  induction l as [|o l IH]; simpl; intros a p H; [contradiction|].
  apply in_app_or in H. destruct H as [H|H].
  - destruct (o_map o && o_log o) eqn:E; [|contradiction].
    apply andb_true_iff in E. destruct E. destruct H as [<-|[]]. simpl.
    rewrite Nat.sub_diag. exists o. simpl. auto 6.
  - destruct (IH _ _ H) as (x & H1 & H2 & H3). exists x. split.
    + replace (fst p - a) with (S (fst p - S a)) by lia. exact H1.
    + split; [lia|auto].
Qed.

Lemma R_step : forall s e s', I s -> R s -> e <> EvGiveUp ->
  (e = EvFree -> forall o a t p, lock s = Some (o, a, t) -> In p (rcl s) -> fst p <> a) ->
  step s e = Go s' -> R s'.
Proof.
  intros s e s' HI HR NG HF H. unfold R in *. destruct e; simpl in H; try congruence.
  - destruct (lock s) eqn:HL; [discriminate|].
    destruct (nth_error (objs s) a) as [o|] eqn:HO.
    + destruct (o_live o) eqn:HV; inversion H; subst; clear H. simpl. intros p Hp.
      pose proof (HR p Hp) as A. unfold alive in *. simpl. rewrite upd_other; auto.
      intro E. rewrite <- E, HO, HV in A. discriminate.
    + destruct (a =? length (objs s)) eqn:HA; inversion H; subst; clear H.
      simpl. intros p Hp. pose proof (HR p Hp) as A. unfold alive in *. simpl.
      destruct (nth_error (objs s) (fst p)) eqn:E; [|discriminate].
      rewrite nth_error_app1; [rewrite E; auto|]. apply nth_error_Some. congruence.
  - destruct (nth_error (objs s) a); [|discriminate].
    destruct (o_live o && o_map o); [|discriminate].
    dif H; inversion H; subst; auto.
  - destruct (lock s) eqn:HL; [discriminate|].
    destruct (nth_error (workers s) w) as [[?|]|] eqn:HW; try discriminate.
    destruct (queue s) as [|p q] eqn:HQ; [discriminate|].
    destruct (nth_error (objs s) (fst p)) as [o|] eqn:HO.
    + destruct (o_map o) eqn:HM; inversion H; subst; clear H; simpl; auto.
      intros x Hx. rewrite <- (HR x Hx).
      apply (alive_upd s _ (fst p) o (with_tasks o (S (o_tasks o)))); auto.
    + inversion H; subst; auto.
  - destruct (lock s) eqn:HL; [discriminate|].
    destruct (nth_error (workers s) w) as [[?|]|] eqn:HW; try discriminate.
    destruct (nth_error (objs s) a) as [o|] eqn:HO; [|discriminate].
    destruct (scan_ok s); [|discriminate].
    destruct (o_map o) eqn:HM; inversion H; subst; clear H. simpl.
    intros x Hx. rewrite <- (HR x Hx).
    apply (alive_upd s _ a o (with_tasks o (S (o_tasks o)))); auto.
  - destruct (nth_error (workers s) w) as [[[p []]|]|] eqn:HW; try discriminate.
    destruct (inside s w) eqn:HN; [discriminate|].
    destruct (alive s p); [|discriminate].
    destruct (nth_error (objs s) (fst p)); [|discriminate].
    destruct (o_map o); inversion H; subst; auto.
  - destruct (nth_error (workers s) w) as [[[p []]|]|] eqn:HW; try discriminate.
    destruct (alive s p); inversion H; subst; auto.
  - destruct (nth_error (workers s) w) as [[[p []]|]|] eqn:HW; try discriminate.
    destruct (inside s w) eqn:HN; [discriminate|].
    destruct (alive s p); [|discriminate].
    destruct (nth_error (objs s) (fst p)) eqn:HO; inversion H; subst; clear H. simpl.
    intros x Hx. rewrite <- (HR x Hx).
    apply (alive_upd s _ (fst p) o (with_tasks o (o_tasks o - 1))); auto.
  - destruct (lock s) eqn:HL; [discriminate|]. destruct (rcl s); [|discriminate].
    destruct (scan_ok s); inversion H; subst; clear H. simpl. intros p Hp.
    apply log_ptrs_in in Hp. destruct Hp as (o & H1 & H2 & H3 & H4 & H5).
    rewrite Nat.sub_0_r in H1. unfold alive. simpl.
    rewrite H1, (i_map _ HI _ _ H1 H3), H5, Nat.eqb_refl. reflexivity.
  - destruct (rcl s) as [|p r]; [discriminate|].
    destruct (alive s p); inversion H; subst. simpl. intros x Hx.
    rewrite <- (HR x (or_intror Hx)). reflexivity.
  - destruct (lock s) eqn:HL; [discriminate|].
    destruct (nth_error (objs s) a) as [ob|] eqn:HO; [|discriminate].
    destruct (o_live ob && o_map ob) eqn:HM; [|discriminate].
    assert (K : s' = set_lock (set_objs s (upd (objs s) a (with_map ob false))) (Some (o, a, 0))).
    { destruct o as [w|].
      - destruct (nth_error (workers s) w) as [[[p []]|]|] eqn:HW; inversion H; subst. auto.
      - inversion H; subst. auto. }
    subst s'. simpl. intros x Hx. rewrite <- (HR x Hx).
    apply (alive_upd s _ a ob (with_map ob false)); auto.
  - destruct (lock s) as [[[o a] t]|] eqn:HL; [|discriminate].
    destruct (nth_error (objs s) a) as [ob|] eqn:HO; [|discriminate].
    destruct ((0 <? o_tasks ob) && (t <? max_close_retry)) eqn:HT; inversion H; subst; auto.
  - destruct (lock s) as [[[o a] t]|] eqn:HL; [|discriminate].
    destruct (nth_error (objs s) a) as [ob|] eqn:HO; [|discriminate].
    destruct ((o_tasks ob =? 0) && _) eqn:HT; inversion H; subst; clear H. simpl.
    intros p Hp. rewrite <- (HR p Hp). unfold alive. simpl. rewrite upd_other; auto.
    intro E. apply (HF eq_refl _ _ _ p eq_refl Hp). auto.
Qed.

Lemma safe_exec : forall es s, I s -> R s -> patient es -> off_list s es ->
  exec s es <> Bad.
Proof.
  induction es as [|e es IH]; intros s HI HR HP HO; simpl; [discriminate|].
  simpl in HO. destruct HO as [H1 H2].
  assert (N : e <> EvGiveUp) by (intro D; apply HP; left; auto).
  destruct (step s e) as [s'| |] eqn:E; [|discriminate|].
  - apply IH; auto.
    + eapply I_step; eauto.
    + eapply R_step; eauto.
    + intro D. apply HP. right. auto.
  - exfalso. destruct (bad_step _ _ HI E) as (_ & p & r & Hr & Ha).
    rewrite (HR p) in Ha; [discriminate|]. rewrite Hr. left. auto.
Qed.

Lemma safe_run : forall n es, patient es -> off_list (init n) es ->
  exec (init n) es <> Bad.
Proof.
  intros. apply safe_exec; auto. apply I_init. intros p H1. destruct H1.
Qed.

(* --- no log store, nothing on the list --- *)

Definition Q (s : st) : Prop :=
  rcl s = [] /\ forall a o, nth_error (objs s) a = Some o -> o_log o = false.

Lemma log_ptrs_none : forall l a,
  (forall i o, nth_error l i = Some o -> o_log o = false) -> log_ptrs l a = [].
Proof.
  induction l as [|o l IH]; simpl; intros a H; auto.
  rewrite (H 0 o eq_refl), andb_false_r. simpl. apply IH.
  intros i x E. apply (H (S i) x E).
Qed.

Lemma Q_upd : forall (l : list obj) a ob ob',
  (forall i o, nth_error l i = Some o -> o_log o = false) ->
  nth_error l a = Some ob -> o_log ob' = o_log ob ->
  forall i o, nth_error (upd l a ob') i = Some o -> o_log o = false.
Proof.
  intros l a ob ob' H HA E i o Hi. destruct (upd_nth _ _ _ _ _ _ _ HA Hi) as [[-> ->]|[N Hi']].
  - rewrite E. eauto.
  - eauto.
Qed.

Lemma Q_step : forall s e s', Q s -> (forall a, e <> EvOpen a true) ->
  step s e = Go s' -> Q s'.
Proof.
  intros s e s' [HR HQ] HN H. unfold Q. destruct e; simpl in H.
  - destruct (lock s) eqn:HL; [discriminate|].
    assert (lg = false) by (destruct lg; auto; exfalso; apply (HN a); auto). subst lg.
    destruct (nth_error (objs s) a) as [o|] eqn:HO.
    + destruct (o_live o) eqn:HV; inversion H; subst; clear H. simpl. split; auto.
      eapply Q_upd; eauto. simpl. rewrite (HQ _ _ HO). reflexivity.
    + destruct (a =? length (objs s)) eqn:HA; inversion H; subst; clear H.
      simpl. split; auto. intros i o Hi.
      destruct (Nat.lt_ge_cases i (length (objs s))) as [L|L].
      * rewrite nth_error_app1 in Hi by auto. eauto.
      * rewrite nth_error_app2 in Hi by auto. destruct (i - length (objs s)) as [|[|k]]; simpl in Hi; inversion Hi; auto.
  - destruct (nth_error (objs s) a); [|discriminate].
    destruct (o_live o && o_map o); [|discriminate].
    dif H; inversion H; subst; auto.
  - destruct (lock s) eqn:HL; [discriminate|].
    destruct (nth_error (workers s) w) as [[?|]|] eqn:HW; try discriminate.
    destruct (queue s) as [|p q] eqn:HQ'; [discriminate|].
    destruct (nth_error (objs s) (fst p)) as [o|] eqn:HO.
    + destruct (o_map o) eqn:HM; inversion H; subst; clear H; simpl; auto.
      split; auto. eapply Q_upd; eauto.
    + inversion H; subst; auto.
  - destruct (lock s) eqn:HL; [discriminate|].
    destruct (nth_error (workers s) w) as [[?|]|] eqn:HW; try discriminate.
    destruct (nth_error (objs s) a) as [o|] eqn:HO; [|discriminate].
    destruct (scan_ok s); [|discriminate].
    destruct (o_map o) eqn:HM; inversion H; subst; clear H. simpl.
    split; auto. eapply Q_upd; eauto.
  - destruct (nth_error (workers s) w) as [[[p []]|]|] eqn:HW; try discriminate.
    destruct (inside s w) eqn:HN'; [discriminate|].
    destruct (alive s p); [|discriminate].
    destruct (nth_error (objs s) (fst p)); [|discriminate].
    destruct (o_map o); inversion H; subst; auto.
  - destruct (nth_error (workers s) w) as [[[p []]|]|] eqn:HW; try discriminate.
    destruct (alive s p); inversion H; subst; auto.
  - destruct (nth_error (workers s) w) as [[[p []]|]|] eqn:HW; try discriminate.
    destruct (inside s w) eqn:HN'; [discriminate|].
    destruct (alive s p); [|discriminate].
    destruct (nth_error (objs s) (fst p)) eqn:HO; inversion H; subst; clear H. simpl.
    split; auto. eapply Q_upd; eauto.
  - destruct (lock s) eqn:HL; [discriminate|]. rewrite HR in H.
    destruct (scan_ok s); inversion H; subst; clear H. simpl. split; auto.
    apply log_ptrs_none. auto.
  - rewrite HR in H. discriminate.
  - destruct (lock s) eqn:HL; [discriminate|].
    destruct (nth_error (objs s) a) as [ob|] eqn:HO; [|discriminate].
    destruct (o_live ob && o_map ob) eqn:HM; [|discriminate].
    assert (K : s' = set_lock (set_objs s (upd (objs s) a (with_map ob false))) (Some (o, a, 0))).
    { destruct o as [w|].
      - destruct (nth_error (workers s) w) as [[[p []]|]|] eqn:HW; inversion H; subst. auto.
      - inversion H; subst. auto. }
    subst s'. simpl. split; auto. eapply Q_upd; eauto.
  - destruct (lock s) as [[[o a] t]|] eqn:HL; [|discriminate].
    destruct (nth_error (objs s) a) as [ob|] eqn:HO; [|discriminate].
    destruct ((0 <? o_tasks ob) && (t <? max_close_retry)) eqn:HT; inversion H; subst; auto.
  - destruct (lock s) as [[[o a] t]|] eqn:HL; [|discriminate].
    destruct (nth_error (objs s) a) as [ob|] eqn:HO; [|discriminate].
    destruct (_ && _) eqn:HT; inversion H; subst; clear H. simpl.
    split; auto. eapply Q_upd; eauto.
  - destruct (lock s) as [[[o a] t]|] eqn:HL; [|discriminate].
    destruct (nth_error (objs s) a) as [ob|] eqn:HO; [|discriminate].
    destruct (_ && _) eqn:HT; inversion H; subst; clear H. simpl.
    split; auto. eapply Q_upd; eauto.
Qed.

Lemma plain_off : forall es s, Q s -> no_log_store es -> off_list s es.
Proof.
  induction es as [|e es IH]; intros s HQ HN; simpl; auto. split.
  - intros -> o a t p _ Hp. destruct HQ as [E _]. rewrite E in Hp. destruct Hp.
  - destruct (step s e) as [s'| |] eqn:E; auto. apply IH.
    + eapply Q_step; eauto. intros a D. apply (HN a). left. auto.
    + intros a D. apply (HN a). right. auto.
Qed.

Lemma safe_plain : forall n es, patient es -> no_log_store es ->
  exec (init n) es <> Bad.
Proof.
  intros. apply safe_run; auto. apply plain_off; auto. split; auto.
  intros a o E. simpl in E. destruct a; discriminate.
Qed.

(* --- at the free nobody works on the database --- *)

Lemma free_unused : forall n es s s' o a,
  patient es -> exec (init n) es = Go s -> closing s o a ->
  step s EvFree = Go s' -> forall w, ~ busy_on s w a.
Proof.
  intros n es s s' o a HP HE [t HL] HS w (g & b & HW).
  pose proof (I_exec _ _ _ (I_init n) HP HE) as HI.
  destruct (i_lock _ HI _ _ _ HL) as (_ & (ob & HO & HV & _) & _).
  simpl in HS. rewrite HL, HO in HS.
  pose proof (cnt_pos _ a _ _ _ HW eq_refl).
  rewrite <- (i_tasks _ HI _ _ HO HV) in H.
  destruct (o_tasks ob); [lia|]. simpl in HS. discriminate.
Qed.

(* --- while a database is being closed nobody starts to work on it --- *)

Lemma no_new : forall n es s e s' o a w,
  patient es -> exec (init n) es = Go s -> closing s o a ->
  step s e = Go s' -> busy_on s' w a -> busy_on s w a.
Proof.
  intros n es s e s' o a w HP HE [t HL] HS (g & b & HW).
  unfold busy_on. destruct e; simpl in HS; try rewrite HL in HS; try discriminate.
  - destruct (nth_error (objs s) a0); [|discriminate].
    destruct (o_live o0 && o_map o0); [|discriminate].
    dif HS; inversion HS; subst; eauto.
  - destruct (nth_error (workers s) w0) as [[[p []]|]|] eqn:E; try discriminate.
    destruct (inside s w0); [discriminate|].
    destruct (alive s p); [|discriminate].
    destruct (nth_error (objs s) (fst p)); [|discriminate].
    destruct (o_map o0); inversion HS; subst; clear HS. simpl in HW.
    destruct (upd_nth _ _ _ _ _ _ _ E HW) as [[-> D]|[N D]]; [inversion D; subst|]; eauto.
  - destruct (nth_error (workers s) w0) as [[[p []]|]|] eqn:E; try discriminate.
    destruct (alive s p); inversion HS; subst; clear HS. simpl in HW.
    destruct (upd_nth _ _ _ _ _ _ _ E HW) as [[-> D]|[N D]]; [inversion D; subst|]; eauto.
  - destruct (nth_error (workers s) w0) as [[[p []]|]|] eqn:E; try discriminate.
    destruct (inside s w0); [discriminate|].
    destruct (alive s p); [|discriminate].
    destruct (nth_error (objs s) (fst p)); inversion HS; subst; clear HS. simpl in HW.
    destruct (upd_nth _ _ _ _ _ _ _ E HW) as [[-> D]|[N D]]; [inversion D|]; eauto.
  - destruct (rcl s); [discriminate|]. destruct (alive s p); inversion HS; subst. eauto.
  - destruct (nth_error (objs s) a) as [ob|]; [|discriminate].
    dif HS; inversion HS; subst. simpl in HW. eauto.
  - destruct (nth_error (objs s) a) as [ob|]; [|discriminate].
    dif HS; inversion HS; subst. simpl in HW. eauto.
  - destruct (nth_error (objs s) a) as [ob|]; [|discriminate].
    dif HS; inversion HS; subst. simpl in HW. eauto.
Qed.

(* --- a close ends, with the workers' help only --- *)

Definition worker_ev (e : ev) : Prop :=
  exists w, e = EvLeave w \/ e = EvEnd w.

Lemma drain : forall k s o a t, I s -> lock s = Some (o, a, t) ->
  cnt a (workers s) = k ->
  (forall w, o = Some w -> ~ busy_on s w a) ->
  exists es s1 s2, Forall worker_ev es /\ exec s es = Go s1 /\ step s1 EvFree = Go s2.
Proof.
  induction k; intros s o a t HI HL HC HN.
  - exists [], s. destruct (i_lock _ HI _ _ _ HL) as (_ & (ob & HO & HV & _) & _).
    pose proof (i_tasks _ HI _ _ HO HV) as T. rewrite HC in T.
    eexists. split; auto. split; [reflexivity|]. simpl. rewrite HL, HO, T. simpl.
    assert (E : existsb (in_op a) (workers s) = false).
    { destruct (existsb _ _) eqn:E; auto. apply existsb_exists in E.
      destruct E as (x & Hx & Hi). apply In_nth_error in Hx. destruct Hx as [w Hw].
      destruct x as [[p []]|]; simpl in Hi; try discriminate.
      apply Nat.eqb_eq in Hi. pose proof (cnt_pos _ _ _ _ _ Hw Hi). lia. }
    rewrite E. reflexivity.
  - destruct (cnt_pos_inv (workers s) a) as (w & p & b & HW & HA); [lia|].
    assert (NI : inside s w = false).
    { unfold inside. rewrite HL. destruct o as [v|]; auto.
      destruct (w =? v) eqn:E; auto. apply Nat.eqb_eq in E. subst v.
      exfalso. apply (HN w eq_refl). exists (snd p), b. rewrite HW.
      destruct p; simpl in *; subst; auto. }
    (* first out of the operation *)
    assert (S1 : exists es s1, Forall worker_ev es /\ exec s es = Go s1 /\ I s1
              /\ lock s1 = lock s
              /\ nth_error (workers s1) w = Some (Some (p, false))
              /\ cnt a (workers s1) = S k
              /\ (forall v, v <> w -> nth_error (workers s1) v = nth_error (workers s) v)).
    { destruct b.
      - exists [EvLeave w], (set_workers s (upd (workers s) w (Some (p, false)))).
        split; [constructor; [exists w; auto|constructor]|].
        split; [simpl; rewrite HW, (i_busy _ HI _ _ _ HW); reflexivity|].
        split; [eapply I_phase; eauto; discriminate|].
        split; [reflexivity|]. simpl. split; [eapply upd_same; eauto|].
        split; [|intros; apply upd_other; auto].
        pose proof (cnt_upd _ _ a (Some (p, false)) _ HW). simpl in H. lia.
      - exists [], s. split; [constructor|]. split; [reflexivity|]. split; [exact HI|]. auto 10. }
    destruct S1 as (es1 & s1 & F1 & E1 & I1 & L1 & W1 & C1 & O1).
    assert (N1 : inside s1 w = false) by (unfold inside in *; rewrite L1; auto).
    pose proof (i_busy _ I1 _ _ _ W1) as A1.
    destruct (alive_inv _ _ A1) as (ob & HO & HV & HG).
    set (s2 := set_workers (set_objs s1 (upd (objs s1) (fst p) (with_tasks ob (o_tasks ob - 1))))
                 (upd (workers s1) w None)).
    assert (I2 : I s2) by (apply I_end; auto).
    assert (ST : step s1 (EvEnd w) = Go s2) by (simpl; rewrite W1, N1, A1, HO; reflexivity).
    assert (C2 : cnt a (workers s2) = k).
    { simpl. pose proof (cnt_upd _ _ a None _ W1). simpl in H.
      rewrite HA, Nat.eqb_refl in H. simpl in H. lia. }
    destruct (IHk s2 o a t I2) as (es2 & s3 & s4 & F2 & E2 & E3); auto.
    + simpl. congruence.
    + intros v -> (g & b' & B). apply (HN v eq_refl). simpl in B.
      destruct (upd_nth _ _ _ _ _ _ _ W1 B) as [[_ D]|[N D]]; [discriminate|].
      rewrite O1 in D by auto. exists g, b'. auto.
    + exists (es1 ++ EvEnd w :: es2), s3, s4. split; [|split; auto].
      * apply Forall_app. split; auto. constructor; auto. exists w. auto.
      * rewrite exec_app, E1. simpl. rewrite W1, N1, A1, HO. exact E2.
Qed.

Lemma close_ends : forall n es s o a,
  patient es -> exec (init n) es = Go s -> closing s o a ->
  (forall w, o = Some w -> ~ busy_on s w a) ->
  exists fs s1 s2, Forall worker_ev fs /\ exec s fs = Go s1 /\ step s1 EvFree = Go s2.
Proof.
  intros n es s o a HP HE [t HL] HN.
  pose proof (I_exec _ _ _ (I_init n) HP HE) as HI.
  eapply drain; eauto.
Qed.

(* --- a handler that closes its own database --- *)

Lemma own_step : forall s e s' w a t g b, I s -> lock s = Some (Some w, a, t) ->
  nth_error (workers s) w = Some (Some ((a, g), b)) -> e <> EvGiveUp ->
  step s e = Go s' ->
  (exists t', lock s' = Some (Some w, a, t'))
  /\ nth_error (workers s') w = Some (Some ((a, g), b)).
Proof.
  intros s e s' w a t g b HI HL HW NG H.
  destruct (i_lock _ HI _ _ _ HL) as (_ & (ob & HO & HV & _) & HH).
  destruct (HH w eq_refl) as [q Hq]. rewrite HW in Hq. inversion Hq; subst q b. clear Hq.
  assert (NI : inside s w = true) by (unfold inside; rewrite HL; apply Nat.eqb_refl).
  destruct e; simpl in H; try rewrite HL in H; try discriminate; try congruence.
  - destruct (nth_error (objs s) a0); [|discriminate].
    destruct (o_live o && o_map o); [|discriminate].
    dif H; inversion H; subst; simpl; eauto.
  - destruct (nth_error (workers s) w0) as [[[p []]|]|] eqn:E; try discriminate.
    destruct (inside s w0) eqn:N0; [discriminate|].
    destruct (alive s p); [|discriminate].
    destruct (nth_error (objs s) (fst p)); [|discriminate].
    destruct (o_map o); inversion H; subst; clear H. simpl. split; eauto.
    rewrite upd_other; auto. congruence.
  - destruct (nth_error (workers s) w0) as [[[p []]|]|] eqn:E; try discriminate.
    destruct (alive s p); inversion H; subst; clear H. simpl. split; eauto.
    rewrite upd_other; auto. congruence.
  - destruct (nth_error (workers s) w0) as [[[p []]|]|] eqn:E; try discriminate.
    destruct (inside s w0) eqn:N0; [discriminate|].
    destruct (alive s p); [|discriminate].
    destruct (nth_error (objs s) (fst p)); inversion H; subst; clear H. simpl. split; eauto.
    rewrite upd_other; auto. congruence.
  - destruct (rcl s); [discriminate|]. destruct (alive s p); inversion H; subst. simpl. eauto.
  - rewrite HO in H. dif H; inversion H; subst. simpl. eauto.
  - rewrite HO in H. pose proof (cnt_pos _ a _ _ _ HW eq_refl) as C.
    rewrite <- (i_tasks _ HI _ _ HO HV) in C.
    destruct (o_tasks ob); [lia|]. simpl in H. discriminate.
Qed.

Lemma own_exec : forall es s s' w a t g b, I s -> lock s = Some (Some w, a, t) ->
  nth_error (workers s) w = Some (Some ((a, g), b)) -> patient es ->
  exec s es = Go s' ->
  closing s' (Some w) a.
Proof.
  induction es as [|e es IH]; intros s s' w a t g b HI HL HW HP H; simpl in H.
  - inversion H; subst. exists t. auto.
  - destruct (step s e) as [s1| |] eqn:E; try discriminate.
    assert (N : e <> EvGiveUp) by (intro D; apply HP; left; auto).
    destruct (own_step _ _ _ _ _ _ _ _ HI HL HW N E) as [[t' L1] W1].
    eapply (IH s1); eauto.
    + eapply I_step; eauto.
    + intro D. apply HP. right. auto.
Qed.

Lemma own_close : forall n es s w a fs s',
  patient es -> exec (init n) es = Go s -> closing s (Some w) a -> busy_on s w a ->
  patient fs -> exec s fs = Go s' -> closing s' (Some w) a.
Proof.
  intros n es s w a fs s' HP HE [t HL] (g & b & HW) HF HX.
  pose proof (I_exec _ _ _ (I_init n) HP HE) as HI.
  exact (own_exec fs s s' w a t g b HI HL HW HF HX).
Qed.

Lemma own_bad : forall n es s w a s',
  patient es -> exec (init n) es = Go s -> closing s (Some w) a -> busy_on s w a ->
  step s EvGiveUp = Go s' -> step s' (EvEnd w) = Bad.
Proof.
  intros n es s w a s' HP HE [t HL] (g & b & HW) HS.
  pose proof (I_exec _ _ _ (I_init n) HP HE) as HI.
  destruct (i_lock _ HI _ _ _ HL) as (_ & (ob & HO & HV & _) & HH).
  destruct (HH w eq_refl) as [q Hq]. rewrite HW in Hq. inversion Hq; subst q b. clear Hq.
  simpl in HS. rewrite HL, HO in HS.
  dif HS; inversion HS; subst; clear HS. simpl. rewrite HW.
  unfold inside, alive. simpl. rewrite (upd_same _ _ _ _ _ HO). reflexivity.
Qed.

(* --- the wait is bounded --- *)

Lemma wait_bound : forall n es s o a t,
  patient es -> exec (init n) es = Go s -> lock s = Some (o, a, t) -> t <= max_close_retry.
Proof.
  intros n es s o a t HP HE HL.
  apply (i_lock _ (I_exec _ _ _ (I_init n) HP HE) _ _ _ HL).
Qed.

(* --- requests --- *)

Definition SV (s : st) : Prop :=
  (forall a o, nth_error (objs s) a = Some o -> o_gen o = 0)
  /\ (forall p, In p (queue s) -> snd p = 0)
  /\ (forall p q, In (p, q) (served s) -> p = q).

Lemma SV_upd : forall (l : list obj) a ob ob',
  (forall i o, nth_error l i = Some o -> o_gen o = 0) ->
  nth_error l a = Some ob -> o_gen ob' = o_gen ob ->
  forall i o, nth_error (upd l a ob') i = Some o -> o_gen o = 0.
Proof.
  intros l a ob ob' H HA E i o Hi. destruct (upd_nth _ _ _ _ _ _ _ HA Hi) as [[-> ->]|[N Hi']].
  - rewrite E. eauto.
  - eauto.
Qed.

Lemma SV_step : forall s e s', SV s ->
  (forall a lg, e = EvOpen a lg -> length (objs s) <= a) ->
  step s e = Go s' -> SV s'.
Proof.
  intros s e s' (HG & HQ & HS) HN H. unfold SV. destruct e; simpl in H.
  - destruct (lock s) eqn:HL; [discriminate|].
    destruct (nth_error (objs s) a) as [o|] eqn:HO.
    + exfalso. specialize (HN a lg eq_refl). apply nth_error_None in HN. congruence.
    + destruct (a =? length (objs s)) eqn:HA; inversion H; subst; clear H.
      simpl. split; auto. intros i o Hi.
      destruct (Nat.lt_ge_cases i (length (objs s))) as [L|L].
      * rewrite nth_error_app1 in Hi by auto. eauto.
      * rewrite nth_error_app2 in Hi by auto. destruct (i - length (objs s)) as [|[|k]]; simpl in Hi; inversion Hi; auto.
  - destruct (nth_error (objs s) a) eqn:HO; [|discriminate].
    destruct (o_live o && o_map o); [|discriminate].
    dif H; inversion H; subst; auto. simpl.
    split; auto. split; auto. intros p Hp. apply in_app_or in Hp.
    destruct Hp as [Hp|[<-|[]]]; auto. simpl. eauto.
  - destruct (lock s) eqn:HL; [discriminate|].
    destruct (nth_error (workers s) w) as [[?|]|] eqn:HW; try discriminate.
    destruct (queue s) as [|p q] eqn:HQ'; [discriminate|].
    assert (HQ2 : forall x, In x q -> snd x = 0) by (intros; apply HQ; right; auto).
    destruct (nth_error (objs s) (fst p)) as [o|] eqn:HO.
    + destruct (o_map o) eqn:HM; inversion H; subst; clear H; simpl; auto.
      split; [eapply SV_upd; eauto|]. split; auto.
      intros x y Hx. apply in_app_or in Hx. destruct Hx as [Hx|[Hx|[]]]; auto.
      inversion Hx; subst. rewrite (HG _ _ HO). specialize (HQ x (or_introl eq_refl)).
      destruct x; simpl in *; congruence.
    + inversion H; subst; simpl; auto.
  - destruct (lock s) eqn:HL; [discriminate|].
    destruct (nth_error (workers s) w) as [[?|]|] eqn:HW; try discriminate.
    destruct (nth_error (objs s) a) as [o|] eqn:HO; [|discriminate].
    destruct (scan_ok s); [|discriminate].
    destruct (o_map o) eqn:HM; inversion H; subst; clear H. simpl.
    split; auto. eapply SV_upd; eauto.
  - destruct (nth_error (workers s) w) as [[[p []]|]|] eqn:HW; try discriminate.
    destruct (inside s w) eqn:HN'; [discriminate|].
    destruct (alive s p); [|discriminate].
    destruct (nth_error (objs s) (fst p)); [|discriminate].
    destruct (o_map o); inversion H; subst; auto.
  - destruct (nth_error (workers s) w) as [[[p []]|]|] eqn:HW; try discriminate.
    destruct (alive s p); inversion H; subst; auto.
  - destruct (nth_error (workers s) w) as [[[p []]|]|] eqn:HW; try discriminate.
    destruct (inside s w) eqn:HN'; [discriminate|].
    destruct (alive s p); [|discriminate].
    destruct (nth_error (objs s) (fst p)) eqn:HO; inversion H; subst; clear H. simpl.
    split; auto. eapply SV_upd; eauto.
  - destruct (lock s) eqn:HL; [discriminate|]. destruct (rcl s); [|discriminate].
    destruct (scan_ok s); inversion H; subst; clear H. simpl. auto.
  - destruct (rcl s); [discriminate|]. destruct (alive s p); inversion H; subst; simpl; auto.
  - destruct (lock s) eqn:HL; [discriminate|].
    destruct (nth_error (objs s) a) as [ob|] eqn:HO; [|discriminate].
    destruct (o_live ob && o_map ob) eqn:HM; [|discriminate].
    assert (K : s' = set_lock (set_objs s (upd (objs s) a (with_map ob false))) (Some (o, a, 0))).
    { destruct o as [w|].
      - destruct (nth_error (workers s) w) as [[[p []]|]|] eqn:HW; inversion H; subst. auto.
      - inversion H; subst. auto. }
    subst s'. simpl. split; auto. eapply SV_upd; eauto.
  - destruct (lock s) as [[[o a] t]|] eqn:HL; [|discriminate].
    destruct (nth_error (objs s) a) as [ob|] eqn:HO; [|discriminate].
    destruct ((0 <? o_tasks ob) && (t <? max_close_retry)) eqn:HT; inversion H; subst; auto.
  - destruct (lock s) as [[[o a] t]|] eqn:HL; [|discriminate].
    destruct (nth_error (objs s) a) as [ob|] eqn:HO; [|discriminate].
    destruct (_ && _) eqn:HT; inversion H; subst; clear H. simpl.
    split; auto. eapply SV_upd; eauto.
  - destruct (lock s) as [[[o a] t]|] eqn:HL; [|discriminate].
    destruct (nth_error (objs s) a) as [ob|] eqn:HO; [|discriminate].
    destruct (_ && _) eqn:HT; inversion H; subst; clear H. simpl.
    split; auto. eapply SV_upd; eauto.
Qed.

Lemma SV_exec : forall es s s', SV s -> new_addresses s es -> exec s es = Go s' -> SV s'.
Proof.
  induction es as [|e es IH]; intros s s' HS HN H; simpl in H.
  - inversion H; subst; auto.
  - simpl in HN. destruct HN as [N1 N2].
    destruct (step s e) as [s1| |] eqn:E; try discriminate.
    apply (IH s1); auto. eapply SV_step; eauto.
Qed.

Lemma right_db : forall n es s p q,
  new_addresses (init n) es -> exec (init n) es = Go s -> In (p, q) (served s) -> p = q.
Proof.
  intros n es s p q HN HE H.
  assert (S0 : SV (init n)).
  { split; [intros a o E; simpl in E; destruct a; discriminate|].
    split; intros; contradiction. }
  destruct (SV_exec _ _ _ S0 HN HE) as (_ & _ & K). auto.
Qed.
