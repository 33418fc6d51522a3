(** Proofs about timers. *)
From Coq Require Import List NArith Bool Lia Arith.
From Verif Require Import Base TimerModel TimerSpec.
Import ListNotations.
Local Open Scope N_scope.

(** ** Lists of tasks *)

Definition stl (l : list task) (i : nat) : tst := match nth_error l i with Some k => k_st k | None => Done end.

Lemma set_st_len x l : forall i, length (set_st x i l) = length l.
Proof. induction l as [|k l IH]; intros [|i]; cbn [set_st length]; auto. Qed.

Lemma set_st_nth x l : forall i j, nth_error (set_st x i l) j =
  match nth_error l j with Some k => Some (if Nat.eqb i j then mkK (k_reg k) (k_int k) x (k_db k) else k) | None => None end.
Proof.
  induction l as [|k l IH]; intros [|i] [|j]; cbn [set_st nth_error Nat.eqb]; auto.
  now destruct (nth_error l j).
Qed.

Lemma set_st_stl x l i j : (i < length l)%nat -> stl (set_st x i l) j = if Nat.eqb i j then x else stl l j.
Proof.
  intros L. unfold stl. rewrite set_st_nth. destruct (nth_error l j) as [k|] eqn:E; [now destruct (Nat.eqb i j)|].
  destruct (Nat.eqb_spec i j) as [<-|N]; [|reflexivity]. apply nth_error_None in E. lia.
Qed.

Lemma set_st_db x l i j : match nth_error (set_st x i l) j with Some k => k_db k | None => O end =
  match nth_error l j with Some k => k_db k | None => O end.
Proof. rewrite set_st_nth. destruct (nth_error l j); [|reflexivity]. now destruct (Nat.eqb i j). Qed.

Lemma stl_in l i : stl l i <> Done -> (i < length l)%nat.
Proof. unfold stl. intros H. apply nth_error_Some. destruct (nth_error l i); [discriminate|congruence]. Qed.

Lemma stl_app l k i : stl (l ++ [k]) i = if Nat.eqb i (length l) then k_st k else stl l i.
Proof.
  unfold stl. destruct (Nat.eqb_spec i (length l)) as [->|N].
  - now rewrite nth_error_app2, Nat.sub_diag by lia.
  - destruct (Nat.lt_ge_cases i (length l)) as [L|L].
    + now rewrite nth_error_app1.
    + rewrite nth_error_app2 by lia. destruct (i - length l)%nat as [|n] eqn:E; [lia|]. cbn [nth_error].
      assert (X : nth_error l i = None) by (apply nth_error_None; lia). rewrite X. now destruct n.
Qed.

Definition dbl (l : list task) (i : nat) : nat := match nth_error l i with Some k => k_db k | None => O end.
Lemma dbl_app l k i : (i < length l)%nat -> dbl (l ++ [k]) i = dbl l i.
Proof. intros L. unfold dbl. now rewrite nth_error_app1. Qed.
Lemma dbl_new l k : dbl (l ++ [k]) (length l) = k_db k.
Proof. unfold dbl. now rewrite nth_error_app2, Nat.sub_diag by lia. Qed.

(** ** The search *)

Lemma scan_spec s : forall n l kept sl p l' sl', (length l <= n)%nat -> scan s kept l sl = Some (p, l', sl') ->
  (forall i, In i l' -> In i kept \/ In i l) /\
  (NoDup (kept ++ l) -> NoDup l' /\ (forall i, p = Some i -> ~ In i l')) /\
  (forall i, In i kept -> In i l') /\
  (forall i, In i l -> st_at s i = Waiting -> In i l' \/ p = Some i) /\
  (forall i, p = Some i -> In i l /\ exists k, task_at s i = Some k /\ due (s_now s) k = true /\ k_st k <> Done) /\
  (sl' <= sl) /\
  (p = None -> forall i k, In i l -> task_at s i = Some k -> (forall j, In j l -> task_at s j <> None) -> k_st k = Waiting ->
     sl' = 0 \/ (due (s_now s) k = false /\ sl' <= left (s_now s) k)).
Proof.
  induction n as [|n IH]; intros l kept sl p l' sl' Ln H.
  - destruct l; [|cbn in Ln; lia]. cbn [scan] in H. injection H as <- <- <-. split; [tauto|]. split; [rewrite app_nil_r; intros X; split; [exact X|discriminate]|].
    split; [tauto|]. split; [intros i []|]. split; [discriminate|]. split; [lia|]. intros _ i k [].
  - destruct l as [|i rest].
    { cbn [scan] in H. injection H as <- <- <-. split; [tauto|]. split; [rewrite app_nil_r; intros X; split; [exact X|discriminate]|].
      split; [tauto|]. split; [intros i []|]. split; [discriminate|]. split; [lia|]. intros _ i k []. }
    cbn [scan] in H. cbn [length] in Ln. destruct (task_at s i) as [k|] eqn:K.
    2: { injection H as <- <- <-. split; [intros j Hj; now apply in_app_or in Hj|]. split; [intros X; split; [exact X|discriminate]|]. split; [|split; [|split; [discriminate|split; [lia|]]]].
         - intros j Hj. apply in_or_app. now left.
         - intros j Hj _. left. apply in_or_app. now right.
         - intros _ j kj Hj _ A. destruct (A i); [now left|exact K]. }
    destruct (due (s_now s) k) eqn:D.
    + assert (PICK : k_st k <> Done -> Some (Some i, kept ++ rest, sl) = Some (p, l', sl') ->
        (forall i0, In i0 l' -> In i0 kept \/ In i0 (i :: rest)) /\
        (NoDup (kept ++ i :: rest) -> NoDup l' /\ (forall i0, p = Some i0 -> ~ In i0 l')) /\
        (forall i0, In i0 kept -> In i0 l') /\
        (forall i0, In i0 (i :: rest) -> st_at s i0 = Waiting -> In i0 l' \/ p = Some i0) /\
        (forall i0, p = Some i0 -> In i0 (i :: rest) /\ exists k0, task_at s i0 = Some k0 /\ due (s_now s) k0 = true /\ k_st k0 <> Done) /\
        sl' <= sl /\
        (p = None -> forall i0 k0, In i0 (i :: rest) -> task_at s i0 = Some k0 -> (forall j, In j (i :: rest) -> task_at s j <> None) ->
           k_st k0 = Waiting -> sl' = 0 \/ (due (s_now s) k0 = false /\ sl' <= left (s_now s) k0))).
      { intros Nd E. injection E as <- <- <-. split; [|split; [|split; [|split; [|split; [|split]]]]].
        - intros j Hj. apply in_app_or in Hj as [Hj|Hj]; [now left|right; now right].
        - intros Nn. split; [now apply NoDup_remove_1 in Nn|]. intros j E. injection E as <-. now apply NoDup_remove_2 in Nn.
        - intros j Hj. apply in_or_app. now left.
        - intros j [<-|Hj] _; [now right|left; apply in_or_app; now right].
        - intros j E. injection E as <-. split; [now left|]. exists k. auto.
        - lia.
        - discriminate. }
      destruct (k_st k) eqn:St.
      * apply PICK; [discriminate|exact H].
      * apply PICK; [discriminate|exact H].
      * destruct rest as [|j rest]; [discriminate|]. cbn [length] in Ln. apply IH in H; [|lia].
        destruct H as (H1 & H2 & H3 & H4 & H5 & H6 & H7). split; [|split; [|split; [|split; [|split; [|split]]]]].
        -- intros x Hx. destruct (H1 x Hx) as [Hy|Hy]; [apply in_app_or in Hy as [Hy|[<-|[]]]; [now left|right; right; now left]|right; right; now right].
        -- intros Nn. apply H2. apply NoDup_remove_1 in Nn. now rewrite <- app_assoc.
        -- intros x Hx. apply H3, in_or_app. now left.
        -- intros x [<-|[<-|Hx]] W.
           ++ unfold st_at in W. rewrite K in W. congruence.
           ++ left. apply H3, in_or_app. right. now left.
           ++ now apply H4.
        -- intros x Hx. destruct (H5 x Hx) as [A B]. split; [right; now right|exact B].
        -- lia.
        -- intros _ x kx _ _ _ _. left. lia.
    + apply IH in H; [|lia]. destruct H as (H1 & H2 & H3 & H4 & H5 & H6 & H7). split; [|split; [|split; [|split; [|split; [|split]]]]].
      * intros x Hx. destruct (H1 x Hx) as [Hy|Hy]; [apply in_app_or in Hy as [Hy|[<-|[]]]; [now left|right; now left]|right; now right].
      * intros Nn. apply H2. now rewrite <- app_assoc.
      * intros x Hx. apply H3, in_or_app. now left.
      * intros x [<-|Hx] W; [left; apply H3, in_or_app; right; now left|now apply H4].
      * intros x Hx. destruct (H5 x Hx) as [A B]. split; [now right|exact B].
      * lia.
      * intros Hp x kx [<-|Hx] Kx A W.
        -- rewrite K in Kx. injection Kx as <-. right. split; [exact D|]. lia.
        -- apply (H7 Hp x kx Hx Kx); [|exact W]. intros y Hy. apply A. now right.
Qed.

(** ** The invariant *)

Definition loc (p : cpc) : option nat := match p with Asleep _ => None | Chosen i _ | UseLog i _ | DoWake i _ | Finish i _ => Some i end.
Definition busy (p : cpc) : option nat := match p with UseLog i _ | DoWake i _ | Finish i _ => Some i | _ => None end.
Definition runl (i : nat) (l : list tev) : list N := flat_map (fun e => match e with ERan j t => if Nat.eqb j i then [t] else [] | _ => [] end) l.

Record INV (s : tmst) : Prop := {
  v_timed : NoDup (s_timed s) /\ (forall i, In i (s_timed s) -> loc (s_pc s) <> Some i);
  v_tst : forall i, In i (s_timed s) -> (i < length (s_tasks s))%nat /\ (stl (s_tasks s) i = Waiting \/ (stl (s_tasks s) i = Done /\ In (ECancel i) (s_log s)));
  v_wait : forall i, stl (s_tasks s) i = Waiting -> In i (s_timed s) \/ exists sl, s_pc s = Chosen i sl;
  v_run : forall i, stl (s_tasks s) i = Running <-> busy (s_pc s) = Some i;
  v_chosen : forall i sl, s_pc s = Chosen i sl -> exists k, nth_error (s_tasks s) i = Some k /\ due (s_now s) k = true;
  v_runs : forall i, (length (runl i (s_log s)) <= 1)%nat /\ (stl (s_tasks s) i = Waiting -> runl i (s_log s) = []) /\
                     ((length (s_tasks s) <= i)%nat -> runl i (s_log s) = []);
  v_early : forall i t, In t (runl i (s_log s)) -> exists k, nth_error (s_tasks s) i = Some k /\ k_int k < t - k_reg k;
  v_cancel : forall i, In (ECancel i) (s_log s) -> stl (s_tasks s) i = Done /\ runl i (s_log s) = [] /\ (i < length (s_tasks s))%nat;
  v_job : forall i, stl (s_tasks s) i <> Done -> s_job s (dbl (s_tasks s) i) = Some i;
  v_jobdb : forall d i, s_job s d = Some i -> (i < length (s_tasks s))%nat /\ dbl (s_tasks s) i = d;
  v_reg : forall i k, nth_error (s_tasks s) i = Some k -> k_reg k <= s_now s;
  v_free : forall d, s_free s d = true -> s_closed s d = true;
  v_fin : forall i, stl (s_tasks s) i <> Waiting -> (i < length (s_tasks s))%nat -> In (ECancel i) (s_log s) \/ runl i (s_log s) <> [] }.

Lemma INV_init : INV tm_init.
Proof.
  assert (S0 : forall i, stl [] i = Done) by (intros [|i]; reflexivity).
  constructor; cbn [tm_init s_tasks s_timed s_pc s_now s_job s_closed s_free s_log loc busy runl flat_map length].
  - split; [constructor|intros i []].
  - intros i [].
  - intros i. rewrite S0. discriminate.
  - intros i. rewrite S0. split; discriminate.
  - discriminate.
  - intros i. split; [lia|]. split; reflexivity.
  - intros i t [].
  - intros i [].
  - intros i. rewrite S0. congruence.
  - discriminate.
  - intros [|i] k; discriminate.
  - discriminate.
  - intros i _ L. lia.
Qed.

Lemma runl_cons_other i e l : (forall j t, e <> ERan j t) -> runl i (e :: l) = runl i l.
Proof. intros H. unfold runl. cbn [flat_map]. destruct e; try reflexivity. now destruct (H i0 now). Qed.

(** A step that does not touch the tasks, the list and the position, except that the log may get an
    event that is not about runs and cancellations. *)
Lemma INV_log s e : INV s -> (forall j t, e <> ERan j t) -> (forall j, e <> ECancel j) -> INV (with_log e s).
Proof.
  intros I He Hc. destruct I. constructor; cbn [with_log s_tasks s_timed s_pc s_now s_job s_closed s_free s_log] in *; auto.
  - intros i Hi. destruct (v_tst0 i Hi) as [L [W|[D C]]]; split; auto. right. split; [exact D|now right].
  - intros i. rewrite runl_cons_other by exact He. apply v_runs0.
  - intros i t. rewrite runl_cons_other by exact He. apply v_early0.
  - intros i [E|H]; [now destruct (Hc i)|]. rewrite runl_cons_other by exact He. now apply v_cancel0.
  - intros i D L. rewrite runl_cons_other by exact He. destruct (v_fin0 i D L); [left; now right|now right].
Qed.

Lemma INV_pass s pick l sl : INV s -> loc (s_pc s) = None -> scan s [] (s_timed s) MAX_SLEEP_US = Some (pick, l, sl) ->
  INV (mkM (s_now s) (s_tasks s) l (match pick with Some i => Chosen i sl | None => asleep (s_now s) sl end) false (s_job s) (s_closed s) (s_free s) (s_log s)).
Proof.
  intros I P H. destruct (scan_spec s (length (s_timed s)) _ _ _ _ _ _ (Nat.le_refl _) H) as (H1 & H2 & _ & H4 & H5 & _ & _).
  destruct I. destruct (H2 (proj1 v_timed0)) as [N1 N2].
  assert (P1 : forall i sl0, s_pc s <> Chosen i sl0) by (intros i sl0 E; rewrite E in P; discriminate).
  assert (P2 : busy (s_pc s) = None) by (destruct (s_pc s); try reflexivity; discriminate).
  assert (B : busy (match pick with Some i => Chosen i sl | None => asleep (s_now s) sl end) = None) by (destruct pick; reflexivity).
  constructor; cbn [s_tasks s_timed s_pc s_now s_job s_closed s_free s_log]; auto.
  - split; [exact N1|]. intros i Hi E. destruct pick as [j|]; cbn [loc asleep] in E; [|discriminate]. injection E as ->. now apply (N2 i).
  - intros i Hi. apply v_tst0. destruct (H1 i Hi) as [[]|A]; exact A.
  - intros i W. destruct (v_wait0 i W) as [A|(x & A)]; [|now destruct (P1 i x)]. destruct (H4 i A W) as [C|C]; [now left|].
    right. rewrite C. now exists sl.
  - intros i. rewrite B. rewrite v_run0, P2. reflexivity.
  - intros i x E. destruct pick as [j|]; [|discriminate]. injection E as -> _. destruct (H5 i eq_refl) as [_ (k & K1 & K2 & _)]. exists k. now split.
Qed.

Lemma INV_step s o s' : INV s -> tstep o s = Go s' -> INV s'.
Proof.
  intros I H. destruct o as [d| | | | | |d|d delay|d|d]; cbn [tstep] in H.
  - (* Tick *) injection H as <-. destruct I. constructor; cbn [s_tasks s_timed s_pc s_now s_job s_closed s_free s_log]; auto.
    + intros i sl E. destruct (v_chosen0 i sl E) as (k & K & D). exists k. split; [exact K|]. unfold due in *. apply N.ltb_lt in D. apply N.ltb_lt. lia.
    + intros i k E. specialize (v_reg0 i k E). lia.
  - (* Pass *) destruct (s_pc s) as [u| | | |] eqn:P; try discriminate. destruct (s_woken s || _); [|discriminate].
    destruct (scan s [] (s_timed s) MAX_SLEEP_US) as [[[pick l] sl]|] eqn:E; [|discriminate]. injection H as <-.
    apply INV_pass; auto. now rewrite P.
  - (* Exec *) destruct (s_pc s) as [|i sl| | |] eqn:P; try discriminate. unfold st_at, task_at in H. fold (stl (s_tasks s) i) in H.
    assert (OTHER : stl (s_tasks s) i <> Waiting -> Go (with_pc (asleep (s_now s) sl) s) = Go s' -> INV s').
    { intros Nw E. injection E as <-. destruct I. rewrite P in *. constructor; cbn [with_pc s_tasks s_timed s_pc s_now s_job s_closed s_free s_log]; auto.
      - split; [apply v_timed0|]. discriminate.
      - intros j W. destruct (v_wait0 j W) as [A|(x & A)]; [now left|]. injection A as -> ->. contradiction.
      - discriminate. }
    destruct (stl (s_tasks s) i) eqn:St; [|apply OTHER; [discriminate|exact H]|apply OTHER; [discriminate|exact H]].
    clear OTHER. injection H as <-. destruct I. rewrite P in *. assert (Li : (i < length (s_tasks s))%nat) by (apply stl_in; congruence).
    destruct (v_chosen0 i sl eq_refl) as (k & K & D).
    constructor; cbn [with_log with_pc with_st s_tasks s_timed s_pc s_now s_job s_closed s_free s_log loc busy] in *; rewrite ?set_st_len; auto.
    + intros j Hj. destruct (v_tst0 j Hj) as [L W]. split; [exact L|]. rewrite set_st_stl by exact Li.
      destruct (Nat.eqb_spec i j) as [->|Nj]; [destruct (proj2 v_timed0 j Hj); reflexivity|]. destruct W as [W|[W1 W2]]; [now left|right; split; [exact W1|now right]].
    + intros j. rewrite set_st_stl by exact Li. destruct (Nat.eqb_spec i j) as [->|Nj]; [discriminate|]. intros W.
      destruct (v_wait0 j W) as [A|(x & A)]; [now left|congruence].
    + intros j. rewrite set_st_stl by exact Li. destruct (Nat.eqb_spec i j) as [->|Nj]; [split; reflexivity|]. rewrite v_run0. split; [discriminate|congruence].
    + discriminate.
    + intros j. destruct (v_runs0 j) as (A & B & C). cbn [runl flat_map]. fold (runl j (s_log s)). destruct (Nat.eqb_spec i j) as [->|Nj].
      * rewrite (B St). split; [cbn; lia|]. split; [rewrite set_st_stl, Nat.eqb_refl by exact Li; discriminate|lia].
      * cbn [app]. split; [exact A|]. split; [|exact C]. rewrite set_st_stl by exact Li. destruct (Nat.eqb_spec i j); [congruence|exact B].
    + intros j t. cbn [runl flat_map]. fold (runl j (s_log s)). rewrite set_st_nth. destruct (Nat.eqb_spec i j) as [->|Nj].
      * destruct (v_runs0 j) as (_ & B & _). rewrite (B St). cbn [app]. intros [<-|[]]. rewrite K.
        eexists. split; [reflexivity|]. cbn [k_int k_reg]. unfold due in D. now apply N.ltb_lt in D.
      * cbn [app]. intros Ht. destruct (v_early0 j t Ht) as (k' & K1 & K2). rewrite K1. exists k'. now split.
    + intros j [E|Hj]; [discriminate|]. destruct (v_cancel0 j Hj) as (A & B & C). assert (Nj : i <> j) by (intros ->; congruence).
      rewrite set_st_stl by exact Li. cbn [runl flat_map]. fold (runl j (s_log s)). destruct (Nat.eqb_spec i j); [contradiction|]. now repeat split.
    + intros j. rewrite set_st_stl by exact Li. unfold dbl. rewrite set_st_db. fold (dbl (s_tasks s) j). destruct (Nat.eqb_spec i j) as [->|Nj]; [|apply v_job0].
      intros _. apply v_job0. congruence.
    + intros d j E. unfold dbl. rewrite set_st_db. now apply v_jobdb0.
    + intros j kj. rewrite set_st_nth. destruct (nth_error (s_tasks s) j) as [k'|] eqn:E; [|discriminate]. intros X. injection X as <-.
      specialize (v_reg0 j k' E). now destruct (Nat.eqb i j).
    + intros j. rewrite set_st_stl by exact Li. cbn [runl flat_map]. fold (runl j (s_log s)). destruct (Nat.eqb_spec i j) as [->|Nj]; [intros _ _; right; discriminate|].
      intros Dn L. cbn [app]. destruct (v_fin0 j Dn L); [left; now right|now right].
  - (* Log *) destruct (s_pc s) as [| |i sl| |] eqn:P; try discriminate. injection H as <-.
    assert (G : INV (with_pc (DoWake i sl) s)).
    { destruct I. rewrite P in *. constructor; cbn [with_pc s_tasks s_timed s_pc s_now s_job s_closed s_free s_log loc busy] in *; auto.
      - intros j W. destruct (v_wait0 j W) as [A|(x & A)]; [now left|discriminate].
      - discriminate. }
    destruct (s_free s (owner s i)); [|exact G]. apply (INV_log _ (EFreed (owner s i))) in G; [exact G|discriminate|discriminate].
  - (* Wake *) destruct (s_pc s) as [| | |i sl|] eqn:P; try discriminate. injection H as <-.
    assert (G : INV (with_pc (Finish i sl) s)).
    { destruct I. rewrite P in *. constructor; cbn [with_pc s_tasks s_timed s_pc s_now s_job s_closed s_free s_log loc busy] in *; auto.
      - intros j W. destruct (v_wait0 j W) as [A|(x & A)]; [now left|discriminate].
      - discriminate. }
    apply (INV_log _ (EWake (owner s i))) in G; [exact G|discriminate|discriminate].
  - (* End *) destruct (s_pc s) as [| | | |i sl] eqn:P; try discriminate. injection H as <-. destruct I. rewrite P in *.
    assert (Ri : stl (s_tasks s) i = Running) by (now apply v_run0).
    assert (Li : (i < length (s_tasks s))%nat) by (apply stl_in; congruence).
    constructor; cbn [with_pc with_st s_tasks s_timed s_pc s_now s_job s_closed s_free s_log loc busy asleep] in *; rewrite ?set_st_len; auto.
    + split; [apply v_timed0|]. discriminate.
    + intros j Hj. destruct (v_tst0 j Hj) as [L W]. split; [exact L|]. rewrite set_st_stl by exact Li.
      destruct (Nat.eqb_spec i j) as [->|Nj]; [destruct (proj2 v_timed0 j Hj); reflexivity|exact W].
    + intros j. rewrite set_st_stl by exact Li. destruct (Nat.eqb_spec i j) as [->|Nj]; [discriminate|]. intros W.
      destruct (v_wait0 j W) as [A|(x & A)]; [now left|discriminate].
    + intros j. rewrite set_st_stl by exact Li. destruct (Nat.eqb_spec i j) as [->|Nj]; [split; discriminate|]. rewrite v_run0. split; [congruence|discriminate].
    + discriminate.
    + intros j. destruct (v_runs0 j) as (A & B & C). split; [exact A|]. split; [|exact C]. rewrite set_st_stl by exact Li. destruct (Nat.eqb_spec i j); [discriminate|exact B].
    + intros j t Ht. rewrite set_st_nth. destruct (v_early0 j t Ht) as (k' & K1 & K2). rewrite K1. eexists. split; [reflexivity|]. now destruct (Nat.eqb i j).
    + intros j Hj. destruct (v_cancel0 j Hj) as (A & B & C). rewrite set_st_stl by exact Li. split; [destruct (Nat.eqb i j); auto|now split].
    + intros j. rewrite set_st_stl by exact Li. unfold dbl. rewrite set_st_db. fold (dbl (s_tasks s) j). destruct (Nat.eqb_spec i j) as [->|Nj]; [congruence|apply v_job0].
    + intros d j E. unfold dbl. rewrite set_st_db. now apply v_jobdb0.
    + intros j kj. rewrite set_st_nth. destruct (nth_error (s_tasks s) j) as [k'|] eqn:E; [|discriminate]. intros X. injection X as <-.
      specialize (v_reg0 j k' E). now destruct (Nat.eqb i j).
    + intros j. rewrite set_st_stl by exact Li. destruct (Nat.eqb_spec i j) as [->|Nj]; [|apply v_fin0]. intros _ L. apply v_fin0; [congruence|exact L].
  - (* Push *) destruct (s_free s d); [discriminate|]. injection H as <-. apply INV_log; [exact I|discriminate|discriminate].
  - (* Sched *) destruct (s_free s d || s_closed s d || (delay =? 0)); [discriminate|].
    set (n := length (s_tasks s)) in *.
    assert (FRESH : match s_job s d with Some i => stl (s_tasks s) i = Done | None => True end ->
       INV (mkM (s_now s) (s_tasks s ++ [mkK (s_now s) delay Waiting d]) (s_timed s ++ [n]) (s_pc s) true (upd (s_job s) d (Some n)) (s_closed s) (s_free s)
             (ESched d false :: s_log s))).
    { intros J. assert (I' := INV_log s (ESched d false) I ltac:(discriminate) ltac:(discriminate)). clear I. destruct I'.
      cbn [with_log s_tasks s_timed s_pc s_now s_job s_closed s_free s_log] in *.
      assert (Pn : loc (s_pc s) <> Some n).
      { intros E. destruct (s_pc s) as [|i sl|i sl|i sl|i sl] eqn:P; cbn [loc] in E; try discriminate; injection E as ->.
        - destruct (v_chosen0 n sl eq_refl) as (k & K & _). apply nth_error_Some_lt in K || (assert (n < length (s_tasks s))%nat by (apply nth_error_Some; congruence); unfold n in *; lia).
        - assert (stl (s_tasks s) n <> Done) by (rewrite (proj2 (v_run0 n)); [discriminate|reflexivity]). apply stl_in in H0. unfold n in *; lia.
        - assert (stl (s_tasks s) n <> Done) by (rewrite (proj2 (v_run0 n)); [discriminate|reflexivity]). apply stl_in in H0. unfold n in *; lia.
        - assert (stl (s_tasks s) n <> Done) by (rewrite (proj2 (v_run0 n)); [discriminate|reflexivity]). apply stl_in in H0. unfold n in *; lia. }
      assert (Tn : ~ In n (s_timed s)) by (intros A; apply v_tst0 in A as [A _]; unfold n in A; lia).
      constructor; cbn [s_tasks s_timed s_pc s_now s_job s_closed s_free s_log]; rewrite ?app_length; cbn [length]; auto.
      - split.
        + apply NoDup_app_snoc || (rewrite <- (rev_involutive (s_timed s ++ [n])); apply NoDup_rev; rewrite rev_app_distr; cbn [rev app]; constructor; [now rewrite <- in_rev|apply NoDup_rev; apply v_timed0]).
        + intros i Hi. apply in_app_or in Hi as [Hi|[<-|[]]]; [now apply v_timed0|exact Pn].
      - intros i Hi. rewrite stl_app. fold n. apply in_app_or in Hi as [Hi|[<-|[]]].
        + destruct (v_tst0 i Hi) as [L W]. destruct (Nat.eqb_spec i n) as [->|Ni]; [unfold n in L; lia|]. split; [lia|exact W].
        + rewrite Nat.eqb_refl. split; [unfold n; lia|now left].
      - intros i. rewrite stl_app. fold n. destruct (Nat.eqb_spec i n) as [->|Ni]; [intros _; left; apply in_or_app; right; now left|].
        intros W. destruct (v_wait0 i W) as [A|A]; [left; apply in_or_app; now left|now right].
      - intros i. rewrite stl_app. fold n. destruct (Nat.eqb_spec i n) as [->|Ni]; [|apply v_run0]. cbn [k_st]. split; [discriminate|].
        intros E. destruct Pn. destruct (s_pc s); cbn [busy loc] in *; congruence.
      - intros i sl E. destruct (v_chosen0 i sl E) as (k & K & D). exists k. split; [|exact D]. rewrite nth_error_app1; [exact K|]. apply nth_error_Some. congruence.
      - intros i. destruct (v_runs0 i) as (A & B & C). split; [exact A|]. split.
        + rewrite stl_app. fold n. destruct (Nat.eqb_spec i n) as [->|Ni]; [|exact B]. intros _. apply C. unfold n. lia.
        + intros L. apply C. lia.
      - intros i t Ht. destruct (v_early0 i t Ht) as (k & K & D). exists k. split; [|exact D]. rewrite nth_error_app1; [exact K|]. apply nth_error_Some. congruence.
      - intros i Hi. destruct (v_cancel0 i Hi) as (A & B & C). rewrite stl_app. fold n. destruct (Nat.eqb_spec i n) as [->|Ni]; [unfold n in C; lia|].
        repeat split; auto. lia.
      - intros i. rewrite stl_app. fold n. destruct (Nat.eqb_spec i n) as [->|Ni].
        + intros _. unfold n at 1. rewrite dbl_new. cbn [k_db]. unfold upd. now rewrite Nat.eqb_refl.
        + intros Dn. assert (L := stl_in _ _ Dn). rewrite dbl_app by exact L. unfold upd. destruct (Nat.eqb_spec (dbl (s_tasks s) i) d) as [E|E]; [|now apply v_job0].
          pose proof (v_job0 i Dn) as X. rewrite E in X. rewrite X in J. contradiction.
      - intros e i. unfold upd. destruct (Nat.eqb_spec e d) as [->|Ne].
        + intros E. injection E as <-. split; [unfold n; lia|]. unfold n. apply dbl_new.
        + intros E. destruct (v_jobdb0 e i E) as [L Db]. split; [lia|]. now rewrite dbl_app.
      - intros i k. destruct (Nat.lt_ge_cases i n) as [L|L].
        + rewrite nth_error_app1 by exact L. apply v_reg0.
        + rewrite nth_error_app2 by exact L. destruct (i - length (s_tasks s))%nat as [|m]; cbn [nth_error]; [intros E; injection E as <-; cbn; lia|destruct m; discriminate].
      - intros i. rewrite stl_app. fold n. destruct (Nat.eqb_spec i n) as [->|Ni]; [cbn [k_st]; congruence|]. intros Dn L. apply v_fin0; [exact Dn|]. unfold n in *. lia. }
    destruct (s_job s d) as [i|] eqn:J; [|injection H as <-; now apply FRESH].
    unfold st_at, task_at in H. fold (stl (s_tasks s) i) in H. destruct (stl (s_tasks s) i) eqn:St; injection H as <-; [| |now apply FRESH];
      apply INV_log; auto; discriminate.
  - (* CloseCancel *) destruct (s_closed s d) eqn:Cl; [discriminate|].
    assert (CLOSED : forall x, INV x -> INV (mkM (s_now x) (s_tasks x) (s_timed x) (s_pc x) (s_woken x) (s_job x) (upd (s_closed x) d true) (s_free x) (s_log x))).
    { intros x Ix. destruct Ix. constructor; cbn [s_tasks s_timed s_pc s_now s_job s_closed s_free s_log]; auto.
      intros e F. unfold upd. destruct (Nat.eqb e d); auto. }
    destruct (s_job s d) as [i|] eqn:J; [|injection H as <-; now apply (CLOSED s)].
    unfold st_at, task_at in H. fold (stl (s_tasks s) i) in H.
    destruct (stl (s_tasks s) i) eqn:St; injection H as <-; [|now apply (CLOSED s)|now apply (CLOSED s)].
    apply (CLOSED (with_log (ECancel i) (with_st Done i s))). destruct I. assert (Li : (i < length (s_tasks s))%nat) by (apply stl_in; congruence).
    assert (Rn : forall j, runl j (ECancel i :: s_log s) = runl j (s_log s)) by reflexivity.
    constructor; cbn [with_log with_st s_tasks s_timed s_pc s_now s_job s_closed s_free s_log]; rewrite ?set_st_len; auto.
    + intros j Hj. destruct (v_tst0 j Hj) as [L W]. split; [exact L|]. rewrite set_st_stl by exact Li.
      destruct (Nat.eqb_spec i j) as [->|Nj]; [right; split; [reflexivity|now left]|]. destruct W as [W|[W1 W2]]; [now left|right; split; [exact W1|now right]].
    + intros j. rewrite set_st_stl by exact Li. destruct (Nat.eqb_spec i j) as [->|Nj]; [discriminate|]. apply v_wait0.
    + intros j. rewrite set_st_stl by exact Li. destruct (Nat.eqb_spec i j) as [->|Nj]; [|apply v_run0]. split; [discriminate|]. intros E. apply v_run0 in E. congruence.
    + intros j sl E. destruct (v_chosen0 j sl E) as (k & K & D). rewrite set_st_nth, K. eexists. split; [reflexivity|]. now destruct (Nat.eqb i j).
    + intros j. destruct (v_runs0 j) as (A & B & C). rewrite Rn. split; [exact A|]. split; [|exact C]. rewrite set_st_stl by exact Li. destruct (Nat.eqb_spec i j); [discriminate|exact B].
    + intros j t. rewrite Rn. intros Ht. rewrite set_st_nth. destruct (v_early0 j t Ht) as (k' & K1 & K2). rewrite K1. eexists. split; [reflexivity|]. now destruct (Nat.eqb i j).
    + intros j. rewrite Rn. intros Hj. rewrite set_st_stl by exact Li. destruct (Nat.eqb_spec i j) as [->|Nj].
      * split; [reflexivity|]. split; [exact (proj1 (proj2 (v_runs0 j)) St)|exact Li].
      * destruct Hj as [E|Hj]; [congruence|]. now apply v_cancel0.
    + intros j. rewrite set_st_stl by exact Li. unfold dbl. rewrite set_st_db. fold (dbl (s_tasks s) j). destruct (Nat.eqb_spec i j) as [->|Nj]; [congruence|apply v_job0].
    + intros e j E. unfold dbl. rewrite set_st_db. now apply v_jobdb0.
    + intros j kj. rewrite set_st_nth. destruct (nth_error (s_tasks s) j) as [k'|] eqn:E; [|discriminate]. intros X. injection X as <-.
      specialize (v_reg0 j k' E). now destruct (Nat.eqb i j).
    + intros j. rewrite set_st_stl by exact Li. rewrite Rn. destruct (Nat.eqb_spec i j) as [->|Nj]; [intros _ _; left; now left|].
      intros Dn L. destruct (v_fin0 j Dn L); [left; now right|now right].
  - (* CloseFree *) destruct (s_closed s d && negb (s_free s d)) eqn:C; [|discriminate]. injection H as <-. apply andb_true_iff in C as [C _].
    destruct I. constructor; cbn [s_tasks s_timed s_pc s_now s_job s_closed s_free s_log]; auto.
    intros e. unfold upd. destruct (Nat.eqb_spec e d) as [Ee|Ne]; [subst e; intros _; exact C|apply v_free0].
Qed.

Lemma INV_reach s : treach s -> INV s.
Proof. induction 1 as [|s o s' R IH H]; [apply INV_init|eapply INV_step; eauto]. Qed.

(** ** C103: at most once, not early, not after a cancellation *)

Lemma fires_once s i : treach s -> (length (runs i s) <= 1)%nat.
Proof. intros R. apply INV_reach in R. apply (v_runs s R i). Qed.

Lemma not_early s i t : treach s -> In t (runs i s) -> exists k, task_at s i = Some k /\ k_reg k + k_int k < t.
Proof. intros R H. apply INV_reach in R. destruct (v_early s R i t H) as (k & K & L). exists k. split; [exact K|lia]. Qed.

Lemma cancelled_never_runs s i : treach s -> In (ECancel i) (s_log s) -> runs i s = [].
Proof. intros R H. apply INV_reach in R. now apply (v_cancel s R i). Qed.

(** ** C104: nothing is forgotten *)

Lemma kept_until s i k : treach s -> task_at s i = Some k ->
  pending i s \/ In (ECancel i) (s_log s) \/ (length (runs i s) = 1)%nat.
Proof.
  intros R K. apply INV_reach in R. assert (L : (i < length (s_tasks s))%nat) by (apply nth_error_Some; unfold task_at in K; congruence).
  assert (RUN : stl (s_tasks s) i <> Waiting -> In (ECancel i) (s_log s) \/ (length (runs i s) = 1)%nat).
  { intros Nw. destruct (v_fin s R i Nw L) as [A|A]; [now left|]. right. change (length (runl i (s_log s)) = 1%nat). destruct (v_runs s R i) as (B & _).
    destruct (runl i (s_log s)) as [|x [|y z]]; cbn in *; [congruence|reflexivity|lia]. }
  destruct (stl (s_tasks s) i) eqn:St; [|right; apply RUN; discriminate|right; apply RUN; discriminate].
  left. split; [exact St|]. now apply (v_wait s R i).
Qed.

Lemma no_cancel_all_waiting s : treach s -> (forall i, ~ In (ECancel i) (s_log s)) ->
  forall i, In i (s_timed s) -> exists k, task_at s i = Some k /\ k_st k = Waiting.
Proof.
  intros R Nc i Hi. apply INV_reach in R. destruct (v_tst s R i Hi) as [L [W|[_ C]]]; [|now destruct (Nc i)].
  unfold task_at, stl in *. apply nth_error_Some in L. destruct (nth_error (s_tasks s) i) as [k|]; [|congruence]. now exists k.
Qed.

Lemma scan_ok s : forall l kept sl, (forall i, In i l -> exists k, task_at s i = Some k /\ k_st k <> Done) ->
  exists p l' sl', scan s kept l sl = Some (p, l', sl') /\
    (p = None -> forall i k, In i l -> task_at s i = Some k -> due (s_now s) k = false).
Proof.
  induction l as [|i l IH]; intros kept sl A; [exists None, kept, sl; split; [reflexivity|intros _ i k []]|].
  cbn [scan]. destruct (A i (or_introl eq_refl)) as (k & K & St). rewrite K. destruct (due (s_now s) k) eqn:D.
  - destruct (k_st k); try congruence; eexists _, _, _; (split; [reflexivity|discriminate]).
  - destruct (IH (kept ++ [i]) (N.min (N.min sl (left (s_now s) k)) MAX_SLEEP_US)) as (p & l' & sl' & E & F); [intros j Hj; apply A; now right|].
    exists p, l', sl'. split; [exact E|]. intros Hp j kj [<-|Hj] Kj; [congruence|eapply F; eauto].
Qed.

Lemma pass_picks s u i k : treach s -> (forall j, ~ In (ECancel j) (s_log s)) -> s_pc s = Asleep u -> s_woken s = true \/ u <= s_now s ->
  In i (s_timed s) -> task_at s i = Some k -> k_reg k + k_int k < s_now s ->
  exists s' j kj sl, tstep Pass s = Go s' /\ s_pc s' = Chosen j sl /\ task_at s' j = Some kj /\ k_st kj = Waiting /\ k_reg kj + k_int kj < s_now s'.
Proof.
  intros R Nc P W Hi K D. assert (A := no_cancel_all_waiting s R Nc).
  destruct (scan_ok s (s_timed s) [] MAX_SLEEP_US) as (p & l' & sl' & E & F).
  { intros j Hj. destruct (A j Hj) as (kj & Kj & St). exists kj. split; [exact Kj|congruence]. }
  destruct p as [j|].
  2: { specialize (F eq_refl i k Hi K). unfold due in F. apply N.ltb_ge in F. lia. }
  destruct (scan_spec s (length (s_timed s)) _ _ _ _ _ _ (Nat.le_refl _) E) as (_ & _ & _ & _ & H5 & _ & _).
  destruct (H5 j eq_refl) as [Hj (kj & Kj & Dj & Sj)].
  cbn [tstep]. rewrite P, E. replace (s_woken s || (u <=? s_now s)) with true.
  2: { symmetry. apply orb_true_iff. destruct W as [W|W]; [now left|right; now apply N.leb_le]. }
  eexists _, j, kj, sl'. split; [reflexivity|]. cbn [s_pc s_now]. split; [reflexivity|]. unfold task_at in *. cbn [s_tasks].
  split; [exact Kj|]. split; [destruct (A j Hj) as (k2 & K2 & S2); unfold task_at in K2; congruence|].
  unfold due in Dj. apply N.ltb_lt in Dj. lia.
Qed.

Lemma pass_never_wild s o : treach s -> (forall j, ~ In (ECancel j) (s_log s)) -> tstep o s <> Wild.
Proof.
  intros R Nc. assert (A := no_cancel_all_waiting s R Nc).
  destruct (scan_ok s (s_timed s) [] MAX_SLEEP_US) as (p & l' & sl' & E & _).
  { intros j Hj. destruct (A j Hj) as (kj & Kj & St). exists kj. split; [exact Kj|congruence]. }
  destruct o; cbn [tstep]; try discriminate.
  - destruct (s_pc s); try discriminate. destruct (s_woken s || _); [|discriminate]. rewrite E. discriminate.
  - destruct (s_pc s); try discriminate. destruct (st_at s i); discriminate.
  - destruct (s_pc s); discriminate.
  - destruct (s_pc s); discriminate.
  - destruct (s_pc s); discriminate.
  - destruct (s_free s d); discriminate.
  - destruct (s_free s d || s_closed s d || (delay =? 0)); [discriminate|]. destruct (s_job s d) as [i|]; [|discriminate]. destruct (st_at s i); discriminate.
  - destruct (s_closed s d); [discriminate|]. destruct (s_job s d) as [i|]; [|discriminate]. destruct (st_at s i); discriminate.
  - destruct (s_closed s d && negb (s_free s d)); discriminate.
Qed.

(** ** C105: how long the coordinator sleeps *)

Definition slp (p : cpc) : N := match p with Asleep _ => 0 | Chosen _ x | UseLog _ x | DoWake _ x | Finish _ x => x end.
Lemma asleep_bound now sl u : asleep now sl = Asleep u -> sl <= MAX_SLEEP_US -> u <= now + MAX_SLEEP_US.
Proof. unfold asleep. intros E L. injection E as <-. destruct (BUSY_US <? sl); lia. Qed.

Lemma sleep_bound s : treach s -> slp (s_pc s) <= MAX_SLEEP_US /\ (forall u, s_pc s = Asleep u -> u <= s_now s + MAX_SLEEP_US).
Proof.
  induction 1 as [|s o s' R [IH1 IH2] H]; [split; [vm_compute; discriminate|intros u E; injection E as <-; vm_compute; discriminate]|].
  destruct o as [d| | | | | |d|d delay|d|d]; cbn [tstep] in H.
  - injection H as <-. cbn [s_pc s_now]. split; [exact IH1|]. intros u E. specialize (IH2 u E). lia.
  - destruct (s_pc s) as [u| | | |] eqn:P; try discriminate. destruct (s_woken s || _); [|discriminate].
    destruct (scan s [] (s_timed s) MAX_SLEEP_US) as [[[pick l] sl]|] eqn:E; [|discriminate]. injection H as <-. cbn [s_pc s_now].
    destruct (scan_spec s (length (s_timed s)) _ _ _ _ _ _ (Nat.le_refl _) E) as (_ & _ & _ & _ & _ & B & _).
    destruct pick as [i|]; [split; [exact B|discriminate]|]. split; [cbn; lia|]. intros v V. eapply asleep_bound; eauto.
  - destruct (s_pc s) as [|i sl| | |] eqn:P; try discriminate. cbn [slp] in IH1.
    destruct (st_at s i); injection H as <-; cbn [with_log with_pc with_st s_pc s_now slp]; (split; [first [exact IH1|cbn; lia]|]); try discriminate; intros u E; eapply asleep_bound; eauto.
  - destruct (s_pc s) as [| |i sl| |] eqn:P; try discriminate. injection H as <-. split; [exact IH1|discriminate].
  - destruct (s_pc s) as [| | |i sl|] eqn:P; try discriminate. injection H as <-. split; [exact IH1|discriminate].
  - destruct (s_pc s) as [| | | |i sl] eqn:P; try discriminate. injection H as <-. cbn [with_pc with_st s_pc s_now slp asleep]. split; [lia|]. intros u E; eapply asleep_bound; eauto.
  - destruct (s_free s d); [discriminate|]. injection H as <-. now split.
  - destruct (s_free s d || s_closed s d || (delay =? 0)); [discriminate|].
    destruct (s_job s d) as [i|]; [destruct (st_at s i)|]; injection H as <-; now split.
  - destruct (s_closed s d); [discriminate|]. destruct (s_job s d) as [i|]; [destruct (st_at s i)|]; injection H as <-; now split.
  - destruct (s_closed s d && negb (s_free s d)); [|discriminate]. injection H as <-. now split.
Qed.

Lemma sleep_ends_in_time s s' u i k : treach s -> tstep Pass s = Go s' -> s_pc s' = Asleep u ->
  pending i s' -> task_at s' i = Some k -> u <= N.max (s_now s') (k_reg k + k_int k).
Proof.
  intros R H P [W Q] K. assert (I := INV_reach _ R). cbn [tstep] in H. destruct (s_pc s) as [v| | | |] eqn:P0; try discriminate. destruct (s_woken s || _); [|discriminate].
  destruct (scan s [] (s_timed s) MAX_SLEEP_US) as [[[pick l] sl]|] eqn:E; [|discriminate]. injection H as <-. cbn [s_pc s_now s_timed] in *.
  destruct pick as [j|]; [discriminate|]. destruct Q as [Q|(x & Q)]; [|congruence].
  destruct (scan_spec s (length (s_timed s)) _ _ _ _ _ _ (Nat.le_refl _) E) as (B1 & _ & _ & _ & _ & B6 & B7).
  assert (Hi : In i (s_timed s)) by (destruct (B1 i Q) as [[]|B]; exact B). change (task_at s i = Some k) in K.
  assert (St : k_st k = Waiting). { unfold st_at in W. change (match task_at s i with Some k => k_st k | None => Done end = Waiting) in W. now rewrite K in W. }
  assert (A : forall j, In j (s_timed s) -> task_at s j <> None).
  { intros j Hj. destruct (v_tst s I j Hj) as [L _]. unfold task_at. now apply nth_error_Some. }
  specialize (B7 eq_refl i k Hi K A St). unfold asleep in P. injection P as <-. pose proof (v_reg s I i k K) as Rg.
  destruct B7 as [->|[D L]]; [replace (BUSY_US <? 0) with false by reflexivity; lia|]. unfold due in D. apply N.ltb_ge in D. unfold left in L. destruct (BUSY_US <? sl); lia.
Qed.

(** ** C106: memory of a closed database *)

Lemma step_closed s o s' d : tstep o s = Go s' -> s_closed s' d = true -> s_closed s d = true \/ o = CloseCancel d.
Proof.
  intros H C. destruct o; cbn [tstep] in H.
  - injection H as <-. now left.
  - destruct (s_pc s); try discriminate. destruct (s_woken s || _); [|discriminate]. destruct (scan s [] (s_timed s) MAX_SLEEP_US) as [[[p l] sl]|]; [|discriminate]. injection H as <-. now left.
  - destruct (s_pc s); try discriminate. destruct (st_at s i); injection H as <-; now left.
  - destruct (s_pc s); try discriminate. injection H as <-. left. cbn [with_pc s_closed] in C. now destruct (s_free s (owner s i)).
  - destruct (s_pc s); try discriminate. injection H as <-. now left.
  - destruct (s_pc s); try discriminate. injection H as <-. now left.
  - destruct (s_free s d0); [discriminate|]. injection H as <-. now left.
  - destruct (s_free s d0 || s_closed s d0 || (delay =? 0)); [discriminate|]. destruct (s_job s d0) as [i|]; [destruct (st_at s i)|]; injection H as <-; now left.
  - destruct (s_closed s d0) eqn:Cl; [discriminate|].
    assert (X : s_closed s' = upd (s_closed s) d0 true) by (destruct (s_job s d0) as [i|]; [destruct (st_at s i)|]; injection H as <-; reflexivity).
    rewrite X in C. unfold upd in C. destruct (Nat.eqb_spec d d0) as [->|N]; [now right|now left].
  - destruct (s_closed s d0 && negb (s_free s d0)); [|discriminate]. injection H as <-. now left.
Qed.

Lemma calm_reach s : treach_calm s -> treach s.
Proof. induction 1 as [|s o s' R IH H N]; [constructor|]. eapply tr_step; eauto. Qed.

(** After the cancellation no task of the database is left. *)
Lemma calm_quiet s : treach_calm s -> (forall d i, s_closed s d = true -> s_job s d = Some i -> stl (s_tasks s) i = Done) /\ (forall d, ~ In (EFreed d) (s_log s)).
Proof.
  induction 1 as [|s o s' R [IH1 IH2] H N]; [split; [discriminate|intros d []]|].
  assert (I := INV_reach _ (calm_reach _ R)).
  destruct o as [d| | | | | |d|d delay|d|d]; cbn [tstep] in H.
  - injection H as <-. now split.
  - destruct (s_pc s); try discriminate. destruct (s_woken s || _); [|discriminate]. destruct (scan s [] (s_timed s) MAX_SLEEP_US) as [[[p l] sl]|]; [|discriminate]. injection H as <-. now split.
  - destruct (s_pc s) as [|i sl| | |]; try discriminate. destruct (st_at s i) eqn:St; injection H as <-; [|now split|now split].
    assert (St' : stl (s_tasks s) i = Waiting) by exact St.
    assert (Li : (i < length (s_tasks s))%nat) by (apply stl_in; rewrite St'; discriminate).
    split; cbn [with_log with_pc with_st s_closed s_job s_tasks s_log].
    + intros d j C J. rewrite set_st_stl by exact Li. destruct (Nat.eqb_spec i j) as [->|Nj]; [|now apply (IH1 d)]. specialize (IH1 d j C J). congruence.
    + intros d [E|A]; [discriminate|now apply (IH2 d)].
  - destruct (s_pc s) as [| |i sl| |] eqn:P; try discriminate. injection H as <-.
    assert (Ri : stl (s_tasks s) i = Running) by (apply (v_run s I i); now rewrite P).
    assert (J : s_job s (dbl (s_tasks s) i) = Some i) by (apply (v_job s I); congruence).
    change (dbl (s_tasks s) i) with (owner s i) in J. destruct (s_free s (owner s i)) eqn:F; [|now split].
    apply (v_free s I) in F. specialize (IH1 _ _ F J). congruence.
  - destruct (s_pc s) as [| | |i sl|]; try discriminate. injection H as <-. split; [exact IH1|]. intros d [E|A]; [discriminate|now apply (IH2 d)].
  - destruct (s_pc s) as [| | | |i sl] eqn:P; try discriminate. injection H as <-. split; [|exact IH2]. cbn [with_pc with_st s_closed s_job s_tasks].
    intros d j C J. specialize (IH1 d j C J). assert (Ri : stl (s_tasks s) i = Running) by (apply (v_run s I i); now rewrite P).
    assert (Li : (i < length (s_tasks s))%nat) by (apply stl_in; congruence). rewrite set_st_stl by exact Li. destruct (Nat.eqb i j); auto.
  - destruct (s_free s d); [discriminate|]. injection H as <-. split; [exact IH1|]. intros e [E|A]; [discriminate|now apply (IH2 e)].
  - destruct (s_free s d || s_closed s d || (delay =? 0)) eqn:G; [discriminate|]. apply orb_false_iff in G as [G _]. apply orb_false_iff in G as [_ G].
    assert (FR : forall e i, s_closed s e = true -> upd (s_job s) d (Some (length (s_tasks s))) e = Some i -> stl (s_tasks s ++ [mkK (s_now s) delay Waiting d]) i = Done).
    { intros e i C. unfold upd. destruct (Nat.eqb_spec e d) as [->|Ne]; [congruence|]. intros J. rewrite stl_app.
      destruct (v_jobdb s I e i J) as [L _]. destruct (Nat.eqb_spec i (length (s_tasks s))); [lia|]. now apply (IH1 e). }
    assert (LG : forall b e, ~ In (EFreed e) (ESched d b :: s_log s)) by (intros b e [E|A]; [discriminate|now apply (IH2 e)]).
    destruct (s_job s d) as [i|] eqn:J; [destruct (st_at s i)|]; injection H as <-; (split; [first [exact IH1|exact FR]|apply LG]).
  - destruct (s_closed s d) eqn:Cl; [discriminate|]. destruct (s_job s d) as [i|] eqn:J.
    + assert (Nr : stl (s_tasks s) i <> Running) by (apply (N d i eq_refl J)).
      destruct (st_at s i) eqn:St; change (stl (s_tasks s) i) with (st_at s i) in Nr; [|congruence|].
      * injection H as <-. assert (Li : (i < length (s_tasks s))%nat) by (apply stl_in; change (st_at s i <> Done); rewrite St; discriminate).
        split; cbn [with_log with_st s_closed s_job s_tasks s_log]; [|intros e [E|A]; [discriminate|now apply (IH2 e)]].
        intros e j C Je. rewrite set_st_stl by exact Li. unfold upd in C. destruct (Nat.eqb_spec e d) as [->|Ne].
        -- rewrite J in Je. injection Je as <-. now rewrite Nat.eqb_refl.
        -- specialize (IH1 e j C Je). destruct (Nat.eqb i j); auto.
      * injection H as <-. split; cbn [s_closed s_job s_tasks s_log]; [|exact IH2].
        intros e j C Je. unfold upd in C. destruct (Nat.eqb_spec e d) as [->|Ne]; [rewrite J in Je; injection Je as <-; exact St|now apply (IH1 e)].
    + injection H as <-. split; cbn [s_closed s_job s_tasks s_log]; [|exact IH2].
      intros e j C Je. unfold upd in C. destruct (Nat.eqb_spec e d) as [->|Ne]; [congruence|now apply (IH1 e)].
  - destruct (s_closed s d && negb (s_free s d)); [|discriminate]. injection H as <-. now split.
Qed.

Lemma calm_no_freed s d : treach_calm s -> ~ In (EFreed d) (s_log s).
Proof. intros R. now apply calm_quiet. Qed.

(** ** C107: a request is followed by a wake-up *)

Lemma request_followed s : treach s -> forall d, s_closed s d = false ->
  woken_since d (s_log s) = true \/ exists i, owner s i = d /\ (pending i s \/ exists sl, s_pc s = UseLog i sl \/ s_pc s = DoWake i sl).
Proof.
  intros R. enough (G : forall d, s_closed s d = false -> woken_since d (s_log s) = true \/
     exists i, s_job s d = Some i /\ (stl (s_tasks s) i = Waiting \/ exists sl, s_pc s = UseLog i sl \/ s_pc s = DoWake i sl)).
  { assert (I := INV_reach _ R). intros d C. destruct (G d C) as [A|(i & J & A)]; [now left|]. right. exists i. split; [apply (v_jobdb s I d i J)|].
    destruct A as [A|A]; [left; split; [exact A|now apply (v_wait s I)]|now right]. }
  induction R as [|s o s' R IH H]; [now left|]. assert (I := INV_reach _ R). intros d C.
  destruct o as [t| | | | | |e|e delay|e|e]; cbn [tstep] in H.
  - injection H as <-. now apply IH.
  - destruct (s_pc s) as [u| | | |] eqn:P; try discriminate. destruct (s_woken s || _); [|discriminate]. destruct (scan s [] (s_timed s) MAX_SLEEP_US) as [[[p l] sl]|]; [|discriminate]. injection H as <-.
    cbn [s_closed s_log s_job s_tasks s_pc] in *. destruct (IH d C) as [A|(i & J & [A|(x & [A|A])])]; [now left| |discriminate|discriminate]. right. exists i. auto.
  - destruct (s_pc s) as [|i sl| | |] eqn:P; try discriminate. destruct (st_at s i) eqn:St; injection H as <-; cbn [with_log with_pc with_st s_closed s_log s_job s_tasks s_pc woken_since] in *.
    + destruct (IH d C) as [A|(j & J & [A|(x & [A|A])])]; [now left| |discriminate|discriminate]. right. exists j. split; [exact J|].
      assert (Li : (i < length (s_tasks s))%nat) by (apply stl_in; change (st_at s i <> Done); rewrite St; discriminate).
      rewrite set_st_stl by exact Li. destruct (Nat.eqb_spec i j) as [->|Nj]; [right; exists sl; now left|now left].
    + destruct (IH d C) as [A|(j & J & [A|(x & [A|A])])]; [now left| |discriminate|discriminate]. right. exists j. auto.
    + destruct (IH d C) as [A|(j & J & [A|(x & [A|A])])]; [now left| |discriminate|discriminate]. right. exists j. auto.
  - destruct (s_pc s) as [| |i sl| |] eqn:P; try discriminate. injection H as <-.
    assert (C' : s_closed s d = false) by (destruct (s_free s (owner s i)); exact C).
    assert (G : woken_since d (s_log s) = true \/ exists j, s_job s d = Some j /\ (stl (s_tasks s) j = Waiting \/ exists x, DoWake i sl = UseLog j x \/ DoWake i sl = DoWake j x)).
    { destruct (IH d C') as [A|(j & J & [A|(x & [A|A])])]; [now left| | |discriminate]; right; exists j; split; auto. right. exists sl. right. congruence. }
    destruct (s_free s (owner s i)); exact G.
  - destruct (s_pc s) as [| | |i sl|] eqn:P; try discriminate. injection H as <-. cbn [with_log with_pc s_closed s_log s_job s_tasks s_pc woken_since] in *.
    destruct (Nat.eqb_spec (owner s i) d) as [E|E]; [now left|]. cbn [orb].
    destruct (IH d C) as [A|(j & J & [A|(x & [A|A])])]; [now left| |discriminate|]; right; exists j; split; auto.
    injection A as -> ->. destruct E. apply (v_jobdb s I d j J).
  - destruct (s_pc s) as [| | | |i sl] eqn:P; try discriminate. injection H as <-. cbn [with_pc with_st s_closed s_log s_job s_tasks s_pc asleep] in *.
    destruct (IH d C) as [A|(j & J & [A|(x & [A|A])])]; [now left| |discriminate|discriminate]. right; exists j; split; auto. left.
    assert (Ri : stl (s_tasks s) i = Running) by (apply (v_run s I i); now rewrite P).
    assert (Li : (i < length (s_tasks s))%nat) by (apply stl_in; congruence). rewrite set_st_stl by exact Li. destruct (Nat.eqb_spec i j) as [->|Nj]; [congruence|exact A].
  - destruct (s_free s e); [discriminate|]. injection H as <-. now apply IH.
  - destruct (s_free s e || s_closed s e || (delay =? 0)); [discriminate|].
    assert (FR : match s_job s e with Some i => stl (s_tasks s) i = Done | None => True end ->
       woken_since d (ESched e false :: s_log s) = true \/
       exists i, upd (s_job s) e (Some (length (s_tasks s))) d = Some i /\ (stl (s_tasks s ++ [mkK (s_now s) delay Waiting e]) i = Waiting \/ exists x, s_pc s = UseLog i x \/ s_pc s = DoWake i x)).
    { intros Jd. cbn [woken_since]. unfold upd. destruct (Nat.eqb_spec d e) as [->|Ne].
      - right. exists (length (s_tasks s)). split; [reflexivity|]. left. now rewrite stl_app, Nat.eqb_refl.
      - destruct (Nat.eqb_spec e d); [congruence|]. cbn [negb andb].
        assert (C0 : s_closed s d = false) by (destruct (s_job s e) as [i|]; [destruct (st_at s i)|]; injection H as <-; exact C).
        destruct (IH d C0) as [A|(j & J & A)]; [now left|]. right. exists j. split; [exact J|]. rewrite stl_app.
        destruct (v_jobdb s I d j J) as [L _]. destruct (Nat.eqb_spec j (length (s_tasks s))); [lia|exact A]. }
    destruct (s_job s e) as [i|] eqn:J; [|injection H as <-; now apply FR].
    destruct (st_at s i) eqn:St; injection H as <-; [| |now apply FR]; cbn [with_log s_closed s_log s_job s_tasks s_pc woken_since] in *.
    + destruct (Nat.eqb_spec e d) as [->|Ne]; [right; exists i; split; [exact J|left; exact St]|]. cbn [negb andb]. now apply IH.
    + now apply IH.
  - destruct (s_closed s e) eqn:Cl; [discriminate|].
    assert (X : s_closed s' = upd (s_closed s) e true /\ s_job s' = s_job s /\ s_pc s' = s_pc s /\ woken_since d (s_log s') = woken_since d (s_log s) /\
      (s_tasks s' = s_tasks s \/ exists i, s_job s e = Some i /\ st_at s i = Waiting /\ s_tasks s' = set_st Done i (s_tasks s))).
    { destruct (s_job s e) as [i|]; [destruct (st_at s i) eqn:St|]; injection H as <-; cbn [with_log with_st s_closed s_log s_job s_tasks s_pc woken_since]; repeat (split; [reflexivity|]); try (now left).
      right. exists i. auto. }
    destruct X as (X1 & X2 & X3 & X4 & X5). rewrite X1 in C. unfold upd in C. destruct (Nat.eqb_spec d e) as [Ee|Ne]; [discriminate|].
    rewrite X2, X3, X4. destruct (IH d C) as [A|(j & J & A)]; [now left|]. right. exists j. split; [exact J|].
    destruct A as [A|A]; [|now right]. left. destruct X5 as [->|(i & Ji & Si & ->)]; [exact A|].
    assert (Li : (i < length (s_tasks s))%nat) by (apply stl_in; change (st_at s i <> Done); rewrite Si; discriminate).
    rewrite set_st_stl by exact Li. destruct (Nat.eqb_spec i j) as [->|Nj]; [|exact A].
    destruct (v_jobdb s I _ _ J) as [_ D1]. destruct (v_jobdb s I _ _ Ji) as [_ D2]. congruence.
  - destruct (s_closed s e && negb (s_free s e)); [|discriminate]. injection H as <-. now apply IH.
Qed.
