(** One compaction to the next level at a time. *)
From Coq Require Import List NArith Bool Lia Permutation.
From Verif Require Import Base KeyModel LogFormatModel MemTableModel LsmModel TableLockModel TableLockProofs.
Import ListNotations.
Local Open Scope N_scope.

(** The level whose compaction lock a job has. *)
Definition lv_hold (j : job) : list nat := if is_down j && negb (is_nil (jb_hold j)) then [jb_lv j] else [].
Definition LV (s : jst) : Prop := NoDup (concat (map lv_hold (j_jobs s))).

Lemma lv_take : forall n js j, nth_error js n = Some j -> Permutation (concat (map lv_hold js)) (lv_hold j ++ concat (map lv_hold (without n js))).
Proof. intros n js j H. apply without_perm in H. apply (Permutation_map lv_hold) in H. apply concat_perm in H. exact H. Qed.
Lemma drop_lv : forall n j s, LV s -> nth_error (j_jobs s) n = Some j -> LV (drop n j s).
Proof. intros n j s D H. unfold LV, drop in *. cbn [j_jobs]. apply lv_take in H. eapply nodup_app_r, Permutation_NoDup; eassumption. Qed.
Lemma same_lv : forall n j j' locked s, LV s -> nth_error (j_jobs s) n = Some j -> lv_hold j' = lv_hold j -> LV (put n j' locked s).
Proof.
  intros n j j' locked s D H E. unfold LV, put in *. cbn [j_jobs map concat]. rewrite E. apply lv_take in H. eapply Permutation_NoDup; eassumption.
Qed.
Lemma locked_in : forall lv js, In lv (concat (map lv_hold js)) -> level_locked lv js = true.
Proof.
  intros lv js H. apply in_concat in H as (h & H1 & H2). apply in_map_iff in H1 as (j & <- & H1). apply existsb_exists. exists j. split; [exact H1|].
  unfold lv_hold in H2. destruct (is_down j); [|destruct H2]. destruct (is_nil (jb_hold j)); [destruct H2|]. destruct H2 as [->|[]]. cbn. now rewrite PeanoNat.Nat.eqb_refl.
Qed.
Lemma new_lv : forall n j j' locked s, LV s -> nth_error (j_jobs s) n = Some j -> (is_down j' = true -> level_locked (jb_lv j') (j_jobs s) = false) ->
  LV (put n j' locked s).
Proof.
  intros n j j' locked s D H L. unfold LV, put in *. cbn [j_jobs map concat]. apply lv_take in H.
  assert (D2 : NoDup (concat (map lv_hold (without n (j_jobs s))))) by (eapply nodup_app_r, Permutation_NoDup; eassumption).
  unfold lv_hold at 1. destruct (is_down j'); [|exact D2]. destruct (negb (is_nil (jb_hold j'))); [|exact D2]. cbn [andb app]. constructor; [|exact D2].
  intros I. specialize (L eq_refl). rewrite locked_in in L; [discriminate|]. apply (Permutation_in _ (Permutation_sym H)), in_app_iff. now right.
Qed.
Lemma with_lsm_lv : forall l s, LV s -> LV (with_lsm l s).
Proof.
  intros l s D. unfold LV in *. cbn [with_lsm j_jobs]. rewrite map_map.
  erewrite (map_ext (fun x => lv_hold (refresh l x)) lv_hold); [exact D|]. reflexivity.
Qed.

Section Hash.
Variable hash : key -> N * N.
Variable part : key -> N.
Local Notation j_step := (j_step hash part).
Local Notation lstep := (lstep hash part).

Lemma step_lv : forall c o s s', LV s -> j_step c o s = Some s' -> LV s'.
Proof.
  intros c o s s' HL H. destruct o as [o|k lv num|n|n|n|n|n]; cbn [TableLockModel.j_step] in H.
  - destruct (blocked o (j_jobs s) || existsb (fun x => mem x (j_locked s)) (touches c o (j_lsm s))); [discriminate|].
    destruct (lstep c o (j_lsm s)) as [l|]; [|discriminate]. injection H as <-. now apply with_lsm_lv.
  - destruct (tbl_at num (level lv (j_lsm s))) as [v|]; [|discriminate]. destruct (mem num (j_locked s)); [discriminate|].
    match type of H with (if ?b then _ else _) = _ => destruct b end; [|discriminate]. injection H as <-. unfold LV. cbn [j_jobs map concat].
    unfold lv_hold at 1. cbn [jb_hold is_nil negb]. rewrite andb_false_r. exact HL.
  - destruct (nth_error (j_jobs s) n) as [[k lv v d h r]|] eqn:E; [|discriminate].
    destruct k as [p|cut mk| |over mk]; destruct d as [ts|]; destruct h as [|x h]; destruct r; try discriminate.
    + destruct (before (b_num v) None (level lv (j_lsm s))) as [d|]; injection H as <-.
      * eapply same_lv; [exact HL|exact E|reflexivity].
      * apply drop_lv; assumption.
    + injection H as <-. eapply same_lv; [exact HL|exact E|reflexivity].
  - destruct (nth_error (j_jobs s) n) as [[k lv v d h r]|] eqn:E; [|discriminate]. destruct h as [|x h]; [|destruct r; discriminate]. destruct r; [discriminate|].
    match type of H with match ?e with _ => _ end = _ => destruct e as [w|] end; [|discriminate].
    match type of H with match (if ?b then _ else _) with _ => _ end = _ => destruct b eqn:B end.
    + injection H as <-. apply drop_lv; assumption.
    + destruct (try_lock w (j_locked s)) as [locked|]; injection H as <-.
      * eapply new_lv; [exact HL|exact E|]. cbn [is_down jb_kind jb_lv]. destruct k; try discriminate. intros _. exact B.
      * apply drop_lv; assumption.
  - destruct (nth_error (j_jobs s) n) as [[k lv v d h r]|] eqn:E; [|discriminate].
    destruct k as [p|cut mk| |over mk]; destruct d as [ts|]; destruct h as [|x h]; destruct r; try discriminate.
    destruct (try_lock (nodup N.eq_dec (map b_num ts)) (j_locked s)) as [locked|]; injection H as <-.
    + eapply same_lv; [exact HL|exact E|]. unfold lv_hold. cbn [is_down jb_kind jb_hold jb_lv]. destruct (nodup N.eq_dec (map b_num ts)); reflexivity.
    + apply drop_lv; assumption.
  - destruct (nth_error (j_jobs s) n) as [j|] eqn:E; [|discriminate]. destruct (jb_ready j); [|discriminate]. injection H as <-.
    apply with_lsm_lv, drop_lv; assumption.
  - destruct (nth_error (j_jobs s) n) as [j|] eqn:E; [|discriminate]. injection H as <-. apply drop_lv; assumption.
Qed.

Lemma one_down : forall c s, jreach hash part c s -> forall i j a b, nth_error (j_jobs s) i = Some a -> nth_error (j_jobs s) j = Some b -> i <> j ->
  is_down a = true -> is_down b = true -> jb_hold a <> [] -> jb_hold b <> [] -> jb_lv a <> jb_lv b.
Proof.
  intros c s H i j a b Ha Hb N Da Db Na Nb E.
  assert (D : LV s). { induction H as [|s o s' H IH S]; [constructor|]. eapply step_lv; [|exact S]. clear - H hash part. induction H; [constructor|]. eapply step_lv; eassumption. }
  assert (Fa : In (jb_lv a) (lv_hold a)) by (unfold lv_hold; rewrite Da; destruct (jb_hold a); [contradiction|now left]).
  assert (Fb : In (jb_lv a) (lv_hold b)) by (unfold lv_hold; rewrite Db, E; destruct (jb_hold b); [contradiction|now left]).
  exact (perm_concat_split _ (map lv_hold (j_jobs s)) i j _ _ (map_nth_error lv_hold i _ Ha) (map_nth_error lv_hold j _ Hb) N D _ Fa Fb).
Qed.

(** While a job has the lock of a level, no operation compacts tables of that level either. *)
Lemma level_op_blocked : forall c s i a o, nth_error (j_jobs s) i = Some a -> is_down a = true -> jb_hold a <> [] ->
  match o with LZero _ _ _ _ _ => jb_lv a = O | LDown _ _ _ _ lv _ => lv = jb_lv a | _ => False end -> j_step c (KOp o) s = None.
Proof.
  intros c s i a o Ha Da Na Ho. assert (L : level_locked (jb_lv a) (j_jobs s) = true).
  { apply existsb_exists. exists a. split; [eapply nth_error_In; exact Ha|]. rewrite Da, PeanoNat.Nat.eqb_refl. destruct (jb_hold a); [contradiction|reflexivity]. }
  cbn [TableLockModel.j_step]. destruct o; try contradiction; cbn [blocked].
  - rewrite Ho in L. rewrite L, orb_true_r. reflexivity.
  - subst. rewrite L. reflexivity.
Qed.
End Hash.
