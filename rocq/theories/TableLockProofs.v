(** Proofs about background jobs that run at the same time. *)
From Coq Require Import List NArith Bool Lia Arith Permutation.
From Verif Require Import Base KeyModel KeyProofs LogFormatModel BloomModel MemTableModel LsmModel LsmProofs LsmProofs2 LsmProofs5 TableLockModel.
Import ListNotations.
Local Open Scope N_scope.

(** ** Lists and locks *)

Lemma mem_in : forall x l, mem x l = true <-> In x l.
Proof.
  intros x l. unfold mem. rewrite existsb_exists. split.
  - intros (y & H & E). apply N.eqb_eq in E. now subst.
  - intros H. exists x. split; [exact H|apply N.eqb_refl].
Qed.
Lemma mem_false : forall x l, mem x l = false <-> ~ In x l.
Proof. intros x l. rewrite <- mem_in. destruct (mem x l); split; congruence. Qed.
Lemma none_locked : forall w l, existsb (fun x => mem x l) w = false <-> forall x, In x w -> ~ In x l.
Proof.
  intros w l. induction w as [|a w IH]; cbn [existsb]; [split; [intros _ x []|reflexivity]|].
  rewrite orb_false_iff, mem_false, IH. split.
  - intros [A B] x [<-|H]; auto.
  - intros H. split; [apply H; now left|intros x Hx; apply H; now right].
Qed.

Lemma without_perm : forall A n (l : list A) x, nth_error l n = Some x -> Permutation l (x :: without n l).
Proof.
  intros A. induction n as [|n IH]; intros [|y l] x H; try discriminate; cbn [nth_error without] in *.
  - injection H as ->. reflexivity.
  - rewrite (IH l x H) at 1. apply perm_swap.
Qed.

Lemma nodup_app_r : forall A (a b : list A), NoDup (a ++ b) -> NoDup b.
Proof. intros A a b H. induction a as [|x a IH]; [exact H|]. cbn [app] in H. inversion H; subst. auto. Qed.

(** Every locked table is locked for exactly one job. *)
Definition LK (s : jst) : Prop := NoDup (j_locked s) /\ Permutation (j_locked s) (concat (map jb_hold (j_jobs s))).

Lemma concat_perm : forall A (a b : list (list A)), Permutation a b -> Permutation (concat a) (concat b).
Proof.
  intros A a b H. induction H; cbn [concat].
  - reflexivity.
  - now apply Permutation_app_head.
  - rewrite !app_assoc. apply Permutation_app_tail, Permutation_app_comm.
  - etransitivity; eassumption.
Qed.
Lemma holds_take : forall n js j, nth_error js n = Some j ->
  Permutation (concat (map jb_hold js)) (jb_hold j ++ concat (map jb_hold (without n js))).
Proof.
  intros n js j H. apply without_perm in H. apply (Permutation_map jb_hold) in H. apply concat_perm in H. exact H.
Qed.

Lemma unlock_perm : forall held locked rest, NoDup locked -> Permutation locked (held ++ rest) -> Permutation (unlock held locked) rest.
Proof.
  intros held locked rest D P. assert (D2 : NoDup (held ++ rest)) by (eapply Permutation_NoDup; eassumption).
  apply NoDup_Permutation.
  - apply NoDup_filter, D.
  - eapply nodup_app_r; exact D2.
  - intros x. unfold unlock. rewrite filter_In, negb_true_iff, mem_false. split.
    + intros [H N]. apply (Permutation_in _ P) in H. apply in_app_iff in H as [H|H]; [contradiction|exact H].
    + intros H. split; [apply (Permutation_in _ (Permutation_sym P)), in_app_iff; now right|].
      intros H2. clear - D2 H H2. induction held as [|a held IH]; [destruct H2|]. cbn [app] in D2. inversion D2 as [|? ? N D]; subst.
      destruct H2 as [<-|H2]; [apply N, in_app_iff; now right|exact (IH D H2)].
Qed.

Lemma drop_lk : forall n j s, LK s -> nth_error (j_jobs s) n = Some j -> LK (drop n j s).
Proof.
  intros n j s [D P] H. unfold drop. assert (E := holds_take _ _ _ H). split; cbn [j_locked j_jobs].
  - apply NoDup_filter, D.
  - apply unlock_perm; [exact D|]. rewrite P. exact E.
Qed.
Lemma put_lk : forall n j j' w locked s, LK s -> nth_error (j_jobs s) n = Some j -> NoDup w ->
  try_lock w (j_locked s) = Some locked -> Permutation (jb_hold j') (w ++ jb_hold j) -> LK (put n j' locked s).
Proof.
  intros n j j' w locked s [D P] H Dw T Hj. unfold try_lock in T.
  destruct (existsb (fun x => mem x (j_locked s)) w) eqn:E; [discriminate|]. injection T as <-. assert (F := proj1 (none_locked _ _) E).
  unfold put. split; cbn [j_locked j_jobs].
  - apply nodup_app; assumption.
  - cbn [map concat]. rewrite P, (holds_take _ _ _ H), Hj. now rewrite app_assoc.
Qed.
Lemma same_lk : forall n j j' s, LK s -> nth_error (j_jobs s) n = Some j -> jb_hold j' = jb_hold j -> LK (put n j' (j_locked s) s).
Proof.
  intros n j j' s [D P] H Hj. unfold put. split; cbn [j_locked j_jobs]; [exact D|].
  cbn [map concat]. now rewrite P, (holds_take _ _ _ H), Hj.
Qed.
Lemma with_lsm_lk : forall l s, LK s -> LK (with_lsm l s).
Proof.
  intros l s [D P]. split; cbn [with_lsm j_locked j_jobs]; [exact D|]. rewrite map_map.
  erewrite (map_ext (fun x => jb_hold (refresh l x)) jb_hold); [exact P|]. reflexivity.
Qed.

Section Hash.
Variable hash : key -> N * N.
Variable part : key -> N.
Local Notation j_step := (j_step hash part).
Local Notation lstep := (lstep hash part).

Inductive jreach (c : tcfg) : jst -> Prop :=
| jr_new : jreach c (j_new c)
| jr_step : forall s o s', jreach c s -> j_step c o s = Some s' -> jreach c s'.

Lemma step_lk : forall c o s s', LK s -> j_step c o s = Some s' -> LK s'.
Proof.
  intros c o s s' HL H. destruct o as [o|k lv num|n|n|n|n|n]; cbn [TableLockModel.j_step] in H.
  - destruct (blocked o (j_jobs s) || existsb (fun x => mem x (j_locked s)) (touches c o (j_lsm s))); [discriminate|].
    destruct (lstep c o (j_lsm s)) as [l|]; [|discriminate]. injection H as <-. now apply with_lsm_lk.
  - destruct (tbl_at num (level lv (j_lsm s))) as [v|]; [|discriminate]. destruct (mem num (j_locked s)); [discriminate|].
    match type of H with (if ?b then _ else _) = _ => destruct b end; [|discriminate]. injection H as <-. exact HL.
  - destruct (nth_error (j_jobs s) n) as [[k lv v d h r]|] eqn:E; [|discriminate].
    destruct k as [p|cut mk| |over mk]; destruct d as [ts|]; destruct h as [|x h]; destruct r; try discriminate.
    + destruct (before (b_num v) None (level lv (j_lsm s))) as [d|]; injection H as <-.
      * eapply same_lk; [exact HL|exact E|reflexivity].
      * apply drop_lk; assumption.
    + injection H as <-. eapply same_lk; [exact HL|exact E|reflexivity].
  - destruct (nth_error (j_jobs s) n) as [[k lv v d h r]|] eqn:E; [|discriminate]. destruct h as [|x h]; [|destruct r; discriminate]. destruct r; [discriminate|].
    set (want := match k, d with JMerge, Some [t] => Some (nodup N.eq_dec [b_num v; b_num t]) | JMerge, _ => None | _, _ => Some [b_num v] end) in H.
    assert (W : forall w, want = Some w -> NoDup w).
    { intros w. unfold want. destruct k; try (intros W; injection W as <-; repeat constructor; intros []).
      destruct d as [[|t [|t2 d]]|]; intros W; try discriminate. assert (w = nodup N.eq_dec [b_num v; b_num t]) by congruence. subst w. apply NoDup_nodup. }
    clearbody want. destruct want as [w|]; [|discriminate].
    match type of H with match (if ?b then _ else _) with _ => _ end = _ => destruct b end.
    + injection H as <-. apply drop_lk; assumption.
    + destruct (try_lock w (j_locked s)) as [locked|] eqn:T; injection H as <-.
      * eapply put_lk; [exact HL|exact E|exact (W w eq_refl)|exact T|]. cbn [jb_hold]. now rewrite app_nil_r.
      * apply drop_lk; assumption.
  - destruct (nth_error (j_jobs s) n) as [[k lv v d h r]|] eqn:E; [|discriminate].
    destruct k as [p|cut mk| |over mk]; destruct d as [ts|]; destruct h as [|x h]; destruct r; try discriminate.
    destruct (try_lock (nodup N.eq_dec (map b_num ts)) (j_locked s)) as [locked|] eqn:T; injection H as <-.
    + eapply put_lk; [exact HL|exact E|apply NoDup_nodup|exact T|reflexivity].
    + apply drop_lk; assumption.
  - destruct (nth_error (j_jobs s) n) as [j|] eqn:E; [|discriminate]. destruct (jb_ready j); [|discriminate]. injection H as <-.
    apply with_lsm_lk, drop_lk; assumption.
  - destruct (nth_error (j_jobs s) n) as [j|] eqn:E; [|discriminate]. injection H as <-. apply drop_lk; assumption.
Qed.

Lemma jreach_lk : forall c s, jreach c s -> LK s.
Proof.
  intros c s H. induction H as [|s o s' H IH E]; [split; cbn; constructor|]. eapply step_lk; eassumption.
Qed.

(** *** Exclusion *)

Lemma perm_concat_split : forall A (l : list (list A)) i j a b, nth_error l i = Some a -> nth_error l j = Some b -> i <> j ->
  NoDup (concat l) -> forall x, In x a -> ~ In x b.
Proof.
  intros A. induction l as [|c l IH]; intros i j a b Hi Hj N D x Ha Hb; [destruct i; discriminate|]. cbn [concat] in D.
  assert (Q : forall m y, nth_error l m = Some y -> In x y -> In x (concat l)).
  { intros m y E I. apply in_concat. exists y. split; [eapply nth_error_In; exact E|exact I]. }
  assert (X : In x c -> ~ In x (concat l)).
  { intros I1 I2. clear - D I1 I2. induction c as [|z c IH]; [destruct I1|]. cbn [app] in D. inversion D as [|? ? N D2]; subst.
    destruct I1 as [->|I1]; [apply N, in_app_iff; now right|exact (IH D2 I1)]. }
  destruct i as [|i]; destruct j as [|j]; cbn [nth_error] in *.
  - lia.
  - injection Hi as <-. apply (X Ha). eapply Q; eassumption.
  - injection Hj as <-. apply (X Hb). eapply Q; eassumption.
  - eapply (IH i j a b); eauto. eapply nodup_app_r; exact D.
Qed.

Lemma jobs_exclusive : forall c s, jreach c s -> forall i j a b, nth_error (j_jobs s) i = Some a -> nth_error (j_jobs s) j = Some b -> i <> j ->
  forall x, In x (jb_hold a) -> ~ In x (jb_hold b).
Proof.
  intros c s H i j a b Ha Hb N. destruct (jreach_lk c s H) as [D P].
  eapply (perm_concat_split _ (map jb_hold (j_jobs s)) i j); eauto using map_nth_error.
  eapply Permutation_NoDup; eassumption.
Qed.
Lemma locked_iff : forall c s, jreach c s -> forall x, In x (j_locked s) <-> exists j, In j (j_jobs s) /\ In x (jb_hold j).
Proof.
  intros c s H x. destruct (jreach_lk c s H) as [D P]. split.
  - intros I. apply (Permutation_in _ P) in I. apply in_concat in I as (h & I1 & I2). apply in_map_iff in I1 as (j & <- & J). eauto.
  - intros (j & J & I). apply (Permutation_in _ (Permutation_sym P)), in_concat. exists (jb_hold j). split; [now apply in_map|exact I].
Qed.

(** *** Frame: what is locked by others is left alone *)

Lemma at_add : forall n x l, b_num x <> n -> tbl_at n (add_tbl x l) = tbl_at n l.
Proof.
  intros n x l N. unfold tbl_at. induction l as [|u l IH]; cbn [add_tbl find].
  - destruct (N.eqb_spec (b_num x) n); [contradiction|reflexivity].
  - destruct (kltb (b_min u) (b_min x)); cbn [find].
    + now rewrite IH.
    + destruct (N.eqb_spec (b_num x) n); [contradiction|reflexivity].
Qed.
Lemma at_add_all : forall n ts l, (forall x, In x ts -> b_num x <> n) -> tbl_at n (add_all ts l) = tbl_at n l.
Proof.
  intros n ts l. induction ts as [|x ts IH]; intros H; [reflexivity|]. cbn [add_all fold_right]. fold (add_all ts l).
  rewrite at_add by (apply H; now left). apply IH. intros y Hy. apply H. now right.
Qed.
Lemma at_rm : forall n m l, m <> n -> tbl_at n (rm_tbl m l) = tbl_at n l.
Proof.
  intros n m l N. unfold tbl_at, rm_tbl. induction l as [|u l IH]; [reflexivity|]. cbn [filter find].
  destruct (N.eqb_spec (b_num u) m) as [E|E]; cbn [negb].
  - rewrite IH. destruct (N.eqb_spec (b_num u) n); [lia|reflexivity].
  - cbn [find]. now rewrite IH.
Qed.
Lemma at_upd : forall n m f l, m <> n -> (forall t, b_num (f t) = b_num t) -> tbl_at n (upd_tbl m f l) = tbl_at n l.
Proof.
  intros n m f l N Hf. unfold tbl_at, upd_tbl. induction l as [|u l IH]; [reflexivity|]. cbn [map find].
  destruct (N.eqb_spec (b_num u) m) as [E|E].
  - rewrite Hf, IH. destruct (N.eqb_spec (b_num u) n); [lia|reflexivity].
  - now rewrite IH.
Qed.
Lemma sets_num : forall raw purge rs t, b_num (tf_sets hash raw purge rs t) = b_num t.
Proof. intros raw purge rs. unfold tf_sets. induction rs as [|r rs IH]; intros t; [reflexivity|]. cbn [fold_left]. now rewrite IH. Qed.
Lemma at_write_old : forall n raw purge sel gs l, (forall g d, In g gs -> g_tab g = Some d -> b_num d <> n) ->
  tbl_at n (write_old hash raw purge sel gs l) = tbl_at n l.
Proof.
  intros n raw purge sel gs. unfold write_old. induction gs as [|g gs IH]; intros l H; [reflexivity|]. cbn [fold_left].
  rewrite IH by (intros g' d Hg; apply H; now right). destruct (g_tab g) as [d|] eqn:E; [|reflexivity].
  apply at_upd; [eapply H; [now left|exact E]|]. intros t. apply sets_num.
Qed.

Lemma advance_in : forall k rest cur d rest', advance k cur rest = (d, rest') -> In d (cur :: rest) /\ forall x, In x rest' -> In x rest.
Proof.
  intros k. induction rest as [|t rest IH]; intros cur d rest' H; cbn [advance] in H.
  - injection H as <- <-. split; [now left|intros x []].
  - destruct (kleb (b_min t) k).
    + destruct (IH t d rest' H) as [A B]. split; [now right|]. intros x Hx. right. auto.
    + injection H as <- <-. split; [now left|auto].
Qed.
Lemma scan_tabs : forall over maxk docs i rest cur g d, In g (scan over maxk i docs rest cur) -> g_tab g = Some d ->
  g_tab cur = Some d \/ In d rest.
Proof.
  intros over maxk. induction docs as [|r docs IH]; intros i rest cur g d H E.
  - destruct H as [<-|[]]. now left.
  - cbn [scan] in H.
    assert (O : In g (if over i && kltb maxk (r_key r)
                      then cur :: scan over maxk (S i) docs rest (mkG (r_key r) None [r])
                      else scan over maxk (S i) docs rest (mkG (g_min cur) (g_tab cur) (g_recs cur ++ [r]))) ->
                g_tab cur = Some d \/ In d rest).
    { destruct (over i && kltb maxk (r_key r)).
      - intros [<-|Q]; [now left|]. apply IH with (d := d) in Q as [Q|Q]; [discriminate Q|now right|exact E].
      - intros Q. apply IH with (d := d) in Q as [Q|Q]; [now left|now right|exact E]. }
    destruct rest as [|nt rest]; [exact (O H)|]. destruct (kleb (b_min nt) (r_key r)); [|exact (O H)].
    destruct (advance (r_key r) nt rest) as [e rest2] eqn:A. destruct (advance_in _ _ _ _ _ A) as [B1 B2].
    destruct H as [<-|Q]; [now left|]. apply IH with (d := d) in Q as [Q|Q]; [|right; right; auto|exact E].
    cbn [g_tab] in Q. injection Q as <-. now right.
Qed.
Lemma groups_tabs : forall over vmin docs tabs g d, In g (groups over vmin docs tabs) -> g_tab g = Some d -> In d tabs.
Proof.
  intros over vmin docs tabs g d H E. unfold groups in H. destruct tabs as [|t tabs].
  - apply scan_tabs with (d := d) in H as [H|H]; [discriminate H|exact H|exact E].
  - destruct (kltb vmin (b_min t)).
    + apply scan_tabs with (d := d) in H as [H|H]; [discriminate H|exact H|exact E].
    + destruct (advance vmin t tabs) as [e rest] eqn:A. destruct (advance_in _ _ _ _ _ A) as [B1 B2].
      apply scan_tabs with (d := d) in H as [H|H]; [|right; auto|exact E]. cbn [g_tab] in H. injection H as <-. exact B1.
Qed.

Lemma new_nums : forall c mk gs j n, NoDup (map b_num (new_tbls hash c mk j n gs)) /\
  forall t, In t (new_tbls hash c mk j n gs) ->
    n <= b_num t < n + N.of_nat (length (filter (fun g => match g_tab g with None => true | _ => false end) gs)).
Proof.
  intros c mk. induction gs as [|g gs IH]; intros j n; cbn [new_tbls filter].
  - split; [constructor|intros t []].
  - destruct (g_tab g); [apply IH|]. destruct (IH (S j) (n + 1)) as [A B]. cbn [length].
    destruct (mk j).
    + split.
      * cbn [map]. constructor; [|exact A]. rewrite sets_num. cbn [new_tbl b_num]. intros I. apply in_map_iff in I as (t & E & I). apply B in I. lia.
      * intros t [<-|I]; [rewrite sets_num; cbn [new_tbl b_num]; lia|apply B in I; lia].
    + split; [exact A|]. intros t I. apply B in I. lia.
Qed.

Lemma nth_set : forall A i j (x d : A) l, nth j (set_nth i x l) d = if Nat.eqb i j && Nat.ltb i (length l) then x else nth j l d.
Proof.
  intros A. induction i as [|i IH]; intros j x d [|y l]; cbn [set_nth length].
  - now rewrite andb_false_r.
  - destruct j; reflexivity.
  - now rewrite andb_false_r.
  - destruct j as [|j]; [reflexivity|]. cbn [nth Nat.eqb]. rewrite IH. reflexivity.
Qed.
Lemma level_set : forall lv lv' l s, level lv' (set_level lv l s) = l \/ level lv' (set_level lv l s) = level lv' s.
Proof.
  intros [|i] [|j] l s; cbn [set_level level l_zero l_up]; auto. rewrite nth_set. destruct (_ && _); auto.
Qed.
Lemma level_set_other : forall lv lv' l s, lv <> lv' -> level lv' (set_level lv l s) = level lv' s.
Proof.
  intros [|i] [|j] l s N; cbn [set_level level l_zero l_up]; try reflexivity; [lia|]. rewrite nth_set.
  destruct (Nat.eqb_spec i j); [lia|reflexivity].
Qed.
(** A level is replaced by one that agrees on table [n]. *)
Lemma at_set : forall n lv lv' l s, tbl_at n l = tbl_at n (level lv s) -> tbl_at n (level lv' (set_level lv l s)) = tbl_at n (level lv' s).
Proof.
  intros n lv lv' l s H. destruct (Nat.eq_dec lv lv') as [->|N]; [|now rewrite level_set_other].
  destruct (level_set lv' lv' l s) as [E|E]; now rewrite E.
Qed.
Lemma level_next : forall lv n s, level lv (with_next n s) = level lv s.
Proof. intros [|i] n s; reflexivity. Qed.
Lemma level_extend : forall lv s, level lv (extend s) = level lv s.
Proof.
  intros [|i] s; [reflexivity|]. cbn [level extend l_up]. destruct (Nat.ltb_spec i (length (l_up s))) as [L|L].
  - now rewrite app_nth1.
  - rewrite app_nth2 by exact L. rewrite (nth_overflow (l_up s)) by exact L. destruct (i - length (l_up s))%nat as [|[|m]]; reflexivity.
Qed.

Lemma place_frame : forall c p lv v s lv' n, n < l_next s -> b_num v <> n ->
  tbl_at n (level lv' (place_of hash c p lv v s)) = tbl_at n (level lv' s).
Proof.
  intros c p lv v s lv' n L N. unfold place_of. cbv zeta. rewrite level_next. apply at_set. rewrite at_rm by exact N. apply at_add.
  unfold copy_live. rewrite sets_num. cbn [new_tbl b_num]. lia.
Qed.
Lemma cuts_none : forall cut docs i cur g, g_tab cur = None -> In g (cuts cut i docs cur) -> g_tab g = None.
Proof.
  intros cut. induction docs as [|r docs IH]; intros i cur g H I; cbn [cuts] in I.
  - destruct I as [<-|[]]. exact H.
  - destruct i as [|i]; [eapply IH; [|exact I]; reflexivity|]. destruct (cut i).
    + destruct I as [<-|I]; [exact H|]. eapply IH; [|exact I]; reflexivity.
    + eapply IH; [|exact I]; reflexivity.
Qed.
Lemma filter_length_le : forall A (f : A -> bool) l, (length (filter f l) <= length l)%nat.
Proof. intros A f l. induction l as [|a l IH]; [reflexivity|]. cbn [filter]. destruct (f a); cbn [length]; lia. Qed.
Lemma split_frame : forall c cut mk lv v s lv' n, n < l_next s -> b_num v <> n ->
  tbl_at n (level lv' (split_of hash c cut mk lv v s)) = tbl_at n (level lv' s).
Proof.
  intros c cut mk lv v s lv' n L N. unfold split_of. cbv zeta. set (gs := cuts cut 0 (b_docs v) (mkG (b_min v) None [])).
  destruct (Nat.ltb 1 (length gs)); [|reflexivity]. rewrite level_next. apply at_set. rewrite at_rm by exact N. apply at_add_all.
  intros x Hx. apply new_nums in Hx. lia.
Qed.
Lemma merge_frame : forall c lv v d s lv' n, b_num v <> n -> b_num d <> n ->
  tbl_at n (level lv' (merge_of hash c lv v d s)) = tbl_at n (level lv' s).
Proof.
  intros c lv v d s lv' n N1 N2. unfold merge_of. cbv zeta. apply at_set. rewrite at_rm by exact N1. apply at_upd; [exact N2|]. intros t. apply sets_num.
Qed.
Lemma ext_level : forall lv lv' s, level lv' (if is_last lv s then extend s else s) = level lv' s.
Proof. intros lv lv' s. destruct (is_last lv s); [apply level_extend|reflexivity]. Qed.
Lemma ext_next : forall lv s, l_next (if is_last lv s then extend s else s) = l_next s.
Proof. intros lv s. destruct (is_last lv s); reflexivity. Qed.
Lemma set_next : forall lv l s, l_next (set_level lv l s) = l_next s.
Proof. intros [|i] l s; reflexivity. Qed.
Lemma down_frame : forall c over mk lv v ts s lv' n, n < l_next s -> b_num v <> n -> (forall t, In t ts -> b_num t <> n) ->
  tbl_at n (level lv' (down_of hash c over mk lv v ts s)) = tbl_at n (level lv' s).
Proof.
  intros c over mk lv v ts s0 lv' n L N1 N2. unfold down_of. cbv zeta.
  pose proof (ext_level lv) as EL. specialize (EL) with (s := s0). pose proof (ext_next lv s0) as EN.
  set (s := if is_last lv s0 then extend s0 else s0) in *. clearbody s.
  set (gs := groups over (b_min v) (b_docs v) ts).
  set (news := new_tbls hash c mk 0 (l_next s) gs).
  set (n' := l_next s + _).
  assert (Hn : forall x, In x news -> b_num x <> n). { intros x Hx. apply new_nums in Hx. lia. }
  set (l1 := add_all news (write_old hash true (tc_purge c && is_last (S lv) s) (fun _ => true) gs (level (S lv) s))).
  assert (H1 : forall lv2, tbl_at n (level lv2 (set_level (S lv) l1 s)) = tbl_at n (level lv2 s0)).
  { intros lv2. rewrite <- (EL lv2). apply at_set. unfold l1. rewrite at_add_all by exact Hn. apply at_write_old.
    intros g d Hg Hd. apply N2. eapply groups_tabs; eassumption. }
  set (s1 := set_level (S lv) l1 s) in *. clearbody s1.
  assert (H2 : forall lv2, tbl_at n (level lv2 (set_level lv (rm_tbl (b_num v) (level lv s1)) s1)) = tbl_at n (level lv2 s0)).
  { intros lv2. rewrite <- (H1 lv2). apply at_set. apply at_rm. exact N1. }
  set (s2 := set_level lv (rm_tbl (b_num v) (level lv s1)) s1) in *. clearbody s2.
  match goal with |- tbl_at n (level lv' (if ?b then _ else _)) = _ => destruct b end.
  - rewrite level_next, <- (H2 lv'). apply at_set. apply at_add. cbn [new_tbl b_num]. unfold n'. lia.
  - rewrite level_next. apply H2.
Qed.

Lemma work_frame : forall c j s lv' n, n < l_next s -> b_num (jb_v j) <> n ->
  (forall ts t, jb_dst j = Some ts -> In t ts -> b_num t <> n) ->
  tbl_at n (level lv' (j_work hash c j s)) = tbl_at n (level lv' s).
Proof.
  intros c [k lv v d h r] s lv' n L N1 N2. cbn [j_work jb_kind jb_dst jb_lv jb_v] in *.
  destruct k as [p|cut mk| |over mk].
  - now apply place_frame.
  - now apply split_frame.
  - destruct d as [[|d [|? ?]]|]; try reflexivity. apply merge_frame; [exact N1|]. eapply N2; [reflexivity|now left].
  - destruct d as [ts|]; [|reflexivity]. apply down_frame; auto. intros t Ht. eapply N2; [reflexivity|exact Ht].
Qed.

(** *** Operations as work on the tables they choose *)

Lemma in_place_is : forall c p lv num s s', in_place hash c p lv num s = Some s' ->
  exists v, tbl_at num (level lv s) = Some v /\ b_num v = num /\ lv <> O /\ s' = place_of hash c p lv v s.
Proof.
  intros c p lv num s s' H. unfold in_place in H. destruct lv as [|i]; [discriminate|].
  destruct (tbl_at num (level (S i) s)) as [v|] eqn:E; [|discriminate]. injection H as <-. exists v.
  assert (N := proj2 (tbl_at_in _ _ _ E)). split; [reflexivity|]. split; [exact N|]. split; [discriminate|]. unfold place_of. now rewrite N.
Qed.
Lemma split_is : forall c cut mk lv num s s', split hash c cut mk lv num s = Some s' ->
  exists v, tbl_at num (level lv s) = Some v /\ b_num v = num /\ lv <> O /\ s' = split_of hash c cut mk lv v s.
Proof.
  intros c cut mk lv num s s' H. unfold split in H. destruct lv as [|i]; [discriminate|].
  destruct (tbl_at num (level (S i) s)) as [v|] eqn:E; [|discriminate]. exists v. assert (N := proj2 (tbl_at_in _ _ _ E)).
  split; [reflexivity|]. split; [exact N|]. split; [discriminate|]. unfold split_of. cbv zeta in *. rewrite N.
  match type of H with (if ?b then _ else _) = _ => destruct b end; [now injection H as <-|discriminate].
Qed.
Lemma merge_is : forall c lv num s s', merge hash c lv num s = Some s' ->
  exists v d, tbl_at num (level lv s) = Some v /\ b_num v = num /\ lv <> O /\ before num None (level lv s) = Some d /\ s' = merge_of hash c lv v d s.
Proof.
  intros c lv num s s' H. unfold merge in H. destruct lv as [|i]; [discriminate|].
  destruct (tbl_at num (level (S i) s)) as [v|] eqn:E; [|discriminate].
  destruct (before num None (level (S i) s)) as [d|] eqn:B; [|discriminate]. injection H as <-. exists v, d.
  assert (N := proj2 (tbl_at_in _ _ _ E)). repeat split; auto. unfold merge_of. now rewrite N.
Qed.
Lemma victim_is : forall c over mk fin sel lv num s s', compact_victim hash c over mk fin sel lv num s = Some s' ->
  exists v, tbl_at num (level lv s) = Some v /\ b_num v = num /\
    (fin = true -> s' = down_of hash c over mk lv v (range_of lv v s) s) /\
    (fin = false -> exists purge, let s1 := if is_last lv s then extend s else s in
       s' = set_level (S lv) (write_old hash true purge sel (groups over (b_min v) (b_docs v) (range_of lv v s)) (level (S lv) s1)) s1).
Proof.
  intros c over mk fin sel lv num s s' H. unfold compact_victim in H. destruct (tbl_at num (level lv s)) as [v|] eqn:E; [|discriminate].
  assert (N := proj2 (tbl_at_in _ _ _ E)). exists v. split; [reflexivity|]. split; [exact N|]. split; intros ->.
  - unfold down_of, range_of. rewrite ext_level in *. rewrite N. cbv zeta in *. injection H as H. symmetry. exact H.
  - eexists. cbv zeta in *. unfold range_of. rewrite <- (ext_level lv (S lv) s). rewrite ext_level in *. symmetry.
    match type of H with Some ?a = Some ?b => assert (Q : a = b) by congruence end. exact Q.
Qed.

(** *** Table numbers *)

Definition NI (s : lsm) : Prop := forall lv, nums_ok (l_next s) (level lv s).

Lemma NI_set : forall s lv l n, NI s -> l_next s <= n -> nums_ok n l -> NI (with_next n (set_level lv l s)).
Proof.
  intros s lv l n H L Hl lv'. rewrite level_next. cbn [with_next l_next].
  destruct (level_set lv lv' l s) as [E|E]; rewrite E; [exact Hl|]. eapply nums_le; [apply H|exact L].
Qed.
Lemma NI_set0 : forall s lv l, NI s -> nums_ok (l_next s) l -> NI (set_level lv l s).
Proof.
  intros s lv l H Hl lv'. rewrite set_next. destruct (level_set lv lv' l s) as [E|E]; rewrite E; [exact Hl|apply H].
Qed.
Lemma NI_next : forall s n, NI s -> l_next s <= n -> NI (with_next n s).
Proof. intros s n H L lv. rewrite level_next. eapply nums_le; [apply H|exact L]. Qed.
Lemma NI_extend : forall s, NI s -> NI (extend s).
Proof. intros s H lv. rewrite level_extend. apply H. Qed.
Lemma nums_add : forall n x l, nums_ok n l -> b_num x = n -> nums_ok (n + 1) (add_tbl x l).
Proof.
  intros n x l H E. change (add_tbl x l) with (add_all [x] l). apply (nums_add_all n); [exact H| | |lia].
  - repeat constructor. intros [].
  - intros t [<-|[]]. lia.
Qed.
Lemma nums_old : forall raw purge sel n gs l, nums_ok n l -> nums_ok n (write_old hash raw purge sel gs l).
Proof. intros raw purge sel n gs l H. rewrite write_old_map. apply nums_map; [intros t; apply sets_num|exact H]. Qed.

Lemma place_NI : forall c p lv v s, NI s -> NI (place_of hash c p lv v s).
Proof.
  intros c p lv v s H. unfold place_of. cbv zeta. apply NI_set; [exact H|lia|]. apply nums_filter, nums_add; [apply H|].
  unfold copy_live. now rewrite sets_num.
Qed.
Lemma split_NI : forall c cut mk lv v s, NI s -> NI (split_of hash c cut mk lv v s).
Proof.
  intros c cut mk lv v s H. unfold split_of. cbv zeta. set (gs := cuts cut 0 (b_docs v) (mkG (b_min v) None [])).
  destruct (Nat.ltb 1 (length gs)); [|exact H]. destruct (new_nums c mk gs 0 (l_next s)) as [A B].
  apply NI_set; [exact H|lia|]. apply nums_filter. apply (nums_add_all (l_next s)); [apply H|exact A| |lia].
  intros t Ht. specialize (B t Ht). pose proof (filter_length_le _ (fun g => match g_tab g with None => true | _ => false end) gs). lia.
Qed.
Lemma merge_NI : forall c lv v d s, NI s -> NI (merge_of hash c lv v d s).
Proof.
  intros c lv v d s H. unfold merge_of. cbv zeta. apply NI_set0; [exact H|]. apply nums_filter, nums_upd; [intros t; apply sets_num|apply H].
Qed.
Lemma down_NI : forall c over mk lv v ts s, NI s -> NI (down_of hash c over mk lv v ts s).
Proof.
  intros c over mk lv v ts s0 H0. unfold down_of. cbv zeta.
  assert (H : NI (if is_last lv s0 then extend s0 else s0)) by (destruct (is_last lv s0); [apply NI_extend|]; exact H0).
  set (s := if is_last lv s0 then extend s0 else s0) in *. clearbody s.
  set (gs := groups over (b_min v) (b_docs v) ts). set (n' := l_next s + _). destruct (new_nums c mk gs 0 (l_next s)) as [A B].
  set (l1 := add_all (new_tbls hash c mk 0 (l_next s) gs) (write_old hash true (tc_purge c && is_last (S lv) s) (fun _ => true) gs (level (S lv) s))).
  assert (L1 : nums_ok n' l1).
  { unfold l1. apply (nums_add_all (l_next s)); [apply nums_old, H|exact A|exact B|unfold n'; lia]. }
  assert (H1 : NI (with_next n' (set_level (S lv) l1 s))) by (apply NI_set; [exact H|unfold n'; lia|exact L1]).
  set (s1 := set_level (S lv) l1 s) in *.
  assert (E1 : l_next s1 = l_next s) by apply set_next. clearbody s1.
  assert (H1a : forall x, nums_ok n' (level x s1)) by (intros x; specialize (H1 x); now rewrite level_next in H1).
  assert (H2 : forall x, nums_ok n' (level x (set_level lv (rm_tbl (b_num v) (level lv s1)) s1))).
  { intros x. destruct (level_set lv x (rm_tbl (b_num v) (level lv s1)) s1) as [E|E]; rewrite E; [apply nums_filter|]; apply H1a. }
  assert (E2 : l_next (set_level lv (rm_tbl (b_num v) (level lv s1)) s1) = l_next s) by (now rewrite set_next).
  set (s2 := set_level lv (rm_tbl (b_num v) (level lv s1)) s1) in *. clearbody s2.
  match goal with |- NI (if ?b then _ else _) => destruct b end.
  - intros x. rewrite level_next. cbn [with_next l_next].
    match goal with |- nums_ok _ (level x (set_level lv ?l s2)) => destruct (level_set lv x l s2) as [E|E]; rewrite E end.
    + apply nums_add; [apply H2|reflexivity].
    + eapply nums_le; [apply H2|lia].
  - intros x. rewrite level_next. apply H2.
Qed.

Lemma batch_num : forall bad h rs t, b_num (tf_batch hash part bad h rs t) = b_num t.
Proof.
  intros bad h. induction rs as [|r rs IH]; intros t; cbn [tf_batch]; [reflexivity|].
  destruct (negb (part (r_key r) =? h) || is_cmd r); [apply IH|]. destruct (bad r); [reflexivity|]. now rewrite IH.
Qed.
Lemma parts_nums : forall bad rs m k h l, nums_ok k l -> nums_ok k (batch_parts hash part bad rs m h l).
Proof.
  intros bad rs. induction m as [|m IH]; intros k h l H; cbn [batch_parts]; [exact H|]. apply IH. unfold batch_part.
  destruct (smallest_normal (by_hash h l)); [|exact H]. apply nums_upd; [|exact H]. intros t'. apply batch_num.
Qed.
Lemma NI_zero : forall s l n, NI s -> l_next s <= n -> nums_ok n l -> NI (mkL n l (l_up s)).
Proof.
  intros s l n H L Hl [|i]; cbn [level l_zero l_next]; [exact Hl|]. eapply nums_le; [apply (H (S i))|exact L].
Qed.
Lemma roll_NI : forall c h s s', NI s -> l0_roll c h s = Some s' -> NI s'.
Proof.
  intros c h s s' H E. unfold l0_roll in E. destruct (src_of h (l_zero s)); [injection E as <-; exact H|].
  destruct (smallest_normal (by_hash h (l_zero s))) as [o|]; [|discriminate].
  destruct (smallest_normal (rm_tbl (b_num o) (by_hash h (l_zero s)))); injection E as <-.
  - apply NI_zero; [exact H|lia|]. apply nums_upd; [reflexivity|apply (H O)].
  - apply NI_zero; [exact H|lia|]. apply nums_upd; [reflexivity|]. apply nums_add; [apply (H O)|reflexivity].
Qed.
Lemma victim_NI : forall c over mk fin sel lv num s s', NI s -> compact_victim hash c over mk fin sel lv num s = Some s' -> NI s'.
Proof.
  intros c over mk fin sel lv num s s' H E. destruct (victim_is c over mk fin sel lv num s s' E) as (v & _ & _ & E3 & E4).
  destruct fin; [rewrite E3 by reflexivity; now apply down_NI|]. destruct (E4 eq_refl) as [purge Q]. cbv zeta in Q. rewrite Q.
  assert (H' : NI (if is_last lv s then extend s else s)) by (destruct (is_last lv s); [apply NI_extend|]; exact H).
  apply NI_set0; [exact H'|]. apply nums_old, H'.
Qed.
Lemma migrate_NI : forall lv s s', NI s -> migrate lv s = Some s' -> NI s'.
Proof.
  intros lv s s' H E. unfold migrate in E. destruct (is_last lv s && negb (is_nil (level lv s))); [|discriminate]. cbv zeta in E.
  match type of E with Some ?a = _ => replace s' with a by congruence end.
  apply NI_set0; [|split; [constructor|intros t []]]. apply NI_set0; [apply NI_extend, H|]. cbn [extend l_next].
  destruct (H lv) as [A B]. split.
  - apply (Permutation_NoDup (l := map b_num (level lv s))); [|exact A]. symmetry. etransitivity; [apply Permutation_map, add_all_perm|].
    rewrite app_nil_r, map_map. reflexivity.
  - intros t Ht. apply add_all_in in Ht as [Ht|[]]. apply in_map_iff in Ht as (u & <- & Hu). cbn [migrated b_num]. exact (B u Hu).
Qed.
Lemma lstep_NI : forall c o s s', NI s -> lstep c o s = Some s' -> NI s'.
Proof.
  intros c o s s' H E. destruct o as [bad rs|h|over mk fin sel h|over mk fin sel lv num|p lv num|cut mk lv num|lv num|]; cbn [LsmModel.lstep] in E.
  - injection E as <-. unfold set_batch. apply NI_zero; [exact H|lia|]. apply parts_nums, (H O).
  - eapply roll_NI; eassumption.
  - unfold compact_l0 in E. destruct (l0_roll c h s) as [s1|] eqn:R; [|discriminate]. apply roll_NI in R; [|exact H].
    destruct (src_of h (l_zero s1)); [|discriminate]. unfold compact_level in E. destruct (is_last 0 s1 && Nat.ltb 0 0).
    + eapply migrate_NI; eassumption.
    + eapply victim_NI; eassumption.
  - destruct lv as [|i]; [discriminate|]. unfold compact_level in E. destruct (is_last (S i) s && Nat.ltb 0 (S i)).
    + eapply migrate_NI; eassumption.
    + eapply victim_NI; eassumption.
  - apply in_place_is in E as (v & _ & _ & _ & ->). now apply place_NI.
  - apply split_is in E as (v & _ & _ & _ & ->). now apply split_NI.
  - apply merge_is in E as (v & d & _ & _ & _ & _ & ->). now apply merge_NI.
  - injection E as <-. intros [|i]; [|apply (H (S i))]. cbn [reload level l_zero l_next]. destruct (H O) as [A B]. split.
    + rewrite map_rev. apply NoDup_rev, A.
    + intros t Ht. apply B. now apply in_rev.
Qed.
Lemma work_NI : forall c j s, NI s -> NI (j_work hash c j s).
Proof.
  intros c [k lv v d h r] s H. cbn [j_work jb_kind jb_dst jb_lv jb_v]. destruct k as [p|cut mk| |over mk].
  - now apply place_NI.
  - now apply split_NI.
  - destruct d as [[|d [|? ?]]|]; try exact H. now apply merge_NI.
  - destruct d; [now apply down_NI|exact H].
Qed.
Lemma new_NI : forall c, NI (lsm_new c).
Proof.
  intros c. unfold lsm_new. destruct (init_tbls_spec c (N.to_nat (tc_parts c)) 0 []) as (I1 & I2 & _).
  - intros t [].
  - constructor.
  - intros j. cbn [filter]. destruct (N.ltb_spec j 0); [lia|reflexivity].
  - intros [|[|i]]; cbn [level l_zero l_up l_next nth]; try (split; [constructor|intros t []]).
    split; [exact I2|]. intros t Ht. destruct (I1 t Ht) as (j & J & ->). cbn [new_tbl b_num]. lia.
Qed.

(** The other steps do not change the tables. *)
Lemma step_lsm : forall c o s s', j_step c o s = Some s' ->
  j_lsm s' = j_lsm s \/ (exists lo, o = KOp lo /\ lstep c lo (j_lsm s) = Some (j_lsm s') /\ blocked lo (j_jobs s) = false /\
                           (forall x, In x (touches c lo (j_lsm s)) -> ~ In x (j_locked s))) \/
  (exists n j, o = KWork n /\ nth_error (j_jobs s) n = Some j /\ jb_ready j = true /\ j_lsm s' = j_work hash c j (j_lsm s)).
Proof.
  intros c o s s' H. destruct o as [o|k lv num|n|n|n|n|n]; cbn [TableLockModel.j_step] in H.
  - destruct (blocked o (j_jobs s)) eqn:B; [discriminate|]. cbn [orb] in H.
    destruct (existsb (fun x => mem x (j_locked s)) (touches c o (j_lsm s))) eqn:T; [discriminate|].
    destruct (lstep c o (j_lsm s)) as [l|] eqn:E; [|discriminate]. injection H as <-. right. left. exists o. cbn [with_lsm j_lsm]. repeat split; auto.
    now apply none_locked.
  - left. destruct (tbl_at num (level lv (j_lsm s))) as [v|]; [|discriminate]. destruct (mem num (j_locked s)); [discriminate|].
    match type of H with (if ?b then _ else _) = _ => destruct b end; [|discriminate]. injection H as <-. reflexivity.
  - left. destruct (nth_error (j_jobs s) n) as [[k lv v d h r]|] eqn:E; [|discriminate].
    destruct k as [p|cut mk| |over mk]; destruct d as [ts|]; destruct h as [|x h]; destruct r; try discriminate.
    + destruct (before (b_num v) None (level lv (j_lsm s))) as [d|]; injection H as <-; reflexivity.
    + injection H as <-. reflexivity.
  - left. destruct (nth_error (j_jobs s) n) as [[k lv v d h r]|] eqn:E; [|discriminate]. destruct h as [|x h]; [|destruct r; discriminate]. destruct r; [discriminate|].
    match type of H with match ?w with _ => _ end = _ => destruct w as [w0|] end; [|discriminate].
    match type of H with match ?w with _ => _ end = _ => destruct w end; injection H as <-; reflexivity.
  - left. destruct (nth_error (j_jobs s) n) as [[k lv v d h r]|] eqn:E; [|discriminate].
    destruct k as [p|cut mk| |over mk]; destruct d as [ts|]; destruct h as [|x h]; destruct r; try discriminate.
    destruct (try_lock (nodup N.eq_dec (map b_num ts)) (j_locked s)); injection H as <-; reflexivity.
  - right. right. destruct (nth_error (j_jobs s) n) as [j|] eqn:E; [|discriminate]. destruct (jb_ready j) eqn:R; [|discriminate]. injection H as <-.
    exists n, j. repeat split; auto.
  - left. destruct (nth_error (j_jobs s) n) as [j|] eqn:E; [|discriminate]. injection H as <-. reflexivity.
Qed.
Lemma jreach_NI : forall c s, jreach c s -> NI (j_lsm s).
Proof.
  intros c s H. induction H as [|s o s' H IH E]; [apply new_NI|].
  destruct (step_lsm c o s s' E) as [Q|[(lo & _ & Q & _)|(n & j & _ & _ & _ & Q)]].
  - now rewrite Q.
  - eapply lstep_NI; eassumption.
  - rewrite Q. now apply work_NI.
Qed.

(** *** A ready job has locked every table it works on *)

Definition covered (j : job) : Prop := jb_ready j = true ->
  In (b_num (jb_v j)) (jb_hold j) /\ forall ts t, jb_dst j = Some ts -> In t ts -> In (b_num t) (jb_hold j).
(** A compaction that has not yet locked the tables of the next level has locked its victim. *)
Definition part_covered (j : job) : Prop := covered j /\ (jb_hold j = [] \/ In (b_num (jb_v j)) (jb_hold j)) /\
  (forall ts, jb_dst j = Some ts -> match jb_kind j with JPlace _ | JSplit _ _ => False | _ => True end).
Definition CV (s : jst) : Prop := forall j, In j (j_jobs s) -> part_covered j.

Lemma now_num : forall lv s t, b_num (now lv s t) = b_num t.
Proof. intros lv s t. unfold now. destruct (tbl_at (b_num t) (level lv s)) as [u|] eqn:E; [|reflexivity]. apply (tbl_at_in _ _ _ E). Qed.
Lemma refresh_covered : forall l j, part_covered j -> part_covered (refresh l j).
Proof.
  intros l [k lv v d h r] (A & B & C). unfold refresh. cbn [jb_kind jb_lv jb_v jb_dst jb_hold jb_ready] in *. split; [|split].
  - intros R. destruct (A R) as [A1 A2]. cbn [jb_v jb_hold jb_dst] in *. rewrite now_num. split; [exact A1|].
    intros ts t E I. destruct d as [ts0|]; [|discriminate]. injection E as <-. apply in_map_iff in I as (u & <- & I). rewrite now_num. eapply A2; [reflexivity|exact I].
  - cbn [jb_hold jb_v]. now rewrite now_num.
  - cbn [jb_dst jb_kind]. intros ts E. destruct d as [ts0|]; [|discriminate]. eapply C. reflexivity.
Qed.
Lemma without_in : forall A n (l : list A) x, In x (without n l) -> In x l.
Proof. intros A. induction n as [|n IH]; intros [|y l] x H; cbn [without] in H; auto; [now right|]. destruct H as [->|H]; [now left|right; auto]. Qed.
Lemma with_lsm_cv : forall l s, CV s -> CV (with_lsm l s).
Proof. intros l s H j I. cbn [with_lsm j_jobs] in I. apply in_map_iff in I as (j0 & <- & I). apply refresh_covered, H, I. Qed.
Lemma drop_cv : forall n j s, CV s -> CV (drop n j s).
Proof. intros n j s H x I. cbn [drop j_jobs] in I. apply H. eapply without_in; exact I. Qed.
Lemma put_cv : forall n j l s, CV s -> part_covered j -> CV (put n j l s).
Proof. intros n j l s H Hj x I. cbn [put j_jobs] in I. destruct I as [<-|I]; [exact Hj|]. apply H. eapply without_in; exact I. Qed.

Lemma step_cv : forall c o s s', CV s -> j_step c o s = Some s' -> CV s'.
Proof.
  intros c o s s' HC H. destruct o as [o|k lv num|n|n|n|n|n]; cbn [TableLockModel.j_step] in H.
  - destruct (blocked o (j_jobs s) || existsb (fun x => mem x (j_locked s)) (touches c o (j_lsm s))); [discriminate|].
    destruct (lstep c o (j_lsm s)) as [l|]; [|discriminate]. injection H as <-. now apply with_lsm_cv.
  - destruct (tbl_at num (level lv (j_lsm s))) as [v|]; [|discriminate]. destruct (mem num (j_locked s)); [discriminate|].
    match type of H with (if ?b then _ else _) = _ => destruct b end; [|discriminate]. injection H as <-. intros j [<-|I]; [|now apply HC].
    split; [intros R; discriminate R|]. split; [now left|]. intros ts E. discriminate E.
  - destruct (nth_error (j_jobs s) n) as [[k lv v d h r]|] eqn:E; [|discriminate].
    destruct (HC _ (nth_error_In _ _ E)) as (_ & P2 & _). cbn [jb_v jb_hold] in P2.
    destruct k as [p|cut mk| |over mk]; destruct d as [ts|]; destruct h as [|x h]; destruct r; try discriminate.
    + destruct (before (b_num v) None (level lv (j_lsm s))) as [d|]; injection H as <-; [|now apply drop_cv].
      apply put_cv; [exact HC|]. split; [intros R; discriminate R|]. split; [now left|]. intros ts Q. exact I.
    + injection H as <-. apply put_cv; [exact HC|]. split; [intros R; discriminate R|]. split; [exact P2|]. intros ts Q. exact I.
  - destruct (nth_error (j_jobs s) n) as [[k lv v d h r]|] eqn:E; [|discriminate]. destruct h as [|x h]; [|destruct r; discriminate]. destruct r; [discriminate|].
    destruct (HC _ (nth_error_In _ _ E)) as (_ & _ & P3). cbn [jb_kind jb_dst] in P3.
    assert (HW : forall w locked, match k, d with JMerge, Some [t] => Some (nodup N.eq_dec [b_num v; b_num t]) | JMerge, _ => None | _, _ => Some [b_num v] end = Some w ->
      CV (put n (mkJb k lv v d w (match k with JDown _ _ => false | _ => true end)) locked s)).
    { intros w locked W. apply put_cv; [exact HC|]. destruct k as [p|cut mk| |over mk].
      - injection W as <-. split; [|split; [right; now left|exact P3]]. intros _. split; [now left|]. intros ts t Q. destruct (P3 ts Q).
      - injection W as <-. split; [|split; [right; now left|exact P3]]. intros _. split; [now left|]. intros ts t Q. destruct (P3 ts Q).
      - destruct d as [[|t [|? ?]]|]; try discriminate W.
        assert (Ew : w = nodup N.eq_dec [b_num v; b_num t]) by congruence. clear W. subst w.
        assert (I1 : In (b_num v) (nodup N.eq_dec [b_num v; b_num t])) by (apply nodup_In; now left).
        assert (I2 : In (b_num t) (nodup N.eq_dec [b_num v; b_num t])) by (apply nodup_In; right; now left).
        split; [|split; [right; exact I1|exact P3]]. intros _. split; [exact I1|]. cbn [jb_dst jb_hold]. intros ts u Q J. injection Q as <-.
        destruct J as [<-|[]]. exact I2.
      - injection W as <-. split; [intros R; discriminate R|]. split; [right; now left|exact P3]. }
    cbv zeta in H.
    destruct (match k, d with JMerge, Some [t] => Some (nodup N.eq_dec [b_num v; b_num t]) | JMerge, _ => None | _, _ => Some [b_num v] end) as [w|]; [|discriminate].
    match type of H with match ?q with _ => _ end = _ => destruct q as [locked|] end; injection H as <-.
    + apply HW. reflexivity.
    + now apply drop_cv.
  - destruct (nth_error (j_jobs s) n) as [[k lv v d h r]|] eqn:E; [|discriminate].
    destruct (HC _ (nth_error_In _ _ E)) as (_ & P2 & _). cbn [jb_v jb_hold] in P2.
    destruct k as [p|cut mk| |over mk]; destruct d as [ts|]; destruct h as [|x h]; destruct r; try discriminate.
    destruct (try_lock (nodup N.eq_dec (map b_num ts)) (j_locked s)); injection H as <-; [|now apply drop_cv].
    apply put_cv; [exact HC|]. destruct P2 as [P2|P2]; [discriminate P2|].
    assert (I1 : In (b_num v) (nodup N.eq_dec (map b_num ts) ++ x :: h)) by (apply in_app_iff; now right).
    split; [|split; [right; exact I1|intros ts' Q; exact I]]. intros _. split; [exact I1|]. cbn [jb_dst jb_hold]. intros ts' t Q J. injection Q as <-.
    apply in_app_iff. left. apply nodup_In. now apply in_map.
  - destruct (nth_error (j_jobs s) n) as [j|] eqn:E; [|discriminate]. destruct (jb_ready j); [|discriminate]. injection H as <-.
    apply with_lsm_cv, drop_cv, HC.
  - destruct (nth_error (j_jobs s) n) as [j|] eqn:E; [|discriminate]. injection H as <-. apply drop_cv, HC.
Qed.
Lemma jreach_cv : forall c s, jreach c s -> CV s.
Proof. intros c s H. induction H as [|s o s' H IH E]; [intros j []|]. eapply step_cv; eassumption. Qed.

(** *** Operations leave the locked tables alone *)

Lemma at_nums : forall k l t u n, nums_ok k l -> tbl_at n l = Some t -> In u l -> b_num u = n -> u = t.
Proof.
  intros k l t u n [D _] E I N. apply tbl_at_in in E as [J M]. assert (Q : b_num u = b_num t) by congruence. clear k N M n.
  induction l as [|a l IH]; [destruct I|]. cbn [map] in D. inversion D as [|? ? Z D2]; subst.
  destruct I as [<-|I]; destruct J as [<-|J]; auto.
  - destruct Z. rewrite Q. now apply in_map.
  - destruct Z. rewrite <- Q. now apply in_map.
Qed.
Lemma smallest_in : forall l best t, smallest l best = Some t -> (In t l /\ b_src t = false) \/ best = Some t.
Proof.
  induction l as [|a l IH]; intros best t H; cbn [smallest] in H; [now right|]. apply IH in H as [[I S]|H]; [left; split; [now right|exact S]|].
  match type of H with (if ?b then _ else _) = _ => destruct b eqn:B end; [|now right]. injection H as <-. left. split; [now left|].
  apply andb_true_iff in B as [B _]. now apply negb_true_iff.
Qed.
Lemma smallest_normal_in : forall h l t, smallest_normal (by_hash h l) = Some t -> In t l /\ b_src t = false.
Proof.
  intros h l t H. apply smallest_in in H as [[I S]|H]; [|discriminate]. split; [|exact S]. unfold by_hash in I. now apply filter_In in I.
Qed.

Lemma parts_at : forall bad rs m k h l n t, nums_ok k l -> tbl_at n l = Some t -> b_src t = true ->
  tbl_at n (batch_parts hash part bad rs m h l) = Some t.
Proof.
  intros bad rs. induction m as [|m IH]; intros k h l n t H E S; cbn [batch_parts]; [exact E|].
  apply (IH k); [| |exact S].
  - unfold batch_part. destruct (smallest_normal (by_hash h l)); [|exact H]. apply nums_upd; [|exact H]. intros t'. apply batch_num.
  - unfold batch_part. destruct (smallest_normal (by_hash h l)) as [u|] eqn:U; [|exact E]. apply smallest_normal_in in U as [U1 U2].
    rewrite at_upd; [exact E| |intros t'; apply batch_num]. intros N. assert (Q := at_nums k l t u n H E U1 N). congruence.
Qed.
Lemma roll_at : forall c h s s' lv n t, NI s -> l0_roll c h s = Some s' -> tbl_at n (level lv s) = Some t -> (lv = O -> b_src t = true) ->
  n < l_next s -> tbl_at n (level lv s') = Some t.
Proof.
  intros c h s s' lv n t H R E S L. unfold l0_roll in R. destruct (src_of h (l_zero s)); [injection R as <-; exact E|].
  destruct (smallest_normal (by_hash h (l_zero s))) as [o|] eqn:O; [|discriminate]. apply smallest_normal_in in O as [O1 O2].
  destruct (smallest_normal (rm_tbl (b_num o) (by_hash h (l_zero s)))) as [m|] eqn:M; injection R as <-; (destruct lv as [|i]; [|exact E]);
    cbn [level l_zero] in *; specialize (S eq_refl).
  - assert (M2 : In m (l_zero s) /\ b_src m = false).
    { unfold smallest_normal in M. apply smallest_in in M as [[I Q]|M]; [|discriminate]. split; [|exact Q]. unfold rm_tbl, by_hash in I.
      apply filter_In in I as [I _]. now apply filter_In in I. }
    rewrite at_upd; [exact E| |reflexivity]. intros N. assert (Q := at_nums _ _ t m n (H O) E (proj1 M2) N). destruct M2. congruence.
  - rewrite at_upd; [| |reflexivity].
    + rewrite at_add; [exact E|]. cbn [new_tbl b_num]. lia.
    + intros N. assert (Q := at_nums _ _ t o n (H O) E O1 N). congruence.
Qed.
Lemma victim_at : forall c over mk fin sel lv num s s' lv' n t, compact_victim hash c over mk fin sel lv num s = Some s' ->
  (forall v, tbl_at num (level lv s) = Some v -> n <> num /\ ~ In n (map b_num (range_of lv v s))) -> n < l_next s ->
  tbl_at n (level lv' s) = Some t -> tbl_at n (level lv' s') = Some t.
Proof.
  intros c over mk fin sel lv num s s' lv' n t H HN L E. destruct (victim_is _ _ _ _ _ _ _ _ _ H) as (v & V1 & V2 & V3 & V4).
  destruct (HN v V1) as [N1 N2]. destruct fin.
  - rewrite V3 by reflexivity. rewrite down_frame; [exact E|exact L|congruence|]. intros u I Q. apply N2. rewrite <- Q. now apply in_map.
  - destruct (V4 eq_refl) as [purge Q]. cbv zeta in Q. rewrite Q. rewrite at_set.
    + rewrite ext_level. exact E.
    + apply at_write_old. intros g d G1 G2 Q2. apply N2. rewrite <- Q2. apply in_map. eapply groups_tabs; eassumption.
Qed.

Lemma lstep_at : forall c o s s' lv n t js, NI s -> lstep c o s = Some s' -> blocked o js = false -> js <> [] -> ~ In n (touches c o s) ->
  tbl_at n (level lv s) = Some t -> (lv = O -> b_src t = true) -> tbl_at n (level lv s') = Some t.
Proof.
  intros c o s s' lv n t js H St B J T E Sr.
  assert (L : n < l_next s). { destruct (H lv) as [_ Q]. destruct (tbl_at_in _ _ _ E) as [I <-]. now apply Q. }
  destruct o as [bad rs|h|over mk fin sel h|over mk fin sel l num|p l num|cut mk l num|l num|]; cbn [LsmModel.lstep touches] in *.
  - injection St as <-. destruct lv as [|i]; [|exact E]. cbn [set_batch level l_zero]. apply (parts_at bad rs _ (l_next s)); auto. apply (H O).
  - eapply roll_at; eassumption.
  - unfold compact_l0 in St. destruct (l0_roll c h s) as [s1|] eqn:R; [|discriminate].
    destruct (src_of h (l_zero s1)) as [v|] eqn:V; [|discriminate]. unfold compact_level in St. cbn [Nat.ltb Nat.leb] in St. rewrite andb_false_r in St.
    assert (L1 : n < l_next s1).
    { enough (l_next s <= l_next s1) by lia. unfold l0_roll in R. destruct (src_of h (l_zero s)); [injection R as <-; lia|].
      destruct (smallest_normal (by_hash h (l_zero s))); [|discriminate].
      destruct (smallest_normal (rm_tbl _ _)); injection R as <-; cbn [l_next]; lia. }
    eapply victim_at; [exact St| |exact L1|eapply roll_at; eassumption].
    intros v' V'. assert (EV : v' = v).
    { unfold src_of in V. apply find_some in V as [V _]. unfold by_hash in V. apply filter_In in V as [V _].
      symmetry. eapply at_nums; [exact (roll_NI c h s s1 H R O)|exact V'|exact V|reflexivity]. }
    subst v'. split; [intros ->; apply T; now left|]. intros I. apply T. now right.
  - destruct l as [|i]; [discriminate|]. unfold compact_level in St. destruct (is_last (S i) s) eqn:La; cbn [andb Nat.ltb Nat.leb] in St.
    + assert (LN : lv <> S i). { intros ->. apply T. destruct (tbl_at_in _ _ _ E) as [I <-]. now apply in_map. }
      assert (LN2 : lv <> S (S i)).
      { intros ->. unfold is_last, num_levels in La. apply Nat.eqb_eq in La. cbn [level] in E. rewrite nth_overflow in E by lia. discriminate E. }
      unfold migrate in St. rewrite La in St. cbn [andb] in St. destruct (negb (is_nil (level (S i) s))); [|discriminate]. cbv zeta in St.
      match type of St with Some ?a = _ => replace s' with a by congruence end.
      rewrite level_set_other by congruence. rewrite level_set_other by congruence. now rewrite level_extend.
    + eapply victim_at; [exact St| |exact L|exact E]. intros v V. rewrite V in T. split; [intros ->; apply T; now left|]. intros I. apply T. now right.
  - apply in_place_is in St as (v & _ & V & _ & ->). rewrite place_frame; auto. intros Q. apply T. left. congruence.
  - apply split_is in St as (v & _ & V & _ & ->). rewrite split_frame; auto. intros Q. apply T. left. congruence.
  - apply merge_is in St as (v & d & _ & V & _ & D & ->). rewrite D in T. rewrite merge_frame; auto.
    + intros Q. apply T. left. congruence.
    + intros Q. apply T. right. left. exact Q.
  - cbn [blocked] in B. destruct js; [congruence|discriminate].
Qed.

(** A table that a job has locked stays as it is until that job works. *)
Lemma locked_untouched : forall c s o s' i a n lv t, jreach c s -> j_step c o s = Some s' -> nth_error (j_jobs s) i = Some a -> In n (jb_hold a) ->
  o <> KWork i -> tbl_at n (level lv (j_lsm s)) = Some t -> (lv = O -> b_src t = true) -> tbl_at n (level lv (j_lsm s')) = Some t.
Proof.
  intros c s o s' i a n lv t R H A I No E S. assert (HN := jreach_NI c s R).
  destruct (step_lsm c o s s' H) as [Q|[(lo & -> & Q & B & T)|(m & j & -> & J & Rj & Q)]].
  - now rewrite Q.
  - eapply lstep_at; [exact HN|exact Q|exact B| | |exact E|exact S].
    + intros Z. rewrite Z in A. destruct i; discriminate.
    + intros Z. apply (T n Z). apply (proj2 (locked_iff c s R n)). exists a. split; [eapply nth_error_In; exact A|exact I].
  - rewrite Q. assert (D := jobs_exclusive c s R i m a j A J). assert (NE : i <> m) by congruence. specialize (D NE n I).
    destruct (jreach_cv c s R j (nth_error_In _ _ J)) as (Cv & _ & _). destruct (Cv Rj) as [C1 C2].
    rewrite work_frame; [exact E| | |].
    + destruct (HN lv) as [_ Z]. destruct (tbl_at_in _ _ _ E) as [I2 <-]. now apply Z.
    + intros Z. apply D. now rewrite <- Z.
    + intros ts u Z1 Z2 Z3. apply D. rewrite <- Z3. eapply C2; eassumption.
Qed.

(** *** Jobs whose choice is still valid *)

(** The victim is one of the tables of its level, and the tables chosen in addition are those
    that would be chosen now. *)
Definition fresh (j : job) (s : lsm) : Prop :=
  tbl_at (b_num (jb_v j)) (level (jb_lv j) s) = Some (jb_v j) /\
  match jb_kind j with
  | JPlace _ | JSplit _ _ => True
  | JMerge => exists d, jb_dst j = Some [d] /\ before (b_num (jb_v j)) None (level (jb_lv j) s) = Some d
  | JDown _ _ => jb_dst j = Some (range_of (jb_lv j) (jb_v j) s) /\
                 match jb_lv j with O => src_of (b_hash (jb_v j)) (l_zero s) = Some (jb_v j) | S _ => is_last (jb_lv j) s = false end
  end.
(** As [lop_ok]: no file creation fails, no record is refused. *)
Definition kop_ok (o : kop) : Prop :=
  match o with
  | KOp o => lop_ok o
  | KPick (JSplit _ mk) _ _ | KPick (JDown _ mk) _ _ => forall i, mk i = true
  | _ => True
  end.
(** A job that works finds its tables as it chose them. *)
Definition still_valid (o : kop) (s : jst) : Prop :=
  match o with
  | KWork n => forall j, nth_error (j_jobs s) n = Some j -> fresh j (j_lsm s)
  | _ => True
  end.
Definition kflushed (o : kop) : list rec := match o with KOp o => lflushed o | _ => [] end.

(** Executions; [R]: what was flushed; [ok]: a condition for each step. *)
Inductive kreach (ok : kop -> jst -> Prop) (c : tcfg) : list rec -> jst -> Prop :=
| kr_new : kreach ok c [] (j_new c)
| kr_step : forall R s o s', kreach ok c R s -> kop_ok o -> ok o s -> j_step c o s = Some s' -> l_next (j_lsm s') <= NIL ->
    kreach ok c (R ++ kflushed o) s'.

Lemma kreach_jreach : forall ok c R s, kreach ok c R s -> jreach c s.
Proof. intros ok c R s H. induction H; [constructor|]. econstructor; eassumption. Qed.

Definition kinds_ok (s : jst) : Prop := forall j, In j (j_jobs s) ->
  match jb_kind j with JSplit _ mk | JDown _ mk => forall i, mk i = true | _ => True end /\
  match jb_kind j with JDown _ _ => True | _ => jb_lv j <> O end.

(** What a step does to the list of jobs. *)
Lemma step_jobs : forall c o s s' j', j_step c o s = Some s' -> In j' (j_jobs s') ->
  (exists j, In j (j_jobs s) /\ jb_kind j = jb_kind j' /\ jb_lv j = jb_lv j') \/
  (exists k lv num, o = KPick k lv num /\ jb_kind j' = k /\ jb_lv j' = lv /\ match k with JDown _ _ => True | _ => lv <> O end).
Proof.
  intros c o s s' j' H I. 
  assert (D : forall n j l, In j' (j_jobs (with_lsm l (drop n j s))) -> exists j0, In j0 (j_jobs s) /\ jb_kind j0 = jb_kind j' /\ jb_lv j0 = jb_lv j').
  { intros n j l Q. cbn [with_lsm drop j_jobs] in Q. apply in_map_iff in Q as (j0 & <- & Q). exists j0. split; [eapply without_in; exact Q|auto]. }
  assert (D2 : forall n j, In j' (j_jobs (drop n j s)) -> exists j0, In j0 (j_jobs s) /\ jb_kind j0 = jb_kind j' /\ jb_lv j0 = jb_lv j').
  { intros n j Q. cbn [drop j_jobs] in Q. exists j'. split; [eapply without_in; exact Q|auto]. }
  assert (P : forall n j jn l, nth_error (j_jobs s) n = Some j -> jb_kind jn = jb_kind j -> jb_lv jn = jb_lv j -> In j' (j_jobs (put n jn l s)) ->
     exists j0, In j0 (j_jobs s) /\ jb_kind j0 = jb_kind j' /\ jb_lv j0 = jb_lv j').
  { intros n j jn l E K1 K2 Q. cbn [put j_jobs] in Q. destruct Q as [<-|Q].
    - exists j. split; [eapply nth_error_In; exact E|auto].
    - exists j'. split; [eapply without_in; exact Q|auto]. }
  destruct o as [o|k lv num|n|n|n|n|n]; cbn [TableLockModel.j_step] in H.
  - left. destruct (blocked o (j_jobs s) || existsb (fun x => mem x (j_locked s)) (touches c o (j_lsm s))); [discriminate|].
    destruct (lstep c o (j_lsm s)) as [l|]; [|discriminate]. injection H as <-. cbn [with_lsm j_jobs] in I. apply in_map_iff in I as (j0 & <- & I). exists j0. auto.
  - destruct (tbl_at num (level lv (j_lsm s))) as [v|]; [|discriminate]. destruct (mem num (j_locked s)); [discriminate|].
    match type of H with (if ?b then _ else _) = _ => destruct b eqn:G end; [|discriminate]. injection H as <-.
    destruct I as [<-|I]; [|left; exists j'; auto]. right. exists k, lv, num. repeat split. destruct k, lv; try discriminate G; try discriminate; exact Logic.I.
  - left. destruct (nth_error (j_jobs s) n) as [[k lv v d h r]|] eqn:E; [|discriminate].
    destruct k as [p|cut mk| |over mk]; destruct d as [ts|]; destruct h as [|x h]; destruct r; try discriminate.
    + destruct (before (b_num v) None (level lv (j_lsm s))) as [d|]; injection H as <-; [|eapply D2; exact I].
      eapply P; [exact E| | |exact I]; reflexivity.
    + injection H as <-. eapply P; [exact E| | |exact I]; reflexivity.
  - left. destruct (nth_error (j_jobs s) n) as [[k lv v d h r]|] eqn:E; [|discriminate]. destruct h as [|x h]; [|destruct r; discriminate]. destruct r; [discriminate|].
    match type of H with match ?w with _ => _ end = _ => destruct w as [w0|] end; [|discriminate].
    match type of H with match ?w with _ => _ end = _ => destruct w end; injection H as <-; [|eapply D2; exact I].
    eapply P; [exact E| | |exact I]; reflexivity.
  - left. destruct (nth_error (j_jobs s) n) as [[k lv v d h r]|] eqn:E; [|discriminate].
    destruct k as [p|cut mk| |over mk]; destruct d as [ts|]; destruct h as [|x h]; destruct r; try discriminate.
    destruct (try_lock (nodup N.eq_dec (map b_num ts)) (j_locked s)); injection H as <-; [|eapply D2; exact I].
    eapply P; [exact E| | |exact I]; reflexivity.
  - left. destruct (nth_error (j_jobs s) n) as [j|] eqn:E; [|discriminate]. destruct (jb_ready j) eqn:Rd; [|discriminate]. injection H as <-.
    eapply D; exact I.
  - left. destruct (nth_error (j_jobs s) n) as [j|] eqn:E; [|discriminate]. injection H as <-. eapply D2; exact I.
Qed.
Lemma kreach_kinds : forall ok c R s, kreach ok c R s -> kinds_ok s.
Proof.
  intros ok c R s H. induction H as [|R s o s' H IH Ok _ E L]; [intros j []|]. intros j' I.
  destruct (step_jobs c o s s' j' E I) as [(j & J & K1 & K2)|(k & lv & num & -> & K1 & K2 & K3)].
  - specialize (IH j J). rewrite K1, K2 in IH. exact IH.
  - rewrite K1, K2. cbn [kop_ok] in Ok. destruct k; auto.
Qed.

(** Fresh work is an operation. *)
Lemma fresh_work : forall c j s, fresh j s ->
  match jb_kind j with JSplit _ mk | JDown _ mk => forall i, mk i = true | _ => True end ->
  match jb_kind j with JDown _ _ => True | _ => jb_lv j <> O end ->
  j_work hash c j s = s \/ exists o, lstep c o s = Some (j_work hash c j s) /\ lop_ok o /\ lflushed o = [].
Proof.
  intros c [k lv v d h r] s F K1 K2. unfold fresh in F. cbn [jb_kind jb_lv jb_v jb_dst] in *. destruct F as [Ev F].
  unfold j_work. cbn [jb_kind jb_dst jb_lv jb_v]. destruct k as [p|cut mk| |over mk].
  - right. exists (LPlace p lv (b_num v)). cbn [LsmModel.lstep lop_ok lflushed]. repeat split. destruct lv as [|i]; [congruence|].
    unfold in_place, place_of. now rewrite Ev.
  - destruct (split hash c cut mk lv (b_num v) s) as [s'|] eqn:Sp.
    + right. exists (LSplit cut mk lv (b_num v)). cbn [LsmModel.lstep lop_ok lflushed]. repeat split; [|exact K1].
      rewrite Sp. apply split_is in Sp as (v' & V1 & _ & _ & ->). replace v' with v by congruence. reflexivity.
    + left. unfold split in Sp. destruct lv as [|i]; [congruence|]. rewrite Ev in Sp. unfold j_work; cbn [jb_kind jb_lv jb_v]; unfold split_of. cbv zeta in *.
      match goal with |- (if ?b then _ else _) = _ => destruct b end; [discriminate|reflexivity].
  - destruct F as (d0 & -> & B). right. exists (LMerge lv (b_num v)). cbn [LsmModel.lstep lop_ok lflushed]. repeat split.
    destruct lv as [|i]; [congruence|]. unfold merge, merge_of. now rewrite Ev, B.
  - destruct F as [-> F]. right.
    assert (Q : compact_victim hash c over mk true (fun _ => true) lv (b_num v) s = Some (down_of hash c over mk lv v (range_of lv v s) s)).
    { destruct (compact_victim hash c over mk true (fun _ => true) lv (b_num v) s) as [s'|] eqn:Cv.
      - destruct (victim_is _ _ _ _ _ _ _ _ _ Cv) as (v' & V1 & _ & V3 & _). rewrite V3 by reflexivity. replace v' with v by congruence. reflexivity.
      - unfold compact_victim in Cv. rewrite Ev in Cv. discriminate. }
    destruct lv as [|i].
    + exists (LZero over mk true (fun _ => true) (b_hash v)). cbn [LsmModel.lstep lop_ok lflushed]. repeat split; [|exact K1].
      unfold compact_l0, l0_roll. rewrite F, F. unfold compact_level. cbn [Nat.ltb Nat.leb]. rewrite andb_false_r. exact Q.
    + exists (LDown over mk true (fun _ => true) (S i) (b_num v)). cbn [LsmModel.lstep lop_ok lflushed]. repeat split; [|exact K1].
      unfold compact_level. rewrite F. cbn [andb]. exact Q.
Qed.

Lemma kreach_lreach : forall c R s, kreach still_valid c R s -> lreach hash part c R (j_lsm s).
Proof.
  intros c R s H. induction H as [|R s o s' H IH Ok Sv E L]; [constructor|].
  destruct (step_lsm c o s s' E) as [Q|[(lo & -> & Q & B & T)|(m & j & -> & J & Rj & Q)]].
  - rewrite Q. destruct o as [o|k lv num|n|n|n|n|n]; cbn [kflushed]; try (rewrite app_nil_r; exact IH).
    cbn [TableLockModel.j_step] in E. destruct (blocked o (j_jobs s) || existsb (fun x => mem x (j_locked s)) (touches c o (j_lsm s))); [discriminate|].
    destruct (lstep c o (j_lsm s)) as [l|] eqn:St; [|discriminate]. injection E as <-. cbn [with_lsm j_lsm] in *. rewrite <- Q. econstructor; eauto.
  - cbn [kflushed]. econstructor; eauto.
  - cbn [kflushed still_valid] in *. rewrite app_nil_r. destruct (kreach_kinds _ c R s H j (nth_error_In _ _ J)) as [K1 K2].
    destruct (fresh_work c j (j_lsm s) (Sv j J) K1 K2) as [Z|(o & O1 & O2 & O3)].
    + rewrite Q, Z. exact IH.
    + rewrite <- (app_nil_r R), <- O3. econstructor; [exact IH|exact O2|rewrite O1, Q; reflexivity|exact L].
Qed.

Lemma fresh_latest : forall c R s k, tcfg_ok part c -> kreach still_valid c R s -> bf_safe c R -> k <> [] ->
  table_answer (newest_write R k) (tm_get hash part c k (j_lsm s)).
Proof. intros c R s k Hc H S Hk. apply tables_answer; auto. now apply kreach_lreach. Qed.

(** *** Attempts to lock *)

(** The tables that a job asks for next. *)
Definition wanted (j : job) : list N :=
  match jb_hold j, jb_kind j, jb_dst j with
  | [], JMerge, Some [t] => [b_num (jb_v j); b_num t]
  | [], _, _ => [b_num (jb_v j)]
  | _, _, Some ts => map b_num ts
  | _, _, None => []
  end.

Lemma lock_outcome : forall c s o n j s', jreach c s -> o = KLock n \/ o = KLockDst n -> nth_error (j_jobs s) n = Some j -> j_step c o s = Some s' ->
  j_lsm s' = j_lsm s /\
  ((exists j', j_jobs s' = j' :: without n (j_jobs s) /\ (forall x, In x (jb_hold j') <-> In x (wanted j) \/ In x (jb_hold j)) /\
      (forall x, In x (wanted j) -> ~ In x (j_locked s)) /\
      (forall x, In x (j_locked s') <-> In x (wanted j) \/ In x (j_locked s)))
   \/ (j_jobs s' = without n (j_jobs s) /\ (forall x, In x (j_locked s') <-> In x (j_locked s) /\ ~ In x (jb_hold j)) /\
       ((exists x, In x (wanted j) /\ In x (j_locked s)) \/ (jb_hold j = [] /\ level_locked (jb_lv j) (j_jobs s) = true)))).
Proof.
  intros c s o n j s' R Ho J H. assert (LKs := jreach_lk c s R).
  assert (Dr : forall x, In x (unlock (jb_hold j) (j_locked s)) <-> In x (j_locked s) /\ ~ In x (jb_hold j)).
  { intros x. unfold unlock. rewrite filter_In, negb_true_iff, mem_false. reflexivity. }
  assert (Nd : forall (x : N) l, In x (nodup N.eq_dec l) <-> In x l) by (intros; apply nodup_In).
  assert (TL : forall w locked, try_lock w (j_locked s) = Some locked -> locked = w ++ j_locked s /\ forall x, In x w -> ~ In x (j_locked s)).
  { intros w locked T. unfold try_lock in T. destruct (existsb (fun x => mem x (j_locked s)) w) eqn:Q; [discriminate|]. injection T as <-.
    split; [reflexivity|]. now apply none_locked. }
  assert (TN : forall w, try_lock w (j_locked s) = None -> exists x, In x w /\ In x (j_locked s)).
  { intros w T. unfold try_lock in T. destruct (existsb (fun x => mem x (j_locked s)) w) eqn:Q; [|discriminate].
    apply existsb_exists in Q as (x & Q1 & Q2). exists x. split; [exact Q1|now apply mem_in]. }
  destruct j as [k lv v d h r]. cbn [jb_hold jb_lv] in *.
  destruct Ho as [-> | ->]; cbn [TableLockModel.j_step] in H; rewrite J in H.
  - destruct h as [|x0 h]; [|destruct r; discriminate]. destruct r; [discriminate|]. cbv zeta in H.
    assert (W : forall w, match k, d with JMerge, Some [t] => Some (nodup N.eq_dec [b_num v; b_num t]) | JMerge, _ => None | _, _ => Some [b_num v] end = Some w ->
      forall x, In x w <-> In x (wanted (mkJb k lv v d [] false))).
    { intros w Q x. unfold wanted. cbn [jb_hold jb_kind jb_dst jb_v].
      destruct k as [p|cut mk| |over mk]; try (injection Q as <-; reflexivity).
      destruct d as [[|t [|? ?]]|]; try discriminate Q. replace w with (nodup N.eq_dec [b_num v; b_num t]) by congruence. apply Nd. }
    destruct (match k, d with JMerge, Some [t] => Some (nodup N.eq_dec [b_num v; b_num t]) | JMerge, _ => None | _, _ => Some [b_num v] end) as [w|]; [|discriminate].
    specialize (W w eq_refl).
    destruct (match k with JDown _ _ => level_locked lv (j_jobs s) | _ => false end) eqn:Lk.
    + injection H as <-. split; [reflexivity|]. right. split; [reflexivity|]. split; [exact Dr|]. right. split; [reflexivity|].
      destruct k; try discriminate Lk. exact Lk.
    + destruct (try_lock w (j_locked s)) as [locked|] eqn:T; injection H as <-; (split; [reflexivity|]).
      * left. destruct (TL w locked T) as [-> F]. eexists. split; [reflexivity|]. cbn [jb_hold put j_locked]. repeat split.
        -- intros I. left. now apply W.
        -- intros [I|[]]. now apply W.
        -- intros x I. apply F, W, I.
        -- intros I. apply in_app_iff in I as [I|I]; [left; now apply W|now right].
        -- intros [I|I]; apply in_app_iff; [left; now apply W|now right].
      * right. split; [reflexivity|]. split; [exact Dr|]. left. destruct (TN w T) as (x & X1 & X2). exists x. split; [now apply W|exact X2].
  - destruct k as [p|cut mk| |over mk]; destruct d as [ts|]; destruct h as [|x0 h]; destruct r; try discriminate.
    destruct (try_lock (nodup N.eq_dec (map b_num ts)) (j_locked s)) as [locked|] eqn:T; injection H as <-; (split; [reflexivity|]).
    + left. destruct (TL _ locked T) as [-> F]. eexists. split; [reflexivity|]. unfold wanted. cbn [jb_hold jb_kind jb_dst put j_locked].
      assert (Q : forall x l, In x (nodup N.eq_dec (map b_num ts) ++ l) <-> In x (map b_num ts) \/ In x l) by (intros x l; now rewrite in_app_iff, Nd).
      split; [intros x; apply Q|]. split; [intros x I; now apply F, Nd|intros x; apply Q].
    + right. split; [reflexivity|]. split; [exact Dr|]. left. destruct (TN _ T) as (x & X1 & X2). exists x. split; [|exact X2].
      unfold wanted. cbn [jb_hold jb_kind jb_dst]. now apply Nd.
Qed.
Lemma idle_unlocked : forall c s, jreach c s -> j_jobs s = [] -> j_locked s = [].
Proof.
  intros c s R E. destruct (jreach_lk c s R) as [_ P]. rewrite E in P. cbn in P. apply Permutation_sym in P. now apply Permutation_nil in P.
Qed.

End Hash.
