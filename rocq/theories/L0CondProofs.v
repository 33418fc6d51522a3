(** Proofs for C137. *)
From Verif Require Import Base L0CondModel L0CondSpec.
From Coq Require Import Lia.
Local Open Scope N_scope.

Lemma div_gt : forall f a b, 0 < a -> (f < b / a <-> (f + 1) * a <= b).
Proof.
  intros f a b A. split; intro H.
  - apply N.le_trans with (a * (b / a)); [rewrite N.mul_comm; apply N.mul_le_mono_l; lia|apply N.mul_div_le; lia].
  - assert (f + 1 <= b / a); [|lia]. apply N.div_le_lower_bound; [lia|]. rewrite N.mul_comm. exact H.
Qed.
Lemma ratio_iff : forall f t, (f <? z_ratio t) = true <-> above f t.
Proof.
  intros f t. rewrite N.ltb_lt. unfold z_ratio, above. destruct (z_act t =? 0) eqn:E.
  - apply N.eqb_eq in E. rewrite E. split; [intro H; exfalso; exact (N.nlt_0_r _ H)|intros [H _]; exfalso; exact (N.lt_irrefl _ H)].
  - apply N.eqb_neq in E. assert (A : 0 < z_act t) by lia. rewrite (N.mul_comm (z_tot t) 100). rewrite (div_gt f _ _ A). tauto.
Qed.
Lemma s_ratio_iff : forall f t s, f < 0xffffffff -> ((f <? s_ratio t s) = true <-> above_both f t s).
Proof.
  intros f t s F. rewrite N.ltb_lt. unfold s_ratio, above_both. destruct s as [s|]; [|tauto].
  destruct (z_act s =? 0) eqn:E.
  - apply N.eqb_eq in E. rewrite E. split; [intros _ H; exfalso; exact (N.lt_irrefl _ H)|intros _; exact F].
  - apply N.eqb_neq in E. assert (A : 0 < z_act s) by lia. rewrite (N.mul_comm (_ + _) 100), (div_gt f _ _ A). tauto.
Qed.
Lemma above_le : forall f g t, f <= g -> above g t -> above f t.
Proof. intros f g t L [A B]. split; [exact A|]. apply N.le_trans with ((g + 1) * z_act t); [apply N.mul_le_mono_r; lia|exact B]. Qed.
Lemma above_both_le : forall f g t s, f <= g -> above_both g t s -> above_both f t s.
Proof. intros f g t [s|] L H; cbn in *; [|exact I]. intro A. apply N.le_trans with ((g + 1) * z_act s); [apply N.mul_le_mono_r; lia|exact (H A)]. Qed.

Definition gate (c : zcfg) (e : zenv) : bool :=
  z_ro c || negb (e_allow e) || z_log c || e_busy e || (z_factor c =? 0) || (z_ext c && (0 <? e_l1jobs e)).
Lemma gate_open : forall c e, may_compact c e -> 0 < z_factor c -> gate c e = false.
Proof.
  intros c e (A & B & C & D & E) F. unfold gate. rewrite A, B, C, D. rewrite (proj2 (N.eqb_neq _ 0)) by lia.
  destruct (z_ext c); [|reflexivity]. rewrite (E eq_refl). reflexivity.
Qed.
Lemma gate_true : forall c e, gate c e = false -> may_compact c e /\ 0 < z_factor c.
Proof.
  intros c e G. unfold gate in G. repeat (apply orb_false_iff in G; destruct G as [G ?H]).
  apply N.eqb_neq in H0. unfold may_compact. destruct (e_allow e); [|discriminate].
  repeat split; auto; [|lia]. intro X. rewrite X in H. cbn in H. apply N.ltb_ge in H. lia.
Qed.

Definition last (c : zcfg) (e : zenv) (forced : bool) (t : zst) (s : option zst) (d : bool) : bool :=
  d || (z_ext c && (z_max c <? z_act t + act_of s)) || normal c e t s || forced.
Lemma decide_shape : forall c e num forced t s, l0_decide c e num forced t s =
  if gate c e then false else
  let d := fst (urgent c e num t s) || ((by_debug c e t || by_idle c e t) && worth e t s) in
  let u := snd (urgent c e num t s) || by_debug c e t in
  if negb (d && u) && z_ext c && e_seq e
  then if negb (z_delay c =? 0) && (z_max c * z_delay c <? z_tot t) then true else false
  else last c e forced t s d.
Proof. intros. unfold l0_decide. fold (gate c e). destruct (gate c e); [reflexivity|]. destruct (urgent c e num t s) as [d u]. reflexivity. Qed.

Lemma normal_true : forall c e t s, factor_ok c -> normal c e t s = true ->
  z_file c < z_tot t /\ above (z_factor c) t /\ above_both (z_factor c) t s.
Proof.
  intros c e t s [F1 F2] H. unfold normal in H. repeat (apply andb_true_iff in H; destruct H as [H ?H]).
  apply N.ltb_lt in H. apply ratio_iff in H2. apply s_ratio_iff in H1; [|lia]. auto.
Qed.

Lemma reasons : forall c e num forced t s, factor_ok c -> l0_decide c e num forced t s = true ->
  may_compact c e /\
  (forced = true \/ asked c e num t \/
   (e_idle e = true /\ 0 < e_itc e /\ z_file c < z_tot t /\ above (e_itc e) t) \/
   (0 < z_cycle c /\ 2 * z_cycle c <= z_cyc t) \/
   (z_ext c = true /\ z_max c < z_act t + act_of s) \/
   (z_ext c = true /\ e_seq e = true /\ 0 < z_delay c /\ z_max c * z_delay c < z_tot t) \/
   ((z_file c < z_tot t \/ 64 * 1024 * 1024 < z_tot t) /\ above (z_factor c) t /\ above_both (z_factor c) t s)).
Proof.
  intros c e num forced t s F H. rewrite decide_shape in H. destruct (gate c e) eqn:G; [discriminate|].
  split; [exact (proj1 (gate_true c e G))|].
  destruct (by_debug c e t) eqn:BD.
  { right. left. right. right. unfold by_debug in BD. repeat (apply andb_true_iff in BD; destruct BD as [BD ?B]).
    apply negb_true_iff, N.eqb_neq in B2. apply N.eqb_eq in B1. apply N.ltb_lt in B0. apply ratio_iff in B. repeat split; auto; try exact (proj1 B); try exact (proj2 B). lia. }
  destruct (e_debug e && negb (e_dsize e =? 0) && (e_dsize e <? z_tot t)) eqn:U1.
  { right. left. left. repeat (apply andb_true_iff in U1; destruct U1 as [U1 ?B]). apply negb_true_iff, N.eqb_neq in B0. apply N.ltb_lt in B. repeat split; auto. lia. }
  destruct (negb (e_idx e =? 0) && (num <=? e_idx e)) eqn:U2.
  { right. left. right. left. apply andb_true_iff in U2. destruct U2 as [B0 B]. apply negb_true_iff, N.eqb_neq in B0. apply N.leb_le in B. split; [lia|exact B]. }
  destruct (by_idle c e t) eqn:BI.
  { right. right. left. unfold by_idle in BI. repeat (apply andb_true_iff in BI; destruct BI as [BI ?B]).
    apply negb_true_iff, N.eqb_neq in B1. apply N.ltb_lt in B0. apply ratio_iff in B. repeat split; auto; try exact (proj1 B); try exact (proj2 B). lia. }
  cbn [orb andb] in H. rewrite orb_false_r in H. unfold urgent in H. rewrite U1, U2 in H. cbn [andb orb negb fst snd] in H.
  rewrite !orb_false_r, !andb_false_r in H. cbn [negb andb] in H.
  destruct (z_ext c && e_seq e) eqn:SE.
  - apply andb_true_iff in SE. destruct SE as [X S].
    destruct (negb (z_delay c =? 0) && (z_max c * z_delay c <? z_tot t)) eqn:D; [|discriminate].
    apply andb_true_iff in D. destruct D as [D1 D2]. apply negb_true_iff, N.eqb_neq in D1. apply N.ltb_lt in D2.
    right. right. right. right. right. left. repeat split; auto. lia.
  - clear SE. unfold last in H. apply orb_true_iff in H. destruct H as [H|H]; [|left; exact H].
    apply orb_true_iff in H. destruct H as [H|H].
    + apply orb_true_iff in H. destruct H as [H|H].
      * apply orb_true_iff in H. destruct H as [H|H].
        -- apply andb_true_iff in H. destruct H as [H1 H2]. apply negb_true_iff, N.eqb_neq in H1. apply N.leb_le in H2.
           right. right. right. left. lia.
        -- repeat (apply andb_true_iff in H; destruct H as [H ?H]). apply N.ltb_lt in H2. apply ratio_iff in H1.
           destruct F as [F1 F2]. apply s_ratio_iff in H0; [|exact F2].
           right. right. right. right. right. right. split; [right; exact H2|]. split.
           ++ eapply above_le; [|exact H1]. lia.
           ++ eapply above_both_le; [|exact H0]. lia.
      * apply andb_true_iff in H. destruct H as [H1 H2]. apply N.ltb_lt in H2. right. right. right. right. left. auto.
    + destruct (normal_true c e t s F H) as (N1 & N2 & N3). right. right. right. right. right. right. auto.
Qed.

Lemma delayed : forall c e num forced t s, not_asked e -> z_ext c = true -> e_seq e = true ->
  z_delay c = 0 \/ z_tot t <= z_max c * z_delay c -> l0_decide c e num forced t s = false.
Proof.
  intros c e num forced t s [A1 A2] X S D. rewrite decide_shape. destruct (gate c e); [reflexivity|]. cbv zeta.
  assert (BD : by_debug c e t = false) by (unfold by_debug; rewrite A1; reflexivity).
  rewrite BD. unfold urgent. rewrite A1, A2, X, S. cbn [andb orb negb fst snd N.eqb]. rewrite andb_false_r. cbn [negb andb].
  destruct D as [->|D]; [reflexivity|]. rewrite (proj2 (N.ltb_ge _ _) D), andb_false_r. reflexivity.
Qed.

Lemma no_wait : forall c e (b : bool), no_delay c e -> b && z_ext c && e_seq e = false.
Proof. intros c e b [H|H]; rewrite H; [rewrite andb_false_r; reflexivity|apply andb_false_r]. Qed.

Lemma complete : forall c e num forced t s, factor_ok c -> may_compact c e -> no_delay c e ->
  (forced = true \/ (z_ext c = true /\ z_max c < z_act t + act_of s) \/
   (z_ext c = false /\ z_file c < z_tot t /\ z_cycle c <= z_cyc t /\ above (z_factor c) t /\ above_both (z_factor c) t s)) ->
  l0_decide c e num forced t s = true.
Proof.
  intros c e num forced t s F M D H. rewrite decide_shape, (gate_open c e M (proj1 F)). cbv zeta. rewrite (no_wait c e _ D).
  unfold last. destruct H as [->|[[X H]|(X & H1 & H2 & H3 & H4)]].
  - apply orb_true_r.
  - rewrite X, (proj2 (N.ltb_lt _ _) H). cbn [andb]. rewrite !orb_true_r. reflexivity.
  - assert (FF : z_factor c < 0xffffffff) by (destruct F; lia).
    assert (NM : normal c e t s = true).
    { unfold normal. rewrite X, (proj2 (N.ltb_lt _ _) H1), (proj2 (N.leb_le _ _) H2), (proj2 (ratio_iff _ _) H3).
      rewrite (proj2 (s_ratio_iff _ _ _ FF) H4). reflexivity. }
    rewrite NM, !orb_true_r. reflexivity.
Qed.

Lemma idle_one : forall c e num forced t, 0 < z_factor c -> may_compact c e -> no_delay c e -> e_idle e = true -> 0 < e_itc e ->
  z_file c < z_tot t -> above (e_itc e) t -> l0_decide c e num forced t None = true.
Proof.
  intros c e num forced t F M D I P H1 H2. rewrite decide_shape, (gate_open c e M F). cbv zeta. rewrite (no_wait c e _ D).
  assert (B : by_idle c e t = true).
  { unfold by_idle. rewrite I, (proj2 (N.eqb_neq _ 0)) by lia. rewrite (proj2 (N.ltb_lt _ _) H1), (proj2 (ratio_iff _ _) H2). reflexivity. }
  unfold last. rewrite B, orb_true_r. cbn [worth andb]. rewrite orb_true_r. reflexivity.
Qed.

Lemma off : forall c e num forced t s, z_factor c = 0 \/ ~ may_compact c e -> l0_decide c e num forced t s = false.
Proof.
  intros c e num forced t s H. rewrite decide_shape. destruct (gate c e) eqn:G; [reflexivity|]. exfalso.
  apply gate_true in G. destruct G as [M F]. destruct H as [H|H]; [lia|exact (H M)].
Qed.

Lemma not_worth : forall e t s, e_dratio e = 0 -> 0 < z_tot s -> 100 * (z_tot t + z_tot s) <= 2 ^ 64 -> worth e t (Some s) = false.
Proof.
  intros e t s D P L. unfold worth. rewrite D, N.add_0_l.
  assert (E1 : (2 ^ 64 - 100) mod 2 ^ 64 = 2 ^ 64 - 100) by (apply N.mod_small; reflexivity). rewrite E1. clear E1.
  assert (E : z_tot s * (2 ^ 64 - 100) mod 2 ^ 64 = 2 ^ 64 - 100 * z_tot s).
  { symmetry. apply (N.mod_unique _ _ (z_tot s - 1)); lia. }
  rewrite E. apply N.ltb_ge. lia.
Qed.
Lemma idle_two : forall c e num forced t s b, e_dratio e = 0 -> 0 < z_tot s -> 100 * (z_tot t + z_tot s) <= 2 ^ 64 ->
  l0_decide c (with_idle b e) num forced t (Some s) = l0_decide c (with_idle false e) num forced t (Some s).
Proof.
  intros c e num forced t s b D P L. rewrite !decide_shape. 
  assert (W : forall b, worth (with_idle b e) t (Some s) = false) by (intro; apply not_worth; assumption).
  rewrite !W, !andb_false_r. reflexivity.
Qed.

Lemma requested : forall c e num forced t s, may_compact c e -> 0 < z_factor c ->
  (e_debug e = true /\ 0 < e_dsize e /\ e_dsize e < z_tot t) \/ (0 < e_idx e /\ num <= e_idx e) ->
  l0_decide c e num forced t s = true.
Proof.
  intros c e num forced t s M F A. rewrite decide_shape, (gate_open _ _ M F). unfold urgent. cbn [fst snd].
  assert (U : e_debug e && negb (e_dsize e =? 0) && (e_dsize e <? z_tot t) || negb (e_idx e =? 0) && (num <=? e_idx e) = true).
  { apply orb_true_iff. destruct A as [(A & B & C)|(A & B)]; [left|right].
    - rewrite A, (proj2 (N.eqb_neq _ 0)) by lia. rewrite (proj2 (N.ltb_lt _ _) C). reflexivity.
    - rewrite (proj2 (N.eqb_neq _ 0)) by lia. rewrite (proj2 (N.leb_le _ _) B). reflexivity. }
  rewrite U. rewrite <- (orb_assoc (_ || _) (e_debug e && _ && _) _), U, orb_true_r. reflexivity.
Qed.
Lemma requested_ratio : forall c e num forced t s, may_compact c e -> 0 < z_factor c ->
  e_debug e = true -> 0 < e_dratio e -> e_levels e = 1 -> z_file c < z_tot t -> above (e_dratio e) t ->
  match s with
  | Some s => 100 <= e_dratio e /\ e_dratio e < 2 ^ 32 /\ z_tot s * (e_dratio e - 100) < z_tot t * 100
  | None => True
  end ->
  l0_decide c e num forced t s = true.
Proof.
  intros c e num forced t s M F A B C D E W. rewrite decide_shape, (gate_open _ _ M F).
  assert (BD : by_debug c e t = true).
  { unfold by_debug. rewrite A, (proj2 (N.eqb_neq _ 0)) by lia. rewrite C, (proj2 (N.ltb_lt _ _) D), (proj2 (ratio_iff _ _) E). reflexivity. }
  assert (WO : worth e t s = true).
  { unfold worth. destruct s as [s|]; [|reflexivity]. destruct W as (W1 & W2 & W4). apply N.ltb_lt.
    assert (X : (e_dratio e + 2 ^ 64 - 100) mod 2 ^ 64 = e_dratio e - 100).
    { replace (e_dratio e + 2 ^ 64 - 100) with ((e_dratio e - 100) + 1 * 2 ^ 64) by lia. rewrite N.mod_add by discriminate. apply N.mod_small. lia. }
    rewrite X. eapply N.le_lt_trans; [apply N.mod_le; discriminate|exact W4]. }
  rewrite BD, WO. cbn [orb andb]. rewrite !orb_true_r. reflexivity.
Qed.
