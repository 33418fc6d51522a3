(** Proofs about the numbering of files (NumberModel.v). *)
From Verif Require Import Base NumberModel.
From Coq Require Import Lia.
Local Open Scope N_scope.

(** The [i]-th value of the counter. *)
Definition val (m : N) (i : nat) : N := (m + N.of_nat i) mod 2 ^ 64.
Lemma val_inc : forall m i, inc64 (val m i) = val m (S i).
Proof.
  intros m i. unfold inc64, val. rewrite N.add_mod_idemp_l by discriminate. f_equal. lia.
Qed.
Lemma val_inj : forall m i j, N.of_nat i < 2 ^ 64 -> N.of_nat j < 2 ^ 64 -> val m i = val m j -> i = j.
Proof.
  intros m i j Hi Hj H. unfold val in H.
  pose proof (N.div_mod (m + N.of_nat i) (2 ^ 64) ltac:(discriminate)) as A.
  pose proof (N.div_mod (m + N.of_nat j) (2 ^ 64) ltac:(discriminate)) as B.
  rewrite H in A. remember ((m + N.of_nat j) mod 2 ^ 64) as r. 
  set (x := (m + N.of_nat i) / 2 ^ 64) in *. set (y := (m + N.of_nat j) / 2 ^ 64) in *.
  assert (E : x = y) by (clearbody x y; change (2 ^ 64) with 18446744073709551616 in *; lia).
  rewrite E in A. lia.
Qed.

Definition pc_fine (m : N) (k : nat) (p : npc) : Prop :=
  match p with
  | NHave e => exists i, (i <= k)%nat /\ e = val m i
  | NTry e v => exists i j, (i <= j)%nat /\ (j <= k)%nat /\ e = val m i /\ v = val m (S j)
  | _ => True
  end.
Definition NI (m : N) (s : nst) : Prop :=
  n_max s = val m (length (n_out s)) /\
  map snd (n_out s) = map (fun i => val m (S i)) (seq 0 (length (n_out s))) /\
  forall t, pc_fine m (length (n_out s)) (n_pc s t).

Lemma pc_fine_le : forall m k k' p, (k <= k')%nat -> pc_fine m k p -> pc_fine m k' p.
Proof.
  intros m k k' p Hle. destruct p as [| |e|e v]; cbn [pc_fine]; try tauto.
  - intros (i & H & E). exists i. split; [lia|exact E].
  - intros (i & j & H1 & H2 & E). exists i, j. split; [exact H1|]. split; [lia|exact E].
Qed.
Lemma n_give_NI : forall m t v s, NI m s -> v = val m (S (length (n_out s))) -> NI m (n_give t v s).
Proof.
  intros m t v s (H1 & H2 & H3) Hv. unfold NI, n_give. cbn [n_max n_out n_pc].
  rewrite app_length. cbn [length]. rewrite Nat.add_1_r. split; [exact Hv|]. split.
  - rewrite map_app, H2, seq_S, map_app. cbn [map snd]. rewrite Nat.add_0_l, Hv. reflexivity.
  - intros u. destruct (Nat.eqb u t); [exact I|]. apply (pc_fine_le m (length (n_out s))); [lia|apply H3].
Qed.
Lemma n_set_NI : forall m t p s, NI m s -> pc_fine m (length (n_out s)) p -> NI m (n_set t p s).
Proof.
  intros m t p s (H1 & H2 & H3) Hp. split; [exact H1|]. split; [exact H2|].
  intros u. cbn [n_set n_pc n_out]. destruct (Nat.eqb u t); [exact Hp|apply H3].
Qed.
Lemma nstep_NI : forall m e s s', NI m s -> N.of_nat (length (n_out s)) < 2 ^ 64 -> nstep e s = Some s' -> NI m s'.
Proof.
  intros m e s s' H Hk Hs. pose proof H as (H1 & H2 & H3).
  destruct e as [t sp|t|t|t sp]; cbn [nstep] in Hs; pose proof (H3 t) as Hp; destruct (n_pc s t) as [| |x|x v]; try discriminate Hs; injection Hs as <-.
  - destruct (negb sp && (n_max s =? NIL)) eqn:E.
    + apply n_give_NI; [exact H|]. apply andb_true_iff in E. destruct E as [_ E]. apply N.eqb_eq in E.
      rewrite <- val_inc, <- H1, E. reflexivity.
    + apply n_set_NI; [exact H|exact I].
  - apply n_set_NI; [exact H|]. exists (length (n_out s)). split; [lia|exact H1].
  - apply n_set_NI; [exact H|]. cbn [pc_fine] in Hp |- *. destruct Hp as (i & Hi & ->).
    exists i, (length (n_out s)). split; [exact Hi|]. split; [lia|]. split; [reflexivity|]. rewrite H1. apply val_inc.
  - cbn [pc_fine] in Hp. destruct Hp as (i & j & Hi & Hj & -> & ->).
    destruct (negb sp && (n_max s =? val m i)) eqn:E; [|apply n_set_NI; [exact H|exact I]].
    apply andb_true_iff in E. destruct E as [_ E]. apply N.eqb_eq in E.
    apply n_give_NI; [exact H|]. rewrite H1 in E. apply val_inj in E; [|lia|lia].
    assert (j = length (n_out s)) as -> by lia. reflexivity.
Qed.
Lemma nstep_len : forall e s s', nstep e s = Some s' -> (length (n_out s) <= length (n_out s'))%nat.
Proof.
  intros e s s' Hs. destruct e as [t sp|t|t|t sp]; cbn [nstep] in Hs; destruct (n_pc s t) as [| |x|x v]; try discriminate Hs; injection Hs as <-;
    repeat match goal with |- context [if ?b then _ else _] => destruct b end; cbn [n_give n_set n_out]; rewrite ?app_length; cbn [length]; lia.
Qed.
Lemma nruns_len : forall es s s', nruns es s = Some s' -> (length (n_out s) <= length (n_out s'))%nat.
Proof.
  induction es as [|e es IH]; intros s s' H; cbn [nruns] in H; [injection H as <-; lia|].
  destruct (nstep e s) as [s1|] eqn:E; [|discriminate]. pose proof (nstep_len _ _ _ E). pose proof (IH _ _ H). lia.
Qed.
Lemma nruns_NI : forall es m s s', NI m s -> nruns es s = Some s' -> N.of_nat (length (n_out s')) < 2 ^ 64 -> NI m s'.
Proof.
  induction es as [|e es IH]; intros m s s' H Hs Hk; cbn [nruns] in Hs; [injection Hs as <-; exact H|].
  destruct (nstep e s) as [s1|] eqn:E; [|discriminate].
  apply (IH m s1 s'); [|exact Hs|exact Hk]. apply (nstep_NI m e s s1 H); [|exact E].
  pose proof (nstep_len _ _ _ E). pose proof (nruns_len _ _ _ Hs). lia.
Qed.

Theorem numbers : forall m es s, m < 2 ^ 64 -> nruns es (n_new m) = Some s -> N.of_nat (length (n_out s)) < 2 ^ 64 ->
  map snd (n_out s) = map (fun i => val m (S i)) (seq 0 (length (n_out s))).
Proof.
  intros m es s Hm Hs Hk. apply (nruns_NI es m (n_new m) s); [|exact Hs|exact Hk].
  split; [|split; [reflexivity|intros t; exact I]].
  cbn [n_new n_max n_out length]. unfold val. rewrite N.add_0_r, N.mod_small by exact Hm. reflexivity.
Qed.
Theorem numbers_distinct : forall m es s, m < 2 ^ 64 -> nruns es (n_new m) = Some s -> N.of_nat (length (n_out s)) < 2 ^ 64 ->
  NoDup (m :: map snd (n_out s)).
Proof.
  intros m es s Hm Hs Hk. rewrite (numbers m es s Hm Hs Hk).
  assert (E : m = val m 0) by (unfold val; rewrite N.add_0_r, N.mod_small by exact Hm; reflexivity).
  rewrite E at 1. rewrite <- (map_map S (val m)), seq_shift.
  change (val m 0 :: map (val m) (seq 1 (length (n_out s)))) with (map (val m) (seq 0 (S (length (n_out s))))).
  assert (G : forall l, NoDup l -> (forall i, In i l -> N.of_nat i < 2 ^ 64) -> NoDup (map (val m) l)).
  { induction l as [|x l IH]; intros Hn Hb; cbn [map]; [constructor|]. inversion_clear Hn as [|? ? Hx Hl]. constructor.
    - intros Hin. apply in_map_iff in Hin. destruct Hin as (y & Ey & Hy).
      apply val_inj in Ey; [subst y; contradiction|apply Hb; right; exact Hy|apply Hb; left; reflexivity].
    - apply IH; [exact Hl|intros i Hi; apply Hb; right; exact Hi]. }
  apply G; [apply seq_NoDup|]. intros i Hi. apply in_seq in Hi. lia.
Qed.

Lemma add_log_spec : forall cs m fs, fst (fold_left (fun s c => add_log c false s) cs (m, fs)) >= m /\
  exists l, snd (fold_left (fun s c => add_log c false s) cs (m, fs)) = fs ++ l /\ NoDup l /\
            forall x, In x l -> m < x <= fst (fold_left (fun s c => add_log c false s) cs (m, fs)).
Proof.
  induction cs as [|c cs IH]; intros m fs; cbn [fold_left].
  - cbn [fst snd]. split; [lia|]. exists []. split; [rewrite app_nil_r; reflexivity|]. split; [constructor|intros x []].
  - unfold add_log at 2 4 6. destruct (m =? c); [|apply IH].
    destruct (IH (m + 1) (fs ++ [m + 1])) as (H1 & l & H2 & H3 & H4).
    split; [lia|]. exists (m + 1 :: l). split; [rewrite H2, <- app_assoc; reflexivity|]. split.
    + constructor; [|exact H3]. intros Hin. specialize (H4 _ Hin). lia.
    + intros x [<-|Hx]; [lia|]. specialize (H4 _ Hx). lia.
Qed.
