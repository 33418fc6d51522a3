(** Proofs about the choice of sample keys. *)
From Coq Require Import List NArith Bool Lia Arith Sorted.
From Verif Require Import Base KeyModel KeyProofs LsmProofs SamplerModel.
Import ListNotations.
Local Open Scope N_scope.

Lemma seek_in : forall x rs r, In r (seek x rs) -> In r rs.
Proof. intros x rs. induction rs as [|a rs IH]; intros r H; cbn [seek] in H; [destruct H|]. destruct (fst a <? x); [right; auto|exact H]. Qed.

Lemma has_spec : forall k l, has k l = true <-> In k l.
Proof.
  intros k l. unfold has. rewrite existsb_exists. split; [intros (x & A & B); apply keqb_true in B; now subst|].
  intros H. exists k. split; [exact H|]. now apply keqb_true.
Qed.

Lemma scan_in : forall lo lv found rs r, scan lo lv found rs = Some r -> In r rs /\ ~ In (snd r) found /\ (lo = true -> lv (snd r) = true).
Proof.
  intros lo lv found rs. induction rs as [|a rs IH]; intros r H; cbn [scan] in H; [discriminate|].
  destruct (negb (has (snd a) found) && (negb lo || lv (snd a))) eqn:E.
  - injection H as <-. apply andb_true_iff in E as [E1 E2]. apply negb_true_iff in E1. split; [now left|]. split.
    + intros I. apply has_spec in I. congruence.
    + intros ->. exact E2.
  - destruct (IH r H) as (A & B). split; [now right|exact B].
Qed.

Section Run.
Variable live_only : bool.
Variable live : nat -> key -> bool.
Variable rs : list srec.
Variable max : N.
Local Notation sample := (sample live_only live rs max).

Definition fine (found : list key) : Prop :=
  NoDup found /\ forall k, In k found -> (exists q, In (q, k) rs) /\ (live_only = true -> exists j, live j k = true).

Lemma sample_fine : forall rem cur next step found, fine found ->
  fine (sample rem cur next step found) /\ (length (sample rem cur next step found) <= rem + length found)%nat.
Proof.
  induction rem as [|rem IH]; intros cur next step found H; cbn [SamplerModel.sample]; [split; [exact H|lia]|].
  destruct (scan live_only (live (S rem)) found (seek cur rs)) as [[q k]|] eqn:E; [|split; [exact H|lia]].
  apply scan_in in E as (E1 & E2 & E3). apply seek_in in E1. cbn [snd] in *.
  assert (F : fine (k :: found)).
  { destruct H as [H1 H2]. split; [now constructor|]. intros x [<-|Hx]; [|auto]. split; [now exists q|]. intros L. exists (S rem). auto. }
  destruct (Nat.eqb rem 0 || (max <=? q)); [split; [exact F|cbn [length]; lia]|].
  match goal with |- fine (sample rem ?a ?b ?c _) /\ _ => destruct (IH a b c (k :: found) F) as [A B] end.
  split; [exact A|]. cbn [length] in B. lia.
Qed.
End Run.

Lemma samples_fine : forall lo live rs max n out, get_samples lo live rs max n = Some out ->
  NoDup out /\ (length out <= n)%nat /\
  forall k, In k out -> (exists q, In (q, k) rs) /\ (lo = true -> exists j, live j k = true).
Proof.
  intros lo live rs max n out H. unfold get_samples in H. destruct n as [|n]; [discriminate|].
  destruct (max <? 1); [injection H as <-; split; [constructor|split; [cbn; lia|intros k []]]|].
  apply (f_equal (fun o => match o with Some l => l | None => [] end)) in H. subst out.
  match goal with |- NoDup (rev ?l) /\ _ => destruct (sample_fine lo live rs max (S n) (1 + (max - 1) / N.of_nat (S n)) (1 + (max - 1) / N.of_nat (S n) + (max - 1) / N.of_nat (S n)) ((max - 1) / N.of_nat (S n)) []) as [[A B] C] end.
  { split; [constructor|intros k []]. }
  split; [now apply NoDup_rev|]. split; [rewrite rev_length; cbn [length] in C; lia|]. intros k Hk. apply in_rev in Hk. now apply B.
Qed.

(** ** Every record has a new key *)

(** The records of a database in which every sequence number from [from] on belongs to a key. *)
Fixpoint dense (from : N) (ks : list key) : list srec :=
  match ks with [] => [] | k :: ks' => (from, k) :: dense (from + 1) ks' end.

Lemma seek_dense : forall ks from x, from <= x -> x < from + N.of_nat (length ks) ->
  exists k l, nth_error ks (N.to_nat (x - from)) = Some k /\ seek x (dense from ks) = (x, k) :: l.
Proof.
  induction ks as [|a ks IH]; intros from x H1 H2; cbn [length] in H2; [lia|]. cbn [dense seek fst].
  destruct (N.ltb_spec from x) as [L|L].
  - destruct (IH (from + 1) x) as (k & l & A & B); [lia|lia|]. exists k, l. split; [|exact B].
    replace (N.to_nat (x - from)) with (S (N.to_nat (x - (from + 1)))) by lia. exact A.
  - assert (x = from) by lia. subst x. exists a, (dense (from + 1) ks). rewrite N.sub_diag. split; reflexivity.
Qed.

Section Dense.
Variable live_only : bool.
Variable live : nat -> key -> bool.
Variable ks : list key.
Hypothesis Hnd : NoDup ks.
Hypothesis Hlive : live_only = true -> forall j k, In k ks -> live j k = true.
Let M := N.of_nat (length ks).
Let rs := dense 1 ks.
Local Notation sample := (sample live_only live rs M).

(** The keys at the positions [p], [p + step], ... *)
Fixpoint picked (rem : nat) (p step : N) : list (option key) :=
  match rem with O => [] | S rem' => nth_error ks (N.to_nat (p - 1)) :: picked rem' (p + step) step end.

Lemma sample_dense : forall rem cur step found, 0 < step -> 1 <= cur -> cur + N.of_nat rem * step <= M + step ->
  (forall k, In k found -> exists i, nth_error ks i = Some k /\ N.of_nat i + 1 < cur) ->
  map (@Some key) (rev (sample rem cur (cur + step) step found)) = map (@Some key) (rev found) ++ picked rem cur step.
Proof.
  induction rem as [|rem IH]; intros cur step found Hs Hc Hm Hf; cbn [SamplerModel.sample picked]; [now rewrite app_nil_r|].
  destruct (seek_dense ks 1 cur) as (k & l & E1 & E2); [lia|fold M; nia|]. unfold rs. rewrite E2. cbn [scan snd].
  assert (Nk : has k found = false).
  { destruct (has k found) eqn:X; [|reflexivity]. apply has_spec in X. destruct (Hf k X) as (i & I1 & I2). exfalso.
    assert (i = N.to_nat (cur - 1)) by (apply (proj1 (NoDup_nth_error ks) Hnd); [apply nth_error_Some; congruence|congruence]). lia. }
  rewrite Nk. cbn [negb andb]. assert (Lk : negb live_only || live (S rem) k = true).
  { destruct live_only; [|reflexivity]. cbn. apply Hlive; auto. eapply nth_error_In. exact E1. }
  rewrite Lk. rewrite E1.
  assert (Hnew : forall x, In x (k :: found) -> exists i, nth_error ks i = Some x /\ N.of_nat i + 1 < cur + step).
  { intros x [<-|Hx]; [exists (N.to_nat (cur - 1)); split; [exact E1|lia]|]. destruct (Hf x Hx) as (i & I1 & I2). exists i. split; [exact I1|lia]. }
  destruct (Nat.eqb_spec rem 0) as [Er|Er].
  - subst rem. cbn [orb rev picked]. rewrite map_app. reflexivity.
  - cbn [orb]. destruct (N.leb_spec M cur) as [L|L]; [nia|]. destruct (N.ltb_spec cur (cur + step)); [|lia].
    fold rs. rewrite IH; auto; [|lia|lia]. cbn [rev]. rewrite map_app, <- app_assoc. reflexivity.
Qed.

Lemma picked_len : forall rem p step, length (picked rem p step) = rem.
Proof. induction rem as [|rem IH]; intros p step; cbn [picked length]; [reflexivity|]. now rewrite IH. Qed.

(** Enough keys: the positions of the samples. *)
Lemma samples_dense : forall n, (0 < n <= length ks)%nat ->
  exists out, get_samples live_only live rs M n = Some out /\
    map (@Some key) out = if Nat.eqb n (length ks) then picked n 1 1 else picked n (1 + (M - 1) / N.of_nat n) ((M - 1) / N.of_nat n).
Proof.
  intros n Hn. unfold get_samples. destruct n as [|n]; [lia|]. destruct (N.ltb_spec M 1) as [L|L]; [unfold M in L; lia|].
  set (step := (M - 1) / N.of_nat (S n)). eexists. split; [reflexivity|].
  destruct (Nat.eqb_spec (S n) (length ks)) as [E|E].
  - assert (Es : step = 0) by (apply N.div_small; unfold M; lia). rewrite Es. cbn [SamplerModel.sample N.add].
    destruct (seek_dense ks 1 1) as (k & l & E1 & E2); [lia|fold M; lia|]. unfold rs at 1. change (1 + 0) with 1. rewrite E2. cbn [scan snd has existsb negb andb].
    assert (Lk : negb live_only || live (S n) k = true).
    { destruct live_only; [|reflexivity]. cbn. apply Hlive; auto. eapply nth_error_In. exact E1. }
    rewrite Lk. cbn [picked]. rewrite E1. destruct (Nat.eqb_spec n 0) as [En|En]; [subst n; reflexivity|]. cbn [orb].
    destruct (N.leb_spec M 1) as [L1|L1]; [unfold M in L1; lia|]. change (1 <? 1 + 0) with false. cbn [N.add].
    assert (Ed : (M - 1) / N.of_nat n = 1) by (replace (M - 1) with (N.of_nat n) by (unfold M; lia); apply N.div_same; lia).
    rewrite Ed. rewrite sample_dense; [reflexivity|lia|lia|unfold M; lia|].
    intros x [<-|[]]. exists 0%nat. split; [exact E1|lia].
  - assert (Hs : 0 < step) by (apply N.div_str_pos; unfold M; lia).
    assert (Hm : N.of_nat (S n) * step <= M - 1) by (apply N.mul_div_le; lia).
    rewrite sample_dense; [reflexivity|exact Hs|lia|lia|intros k []].
Qed.
End Dense.

Lemma samples_enough : forall lo live ks n, NoDup ks -> (lo = true -> forall j k, In k ks -> live j k = true) -> (0 < n <= length ks)%nat ->
  exists out, get_samples lo live (dense 1 ks) (N.of_nat (length ks)) n = Some out /\ length out = n.
Proof.
  intros lo live ks n Hnd Hl Hn. destruct (samples_dense lo live ks Hnd Hl n Hn) as (out & A & B). exists out. split; [exact A|].
  apply (f_equal (@length _)) in B. rewrite map_length in B. rewrite B. destruct (Nat.eqb n (length ks)); apply picked_len.
Qed.
