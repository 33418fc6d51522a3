(** All calls on one tree. *)
From Coq Require Import ZArith Arith List Bool Lia Sorted Permutation.
From Verif Require Import AvlModel AvlSpec AvlProofs AvlProofs2 AvlProofs3 AvlProofs4 AvlProofs5 AvlProofs6 AvlProofs7.
Import ListNotations.
Local Open Scope nat_scope.

Section S.
Context {A : Type}.
Variable cmp : A -> A -> comparison.
Hypothesis Hord : ordering A cmp.
Notation heap := (heap A).

Definition contents (h : heap) (L : list nat) : list (nat * A) := map (fun x => (x, h_key h x)) L.
Definition inv (h : heap) (s : list (nat * A)) : Prop :=
  exists t, wf h t /\ sortd cmp h (ino t) /\ Permutation (contents h (ino t)) s.

Lemma contents_fst : forall h L, map fst (contents h L) = L.
Proof. intros. unfold contents. rewrite map_map. apply map_id. Qed.

Lemma inv_in : forall h t s x, Permutation (contents h (ino t)) s -> (In x (map fst s) <-> 1 <= cnt x (ino t)).
Proof.
  intros h t s x HP. rewrite <- cnt_In. rewrite <- (contents_fst h (ino t)).
  split; intro H; [apply (Permutation_in x (Permutation_map fst (Permutation_sym HP)))|apply (Permutation_in x (Permutation_map fst HP))]; assumption.
Qed.
Lemma inv_len : forall h t s, Permutation (contents h (ino t)) s -> length (ino t) = length s.
Proof. intros h t s HP. rewrite <- (Permutation_length HP). unfold contents. rewrite map_length. reflexivity. Qed.
Lemma existsb_perm : forall (B : Type) (f : B -> bool) l1 l2, Permutation l1 l2 -> existsb f l1 = existsb f l2.
Proof.
  intros B f l1 l2 H. induction H; cbn [existsb]; [reflexivity|congruence|destruct (f x), (f y); reflexivity|congruence].
Qed.
Lemma filter_perm : forall (B : Type) (f : B -> bool) l1 l2, Permutation l1 l2 -> Permutation (filter f l1) (filter f l2).
Proof.
  intros B f l1 l2 H. induction H; cbn [filter].
  - constructor.
  - destruct (f x); [constructor|]; assumption.
  - destruct (f x), (f y); try apply perm_swap; apply Permutation_refl.
  - apply (Permutation_trans IHPermutation1 IHPermutation2).
Qed.
Lemma filter_keep : forall (x : nat) (h : heap) L, cnt x L = 0 -> filter (fun e => negb (fst e =? x)) (contents h L) = contents h L.
Proof.
  induction L as [|a L IH]; intro H; [reflexivity|]. cbn [cnt] in H. cbn [contents map filter fst].
  destruct (Nat.eqb_spec x a); [lia|]. rewrite (proj2 (Nat.eqb_neq a x)) by congruence. cbn [negb]. f_equal. apply IH. lia.
Qed.
Lemma contents_ext : forall (h h' : heap) L, (forall y, In y L -> h_key h' y = h_key h y) -> contents h' L = contents h L.
Proof. intros h h' L H. unfold contents. apply map_ext_in. intros y Hy. rewrite H by assumption. reflexivity. Qed.

Definition room (s : list (nat * A)) (fuel : nat) : Prop := 2 * Nat.log2 (length s + 1) + 1 < fuel.
Lemma room_hgt : forall h t s fuel, wf h t -> Permutation (contents h (ino t)) s -> room s fuel -> (hgt t < Z.of_nat fuel)%Z.
Proof.
  intros h t s fuel Hw HP HR. assert (Q := bal_log t ltac:(apply Hw)). rewrite (inv_len _ _ _ HP) in Q. unfold room in HR. lia.
Qed.

Lemma insert_inv : forall h s x k fuel, inv h s -> room s fuel -> x <> 0 -> ~ In x (map fst s) ->
  exists h' n, avl_insert cmp fuel h x k = Some (h', n) /\ inv h' (s_ins A cmp x k s) /\
    (if existsb (same A cmp k) s then exists e, In e s /\ fst e = n /\ cmp (snd e) k = Eq else n = x).
Proof.
  intros h s x k fuel (t & Hw & Hs & HP) HR Hx0 Hx. destruct Hord as (Hsym & Htr & Heq).
  assert (HF := room_hgt h t s fuel Hw HP HR).
  assert (Hcx : cnt x (ino t) = 0). { rewrite (inv_in h t s x HP) in Hx. lia. }
  destruct (insert_ok cmp Hsym Htr Heq fuel h t x k Hw Hs HF Hx0 Hcx) as [(n & L1 & L2 & Q1 & Q2 & Q3)|(h' & t' & L1 & L2 & Q1 & Q2 & Q3 & Q4 & Q5 & Q6 & Q7)].
  - assert (Hin : In (n, h_key h n) s).
    { apply (Permutation_in _ HP). unfold contents. apply (in_map (fun x => (x, h_key h x))). rewrite Q2. apply in_or_app. right. left. reflexivity. }
    assert (Hex : existsb (same A cmp k) s = true).
    { apply existsb_exists. exists (n, h_key h n). split; [assumption|]. unfold same. cbn [snd]. rewrite Q3. reflexivity. }
    exists (set_key x k h), n. split; [assumption|]. unfold s_ins. rewrite Hex. split; [|exists (n, h_key h n); auto].
    assert (Hk : forall y, In y (ino t) -> h_key (set_key x k h) y = h_key h y).
    { intros y Hy. cbn [h_key set_key]. rewrite upd_ne; [reflexivity|]. intros ->. apply cnt_In in Hy. lia. }
    exists t. split; [|split].
    + destruct Hw as (Hr & HB & HN). split; [|auto]. apply (rep_same t h); [intros y _; unfold fsame; auto|exact Hr].
    + unfold sortd in *. clear - Hs Hk. induction (ino t) as [|a L IH]; [constructor|]. inversion Hs as [|? ? H1 H2]; subst. constructor.
      * apply IH; [assumption|]. intros y Hy. apply Hk. right. assumption.
      * rewrite Forall_forall in H2 |- *. intros y Hy. rewrite (Hk a) by (left; reflexivity). rewrite (Hk y) by (right; assumption). auto.
    + rewrite (contents_ext h); assumption.
  - exists h', x. split; [assumption|].
    assert (Hex : existsb (same A cmp k) s = false).
    { rewrite <- (existsb_perm _ (same A cmp k) _ _ HP). destruct (existsb _ _) eqn:Q; [|reflexivity].
      apply existsb_exists in Q. destruct Q as (e & E1 & E2). unfold contents in E1. apply in_map_iff in E1. destruct E1 as (y & <- & E1).
      unfold same in E2. cbn [snd] in E2. rewrite Q3 in E1. apply in_app_or in E1. destruct E1 as [E1|E1]; [rewrite (Q6 y E1) in E2|rewrite (Q7 y E1) in E2]; discriminate. }
    unfold s_ins. rewrite Hex. split; [|reflexivity]. exists t'. split; [assumption|]. split.
    + rewrite Q4. rewrite Q3 in Hs, Hcx. apply (insert_sorted cmp Hsym h h' x k L1 L2); assumption.
    + rewrite Q4. assert (Hc2 : contents h' (L1 ++ L2) = contents h (L1 ++ L2)).
      { apply contents_ext. intros y Hy. rewrite Q5, upd_ne; [reflexivity|]. intros ->. rewrite <- Q3 in Hy. apply cnt_In in Hy. lia. }
      unfold contents at 1. rewrite map_app. cbn [map]. rewrite Q5, upd_eq. rewrite <- Q5.
      apply (Permutation_trans (Permutation_sym (Permutation_middle _ _ _))). constructor. rewrite <- map_app. fold (contents h' (L1 ++ L2)).
      rewrite Hc2, <- Q3. assumption.
Qed.

Lemma remove_inv : forall h s x fuel, inv h s -> room s fuel -> In x (map fst s) ->
  exists h', avl_remove fuel h x = Some h' /\ inv h' (s_rem A x s).
Proof.
  intros h s x fuel (t & Hw & Hs & HP) HR Hx.
  assert (HF := room_hgt h t s fuel Hw HP HR). rewrite (inv_in h t s x HP) in Hx.
  destruct (remove_ok h t x fuel Hw Hx HF) as (h' & t' & L1 & L2 & Q1 & Q2 & Q3 & Q4 & Q5).
  exists h'. split; [assumption|]. exists t'. split; [assumption|].
  assert (Hkk : forall L, sortd cmp h L -> sortd cmp h' L) by (unfold sortd; rewrite Q5; auto).
  rewrite Q3 in Hs. apply sortd_app in Hs. destruct Hs as (S1 & S2 & S12). apply sortd_cons in S2. destruct S2 as (S2 & Sx).
  split; [rewrite Q4; apply Hkk; apply sortd_app; split; [assumption|split; [assumption|intros y z Hy Hz; apply S12; [assumption|right; assumption]]]|].
  rewrite Q4. unfold s_rem.
  apply Permutation_sym. apply (Permutation_trans (filter_perm _ _ _ _ (Permutation_sym HP))).
  assert (HN : nodup (L1 ++ x :: L2)) by (rewrite <- Q3; apply Hw).
  rewrite Q3. unfold contents. rewrite map_app, filter_app. cbn [map filter fst]. rewrite Nat.eqb_refl. cbn [negb].
  fold (contents h L1). fold (contents h L2).
  assert (Hx2 := HN x). rewrite cnt_app in Hx2. cbn [cnt] in Hx2. rewrite Nat.eqb_refl in Hx2.
  rewrite !filter_keep by lia. unfold contents. rewrite map_app, Q5. apply Permutation_refl.
Qed.

Lemma s_do_len : forall o s, length (s_do A cmp o s) <= S (length s).
Proof.
  intros [x k|x] s; cbn [s_do].
  - unfold s_ins. destruct (existsb _ _); cbn [length]; lia.
  - unfold s_rem. induction s as [|e s IH]; cbn [filter length]; [lia|]. destruct (negb _); cbn [length]; lia.
Qed.
Lemma room_mono : forall s fuel n, length s <= n -> 2 * Nat.log2 (n + 1) + 1 < fuel -> room s fuel.
Proof. intros s fuel n H1 H2. unfold room. assert (Nat.log2 (length s + 1) <= Nat.log2 (n + 1)) by (apply Nat.log2_le_mono; lia). lia. Qed.

Lemma step_inv : forall o h s fuel, inv h s -> room s fuel -> s_ok1 A o s -> exists h', do1 cmp fuel o h = Some h' /\ inv h' (s_do A cmp o s).
Proof.
  intros [x k|x] h s fuel HI HR HO; cbn [s_ok1 s_do do1] in *.
  - destruct HO as (H1 & H2). destruct (insert_inv h s x k fuel HI HR H1 H2) as (h' & n & Q1 & Q2 & _). rewrite Q1. eauto.
  - apply (remove_inv h s x fuel HI HR HO).
Qed.
Lemma run_inv : forall os h s fuel, inv h s -> s_ok A cmp os s -> 2 * Nat.log2 (length s + length os + 1) + 1 < fuel ->
  exists h', run cmp fuel os h = Some h' /\ inv h' (s_run A cmp os s).
Proof.
  induction os as [|o os IH]; intros h s fuel HI HO HF; cbn [run s_run]; [eauto|].
  cbn [s_ok] in HO. destruct HO as (H1 & H2).
  destruct (step_inv o h s fuel HI) as (h1 & Q1 & Q2); [apply (room_mono s fuel (length s + length (o :: os))); [lia|assumption]|assumption|].
  rewrite Q1. apply IH; auto. pose proof (s_do_len o s) as Q. cbn [length] in HF.
  assert (Nat.log2 (length (s_do A cmp o s) + length os + 1) <= Nat.log2 (length s + S (length os) + 1)) by (apply Nat.log2_le_mono; lia). lia.
Qed.
Lemma init_inv : forall h, inv (avl_init h) [].
Proof. intro h. exists E. split; [split; [reflexivity|split; [exact I|intro y; cbn; lia]]|]. split; constructor. Qed.

Definition key_sorted (h : heap) (L : list nat) : Prop := StronglySorted (fun x y => cmp (h_key h x) (h_key h y) = Lt) L.

(** What can be read from a tree that holds the entries [s]. *)
Lemma reads_ok : forall h s fuel, inv h s -> room s fuel -> exists L,
  Permutation (map (fun x => (x, h_key h x)) L) s /\ key_sorted h L /\
  (forall steps, length s < steps -> forwards steps fuel h = Some L /\ backwards steps fuel h = Some (rev L)) /\
  (forall k, avl_search cmp fuel h k = Some (pick (fun x => match cmp (h_key h x) k with Eq => true | _ => false end) L)) /\
  (forall k, avl_search_greater cmp fuel h k = Some (pick (fun x => match cmp (h_key h x) k with Lt => false | _ => true end) L)) /\
  (forall k, avl_search_smaller cmp fuel h k = Some (pick (fun x => match cmp (h_key h x) k with Gt => false | _ => true end) (rev L))).
Proof.
  intros h s fuel (t & Hw & Hs & HP) HR. destruct Hord as (Hsym & Htr & Heq).
  assert (HF := room_hgt h t s fuel Hw HP HR). exists (ino t). split; [exact HP|]. split; [exact Hs|]. split.
  { intros steps HS. rewrite <- (inv_len _ _ _ HP) in HS. split; [apply (forwards_ok h t); assumption|apply (backwards_ok h t); assumption]. }
  split; [intro k; apply (search_ok cmp Hsym Htr Heq fuel h t k Hw Hs HF)|].
  split; [intro k; apply (greater_ok cmp Hsym Htr Heq fuel h t k Hw Hs HF)|intro k; apply (smaller_ok cmp Hsym Htr Heq fuel h t k Hw Hs HF)].
Qed.

(** The balance bits of every node of the tree are -1, 0 or 1 and say which subtree is higher: the
    longest way from the root is at most twice the logarithm. *)
Lemma tree_ok : forall os h0 fuel, s_ok A cmp os [] -> 2 * Nat.log2 (length os + 1) + 1 < fuel ->
  exists h L, run cmp fuel os (avl_init h0) = Some h /\
  Permutation (map (fun x => (x, h_key h x)) L) (s_run A cmp os []) /\ key_sorted h L /\
  (forall steps, length os < steps -> forwards steps fuel h = Some L /\ backwards steps fuel h = Some (rev L)) /\
  (forall k, avl_search cmp fuel h k = Some (pick (fun x => match cmp (h_key h x) k with Eq => true | _ => false end) L)) /\
  (forall k, avl_search_greater cmp fuel h k = Some (pick (fun x => match cmp (h_key h x) k with Lt => false | _ => true end) L)) /\
  (forall k, avl_search_smaller cmp fuel h k = Some (pick (fun x => match cmp (h_key h x) k with Gt => false | _ => true end) (rev L))).
Proof.
  intros os h0 fuel HO HF. destruct (run_inv os (avl_init h0) [] fuel (init_inv h0) HO HF) as (h & R1 & R2).
  assert (Hlen : forall os s, length (s_run A cmp os s) <= length s + length os).
  { induction os0 as [|o os0 IH]; intro s; cbn [s_run length]; [lia|]. pose proof (s_do_len o s). specialize (IH (s_do A cmp o s)). lia. }
  specialize (Hlen os []). cbn [length] in Hlen.
  destruct (reads_ok h _ fuel R2) as (L & Q1 & Q2 & Q3 & Q4 & Q5 & Q6); [apply (room_mono _ fuel (length os)); [lia|assumption]|].
  exists h, L. split; [assumption|]. split; [assumption|]. split; [assumption|]. split; [intros steps HS; apply Q3; lia|auto].
Qed.

Lemma cost_ok : forall os h0 big h fuel, s_ok A cmp os [] -> 2 * Nat.log2 (length os + 1) + 1 < big -> run cmp big os (avl_init h0) = Some h ->
  2 * Nat.log2 (length (s_run A cmp os []) + 1) + 1 < fuel ->
  (forall x k, x <> 0 -> ~ In x (map fst (s_run A cmp os [])) -> exists h' n, avl_insert cmp fuel h x k = Some (h', n) /\
     (if existsb (same A cmp k) (s_run A cmp os []) then exists e, In e (s_run A cmp os []) /\ fst e = n /\ cmp (snd e) k = Eq else n = x)) /\
  (forall x, In x (map fst (s_run A cmp os [])) -> exists h', avl_remove fuel h x = Some h') /\
  (forall x, In x (map fst (s_run A cmp os [])) -> exists y z, avl_next fuel h x = Some y /\ avl_prev fuel h x = Some z) /\
  (exists x y, avl_first fuel h = Some x /\ avl_last fuel h = Some y) /\
  (forall k, exists x y z, avl_search cmp fuel h k = Some x /\ avl_search_greater cmp fuel h k = Some y /\ avl_search_smaller cmp fuel h k = Some z).
Proof.
  intros os h0 big h fuel HO HB HR HF.
  destruct (run_inv os (avl_init h0) [] big (init_inv h0) HO HB) as (h' & R1 & R2). rewrite HR in R1. injection R1 as <-.
  split; [|split; [|split; [|split]]].
  - intros x k Hx0 Hx. destruct (insert_inv h _ x k fuel R2 HF Hx0 Hx) as (h' & n & Q1 & _ & Q2). exists h', n. split; assumption.
  - intros x Hx. destruct (remove_inv h _ x fuel R2 HF Hx) as (h' & Q1 & _). eauto.
  - intros x Hx. destruct R2 as (t & Hw & Hs & HP). assert (HH := room_hgt h t _ fuel Hw HP HF). rewrite (inv_in h t _ x HP), <- cnt_In in Hx.
    apply in_split in Hx. destruct Hx as (L1 & L2 & Hx). rewrite (next_ok h t fuel x L1 L2 Hw HH Hx), (prev_ok h t fuel x L1 L2 Hw HH Hx). do 2 eexists; split; reflexivity.
  - destruct R2 as (t & Hw & Hs & HP). assert (HH := room_hgt h t _ fuel Hw HP HF). rewrite (first_ok h t fuel Hw HH), (last_ok h t fuel Hw HH). do 2 eexists; split; reflexivity.
  - intro k. destruct (reads_ok h _ fuel R2 HF) as (L & _ & _ & _ & Q4 & Q5 & Q6). rewrite Q4, Q5, Q6. do 3 eexists; repeat split; reflexivity.
Qed.
End S.
