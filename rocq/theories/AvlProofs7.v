(** Searches, insertion and walks; the calls on one tree against a plain set of entries. *)
From Coq Require Import ZArith Arith List Bool Lia Sorted Permutation.
From Verif Require Import AvlModel AvlProofs AvlProofs2 AvlProofs3 AvlProofs4 AvlProofs5 AvlProofs6.
Import ListNotations.
Local Open Scope nat_scope.

(** * Lists *)
Lemma split_unique : forall (L1 L2 M1 M2 : list nat) x, nodup (L1 ++ x :: L2) -> L1 ++ x :: L2 = M1 ++ x :: M2 -> L1 = M1 /\ L2 = M2.
Proof.
  induction L1 as [|a L1 IH]; intros L2 M1 M2 x Hn He; destruct M1 as [|b M1]; cbn [app] in *.
  - injection He as ->. auto.
  - injection He as -> He. specialize (Hn b). rewrite He in Hn. cnts. rewrite Nat.eqb_refl in Hn. lia.
  - injection He as -> He. specialize (Hn x). cnts. rewrite Nat.eqb_refl in Hn. lia.
  - injection He as -> He. destruct (IH L2 M1 M2 x) as (-> & ->); auto. intro y. specialize (Hn y). cnts. lia.
Qed.
Lemma last_app : forall (L : list nat) x d, last (L ++ [x]) d = x.
Proof. induction L as [|a L IH]; intros; [reflexivity|]. change (last (a :: L ++ [x]) d = x). destruct (L ++ [x]) eqn:E; [destruct L; discriminate|]. rewrite <- E. cbn [last]. rewrite E. rewrite <- E. apply IH. Qed.
Lemma last_app2 : forall (M L : list nat) d, L <> [] -> last (M ++ L) d = last L d.
Proof.
  induction M as [|a M IH]; intros L d H; [reflexivity|]. cbn [app]. destruct (M ++ L) eqn:E; [destruct M; [cbn in E; congruence|discriminate]|].
  rewrite <- (IH L d H), E. reflexivity.
Qed.

Lemma bal_size : forall n t, (hgt t < Z.of_nat n)%Z -> bal t -> (2 ^ (hgt t / 2) <= Z.of_nat (length (ino t)) + 1)%Z.
Proof.
  induction n as [|n IH]; intros t Hn HB; [pose proof (hgt_pos t); lia|].
  destruct t as [|l x b r]; [cbn; lia|].
  cbn [bal] in HB. destruct HB as (Bl & Br & Eb & Rb). cbn [ino]. rewrite app_length. cbn [length].
  pose proof (hgt_pos l) as Pl. pose proof (hgt_pos r) as Pr.
  assert (Il := IH l ltac:(cbn [hgt] in Hn; lia) Bl). assert (Ir := IH r ltac:(cbn [hgt] in Hn; lia) Br).
  set (m := (Z.min (hgt l) (hgt r))%Z).
  assert (Hm : (hgt (T l x b r) <= m + 2)%Z) by (cbn [hgt]; unfold m; lia).
  assert (H1 : (2 ^ (hgt (T l x b r) / 2) <= 2 * 2 ^ (m / 2))%Z).
  { rewrite <- Z.pow_succ_r by (apply Z.div_pos; unfold m; lia). apply Z.pow_le_mono_r; [lia|].
    replace (Z.succ (m / 2)) with ((m + 1 * 2) / 2)%Z by (rewrite Z.div_add by lia; lia). apply Z.div_le_mono; lia. }
  assert (H2 : (2 ^ (m / 2) <= 2 ^ (hgt l / 2))%Z) by (apply Z.pow_le_mono_r; [lia|apply Z.div_le_mono; unfold m; lia]).
  assert (H3 : (2 ^ (m / 2) <= 2 ^ (hgt r / 2))%Z) by (apply Z.pow_le_mono_r; [lia|apply Z.div_le_mono; unfold m; lia]).
  lia.
Qed.
Lemma bal_log : forall t, bal t -> (hgt t <= 2 * Z.of_nat (Nat.log2 (length (ino t) + 1)) + 1)%Z.
Proof.
  intros t HB. assert (Q := bal_size (S (Z.to_nat (hgt t))) t ltac:(pose proof (hgt_pos t); lia) HB).
  pose proof (hgt_pos t) as P. set (n := length (ino t)) in *.
  assert (H1 : (hgt t / 2 <= Z.of_nat (Nat.log2 (n + 1)))%Z).
  { assert (Hp : (0 <= hgt t / 2)%Z) by (apply Z.div_pos; lia).
    rewrite <- (Z2Nat.id (hgt t / 2)) by assumption. apply inj_le. apply Nat.log2_le_pow2; [lia|].
    apply Nat2Z.inj_le. rewrite Nat2Z.inj_pow. rewrite Z2Nat.id by assumption. change (Z.of_nat 2) with 2%Z. lia. }
  assert (H2 := Z.div_mod (hgt t) 2 ltac:(lia)). assert (H3 := Z.mod_pos_bound (hgt t) 2 ltac:(lia)). lia.
Qed.

(** * Walks *)
Section W.
Context {A : Type}.
Notation heap := (heap A).

Lemma rep_in_nz : forall (h : heap) t, wf h t -> forall x, In x (ino t) -> x <> 0.
Proof. intros h t (Hr & _ & _) x Hx. apply cnt_In in Hx. apply (rep_nz _ _ _ _ x Hr Hx). Qed.

Lemma climb_next_ok : forall c fuel (h : heap) a p q, rpc h a p c q 0 -> a <> 0 -> nodup (cl c ++ a :: cr c) -> length c < fuel ->
  climb_next fuel h a p = Some (hd 0 (cr c)).
Proof.
  induction c as [|f c IH]; intros fuel h a p q Hc Ha Hn HF; (destruct fuel as [|fuel]; [lia|]); cbn [climb_next].
  - cbn [rpc] in Hc. destruct Hc as (_ & ->). reflexivity.
  - cbn [rpc] in Hc. destruct f as [y b r|l y b]; destruct Hc as (-> & Hy & Hl & Hb & Hr & Hc); rewrite (proj2 (Nat.eqb_neq y 0)) by assumption; cbn [cl cr] in *.
    + rewrite Hl, Nat.eqb_refl. reflexivity.
    + destruct (Nat.eqb_spec (h_lft h y) a) as [Q|Q].
      * exfalso. assert (Hi := rep_root_in _ _ _ _ Hr). rewrite Q in Hi. specialize (Hi Ha). specialize (Hn a). cnts. rewrite Nat.eqb_refl in Hn. lia.
      * apply (IH fuel h y (h_par h y) q); auto; [|cbn [length] in HF; lia]. intro z. specialize (Hn z). cnts. lia.
Qed.
Lemma climb_prev_ok : forall c fuel (h : heap) a p q, rpc h a p c q 0 -> a <> 0 -> nodup (cl c ++ a :: cr c) -> length c < fuel ->
  climb_prev fuel h a p = Some (last (cl c) 0).
Proof.
  induction c as [|f c IH]; intros fuel h a p q Hc Ha Hn HF; (destruct fuel as [|fuel]; [lia|]); cbn [climb_prev].
  - cbn [rpc] in Hc. destruct Hc as (_ & ->). reflexivity.
  - cbn [rpc] in Hc. destruct f as [y b r|l y b]; destruct Hc as (-> & Hy & Hl & Hb & Hr & Hc); rewrite (proj2 (Nat.eqb_neq y 0)) by assumption; cbn [cl cr] in *.
    + destruct (Nat.eqb_spec (h_rgt h y) a) as [Q|Q].
      * exfalso. assert (Hi := rep_root_in _ _ _ _ Hr). rewrite Q in Hi. specialize (Hi Ha). specialize (Hn a). cnts. rewrite Nat.eqb_refl in Hn. lia.
      * apply (IH fuel h y (h_par h y) q); auto; [|cbn [length] in HF; lia]. intro z. specialize (Hn z). cnts. lia.
    + rewrite Hl, Nat.eqb_refl. rewrite app_assoc, last_app. reflexivity.
Qed.

Lemma next_ok : forall (h : heap) t fuel x L1 L2, wf h t -> (hgt t < Z.of_nat fuel)%Z -> ino t = L1 ++ x :: L2 -> avl_next fuel h x = Some (hd 0 L2).
Proof.
  intros h t fuel x L1 L2 (Hr & HB & HN) HF Hi.
  assert (Hx : 1 <= cnt x (ino t)) by (rewrite Hi; cntg; rewrite Nat.eqb_refl; lia).
  destruct (focus t h (h_root h) 0 [] (h_root h) 0 x Hr (conj eq_refl eq_refl) Hx) as (c & l & b & r & Rx & Cx & Ep). cbn [plug] in Ep.
  assert (Hlen := len_hgt c (T l x b r)). rewrite Ep in Hlen. cbn [hgt] in Hlen. pose proof (hgt_pos l) as Pl. pose proof (hgt_pos r) as Pr.
  assert (Hi2 : ino t = (cl c ++ ino l) ++ x :: (ino r ++ cr c)).
  { rewrite <- Ep, ino_plug. cbn [ino]. repeat (rewrite <- app_assoc; cbn [app]). reflexivity. }
  rewrite Hi in HN. destruct (split_unique L1 L2 (cl c ++ ino l) (ino r ++ cr c) x HN) as (-> & ->); [congruence|].
  unfold avl_next. assert (Hx0 : x <> 0) by (cbn [rep] in Rx; tauto). rewrite (proj2 (Nat.eqb_neq x 0)) by assumption.
  assert (Rr : rep h x (h_rgt h x) r) by (cbn [rep] in Rx; tauto).
  rewrite (rep_null _ _ _ _ Rr).
  assert (Lm := leftmost_ok r fuel h (h_rgt h x) x x [] (h_rgt h x) x Rr (conj eq_refl eq_refl) I ltac:(lia)).
  destruct r as [|r1 ry rb r2]; cbn [negb].
  - cbn [ino app]. apply (climb_next_ok c fuel h x (h_par h x) (h_root h)); auto; [|lia].
    intro z. specialize (HN z). cnts. lia.
  - destruct Lm as (d & n & nb & nr & pn & L1 & Rn & Cn & HL & Ed). rewrite L1. cbn [plug] in Ed. rewrite <- Ed, ino_plug, (allL_cl _ HL). reflexivity.
Qed.
Lemma prev_ok : forall (h : heap) t fuel x L1 L2, wf h t -> (hgt t < Z.of_nat fuel)%Z -> ino t = L1 ++ x :: L2 -> avl_prev fuel h x = Some (last L1 0).
Proof.
  intros h t fuel x L1 L2 (Hr & HB & HN) HF Hi.
  assert (Hx : 1 <= cnt x (ino t)) by (rewrite Hi; cntg; rewrite Nat.eqb_refl; lia).
  destruct (focus t h (h_root h) 0 [] (h_root h) 0 x Hr (conj eq_refl eq_refl) Hx) as (c & l & b & r & Rx & Cx & Ep). cbn [plug] in Ep.
  assert (Hlen := len_hgt c (T l x b r)). rewrite Ep in Hlen. cbn [hgt] in Hlen. pose proof (hgt_pos l) as Pl. pose proof (hgt_pos r) as Pr.
  assert (Hi2 : ino t = (cl c ++ ino l) ++ x :: (ino r ++ cr c)).
  { rewrite <- Ep, ino_plug. cbn [ino]. repeat (rewrite <- app_assoc; cbn [app]). reflexivity. }
  rewrite Hi in HN. destruct (split_unique L1 L2 (cl c ++ ino l) (ino r ++ cr c) x HN) as (-> & ->); [congruence|].
  unfold avl_prev. assert (Hx0 : x <> 0) by (cbn [rep] in Rx; tauto). rewrite (proj2 (Nat.eqb_neq x 0)) by assumption.
  assert (Rl : rep h x (h_lft h x) l) by (cbn [rep] in Rx; tauto).
  rewrite (rep_null _ _ _ _ Rl).
  assert (Lm := rightmost_ok l fuel h (h_lft h x) x x [] (h_lft h x) x Rl (conj eq_refl eq_refl) I ltac:(lia)).
  destruct l as [|l1 ly lb l2]; cbn [negb].
  - cbn [ino]. rewrite app_nil_r. apply (climb_prev_ok c fuel h x (h_par h x) (h_root h)); auto; [|lia].
    intro z. specialize (HN z). cnts. lia.
  - destruct Lm as (d & n & nb & nl & pn & L1 & Rn & Cn & HL & Ed). rewrite L1. cbn [plug] in Ed. rewrite <- Ed, ino_plug, (allR_cr _ HL).
    cbn [ino]. rewrite app_nil_r. repeat rewrite app_assoc. rewrite last_app. reflexivity.
Qed.
Lemma first_ok : forall (h : heap) t fuel, wf h t -> (hgt t < Z.of_nat fuel)%Z -> avl_first fuel h = Some (hd 0 (ino t)).
Proof.
  intros h t fuel (Hr & HB & HN) HF. unfold avl_first.
  assert (Lm := leftmost_ok t fuel h (h_root h) 0 0 [] (h_root h) 0 Hr (conj eq_refl eq_refl) I HF). destruct t as [|l x b r]; [assumption|].
  destruct Lm as (d & n & nb & nr & pn & L1 & Rn & Cn & HL & Ed). rewrite L1. cbn [plug] in Ed. rewrite <- Ed, ino_plug, (allL_cl _ HL). reflexivity.
Qed.
Lemma last_ok : forall (h : heap) t fuel, wf h t -> (hgt t < Z.of_nat fuel)%Z -> avl_last fuel h = Some (last (ino t) 0).
Proof.
  intros h t fuel (Hr & HB & HN) HF. unfold avl_last.
  assert (Lm := rightmost_ok t fuel h (h_root h) 0 0 [] (h_root h) 0 Hr (conj eq_refl eq_refl) I HF). destruct t as [|l x b r]; [assumption|].
  destruct Lm as (d & n & nb & nr & pn & L1 & Rn & Cn & HL & Ed). rewrite L1. cbn [plug] in Ed. rewrite <- Ed, ino_plug, (allR_cr _ HL).
  cbn [ino]. rewrite app_nil_r, app_assoc, last_app. reflexivity.
Qed.

Lemma walk_next : forall L2 (h : heap) t fuel steps L1, wf h t -> (hgt t < Z.of_nat fuel)%Z -> ino t = L1 ++ L2 -> length L2 < steps ->
  walk steps (avl_next fuel h) (hd 0 L2) = Some L2.
Proof.
  induction L2 as [|x L2 IH]; intros h t fuel steps L1 Hw HF Hi HS; (destruct steps as [|steps]; [lia|]); cbn [walk hd]; [reflexivity|].
  assert (Hx : x <> 0) by (apply (rep_in_nz _ _ Hw); rewrite Hi; apply in_or_app; right; left; reflexivity).
  rewrite (proj2 (Nat.eqb_neq x 0)) by assumption. rewrite (next_ok h t fuel x L1 L2 Hw HF Hi).
  rewrite (IH h t fuel steps (L1 ++ [x])); auto; [rewrite Hi, <- app_assoc; reflexivity|cbn [length] in HS; lia].
Qed.
Lemma walk_prev : forall L1 (h : heap) t fuel steps L2, wf h t -> (hgt t < Z.of_nat fuel)%Z -> ino t = rev L1 ++ L2 -> length L1 < steps ->
  walk steps (avl_prev fuel h) (last (rev L1) 0) = Some L1.
Proof.
  induction L1 as [|x L1 IH]; intros h t fuel steps L2 Hw HF Hi HS; (destruct steps as [|steps]; [lia|]); cbn [walk rev]; [reflexivity|].
  rewrite last_app. cbn [rev] in Hi. rewrite <- app_assoc in Hi. cbn [app] in Hi.
  assert (Hx : x <> 0) by (apply (rep_in_nz _ _ Hw); rewrite Hi; apply in_or_app; right; left; reflexivity).
  rewrite (proj2 (Nat.eqb_neq x 0)) by assumption. rewrite (prev_ok h t fuel x (rev L1) L2 Hw HF Hi).
  rewrite (IH h t fuel steps (x :: L2)); auto. cbn [length] in HS; lia.
Qed.
Lemma forwards_ok : forall (h : heap) t fuel steps, wf h t -> (hgt t < Z.of_nat fuel)%Z -> length (ino t) < steps -> forwards steps fuel h = Some (ino t).
Proof. intros h t fuel steps Hw HF HS. unfold forwards. rewrite (first_ok h t fuel Hw HF). apply (walk_next (ino t) h t fuel steps []); auto. Qed.
Lemma backwards_ok : forall (h : heap) t fuel steps, wf h t -> (hgt t < Z.of_nat fuel)%Z -> length (ino t) < steps -> backwards steps fuel h = Some (rev (ino t)).
Proof.
  intros h t fuel steps Hw HF HS. unfold backwards. rewrite (last_ok h t fuel Hw HF).
  rewrite <- (rev_involutive (ino t)) at 1. apply (walk_prev (rev (ino t)) h t fuel steps []); auto; [rewrite rev_involutive, app_nil_r; reflexivity|rewrite rev_length; assumption].
Qed.
End W.

(** * Searches *)
Section S.
Context {A : Type}.
Variable cmp : A -> A -> comparison.
Hypothesis Hsym : forall a b, cmp b a = CompOpp (cmp a b).
Hypothesis Htr : forall a b c, cmp a b = Lt -> cmp b c = Lt -> cmp a c = Lt.
Hypothesis Heq : forall a b c, cmp a b = Eq -> cmp a c = cmp b c.
Notation heap := (heap A).

Definition sortd (h : heap) (L : list nat) : Prop := StronglySorted (fun x y => cmp (h_key h x) (h_key h y) = Lt) L.
Definition below (h : heap) (k : A) (L : list nat) : Prop := forall x, In x L -> cmp (h_key h x) k = Lt.
Definition above (h : heap) (k : A) (L : list nat) : Prop := forall x, In x L -> cmp (h_key h x) k = Gt.

Lemma gt_lt : forall a b, cmp a b = Gt <-> cmp b a = Lt.
Proof. intros a b. rewrite (Hsym a b). destruct (cmp a b); cbn; split; congruence. Qed.
Lemma gt_up : forall y k z, cmp y k = Gt -> cmp y z = Lt -> cmp z k = Gt.
Proof. intros y k z H1 H2. apply gt_lt. apply gt_lt in H1. apply (Htr k y z); assumption. Qed.
Lemma eq_sym : forall a b, cmp a b = Eq -> cmp b a = Eq.
Proof. intros a b H. rewrite (Hsym a b), H. reflexivity. Qed.

Lemma sortd_app : forall h L1 L2, sortd h (L1 ++ L2) <-> sortd h L1 /\ sortd h L2 /\ (forall x y, In x L1 -> In y L2 -> cmp (h_key h x) (h_key h y) = Lt).
Proof.
  induction L1 as [|a L1 IH]; intro L2; cbn [app].
  - split; [intro H; split; [constructor|split; [assumption|intros x y []]]|tauto].
  - split.
    + intro H. inversion H as [|? ? H1 H2]; subst. apply IH in H1. destruct H1 as (Q1 & Q2 & Q3). rewrite Forall_forall in H2.
      split; [constructor; [assumption|apply Forall_forall; intros z Hz; apply H2, in_or_app; auto]|]. split; [assumption|].
      intros x y [->|Hx] Hy; [apply H2, in_or_app; auto|auto].
    + intros (Q1 & Q2 & Q3). inversion Q1 as [|? ? H1 H2]; subst. constructor.
      * apply IH. split; [assumption|]. split; [assumption|]. intros x y Hx Hy. apply Q3; [right|]; assumption.
      * rewrite Forall_forall in H2 |- *. intros z Hz. apply in_app_or in Hz. destruct Hz as [Hz|Hz]; [auto|apply Q3; [left; reflexivity|assumption]].
Qed.
Lemma sortd_cons : forall h x L, sortd h (x :: L) <-> sortd h L /\ (forall y, In y L -> cmp (h_key h x) (h_key h y) = Lt).
Proof.
  intros h x L. split.
  - intro H. inversion H as [|? ? H1 H2]; subst. rewrite Forall_forall in H2. auto.
  - intros (H1 & H2). constructor; [assumption|apply Forall_forall; assumption].
Qed.

Lemma descend_ok : forall t fuel (h : heap) a p c q k, rep h p a t -> rpc h a p c q 0 -> sortd h (ino t) -> below h k (cl c) -> above h k (cr c) ->
  (hgt t < Z.of_nat fuel)%Z ->
  (exists x, descend cmp fuel h k p a = Some (inl x) /\ In x (ino t) /\ cmp (h_key h x) k = Eq) \/
  (exists c' p', descend cmp fuel h k p a = Some (inr p') /\ rpc h 0 p' c' q 0 /\ plug c' E = plug c t /\ below h k (cl c') /\ above h k (cr c')).
Proof.
  induction t as [|l IHl y b r IHr]; intros fuel h a p c q k Hr Hc Hs Hbl Hab HF.
  - (destruct fuel as [|fuel]; [cbn in HF; lia|]); cbn [descend]. cbn [rep] in Hr. subst a. cbn [Nat.eqb].
    right. exists c, p. auto.
  - pose proof (hgt_pos l) as Pl. pose proof (hgt_pos r) as Pr. cbn [hgt] in HF.
    (destruct fuel as [|fuel]; [lia|]); cbn [descend].
    cbn [rep] in Hr. destruct Hr as (-> & Hy & Hp & Hb & Hl & Hrr). rewrite (proj2 (Nat.eqb_neq y 0)) by assumption.
    cbn [ino] in Hs. apply sortd_app in Hs. destruct Hs as (Sl & Sr & Slr). apply sortd_cons in Sr. destruct Sr as (Sr & Syr).
    destruct (cmp (h_key h y) k) eqn:Ec.
    + left. exists y. split; [reflexivity|]. split; [cbn [ino]; apply in_or_app; right; left; reflexivity|assumption].
    + destruct (IHr fuel h (h_rgt h y) y (FR l y b :: c) q k Hrr) as [(x & Q1 & Q2 & Q3)|(c' & p' & Q1 & Q2 & Q3 & Q4 & Q5)]; auto.
      * cbn [rpc]. rewrite Hp. auto 10.
      * intros z Hz. cbn [cl] in Hz. apply in_app_or in Hz. destruct Hz as [Hz|Hz]; [auto|]. apply in_app_or in Hz. destruct Hz as [Hz|[Hz|[]]]; [|subst; assumption].
        apply (Htr _ (h_key h y)); [apply Slr; [assumption|left; reflexivity]|assumption].
      * lia.
      * left. exists x. split; [assumption|]. split; [cbn [ino]; apply in_or_app; right; right; assumption|assumption].
      * right. exists c', p'. cbn [plug fplug] in Q3. auto.
    + destruct (IHl fuel h (h_lft h y) y (FL y b r :: c) q k Hl) as [(x & Q1 & Q2 & Q3)|(c' & p' & Q1 & Q2 & Q3 & Q4 & Q5)]; auto.
      * cbn [rpc]. rewrite Hp. auto 10.
      * intros z Hz. cbn [cr] in Hz. destruct Hz as [Hz|Hz]; [subst; assumption|]. apply in_app_or in Hz. destruct Hz as [Hz|Hz]; [|auto].
        apply (gt_up (h_key h y)); [assumption|auto].
      * lia.
      * left. exists x. split; [assumption|]. split; [cbn [ino]; apply in_or_app; left; assumption|assumption].
      * right. exists c', p'. cbn [plug fplug] in Q3. auto.
Qed.

(** The whole tree, seen from the outcome of a descent. *)
Lemma descend_root : forall fuel (h : heap) t k, wf h t -> sortd h (ino t) -> (hgt t < Z.of_nat fuel)%Z ->
  (exists x L1 L2, descend cmp fuel h k 0 (h_root h) = Some (inl x) /\ ino t = L1 ++ x :: L2 /\ cmp (h_key h x) k = Eq /\ below h k L1 /\ above h k L2) \/
  (exists c p, descend cmp fuel h k 0 (h_root h) = Some (inr p) /\ rpc h 0 p c (h_root h) 0 /\ plug c E = t /\ ino t = cl c ++ cr c /\ below h k (cl c) /\ above h k (cr c)).
Proof.
  intros fuel h t k (Hr & HB & HN) Hs HF.
  destruct (descend_ok t fuel h (h_root h) 0 [] (h_root h) k Hr (conj eq_refl eq_refl) Hs) as [(x & Q1 & Q2 & Q3)|(c' & p' & Q1 & Q2 & Q3 & Q4 & Q5)]; auto.
  - intros z [].
  - intros z [].
  - left. apply in_split in Q2. destruct Q2 as (L1 & L2 & Q2). exists x, L1, L2. do 3 (split; [assumption|]).
    rewrite Q2 in Hs. apply sortd_app in Hs. destruct Hs as (Sl & Sr & Slr). apply sortd_cons in Sr. destruct Sr as (Sr & Syr). split.
    + intros z Hz. rewrite <- (CompOpp_involutive (cmp _ _)), <- Hsym, <- (Heq _ _ _ Q3), <- Hsym. apply Slr; [assumption|left; reflexivity].
    + intros z Hz. apply gt_lt. rewrite <- (Heq _ _ _ Q3). auto.
  - right. exists c', p'. cbn [plug] in Q3. split; [assumption|]. split; [assumption|]. split; [assumption|]. split; [rewrite <- Q3, ino_plug; reflexivity|]. auto.
Qed.

Definition eqk (h : heap) (k : A) (x : nat) : bool := match cmp (h_key h x) k with Eq => true | _ => false end.
Definition gek (h : heap) (k : A) (x : nat) : bool := match cmp (h_key h x) k with Lt => false | _ => true end.
Definition lek (h : heap) (k : A) (x : nat) : bool := match cmp (h_key h x) k with Gt => false | _ => true end.
Definition findp (f : nat -> bool) (L : list nat) : nat := match find f L with Some x => x | None => 0 end.
Lemma findp_skip : forall f L1 L2, (forall x, In x L1 -> f x = false) -> findp f (L1 ++ L2) = findp f L2.
Proof.
  unfold findp. induction L1 as [|a L1 IH]; intros L2 H; [reflexivity|]. cbn [app find]. rewrite (H a (or_introl eq_refl)). apply IH. intros x Hx. apply H. right. assumption.
Qed.
Lemma findp_hit : forall f x L, f x = true -> findp f (x :: L) = x.
Proof. intros f x L H. unfold findp. cbn [find]. rewrite H. reflexivity. Qed.
Lemma findp_none : forall f L, (forall x, In x L -> f x = false) -> findp f L = 0.
Proof. intros f L H. rewrite <- (app_nil_r L). rewrite findp_skip by assumption. reflexivity. Qed.
Lemma findp_all : forall f L, (forall x, In x L -> f x = true) -> findp f L = hd 0 L.
Proof. intros f [|x L] H; [reflexivity|]. apply findp_hit. apply H. left. reflexivity. Qed.

Lemma search_ok : forall fuel (h : heap) t k, wf h t -> sortd h (ino t) -> (hgt t < Z.of_nat fuel)%Z ->
  avl_search cmp fuel h k = Some (findp (eqk h k) (ino t)).
Proof.
  intros fuel h t k Hw Hs HF. unfold avl_search.
  destruct (descend_root fuel h t k Hw Hs HF) as [(x & L1 & L2 & Q1 & Q2 & Q3 & Q4 & Q5)|(c & p & Q1 & Q2 & Q3 & Q4 & Q5 & Q6)]; rewrite Q1.
  - rewrite Q2, findp_skip; [rewrite findp_hit; [reflexivity|unfold eqk; rewrite Q3; reflexivity]|]. intros z Hz. unfold eqk. rewrite (Q4 z Hz). reflexivity.
  - rewrite Q4, findp_none; [reflexivity|]. intros z Hz. unfold eqk. apply in_app_or in Hz. destruct Hz as [Hz|Hz]; [rewrite (Q5 z Hz)|rewrite (Q6 z Hz)]; reflexivity.
Qed.
Lemma greater_ok : forall fuel (h : heap) t k, wf h t -> sortd h (ino t) -> (hgt t < Z.of_nat fuel)%Z ->
  avl_search_greater cmp fuel h k = Some (findp (gek h k) (ino t)).
Proof.
  intros fuel h t k Hw Hs HF. unfold avl_search_greater.
  destruct (descend_root fuel h t k Hw Hs HF) as [(x & L1 & L2 & Q1 & Q2 & Q3 & Q4 & Q5)|(c & p & Q1 & Q2 & Q3 & Q4 & Q5 & Q6)]; rewrite Q1.
  - rewrite Q2, findp_skip; [rewrite findp_hit; [reflexivity|unfold gek; rewrite Q3; reflexivity]|]. intros z Hz. unfold gek. rewrite (Q4 z Hz). reflexivity.
  - rewrite Q4, findp_skip; [|intros z Hz; unfold gek; rewrite (Q5 z Hz); reflexivity].
    rewrite findp_all; [|intros z Hz; unfold gek; rewrite (Q6 z Hz); reflexivity].
    destruct c as [|[y b r|l y b] c]; cbn [rpc cl cr] in *.
    + destruct Q2 as (_ & ->). reflexivity.
    + destruct Q2 as (-> & Hy & _). rewrite (proj2 (Nat.eqb_neq y 0)) by assumption. rewrite (Q6 y (or_introl eq_refl)). reflexivity.
    + destruct Q2 as (-> & Hy & _). rewrite (proj2 (Nat.eqb_neq y 0)) by assumption.
      rewrite (Q5 y) by (apply in_or_app; right; apply in_or_app; right; left; reflexivity).
      apply (next_ok h t fuel y (cl c ++ ino l) (cr c) Hw HF). rewrite Q4. repeat (rewrite <- app_assoc; cbn [app]). reflexivity.
Qed.
Lemma smaller_ok : forall fuel (h : heap) t k, wf h t -> sortd h (ino t) -> (hgt t < Z.of_nat fuel)%Z ->
  avl_search_smaller cmp fuel h k = Some (findp (lek h k) (rev (ino t))).
Proof.
  intros fuel h t k Hw Hs HF. unfold avl_search_smaller.
  destruct (descend_root fuel h t k Hw Hs HF) as [(x & L1 & L2 & Q1 & Q2 & Q3 & Q4 & Q5)|(c & p & Q1 & Q2 & Q3 & Q4 & Q5 & Q6)]; rewrite Q1.
  - rewrite Q2, rev_app_distr. cbn [rev]. rewrite <- app_assoc. cbn [app].
    rewrite findp_skip; [rewrite findp_hit; [reflexivity|unfold lek; rewrite Q3; reflexivity]|]. intros z Hz. apply in_rev in Hz. unfold lek. rewrite (Q5 z Hz). reflexivity.
  - rewrite Q4, rev_app_distr, findp_skip; [|intros z Hz; apply in_rev in Hz; unfold lek; rewrite (Q6 z Hz); reflexivity].
    rewrite findp_all; [|intros z Hz; apply in_rev in Hz; unfold lek; rewrite (Q5 z Hz); reflexivity].
    destruct c as [|[y b r|l y b] c]; cbn [rpc cl cr] in *.
    + destruct Q2 as (_ & ->). reflexivity.
    + destruct Q2 as (-> & Hy & _). rewrite (proj2 (Nat.eqb_neq y 0)) by assumption. rewrite (Q6 y (or_introl eq_refl)).
      rewrite (prev_ok h t fuel y (cl c) (ino r ++ cr c) Hw HF Q4). f_equal.
      destruct (cl c) as [|z L] eqn:EL using rev_ind; [reflexivity|]. rewrite last_app, rev_app_distr. reflexivity.
    + destruct Q2 as (-> & Hy & _). rewrite (proj2 (Nat.eqb_neq y 0)) by assumption.
      rewrite (Q5 y) by (apply in_or_app; right; apply in_or_app; right; left; reflexivity).
      rewrite app_assoc, rev_app_distr. reflexivity.
Qed.

(** * Insertion *)
Lemma key_fsame : forall (h : heap) x k y, fsame h (set_key x k h) y.
Proof. intros. unfold fsame. auto. Qed.

Lemma insert_ok : forall fuel (h : heap) t x k, wf h t -> sortd h (ino t) -> (hgt t < Z.of_nat fuel)%Z -> x <> 0 -> cnt x (ino t) = 0 ->
  (exists n L1 L2, avl_insert cmp fuel h x k = Some (set_key x k h, n) /\ ino t = L1 ++ n :: L2 /\ cmp (h_key h n) k = Eq) \/
  (exists h' t' L1 L2, avl_insert cmp fuel h x k = Some (h', x) /\ wf h' t' /\ ino t = L1 ++ L2 /\ ino t' = L1 ++ x :: L2 /\
     h_key h' = upd (h_key h) x k /\ below h k L1 /\ above h k L2).
Proof.
  intros fuel h t x k Hw Hs HF Hx0 Hx. set (h0 := set_key x k h).
  assert (Hk : forall y, In y (ino t) -> h_key h0 y = h_key h y).
  { intros y Hy. unfold h0. cbn [h_key set_key]. rewrite upd_ne; [reflexivity|]. intros ->. apply cnt_In in Hy. lia. }
  assert (Hw0 : wf h0 t). { destruct Hw as (Hr & HB & HN). split; [|auto]. apply (rep_same t h); [intros y _; apply key_fsame|exact Hr]. }
  assert (Hs0 : sortd h0 (ino t)).
  { unfold sortd in *. clear - Hs Hk. induction (ino t) as [|a L IH]; [constructor|]. inversion Hs as [|? ? H1 H2]; subst. constructor.
    - apply IH; [assumption|]. intros y Hy. apply Hk. right. assumption.
    - rewrite Forall_forall in H2 |- *. intros y Hy. rewrite (Hk a) by (left; reflexivity). rewrite (Hk y) by (right; assumption). auto. }
  unfold avl_insert. fold h0.
  destruct (descend_root fuel h0 t k Hw0 Hs0 HF) as [(n & L1 & L2 & Q1 & Q2 & Q3 & Q4 & Q5)|(c & p & Q1 & Q2 & Q3 & Q4 & Q5 & Q6)]; rewrite Q1.
  - left. exists n, L1, L2. split; [reflexivity|]. split; [assumption|]. rewrite <- Hk; [assumption|]. rewrite Q2. apply in_or_app. right. left. reflexivity.
  - right. rewrite set_bf_ok by lia.
    set (h2 := set_rgt x 0 (set_lft x 0 (put_bf x 0%Z (set_par x p h0)))).
    set (h3 := match c with [] => set_root x h2 | FL y _ _ :: _ => set_lft y x h2 | FR _ y _ :: _ => set_rgt y x h2 end).
    assert (Hcx : cnt x (cl c) + cnt x (cr c) = 0) by (rewrite Q4, cnt_app in Hx; assumption).
    assert (E3 : (if negb (p =? 0) then match cmp (h_key h2 p) k with Gt => set_lft p x h2 | _ => set_rgt p x h2 end else set_root x h2) = h3).
    { unfold h3. destruct c as [|[y b r|l y b] c]; cbn [rpc] in Q2.
      - destruct Q2 as (_ & ->). reflexivity.
      - destruct Q2 as (-> & Hy & _). rewrite (proj2 (Nat.eqb_neq y 0)) by assumption. cbn [negb].
        change (h_key h2 y) with (h_key h0 y). rewrite (Q6 y (or_introl eq_refl)). reflexivity.
      - destruct Q2 as (-> & Hy & _). rewrite (proj2 (Nat.eqb_neq y 0)) by assumption. cbn [negb].
        change (h_key h2 y) with (h_key h0 y). rewrite (Q5 y) by (cbn [cl]; apply in_or_app; right; apply in_or_app; right; left; reflexivity). reflexivity. }
    cbv zeta. rewrite E3.
    assert (HN : nodup (cl c ++ cr c)). { rewrite <- Q4. apply Hw. }
    assert (F3 : forall y, y <> x -> y <> p -> fsame h0 h3 y).
    { intros y Hyx Hyp. unfold fsame, h3. destruct c as [|[z b r|l z b] c]; cbn [rpc] in Q2.
      - fld. unfold h2. fld. rewrite !upd_ne by assumption. auto.
      - destruct Q2 as (<- & _). fld. unfold h2. fld. rewrite !upd_ne by assumption. auto.
      - destruct Q2 as (<- & _). fld. unfold h2. fld. rewrite !upd_ne by assumption. auto. }
    assert (Npx : c <> [] -> p <> x).
    { intros Hne ->. destruct c as [|[z b r|l z b] c]; [congruence| |]; cbn [rpc] in Q2; destruct Q2 as (-> & _); cbn [cl cr] in Hcx; revert Hcx; cntg; rewrite Nat.eqb_refl; lia. }
    assert (X3 : h_par h3 x = p /\ h_lft h3 x = 0 /\ h_rgt h3 x = 0 /\ h_bf h3 x = 0%Z).
    { unfold h3. destruct c as [|[z b r|l z b] c]; cbn [rpc] in Q2.
      - fld. unfold h2. fld. rewrite !upd_eq. auto.
      - destruct Q2 as (Ez & _). specialize (Npx ltac:(discriminate)). fld. rewrite (upd_ne _ _ z) by congruence. unfold h2. fld. rewrite !upd_eq. auto.
      - destruct Q2 as (Ez & _). specialize (Npx ltac:(discriminate)). fld. rewrite (upd_ne _ _ z) by congruence. unfold h2. fld. rewrite !upd_eq. auto. }
    destruct X3 as (X1 & X2 & X4 & X5).
    assert (R3 : rep h3 p x (T E x 0 E)) by (cbn [rep]; auto 10).
    assert (C3 : rpc h3 x p c (h_root h3) 0).
    { apply (rpc_set c h0 h3 0 x p (h_root h0) (h_root h3) 0 Q2 HN).
      - intros y Hy Hne. apply F3; [intros ->; lia|assumption].
      - unfold h3. destruct c as [|[z b r|l z b] c]; cbn [rpc] in Q2; [reflexivity| |]; destruct Q2 as (Ez & _); specialize (Npx ltac:(discriminate));
        (split; [reflexivity|]); fld; rewrite upd_eq; unfold h2; fld; rewrite !upd_ne by congruence; auto. }
    assert (Bc : bal (plug c E)). { rewrite Q3. apply Hw. } apply plug_bal in Bc. destruct Bc as (_ & Bc). cbn [hgt] in Bc.
    assert (Hlen := len_hgt c E). rewrite Q3 in Hlen. cbn [hgt] in Hlen.
    destruct (up_ok c true fuel h3 x p E x 0%Z E 0%Z 0%Z) as (h' & t' & U1 & U2 & U3 & U4 & U5); auto; try (cbn [bal]; exact I); try lia.
    + intro z. specialize (HN z). assert (Hzx := Hcx). cntg. destruct (Nat.eqb_spec z x) as [Q|Q]; [rewrite Q; cbn; lia|]. rewrite cnt_app in HN. lia.
    + left. auto 10.
    + rewrite U1. exists h', t', (cl c), (cr c). split; [reflexivity|].
      assert (Et : ino t' = cl c ++ x :: cr c) by (rewrite U4; reflexivity).
      split; [split; [assumption|split; [assumption|rewrite Et]]|].
      * intro z. specialize (HN z). cntg. rewrite cnt_app in HN. destruct (Nat.eqb_spec z x) as [Q|Q]; [rewrite Q; lia|lia].
      * split; [assumption|]. split; [assumption|]. split.
        { rewrite U5. unfold h3. destruct c as [|[z b r|l z b] c]; reflexivity. }
        split; intros y Hy; rewrite <- Hk by (rewrite Q4; apply in_or_app; auto); auto.
Qed.

Lemma insert_sorted : forall (h h' : heap) x k L1 L2, sortd h (L1 ++ L2) -> cnt x (L1 ++ L2) = 0 -> h_key h' = upd (h_key h) x k -> below h k L1 -> above h k L2 ->
  sortd h' (L1 ++ x :: L2).
Proof.
  intros h h' x k L1 L2 Hs Hx Hk Hb Ha.
  assert (Ne : forall y, In y (L1 ++ L2) -> h_key h' y = h_key h y).
  { intros y Hy. rewrite Hk, upd_ne; [reflexivity|]. intros ->. apply cnt_In in Hy. lia. }
  assert (Kx : h_key h' x = k) by (rewrite Hk, upd_eq; reflexivity).
  assert (Tr : forall L, (forall y, In y L -> In y (L1 ++ L2)) -> sortd h L -> sortd h' L).
  { intros L HL HsL. unfold sortd in *. induction L as [|a L IH]; [constructor|]. inversion HsL as [|? ? H1 H2]; subst. constructor.
    - apply IH; [|assumption]. intros y Hy. apply HL. right. assumption.
    - rewrite Forall_forall in H2 |- *. intros y Hy. rewrite (Ne a) by (apply HL; left; reflexivity). rewrite (Ne y) by (apply HL; right; assumption). auto. }
  apply sortd_app in Hs. destruct Hs as (S1 & S2 & S12).
  apply sortd_app. split; [apply Tr; [intros; apply in_or_app; auto|assumption]|]. split.
  - apply sortd_cons. split; [apply Tr; [intros; apply in_or_app; auto|assumption]|]. intros y Hy. rewrite Kx, Ne by (apply in_or_app; auto). apply gt_lt. auto.
  - intros y z Hy [<-|Hz]; [rewrite Kx, Ne by (apply in_or_app; auto); auto|]. rewrite !Ne by (apply in_or_app; auto). auto.
Qed.
End S.
