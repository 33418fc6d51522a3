(** The balance step and the loop from a changed place to the root. *)
From Coq Require Import ZArith Arith List Bool Lia.
From Verif Require Import AvlModel AvlProofs.
Import ListNotations.
Local Open Scope nat_scope.

Section P.
Context {A : Type}.
Notation heap := (heap A).

Lemma rep_put_bf : forall (h : heap) p x l b r v, rep h p x (T l x b r) -> nodup (ino (T l x b r)) -> rep (put_bf x v h) p x (T l x v r).
Proof.
  intros h p x l b r v H Hn. cbn [rep] in *. destruct H as (_ & Hx & Hp & Hb & Hl & Hr). fld. rewrite upd_eq.
  do 4 (split; [auto|]). assert (Hnx := Hn x). cnts. rewrite Nat.eqb_refl in Hnx.
  split; [apply (rep_same l h); [|assumption]|apply (rep_same r h); [|assumption]]; intros y Hy; unfold fsame; fld; rewrite upd_ne; auto; intros ->; lia.
Qed.
Lemma fsame_trans : forall (h1 h2 h3 : heap) y, fsame h1 h2 y -> fsame h2 h3 y -> fsame h1 h3 y.
Proof. unfold fsame. intuition congruence. Qed.

Lemma rep_set_lft : forall (h h1 : heap) p x l b r a' l',
  rep h p x (T l x b r) -> nodup (ino (T l x b r)) -> (forall y, cnt y (ino l) = 0 -> fsame h h1 y) ->
  rep h1 x a' l' -> ino l' = ino l -> rep (set_lft x a' h1) p x (T l' x b r).
Proof.
  intros h h1 p x l b r a' l' H Hn Hs H1 Hi. cbn [rep] in *. destruct H as (_ & Hx & Hp & Hb & Hl & Hr). fld. rewrite upd_eq.
  assert (Hnx := Hn x). cnts. rewrite Nat.eqb_refl in Hnx.
  destruct (Hs x) as (S1 & S2 & S3 & S4); [lia|]. rewrite S1, S3, S4.
  do 4 (split; [auto|]). split.
  - apply (rep_same l' h1); [|assumption]. intros y Hy. unfold fsame. fld. rewrite upd_ne; auto. intros ->. rewrite Hi in Hy. lia.
  - apply (rep_same r h); [|assumption]. intros y Hy. specialize (Hn y). cnts. destruct (Nat.eqb_spec y x) as [Q|Hne]; [lia|].
    apply (fsame_trans h h1); [apply Hs; lia|]. unfold fsame; fld. rewrite upd_ne; auto.
Qed.
Lemma rep_set_rgt : forall (h h1 : heap) p x l b r a' r',
  rep h p x (T l x b r) -> nodup (ino (T l x b r)) -> (forall y, cnt y (ino r) = 0 -> fsame h h1 y) ->
  rep h1 x a' r' -> ino r' = ino r -> rep (set_rgt x a' h1) p x (T l x b r').
Proof.
  intros h h1 p x l b r a' r' H Hn Hs H1 Hi. cbn [rep] in *. destruct H as (_ & Hx & Hp & Hb & Hl & Hr). fld. rewrite upd_eq.
  assert (Hnx := Hn x). cnts. rewrite Nat.eqb_refl in Hnx.
  destruct (Hs x) as (S1 & S2 & S3 & S4); [lia|]. rewrite S1, S2, S4.
  do 4 (split; [auto|]). split.
  - apply (rep_same l h); [|assumption]. intros y Hy. specialize (Hn y). cnts. destruct (Nat.eqb_spec y x) as [Q|Hne]; [lia|].
    apply (fsame_trans h h1); [apply Hs; lia|]. unfold fsame; fld. rewrite upd_ne; auto.
  - apply (rep_same r' h1); [|assumption]. intros y Hy. unfold fsame. fld. rewrite upd_ne; auto. intros ->. rewrite Hi in Hy. lia.
Qed.

Definition bal_res (h : heap) (p : nat) (t : tree) (D hl hr : Z) (Q : Prop) (res : option (heap * nat)) : Prop :=
  exists h' a' t', res = Some (h', a') /\ rep h' p a' t' /\ bal t' /\ ino t' = ino t /\
    (forall y, cnt y (ino t) = 0 -> fsame h h' y) /\ h_key h' = h_key h /\ h_root h' = h_root h /\
    ((Z.abs D <= 1 /\ rbf t' = D /\ hgt t' = 1 + Z.max hl hr) \/
     (Z.abs D = 2 /\ rbf t' = 0 /\ hgt t' = Z.max hl hr) \/
     (Z.abs D = 2 /\ Z.abs (rbf t') = 1 /\ hgt t' = 1 + Z.max hl hr /\ Q))%Z.

Lemma LL_fin : forall (h0 h : heap) p a ta c cb tb ab td pbf cbf t D hl hr Q,
  rep h p a (T (T ta c cb tb) a ab td) -> nodup (ino (T (T ta c cb tb) a ab td)) ->
  (cbf = hgt tb - hgt ta)%Z -> (pbf = hgt td - (1 + Z.max (hgt ta) (hgt tb)))%Z ->
  (-1 <= hgt td - hgt tb <= 1)%Z -> (-1 <= 1 + Z.max (hgt tb) (hgt td) - hgt ta <= 1)%Z ->
  bal ta -> bal tb -> bal td ->
  ino t = ino (T (T ta c cb tb) a ab td) -> (forall y, cnt y (ino t) = 0 -> fsame h0 h y) -> h_key h = h_key h0 -> h_root h = h_root h0 ->
  ((Z.abs D = 2 /\ 1 + Z.max (hgt tb) (hgt td) = hgt ta /\ 1 + Z.max (1 + Z.max (hgt tb) (hgt td)) (hgt ta) = Z.max hl hr) \/
   (Z.abs D = 2 /\ Z.abs (1 + Z.max (hgt tb) (hgt td) - hgt ta) = 1 /\ 1 + Z.max (1 + Z.max (hgt tb) (hgt td)) (hgt ta) = 1 + Z.max hl hr /\ Q))%Z ->
  bal_res h0 p t D hl hr Q (match rotate_LL h a pbf cbf with None => None | Some (h2, ret, cb2, _) => match set_bf ret cb2 h2 with None => None | Some h3 => Some (h3, ret) end end).
Proof.
  intros h0 h p a ta c cb tb ab td pbf cbf t D hl hr Q Hr Hn Hc Hp H1 H2 B1 B2 B3 Hi Hf Hk Hrt HD.
  rewrite (LL_run _ _ _ _ _ _ _ _ _ _ _ Hr Hc Hp) by lia. rewrite set_bf_ok by lia.
  destruct (LL_rep _ _ _ _ _ _ _ _ _ (hgt td - hgt tb)%Z Hr Hn) as (Hr2 & Hf2 & Hk2 & Hrt2).
  assert (Hn2 : nodup (ino (T ta c cb (T tb a (hgt td - hgt tb) td)))).
  { intro y. specialize (Hn y). cnts. lia. }
  pose proof (rep_put_bf _ _ _ _ _ _ (1 + Z.max (hgt tb) (hgt td) - hgt ta)%Z Hr2 Hn2) as Hr3.
  eexists _, _, _. split; [reflexivity|]. split; [exact Hr3|]. split; [cbn [bal hgt]; repeat split; auto; lia|].
  split; [rewrite Hi; cbn [ino]; repeat (rewrite <- app_assoc; cbn [app]); reflexivity|].
  split.
  { intros y Hy. apply (fsame_trans h0 h); [auto|]. rewrite Hi in Hy. apply (fsame_trans h _ _ _ (Hf2 y Hy)).
    unfold fsame; fld. rewrite upd_ne; auto. intros ->. cnts. rewrite Nat.eqb_refl in Hy. lia. }
  split; [fld; congruence|]. split; [fld; congruence|]. cbn [rbf hgt]. destruct HD as [HD|(HD1 & HD2 & HD3 & HD4)]; [right; left; lia|right; right; split; [lia|split; [lia|split; [lia|exact HD4]]]].
Qed.
Lemma RR_fin : forall (h0 h : heap) p a ta c cb tb ab td pbf cbf t D hl hr Q,
  rep h p a (T td a ab (T tb c cb ta)) -> nodup (ino (T td a ab (T tb c cb ta))) ->
  (cbf = hgt ta - hgt tb)%Z -> (pbf = (1 + Z.max (hgt ta) (hgt tb)) - hgt td)%Z ->
  (-1 <= hgt tb - hgt td <= 1)%Z -> (-1 <= hgt ta - (1 + Z.max (hgt tb) (hgt td)) <= 1)%Z ->
  bal ta -> bal tb -> bal td ->
  ino t = ino (T td a ab (T tb c cb ta)) -> (forall y, cnt y (ino t) = 0 -> fsame h0 h y) -> h_key h = h_key h0 -> h_root h = h_root h0 ->
  ((Z.abs D = 2 /\ 1 + Z.max (hgt tb) (hgt td) = hgt ta /\ 1 + Z.max (1 + Z.max (hgt tb) (hgt td)) (hgt ta) = Z.max hl hr) \/
   (Z.abs D = 2 /\ Z.abs (1 + Z.max (hgt tb) (hgt td) - hgt ta) = 1 /\ 1 + Z.max (1 + Z.max (hgt tb) (hgt td)) (hgt ta) = 1 + Z.max hl hr /\ Q))%Z ->
  bal_res h0 p t D hl hr Q (match rotate_RR h a pbf cbf with None => None | Some (h2, ret, cb2, _) => match set_bf ret cb2 h2 with None => None | Some h3 => Some (h3, ret) end end).
Proof.
  intros h0 h p a ta c cb tb ab td pbf cbf t D hl hr Q Hr Hn Hc Hp H1 H2 B1 B2 B3 Hi Hf Hk Hrt HD.
  rewrite (RR_run _ _ _ _ _ _ _ _ _ _ _ Hr Hc Hp) by lia. rewrite set_bf_ok by lia.
  destruct (RR_rep _ _ _ _ _ _ _ _ _ (hgt tb - hgt td)%Z Hr Hn) as (Hr2 & Hf2 & Hk2 & Hrt2).
  assert (Hn2 : nodup (ino (T (T td a (hgt tb - hgt td) tb) c cb ta))).
  { intro y. specialize (Hn y). cnts. lia. }
  pose proof (rep_put_bf _ _ _ _ _ _ (hgt ta - (1 + Z.max (hgt tb) (hgt td)))%Z Hr2 Hn2) as Hr3.
  eexists _, _, _. split; [reflexivity|]. split; [exact Hr3|]. split; [cbn [bal hgt]; repeat split; auto; lia|].
  split; [rewrite Hi; cbn [ino]; repeat (rewrite <- app_assoc; cbn [app]); reflexivity|].
  split.
  { intros y Hy. apply (fsame_trans h0 h); [auto|]. rewrite Hi in Hy. apply (fsame_trans h _ _ _ (Hf2 y Hy)).
    unfold fsame; fld. rewrite upd_ne; auto. intros ->. cnts. rewrite Nat.eqb_refl in Hy. lia. }
  split; [fld; congruence|]. split; [fld; congruence|]. cbn [rbf hgt]. destruct HD as [HD|(HD1 & HD2 & HD3 & HD4)]; [right; left; lia|right; right; split; [lia|split; [lia|split; [lia|exact HD4]]]].
Qed.

Lemma rep_get_bal : forall t (h : heap) p a, rep h p a t -> get_balance h a = rbf t.
Proof. intros [|l x b r] h p a H; cbn [rep] in H; unfold get_balance; [subst; reflexivity|]. destruct H as (-> & Hx & _ & Hb & _). rewrite (proj2 (Nat.eqb_neq x 0)) by assumption. assumption. Qed.
Lemma rep_null : forall t (h : heap) p a, rep h p a t -> (a =? 0) = match t with E => true | _ => false end.
Proof. intros [|l x b r] h p a H; cbn [rep] in H; [subst; reflexivity|]. destruct H as (-> & Hx & _). apply Nat.eqb_neq. assumption. Qed.

Lemma balance_ok : forall (h : heap) p a l x b r d,
  rep h p a (T l x b r) -> nodup (ino (T l x b r)) -> bal l -> bal r -> (-1 <= b <= 1)%Z ->
  (b + d = hgt r - hgt l)%Z -> (-2 <= b + d <= 2)%Z ->
  bal_res h p (T l x b r) (b + d) (hgt l) (hgt r) ((b + d = -2 /\ rbf l = 0) \/ (b + d = 2 /\ rbf r = 0))%Z (balance h a d).
Proof.
  intros h p a l x b r d Hr Hn Bl Br Hb HD HR.
  assert (Hr0 := Hr). cbn [rep] in Hr. destruct Hr as (-> & Hx & Hp & Hbf & Hl & Hrr).
  unfold balance. rewrite (proj2 (Nat.eqb_neq x 0)) by assumption.
  rewrite (rep_get_bal _ _ _ _ Hr0). cbn [rbf].
  rewrite (rep_null _ _ _ _ Hl), (rep_null _ _ _ _ Hrr).
  destruct (Z.ltb_spec (b + d) (-1)) as [D1|D1].
  - destruct l as [|ta c cb tb]; [cbn [hgt] in *; pose proof (hgt_pos r); lia|].
    cbn [andb negb]. rewrite (rep_get_bal _ _ _ _ Hl). cbn [rbf].
    cbn [bal] in Bl. destruct Bl as (Bta & Btb & Ecb & Rcb).
    assert (Ec : h_lft h x = c) by (cbn [rep] in Hl; tauto).
    assert (Ebc : h_bf h c = cb) by (cbn [rep] in Hl; tauto). rewrite Ec, Ebc.
    destruct (Z.leb_spec cb 0) as [Q|Q].
    + apply (LL_fin h h p x ta c cb tb b r); auto; cbn [hgt rbf] in *; try lia.
      intros y _. unfold fsame; auto.
    + unfold rotate_LR. rewrite Ec. assert (Hc : c <> 0) by (cbn [rep] in Hl; tauto).
      rewrite (proj2 (Nat.eqb_neq c 0)) by assumption.
      destruct tb as [|gl g gb gr]; [cbn [hgt] in Ecb; pose proof (hgt_pos ta); lia|].
      cbn [bal] in Btb. destruct Btb as (Bgl & Bgr & Egb & Rgb).
      rewrite Ec in Hl.
      assert (Hg : h_rgt h c = g) by (cbn [rep] in Hl; tauto).
      assert (Hg0 : g <> 0) by (cbn [rep] in Hl; tauto).
      assert (Hgb : h_bf h g = gb) by (cbn [rep] in Hl; tauto).
      rewrite Hg, Hgb, Ebc, (proj2 (Nat.eqb_neq g 0)) by assumption.
      assert (Hnl : nodup (ino (T ta c cb (T gl g gb gr)))). { intro y. specialize (Hn y). cnts. lia. }
      cbn [hgt] in *.
      rewrite (RR_run _ _ _ _ _ _ _ _ _ _ _ Hl) by lia.
      destruct (RR_rep _ _ _ _ _ _ _ _ _ (hgt gl - hgt ta)%Z Hl Hnl) as (Hr2 & Hf2 & Hk2 & Hrt2).
      assert (Hr3 : rep (set_lft x g (RRheap h c g (hgt gl - hgt ta))) p x (T (T (T ta c (hgt gl - hgt ta) gl) g gb gr) x b r)).
      { apply (rep_set_lft h _ p x _ b r g _ Hr0 Hn Hf2 Hr2). cbn [ino]. repeat (rewrite <- app_assoc; cbn [app]). reflexivity. }
      eapply (LL_fin h _ p x (T ta c (hgt gl - hgt ta) gl) g gb gr b r); [exact Hr3| | | | | | | | | | | | |]; cbn [hgt bal rbf] in *; auto; try lia.
      * intro y. specialize (Hn y). cnts. lia.
      * repeat split; auto; lia.
      * cbn [ino]. repeat (rewrite <- app_assoc; cbn [app]). reflexivity.
      * intros y Hy. apply (fsame_trans h (RRheap h c g (hgt gl - hgt ta))); [apply Hf2; cnts; lia|].
        unfold fsame; fld. rewrite upd_ne; auto. intros ->. cnts. rewrite Nat.eqb_refl in Hy. lia.
  - cbn [andb]. destruct (Z.ltb_spec 1 (b + d)) as [D2|D2].
    + destruct r as [|tb c cb ta]; [cbn [hgt] in *; pose proof (hgt_pos l); lia|].
      cbn [andb negb]. rewrite (rep_get_bal _ _ _ _ Hrr). cbn [rbf].
      cbn [bal] in Br. destruct Br as (Btb & Bta & Ecb & Rcb).
      assert (Ec : h_rgt h x = c) by (cbn [rep] in Hrr; tauto).
      assert (Ebc : h_bf h c = cb) by (cbn [rep] in Hrr; tauto). rewrite Ec, Ebc.
      destruct (Z.leb_spec 0 cb) as [Q|Q].
      * apply (RR_fin h h p x ta c cb tb b l); auto; cbn [hgt rbf] in *; try lia.
        intros y _. unfold fsame; auto.
      * unfold rotate_RL. rewrite Ec. assert (Hc : c <> 0) by (cbn [rep] in Hrr; tauto).
        rewrite (proj2 (Nat.eqb_neq c 0)) by assumption.
        destruct tb as [|gr g gb gl]; [cbn [hgt] in Ecb; pose proof (hgt_pos ta); lia|].
        cbn [bal] in Btb. destruct Btb as (Bgr & Bgl & Egb & Rgb).
        rewrite Ec in Hrr.
        assert (Hg : h_lft h c = g) by (cbn [rep] in Hrr; tauto).
        assert (Hg0 : g <> 0) by (cbn [rep] in Hrr; tauto).
        assert (Hgb : h_bf h g = gb) by (cbn [rep] in Hrr; tauto).
        rewrite Hg, Hgb, Ebc, (proj2 (Nat.eqb_neq g 0)) by assumption.
        assert (Hnl : nodup (ino (T (T gr g gb gl) c cb ta))). { intro y. specialize (Hn y). cnts. lia. }
        cbn [hgt] in *.
        rewrite (LL_run _ _ _ _ _ _ _ _ _ _ _ Hrr) by lia.
        destruct (LL_rep _ _ _ _ _ _ _ _ _ (hgt ta - hgt gl)%Z Hrr Hnl) as (Hr2 & Hf2 & Hk2 & Hrt2).
        assert (Hr3 : rep (set_rgt x g (LLheap h c g (hgt ta - hgt gl))) p x (T l x b (T gr g gb (T gl c (hgt ta - hgt gl) ta)))).
        { apply (rep_set_rgt h _ p x l b _ g _ Hr0 Hn Hf2 Hr2). cbn [ino]. repeat (rewrite <- app_assoc; cbn [app]). reflexivity. }
        eapply (RR_fin h _ p x (T gl c (hgt ta - hgt gl) ta) g gb gr b l); [exact Hr3| | | | | | | | | | | | |]; cbn [hgt bal rbf] in *; auto; try lia.
        -- intro y. specialize (Hn y). cnts. lia.
        -- repeat split; auto; lia.
        -- cbn [ino]. repeat (rewrite <- app_assoc; cbn [app]). reflexivity.
        -- intros y Hy. apply (fsame_trans h (LLheap h c g (hgt ta - hgt gl))); [apply Hf2; cnts; lia|].
           unfold fsame; fld. rewrite upd_ne; auto. intros ->. cnts. rewrite Nat.eqb_refl in Hy. lia.
    + cbn [andb]. rewrite Hbf. rewrite set_bf_ok by lia.
      eexists _, _, _. split; [reflexivity|]. split; [apply (rep_put_bf _ _ _ _ _ _ (b + d)%Z Hr0 Hn)|].
      split; [cbn [bal]; repeat split; auto; lia|]. split; [reflexivity|]. split.
      { intros y Hy. unfold fsame; fld. rewrite upd_ne; auto. intros ->. cnts. rewrite Nat.eqb_refl in Hy. lia. }
      do 2 (split; [reflexivity|]). left. cbn [rbf hgt]. lia.
Qed.
End P.
