(** The loop from a changed place to the root restores the balance. *)
From Coq Require Import ZArith Arith List Bool Lia.
From Verif Require Import AvlModel AvlProofs AvlProofs2.
Import ListNotations.
Local Open Scope nat_scope.

Section P.
Context {A : Type}.
Notation heap := (heap A).

Definition gg (ins : bool) : Z := if ins then 1%Z else (-1)%Z.
(** One subtree of the node has changed its height by [gg ins]; [b] is the balance before, [H] the
    height before; or the node is a new leaf. *)
Definition chg (ins : bool) (l : tree) (b : Z) (r : tree) (d H : Z) : Prop :=
  (ins = true /\ l = E /\ r = E /\ b = 0 /\ d = 0 /\ H = 0)%Z \/
  (d = - gg ins /\ (ins = true -> rbf l <> 0 \/ hgt l = 1) /\ 0 <= hgt l - gg ins /\ b = hgt r - (hgt l - gg ins) /\ H = 1 + Z.max (hgt l - gg ins) (hgt r))%Z \/
  (d = gg ins /\ (ins = true -> rbf r <> 0 \/ hgt r = 1) /\ 0 <= hgt r - gg ins /\ b = (hgt r - gg ins) - hgt l /\ H = 1 + Z.max (hgt l) (hgt r - gg ins))%Z.

Definition leafb (l r : tree) : bool := match l, r with E, E => true | _, _ => false end.
Definition cascade (ins : bool) (b : Z) (l' : tree) (b' : Z) (r' : tree) : bool :=
  if leafb l' r' then true else if ins then (Z.abs b <? Z.abs b')%Z else (Z.abs b' <? Z.abs b)%Z.

Lemma chg_sum : forall ins l b r d H, chg ins l b r d H -> (b + d = hgt r - hgt l)%Z.
Proof. unfold chg, gg. intros ins l b r d H [(-> & -> & -> & -> & -> & ->)|[H1|H1]]; [reflexivity|lia|lia]. Qed.
Lemma chg_rng : forall ins l b r d H, chg ins l b r d H -> (-1 <= b <= 1)%Z -> (-2 <= b + d <= 2)%Z.
Proof. unfold chg, gg. intros ins l b r d H [(-> & -> & -> & -> & -> & ->)|[H1|H1]]; [lia|destruct ins; lia..]. Qed.

Lemma cascade_ok : forall ins l b r d H l' x' b' r',
  chg ins l b r d H -> (-1 <= b <= 1)%Z -> bal (T l' x' b' r') ->
  ((Z.abs (b + d) <= 1 /\ b' = b + d /\ hgt (T l' x' b' r') = 1 + Z.max (hgt l) (hgt r)) \/
   (Z.abs (b + d) = 2 /\ b' = 0 /\ hgt (T l' x' b' r') = Z.max (hgt l) (hgt r)) \/
   (Z.abs (b + d) = 2 /\ Z.abs b' = 1 /\ hgt (T l' x' b' r') = 1 + Z.max (hgt l) (hgt r) /\
    ((b + d = -2 /\ rbf l = 0) \/ (b + d = 2 /\ rbf r = 0))))%Z ->
  hgt (T l' x' b' r') = (if cascade ins b l' b' r' then H + gg ins else H)%Z.
Proof.
  intros ins l b r d H l' x' b' r' Hc Hb Hbal HD.
  pose proof (hgt_pos l) as P1. pose proof (hgt_pos r) as P2. pose proof (hgt_pos l') as P3. pose proof (hgt_pos r') as P4.
  destruct (leafb l' r') eqn:Lf; unfold cascade; rewrite Lf.
  - assert (l' = E /\ r' = E) as (-> & ->) by (destruct l', r'; try discriminate; auto).
    cbn [hgt bal] in *. destruct Hc as [(-> & -> & -> & -> & -> & ->)|[Hc|Hc]].
    + reflexivity.
    + destruct ins; cbn [gg] in *; lia.
    + destruct ins; cbn [gg] in *; lia.
  - assert (1 <= Z.max (hgt l') (hgt r'))%Z.
    { destruct l' as [|l1 x1 b1 r1]; [destruct r' as [|l1 x1 b1 r1]; [discriminate|]|]; cbn [hgt];
      pose proof (hgt_pos l1); pose proof (hgt_pos r1); lia. }
    cbn [hgt bal] in *.
    destruct Hc as [(-> & -> & -> & -> & -> & ->)|[Hc|Hc]]; cbn [hgt] in *.
    + lia.
    + destruct ins; cbn [gg] in *.
      * destruct (Z.ltb_spec (Z.abs b) (Z.abs b')); lia.
      * destruct (Z.ltb_spec (Z.abs b') (Z.abs b)); lia.
    + destruct ins; cbn [gg] in *.
      * destruct (Z.ltb_spec (Z.abs b) (Z.abs b')); lia.
      * destruct (Z.ltb_spec (Z.abs b') (Z.abs b)); lia.
Qed.

Lemma up_ok : forall c ins fuel (h : heap) a p l x b r d H,
  rep h p a (T l x b r) -> rpc h a p c (h_root h) 0 -> nodup (cl c ++ ino (T l x b r) ++ cr c) ->
  bal l -> bal r -> (-1 <= b <= 1)%Z -> chg ins l b r d H -> cbal H c -> length c < fuel ->
  exists h' t', up ins fuel h a d = Some h' /\ rep h' 0 (h_root h') t' /\ bal t' /\
    ino t' = cl c ++ ino (T l x b r) ++ cr c /\ h_key h' = h_key h.
Proof.
  induction c as [|fr c IH]; intros ins fuel h a p l x b r d H Hr Hc Hn Bl Br Hb Hch HB HF;
    (destruct fuel as [|fuel]; [lia|]); cbn [up].
  - cbn [rpc] in Hc. destruct Hc as (Hroot & ->). assert (Hx : a = x /\ x <> 0) by (cbn [rep] in Hr; tauto). destruct Hx as (-> & Hx).
    assert (Hp : h_par h x = 0) by (cbn [rep] in Hr; tauto).
    rewrite (proj2 (Nat.eqb_neq x 0)) by assumption. rewrite Hp. cbn [Nat.eqb negb]. rewrite <- Hroot, Nat.eqb_refl.
    cbn [cl cr app] in Hn. rewrite app_nil_r in Hn.
    destruct (balance_ok h 0 x l x b r d Hr Hn Bl Br Hb (chg_sum _ _ _ _ _ _ Hch) (chg_rng _ _ _ _ _ _ Hch Hb))
      as (h1 & a1 & t1 & E1 & R1 & B1 & I1 & F1 & K1 & _ & _).
    rewrite E1. exists (set_root a1 h1), t1. split; [reflexivity|]. cbn [h_root set_root].
    split; [apply (rep_same t1 h1); [intros y _; unfold fsame; auto|assumption]|].
    split; [assumption|]. cbn [cl cr app]. rewrite app_nil_r. auto.
  - assert (Hx : a = x /\ x <> 0 /\ h_par h x = p /\ h_bf h x = b) by (cbn [rep] in Hr; tauto). destruct Hx as (-> & Hx & Hp & Hbf).
    rewrite (proj2 (Nat.eqb_neq x 0)) by assumption. rewrite Hp, Hbf.
    assert (Hnt : nodup (ino (T l x b r))). { intro y. specialize (Hn y). rewrite 2 cnt_app in Hn. lia. }
    destruct (balance_ok h p x l x b r d Hr Hnt Bl Br Hb (chg_sum _ _ _ _ _ _ Hch) (chg_rng _ _ _ _ _ _ Hch Hb))
      as (h1 & a1 & t1 & E1 & R1 & B1 & I1 & F1 & K1 & Rt1 & HD).
    rewrite E1. cbv zeta.
    destruct t1 as [|l1 x1 b1 r1]; [exfalso; assert (Q := f_equal (cnt x) I1); cnts; rewrite Nat.eqb_refl in Q; lia|].
    cbn [rbf] in HD. assert (HH := cascade_ok _ _ _ _ _ _ _ x1 _ _ Hch Hb B1 HD).
    assert (Hx1 : a1 = x1 /\ x1 <> 0 /\ h_par h1 x1 = p /\ h_bf h1 x1 = b1) by (cbn [rep] in R1; tauto). destruct Hx1 as (-> & Hx1 & Hp1 & Hbf1).
    assert (C1 : 1 <= cnt x1 (ino (T l x b r))). { rewrite <- I1. cnts. rewrite Nat.eqb_refl. lia. }
    assert (L1 : rep h1 x1 (h_lft h1 x1) l1) by (cbn [rep] in R1; tauto).
    assert (L2 : rep h1 x1 (h_rgt h1 x1) r1) by (cbn [rep] in R1; tauto).
    destruct fr as [x2 b2 r2|l2 x2 b2]; cbn [rpc] in Hc; destruct Hc as (-> & Hx2 & Ha & Hb2 & Hr2 & Hc); cbn [cl cr] in *;
      rewrite (proj2 (Nat.eqb_neq x2 0)) by assumption; cbn [negb].
    + (* the left child of x2 *)
      assert (Nx : x1 <> x2). { intros ->. specialize (Hn x2). cnts. rewrite Nat.eqb_refl in Hn. lia. }
      assert (Er : (h_rgt h x2 =? x) = false).
      { apply Nat.eqb_neq. intro Q. assert (Hi := rep_root_in _ _ _ _ Hr2). rewrite Q in Hi. specialize (Hi Hx).
        specialize (Hn x). cnts. rewrite Nat.eqb_refl in Hn. lia. }
      rewrite Er. cbn [h_lft h_rgt h_bf set_lft]. rewrite upd_eq, Nat.eqb_refl. rewrite upd_ne by assumption.
      rewrite (rep_null _ _ _ _ L1), (rep_null _ _ _ _ L2), Hbf1.
      assert (R3 : rep (set_lft x2 x1 h1) (h_par h x2) x2 (T (T l1 x1 b1 r1) x2 b2 r2)).
      { apply (rep_set_lft h h1 (h_par h x2) x2 (T l x b r) b2 r2); auto.
        - cbn [rep]. rewrite Ha. cbn [rep] in Hr. tauto.
        - intro y. specialize (Hn y). cnts. lia. }
      assert (C3 : rpc (set_lft x2 x1 h1) x2 (h_par h x2) c (h_root (set_lft x2 x1 h1)) 0).
      { cbn [h_root set_lft]. rewrite Rt1. apply (rpc_same c h); [|assumption]. intros y Hy.
        specialize (Hn y). cnts. destruct (Nat.eqb_spec y x2) as [Q|Q]; [lia|].
        apply (fsame_trans h h1); [apply F1; cnts; lia|]. unfold fsame; fld. rewrite upd_ne; auto. }
      cbn [cbal] in HB. destruct HB as (Br2 & Eb2 & Rb2 & HB).
      replace (if _ && _ then _ else _) with (if cascade ins b l1 b1 r1 then - gg ins else 0)%Z.
      2:{ unfold cascade, leafb. destruct l1, r1, ins; cbn [andb negb gg]; reflexivity. }
      destruct (cascade ins b l1 b1 r1) eqn:Ec.
      * replace (- gg ins =? 0)%Z with false by (destruct ins; reflexivity).
        destruct (IH ins fuel (set_lft x2 x1 h1) x2 (h_par h x2) (T l1 x1 b1 r1) x2 b2 r2 (- gg ins)%Z (1 + Z.max H (hgt r2))%Z) as (h' & t' & U1 & U2 & U3 & U4 & U5); auto.
        { intro y. specialize (Hn y). cnts. assert (Q := f_equal (cnt y) I1). cnts. lia. }
        { right. left. pose proof (hgt_pos (T l x b r)). assert (0 <= H)%Z. { destruct Hch as [Q|[Q|Q]]; [lia|destruct ins; cbn [gg] in *; lia..]. }
          assert (ins = true -> b1 <> 0%Z \/ hgt (T l1 x1 b1 r1) = 1%Z) as HQ.
          { intros ->. unfold cascade in Ec. destruct (leafb l1 r1) eqn:Lf; [right; destruct l1, r1; try discriminate; reflexivity|].
            left. apply Z.ltb_lt in Ec. lia. }
          split; [reflexivity|]. split; [exact HQ|]. rewrite HH. repeat split; lia. }
        { cbn [length] in HF. lia. }
        exists h', t'. split; [assumption|]. do 2 (split; [assumption|]). split; [|rewrite U5; assumption].
        rewrite U4. change (ino (T (T l1 x1 b1 r1) x2 b2 r2)) with (ino (T l1 x1 b1 r1) ++ x2 :: ino r2). rewrite I1.
        cbn [ino]. repeat (rewrite <- app_assoc; cbn [app]). reflexivity.
      * cbn [Z.eqb]. exists (set_lft x2 x1 h1), (plug c (T (T l1 x1 b1 r1) x2 b2 r2)). split; [reflexivity|].
        split; [apply (plug_rep _ _ _ _ _ _ _ C3 R3)|]. split.
        { apply plug_bal. assert (B1' := B1). split; [|cbn [hgt] in *; rewrite HH; assumption].
          change (bal (T l1 x1 b1 r1) /\ bal r2 /\ (b2 = hgt r2 - hgt (T l1 x1 b1 r1))%Z /\ (-1 <= b2 <= 1)%Z). rewrite HH. auto. }
        split; [|assumption]. rewrite ino_plug. change (ino (T (T l1 x1 b1 r1) x2 b2 r2)) with (ino (T l1 x1 b1 r1) ++ x2 :: ino r2). rewrite I1.
        cbn [ino]. repeat (rewrite <- app_assoc; cbn [app]). reflexivity.
    + (* the right child of x2 *)
      assert (Nx : x1 <> x2). { intros ->. specialize (Hn x2). cnts. rewrite Nat.eqb_refl in Hn. lia. }
      rewrite Ha, Nat.eqb_refl. cbn [h_lft h_rgt h_bf set_rgt]. rewrite upd_ne by assumption.
      assert (Er : (h_lft h1 x2 =? x1) = false).
      { apply Nat.eqb_neq. assert (Q0 : h_lft h1 x2 = h_lft h x2) by (apply F1; specialize (Hn x2); cnts; rewrite Nat.eqb_refl in Hn; lia).
        rewrite Q0. intro Q. assert (Hi := rep_root_in _ _ _ _ Hr2). rewrite Q in Hi. specialize (Hi Hx1).
        specialize (Hn x1). cnts. lia. }
      rewrite Er.
      rewrite (rep_null _ _ _ _ L1), (rep_null _ _ _ _ L2), Hbf1.
      assert (R3 : rep (set_rgt x2 x1 h1) (h_par h x2) x2 (T l2 x2 b2 (T l1 x1 b1 r1))).
      { apply (rep_set_rgt h h1 (h_par h x2) x2 l2 b2 (T l x b r)); auto.
        - cbn [rep]. rewrite Ha. cbn [rep] in Hr. tauto.
        - intro y. specialize (Hn y). cnts. lia. }
      assert (C3 : rpc (set_rgt x2 x1 h1) x2 (h_par h x2) c (h_root (set_rgt x2 x1 h1)) 0).
      { cbn [h_root set_rgt]. rewrite Rt1. apply (rpc_same c h); [|assumption]. intros y Hy.
        specialize (Hn y). cnts. destruct (Nat.eqb_spec y x2) as [Q|Q]; [lia|].
        apply (fsame_trans h h1); [apply F1; cnts; lia|]. unfold fsame; fld. rewrite upd_ne; auto. }
      cbn [cbal] in HB. destruct HB as (Br2 & Eb2 & Rb2 & HB).
      replace (if _ && _ then _ else _) with (if cascade ins b l1 b1 r1 then gg ins else 0)%Z.
      2:{ unfold cascade, leafb. destruct l1, r1, ins; cbn [andb negb gg Z.opp]; reflexivity. }
      destruct (cascade ins b l1 b1 r1) eqn:Ec.
      * replace (gg ins =? 0)%Z with false by (destruct ins; reflexivity).
        destruct (IH ins fuel (set_rgt x2 x1 h1) x2 (h_par h x2) l2 x2 b2 (T l1 x1 b1 r1) (gg ins)%Z (1 + Z.max (hgt l2) H)%Z) as (h' & t' & U1 & U2 & U3 & U4 & U5); auto.
        { intro y. specialize (Hn y). cnts. assert (Q := f_equal (cnt y) I1). cnts. lia. }
        { right. right. pose proof (hgt_pos (T l x b r)). assert (0 <= H)%Z. { destruct Hch as [Q|[Q|Q]]; [lia|destruct ins; cbn [gg] in *; lia..]. }
          assert (ins = true -> b1 <> 0%Z \/ hgt (T l1 x1 b1 r1) = 1%Z) as HQ.
          { intros ->. unfold cascade in Ec. destruct (leafb l1 r1) eqn:Lf; [right; destruct l1, r1; try discriminate; reflexivity|].
            left. apply Z.ltb_lt in Ec. lia. }
          split; [reflexivity|]. split; [exact HQ|]. rewrite HH. repeat split; lia. }
        { cbn [length] in HF. lia. }
        exists h', t'. split; [assumption|]. do 2 (split; [assumption|]). split; [|rewrite U5; assumption].
        rewrite U4. change (ino (T l2 x2 b2 (T l1 x1 b1 r1))) with (ino l2 ++ x2 :: ino (T l1 x1 b1 r1)). rewrite I1.
        cbn [ino]. repeat (rewrite <- app_assoc; cbn [app]). reflexivity.
      * cbn [Z.eqb]. exists (set_rgt x2 x1 h1), (plug c (T l2 x2 b2 (T l1 x1 b1 r1))). split; [reflexivity|].
        split; [apply (plug_rep _ _ _ _ _ _ _ C3 R3)|]. split.
        { apply plug_bal. assert (B1' := B1). split; [|cbn [hgt] in *; rewrite HH; assumption].
          change (bal l2 /\ bal (T l1 x1 b1 r1) /\ (b2 = hgt (T l1 x1 b1 r1) - hgt l2)%Z /\ (-1 <= b2 <= 1)%Z). rewrite HH. auto. }
        split; [|assumption]. rewrite ino_plug. change (ino (T l2 x2 b2 (T l1 x1 b1 r1))) with (ino l2 ++ x2 :: ino (T l1 x1 b1 r1)). rewrite I1.
        cbn [ino]. repeat (rewrite <- app_assoc; cbn [app]). reflexivity.
Qed.
End P.
