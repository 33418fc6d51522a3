(** Removal and insertion keep a balanced tree; what they change. *)
From Coq Require Import ZArith Arith List Bool Lia Sorted.
From Verif Require Import AvlModel AvlProofs AvlProofs2 AvlProofs3 AvlProofs4 AvlProofs5.
Import ListNotations.
Local Open Scope nat_scope.

Section P.
Context {A : Type}.
Notation heap := (heap A).

Lemma set_bf_root : forall n (h5 : heap) x, (-1 <= h_bf h5 x <= 2)%Z -> set_bf n (h_bf h5 x) h5 = Some (put_bf n (h_bf h5 x) h5).
Proof. intros. apply set_bf_ok. assumption. Qed.

Lemma remove_ok : forall (h : heap) t x fuel, wf h t -> 1 <= cnt x (ino t) -> (hgt t < Z.of_nat fuel)%Z ->
  exists h' t' L1 L2, avl_remove fuel h x = Some h' /\ wf h' t' /\ ino t = L1 ++ x :: L2 /\ ino t' = L1 ++ L2 /\ h_key h' = h_key h.
Proof.
  intros h t x fuel (Hr & HB & HN) Hx HF.
  assert (Hc0 : rpc h (h_root h) 0 [] (h_root h) 0) by (cbn [rpc]; auto).
  destruct (focus t h (h_root h) 0 [] (h_root h) 0 x Hr Hc0 Hx) as (c & l & b & r & Rx & Cx & Ep). cbn [plug] in Ep.
  assert (Hx0 : x <> 0) by (cbn [rep] in Rx; tauto).
  assert (Hi : ino t = (cl c ++ ino l) ++ x :: (ino r ++ cr c)).
  { rewrite <- Ep, ino_plug. cbn [ino]. repeat (rewrite <- app_assoc; cbn [app]). reflexivity. }
  assert (Hnp : nodup (cl c ++ ino (T l x b r) ++ cr c)).
  { rewrite <- ino_plug, Ep. assumption. }
  assert (HBp := HB). rewrite <- Ep in HBp. apply plug_bal in HBp. destruct HBp as (Bt & Bc).
  cbn [bal] in Bt. destruct Bt as (Bl & Br & Eb & Rb).
  assert (Hlen := len_hgt c (T l x b r)). rewrite Ep in Hlen. cbn [hgt] in Hlen. pose proof (hgt_pos l) as Pl. pose proof (hgt_pos r) as Pr.
  unfold avl_remove. rewrite (proj2 (Nat.eqb_neq x 0)) by assumption.
  assert (Rr : rep h x (h_rgt h x) r) by (cbn [rep] in Rx; tauto).
  assert (Rl : rep h x (h_lft h x) l) by (cbn [rep] in Rx; tauto).
  assert (Ebf : h_bf h x = b) by (cbn [rep] in Rx; tauto).
  assert (HFr : (hgt r < Z.of_nat fuel)%Z) by lia.
  assert (Hxc : 1 <= cnt x (cl c) + cnt x (cr c) -> False). { intro Q. specialize (Hnp x). cnts. rewrite Nat.eqb_refl in Hnp. lia. }
  assert (Lm := leftmost_ok r fuel h (h_rgt h x) x 0 [] (h_rgt h x) x Rr (conj eq_refl eq_refl) I HFr).
  destruct r as [|r1 ry rb r2].
  - (* no right subtree *)
    rewrite Lm. cbn [Nat.eqb negb]. cbn [hgt] in *.
    assert (Hpx := ctx_px _ _ _ _ _ Cx Hx0 Hxc). set (px := h_par h x) in *. set (lx := h_lft h x) in *.
    set (h1 := match c with [] => h | FL y _ _ :: _ => set_lft y lx h | FR _ y _ :: _ => set_rgt y lx h end).
    set (bf := match c with [] => 0%Z | FL _ _ _ :: _ => 1%Z | FR _ _ _ :: _ => (-1)%Z end).
    assert (E1 : (if negb (px =? 0) then if h_lft h px =? x then (set_lft px lx h, 1%Z) else (set_rgt px lx h, (-1)%Z) else (h, 0%Z)) = (h1, bf)).
    { unfold h1, bf. destruct c as [|[y yb yr|yl y yb] c'].
      - destruct Hpx as (-> & _). reflexivity.
      - destruct Hpx as (-> & Hy & Hyl & _). rewrite (proj2 (Nat.eqb_neq y 0)), Hyl, Nat.eqb_refl by assumption. reflexivity.
      - destruct Hpx as (-> & Hy & Hyl & Hyr & _). rewrite (proj2 (Nat.eqb_neq y 0)), (proj2 (Nat.eqb_neq (h_lft h y) x)) by assumption. reflexivity. }
    rewrite E1. clear E1.
    assert (H1 : h_par h1 = h_par h /\ h_bf h1 = h_bf h /\ h_key h1 = h_key h /\ h_root h1 = h_root h).
    { unfold h1. destruct c as [|[y yb yr|yl y yb] c']; auto. }
    destruct H1 as (H1p & H1b & H1k & H1r).
    assert (Ppx : 1 <= cnt px (cl c) + cnt px (cr c) \/ px = 0).
    { destruct c as [|[y yb yr|yl y yb] c']; destruct Hpx as (-> & Hpx); [auto| |]; left; cbn [cl cr]; cntg; rewrite Nat.eqb_refl; lia. }
    assert (Hn' : forall z, cnt z (cl c) + (cnt z (ino l) + ((if z =? x then 1 else 0) + cnt z (cr c))) <= 1).
    { intro z. specialize (Hnp z). cnts. lia. }
    assert (H1c : forall z, z <> px -> h_lft h1 z = h_lft h z /\ h_rgt h1 z = h_rgt h z).
    { intros z Hz. unfold h1. destruct c as [|[y yb yr|yl y yb] c']; [auto| |]; destruct Hpx as (Hpx & _); rewrite Hpx in Hz; fld; rewrite upd_ne; auto. }
    assert (Nxp : x <> px). { intro Q. destruct Ppx as [Q1|Q1]; [|congruence]. specialize (Hn' x). rewrite <- Q in Q1. rewrite Nat.eqb_refl in Hn'. lia. }
    assert (E2 : h_lft h1 x = lx). { apply H1c. assumption. } rewrite E2.
    set (h2 := set_par_if lx px h1) in *.
    assert (Clx : forall z, (z =? lx) && negb (lx =? 0) = true -> 1 <= cnt z (ino l)) by (intros z Q; apply (cnt_pt _ _ _ _ _ Rl Q)).
    assert (E3 : h_par h2 x = px).
    { unfold h2. rewrite par_if, H1p. destruct ((x =? lx) && _) eqn:Q; [reflexivity|reflexivity]. }
    assert (E4 : h_lft h2 x = lx). { unfold h2. rewrite lft_if. assumption. }
    assert (E5 : h_root h2 = h_root h). { unfold h2. rewrite root_if. assumption. }
    rewrite E3, E4, E5.
    replace (if negb (lx =? 0) then lx else 0) with lx by (destruct (Nat.eqb_spec lx 0); cbn [negb]; congruence).
    set (h3 := if h_root h =? x then set_root lx h2 else h2).
    assert (H3p : forall z, h_par h3 z = if (z =? lx) && negb (lx =? 0) then px else h_par h z).
    { intro z. unfold h3. destruct (h_root h =? x); fld; unfold h2; rewrite par_if, H1p; reflexivity. }
    assert (H3l : h_lft h3 = h_lft h1 /\ h_rgt h3 = h_rgt h1 /\ h_bf h3 = h_bf h /\ h_key h3 = h_key h).
    { unfold h3. destruct (h_root h =? x); fld; unfold h2; rewrite lft_if, rgt_if, bf_if, key_if; auto. }
    destruct H3l as (H3l & H3r & H3b & H3k).
    assert (H3root : h_root h3 = if h_root h =? x then lx else h_root h).
    { unfold h3. destruct (h_root h =? x); fld; [reflexivity|assumption]. }
    assert (Hpz : forall z, 1 <= cnt z (ino l) -> z <> px).
    { intros z Hz Q. destruct Ppx as [Q1|Q1].
      - specialize (Hn' z). rewrite <- Q in Q1. lia.
      - rewrite Q1 in Q. apply (rep_nz _ _ _ _ z Rl); assumption. }
    assert (R3 : rep h3 px lx l).
    { apply (rep_move l h _ x); [assumption| | | |].
      - intro z. specialize (Hn' z). lia.
      - intros z Hz. unfold csame. rewrite H3l, H3r, H3b. destruct (H1c z (Hpz z Hz)). auto.
      - intros z Hz Hne. rewrite H3p. rewrite (proj2 (Nat.eqb_neq z lx)) by assumption. reflexivity.
      - intro Hz. rewrite H3p, Nat.eqb_refl. rewrite (proj2 (Nat.eqb_neq lx 0)) by assumption. reflexivity. }
    assert (Hfr : forall z, 1 <= cnt z (cl c) + cnt z (cr c) -> h_par h3 z = h_par h z).
    { intros z Hz. rewrite H3p. destruct ((z =? lx) && _) eqn:Q; [|reflexivity]. apply Clx in Q. specialize (Hn' z). lia. }
    assert (C3 : rpc h3 lx px c (h_root h3) 0).
    { apply (rpc_set c h _ x lx px (h_root h)); [assumption| | |].
      - intro z. specialize (Hn' z). cntg. lia.
      - intros z Hz Hne. unfold fsame. rewrite (Hfr z Hz), H3l, H3r, H3b. destruct (H1c z Hne). auto.
      - rewrite H3root. destruct c as [|[y yb yr|yl y yb] c'].
        + destruct Hpx as (_ & ->). rewrite Nat.eqb_refl. reflexivity.
        + destruct Hpx as (Epx & Hy & Hyl & Hq). rewrite (proj2 (Nat.eqb_neq (h_root h) x)) by assumption. split; [reflexivity|].
          rewrite H3l, H3r, H3b. rewrite Hfr by (cbn [cl cr]; cntg; rewrite Nat.eqb_refl; lia). unfold h1. fld. rewrite upd_eq. auto.
        + destruct Hpx as (Epx & Hy & Hyl & Hyr & Hq). rewrite (proj2 (Nat.eqb_neq (h_root h) x)) by assumption. split; [reflexivity|].
          rewrite H3l, H3r, H3b. rewrite Hfr by (cbn [cl cr]; cntg; rewrite Nat.eqb_refl; lia). unfold h1. fld. rewrite upd_eq. auto. }
    destruct c as [|[y yb yr|yl y yb] c'].
    + destruct Hpx as (Epx & Hq). rewrite Epx in *. destruct fuel as [|fuel]; [lia|]. cbn [up Nat.eqb].
      exists h3, l, (ino l), []. split; [reflexivity|]. cbn [rpc] in C3. destruct C3 as (C3 & _). rewrite C3 in R3.
      split; [split; [assumption|split; [assumption|intro z; specialize (Hn' z); lia]]|].
      split; [rewrite Hi; cbn [cl cr app ino]; reflexivity|]. rewrite app_nil_r. auto.
    + destruct Hpx as (Epx & Hpx). rewrite Epx in *. cbn [rpc] in C3. destruct C3 as (_ & Hy & Cl3 & Cb3 & Cr3 & C3).
      cbn [cbal] in Bc. destruct Bc as (Byr & Eyb & Ryb & Bc).
      destruct (up_ok c' false fuel h3 y (h_par h3 y) l y yb yr bf (1 + Z.max (1 + Z.max (hgt l) 0) (hgt yr))%Z) as (h' & t' & U1 & U2 & U3 & U4 & U5); auto.
      * cbn [rep]. rewrite Cl3. auto 10.
      * intro z. specialize (Hn' z). cbn [cl cr] in Hn'. cnts. lia.
      * right. left. unfold bf, gg. repeat split; try discriminate; lia.
      * cbn [length] in Hlen. lia.
      * exists h', t', (cl c' ++ ino l), (y :: ino yr ++ cr c'). split; [assumption|].
        assert (Et' : ino t' = (cl c' ++ ino l) ++ y :: ino yr ++ cr c'). { rewrite U4. cbn [ino]. repeat (rewrite <- app_assoc; cbn [app]). reflexivity. }
        split; [split; [assumption|split; [assumption|intro z; rewrite Et'; specialize (Hn' z); cbn [cl cr] in Hn'; cnts; lia]]|].
        split; [rewrite Hi; reflexivity|]. rewrite U5. auto.
    + destruct Hpx as (Epx & Hpx). rewrite Epx in *. cbn [rpc] in C3. destruct C3 as (_ & Hy & Cl3 & Cb3 & Cr3 & C3).
      cbn [cbal] in Bc. destruct Bc as (Byr & Eyb & Ryb & Bc).
      destruct (up_ok c' false fuel h3 y (h_par h3 y) yl y yb l bf (1 + Z.max (hgt yl) (1 + Z.max (hgt l) 0))%Z) as (h' & t' & U1 & U2 & U3 & U4 & U5); auto.
      * cbn [rep]. rewrite Cl3. auto 10.
      * intro z. specialize (Hn' z). cbn [cl cr] in Hn'. cnts. lia.
      * right. right. unfold bf, gg. repeat split; try discriminate; lia.
      * cbn [length] in Hlen. lia.
      * exists h', t', (cl c' ++ ino yl ++ [y] ++ ino l), (cr c'). split; [assumption|].
        assert (Et' : ino t' = (cl c' ++ ino yl ++ [y] ++ ino l) ++ cr c'). { rewrite U4. cbn [ino]. repeat (rewrite <- app_assoc; cbn [app]). reflexivity. }
        split; [split; [assumption|split; [assumption|intro z; rewrite Et'; specialize (Hn' z); cbn [cl cr] in Hn'; cnts; lia]]|].
        split; [rewrite Hi; cbn [cl cr ino]; repeat (rewrite <- app_assoc; cbn [app]); reflexivity|]. rewrite U5. auto.
  - (* a right subtree: the next node takes the place *)
    destruct Lm as (d & n & nb & nr & pn & L1 & Rn & Cn & HL & Ed). cbn [plug] in Ed. rewrite L1.
    assert (Hn0 : n <> 0) by (cbn [rep] in Rn; tauto). rewrite (proj2 (Nat.eqb_neq n 0)) by assumption. cbn [negb].
    assert (Epn : h_par h n = pn) by (cbn [rep] in Rn; tauto). rewrite Epn.
    rewrite <- Ed in *. apply plug_bal in Br. destruct Br as (Bn & Bd). cbn [bal] in Bn. destruct Bn as (_ & Bnr & Enb & Rnb).
    cbv zeta. destruct d as [|f d].
    + cbn [rpc] in Cn. destruct Cn as (En & ->). symmetry in En. rewrite Nat.eqb_refl. rewrite andb_false_r.
      cbn [plug] in *.
      change (if negb (h_par h x =? 0) then if h_lft h (h_par h x) =? x then set_lft (h_par h x) n h else set_rgt (h_par h x) n h else h) with (repl h x n).
      destruct (repl_ok c h h x (h_par h x) n (h_root h) Cx Hx0 Hxc eq_refl) as (P1 & P2 & P3 & P4 & P5 & P6); [unfold fsame; auto|].
      assert (Ppx : x <> h_par h x).
      { intro Q. assert (Hpx := ctx_px _ _ _ _ _ Cx Hx0 Hxc). destruct c as [|[y yb yr|yl y yb] c']; destruct Hpx as (Hpx & Hpx2); [congruence| |];
        apply Hxc; cbn [cl cr]; cntg; rewrite Q, Hpx, Nat.eqb_refl; lia. }
      destruct (P5 x) as (Q1 & Q2); [auto|]. rewrite Q2, En, Nat.eqb_refl. cbn [negb].
      destruct (direct_ok c h x (h_par h x) l b n nb nr) as (R3 & C3 & K3); [assumption|assumption|assumption|].
      rewrite set_bf_ok.
      2:{ fld. rewrite bf_if. fld. rewrite P2, Ebf. lia. }
      change (if h_root _ =? x then _ else _) with (take (repl h x n) x n).
      cbn [hgt] in *. pose proof (hgt_pos nr) as Pnr.
      destruct (up_ok c false fuel (take (repl h x n) x n) n (h_par h x) l n b nr (-1)%Z (1 + Z.max (hgt l) (1 + Z.max 0 (hgt nr)))%Z) as (h' & t' & U1 & U2 & U3 & U4 & U5); auto.
      * intro z. specialize (Hnp z). cnts. lia.
      * right. right. unfold gg. repeat split; try discriminate; lia.
      * lia.
      * exists h', t', (cl c ++ ino l), ((n :: ino nr) ++ cr c). split; [assumption|].
        assert (Et' : ino t' = (cl c ++ ino l) ++ (n :: ino nr) ++ cr c). { rewrite U4. cbn [ino]. repeat (rewrite <- app_assoc; cbn [app]). reflexivity. }
        split; [split; [assumption|split; [assumption|intro z; rewrite Et'; specialize (Hnp z); cnts; lia]]|].
        split; [rewrite Hi; reflexivity|]. split; [assumption|]. rewrite U5. assumption.
    + destruct f as [y yb yr|yl y yb]; [|cbn [allL] in HL; contradiction]. cbn [allL] in HL.
      assert (En : pn = y /\ y <> 0) by (cbn [rpc] in Cn; tauto). destruct En as (-> & Hy0).
      assert (Hi2 : ino r1 ++ ry :: ino r2 = n :: ino nr ++ y :: ino yr ++ cr d).
      { change (ino r1 ++ ry :: ino r2) with (ino (T r1 ry rb r2)). rewrite <- Ed, ino_plug. cbn [cl cr]. rewrite (allL_cl _ HL). cbn [ino app]. repeat (rewrite <- app_assoc; cbn [app]). reflexivity. }
      assert (Hn' : forall z, cnt z (cl c) + (cnt z (ino l) + ((if z =? x then 1 else 0) + ((if z =? n then 1 else 0) + (cnt z (ino nr) +
        ((if z =? y then 1 else 0) + (cnt z (ino yr) + (cnt z (cr d) + cnt z (cr c)))))))) <= 1).
      { intro z. specialize (Hnp z). rewrite Ed in Hnp. cbn [ino] in Hnp. rewrite Hi2 in Hnp. cnts. lia. }
      assert (Nxy : y <> x). { intros ->. specialize (Hn' x). rewrite Nat.eqb_refl in Hn'. lia. }
      rewrite (proj2 (Nat.eqb_neq y 0)), (proj2 (Nat.eqb_neq y x)) by assumption. cbn [negb andb].
      destruct (deep_ok c d h x (h_par h x) l b (h_rgt h x) n nr nb y yb yr) as (R3 & C3 & K3 & Ey & Erx); auto.
      { intro z. specialize (Hn' z). cntg. lia. }
      set (h1 := set_par_if (h_rgt h n) y (set_lft y (h_rgt h n) h)) in *.
      change (if negb (h_par h1 x =? 0) then if h_lft h1 (h_par h1 x) =? x then set_lft (h_par h1 x) n h1 else set_rgt (h_par h1 x) n h1 else h1) with (repl h1 x n).
      set (h2 := repl h1 x n) in *. rewrite Erx in *. rewrite Ey.
      assert (Nrn : h_rgt h x <> n).
      { intro Q. assert (Q1 := top_in _ _ _ _ _ _ Cn ltac:(discriminate)). cbn [cl cr] in Q1. rewrite (allL_cl _ HL), Q in Q1. specialize (Hn' n).
        cbn [cnt] in Q1. rewrite cnt_app in Q1. rewrite Nat.eqb_refl in Hn'. lia. }
      rewrite (proj2 (Nat.eqb_neq _ n)) by assumption. cbn [negb].
      set (h3 := set_par_if (h_rgt h x) n (set_rgt n (h_rgt h x) h2)) in *.
      rewrite set_bf_ok.
      2:{ fld. rewrite bf_if. fld. unfold h3. rewrite bf_if. fld. unfold h2, repl. destruct (negb _); [destruct (h_lft h1 (h_par h1 x) =? x)|]; fld; unfold h1; rewrite bf_if; fld; rewrite Ebf; lia. }
      change (if h_root _ =? x then _ else _) with (take h3 x n).
      cbn [cbal hgt] in Bd. destruct Bd as (Byr & Eyb & Ryb & Bd). pose proof (hgt_pos nr) as Pnr.
      assert (Bc2 : cbal (1 + Z.max (1 + Z.max 0 (hgt nr)) (hgt yr)) (d ++ FR l n b :: c)).
      { assert (Q : bal (plug (d ++ FR l x b :: c) (T (T E n nb nr) y yb yr))).
        { rewrite plug_app. cbn [plug fplug] in Ep |- *. rewrite Ep. assumption. }
        apply plug_bal in Q. destruct Q as (_ & Q). cbn [hgt] in Q.
        apply (cbal_app d _ (FR l x b) c Q); [reflexivity|]. intros K. cbn [cbal]. tauto. }
      destruct (up_ok (d ++ FR l n b :: c) false fuel (take h3 x n) y (h_par (take h3 x n) y) nr y yb yr 1%Z (1 + Z.max (1 + Z.max 0 (hgt nr)) (hgt yr))%Z) as (h' & t' & U1 & U2 & U3 & U4 & U5); auto.
      * intro z. specialize (Hn' z). rewrite cl_app, cr_app. cbn [cl cr]. rewrite (allL_cl _ HL). cntg. lia.
      * right. left. unfold gg. repeat split; try discriminate; lia.
      * assert (Q1 := len_hgt (FL y yb yr :: d) (T E n nb nr)). rewrite app_length. cbn [length hgt] in *. lia.
      * assert (Et' : ino t' = (cl c ++ ino l) ++ (ino r1 ++ ry :: ino r2) ++ cr c).
        { rewrite U4, cl_app, cr_app, Hi2. cbn [cl cr]. rewrite (allL_cl _ HL), app_nil_r. cbn [ino]. repeat (rewrite <- app_assoc; cbn [app]). reflexivity. }
        exists h', t', (cl c ++ ino l), ((ino r1 ++ ry :: ino r2) ++ cr c). split; [assumption|].
        split; [split; [assumption|split; [assumption|intro z; rewrite Et', Hi2; specialize (Hn' z); cntg; lia]]|].
        split; [rewrite Hi, Ed; reflexivity|]. split; [assumption|]. rewrite U5. assumption.
Qed.
End P.
