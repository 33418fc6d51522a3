(** Removal. *)
From Coq Require Import ZArith Arith List Bool Lia.
From Verif Require Import AvlModel AvlProofs AvlProofs2 AvlProofs3 AvlProofs4.
Import ListNotations.
Local Open Scope nat_scope.

Ltac cntg := cbn [ino]; repeat rewrite cnt_app; cbn [cnt]; repeat rewrite cnt_app; cbn [cnt]; repeat rewrite cnt_app; cbn [cnt].

Section P.
Context {A : Type}.
Notation heap := (heap A).

Definition wf (h : heap) (t : tree) : Prop := rep h 0 (h_root h) t /\ bal t /\ nodup (ino t).

(** The stores that put [n] in the place of [x] under the parent of [x]. *)
Definition repl (h1 : heap) (x n : nat) : heap :=
  if negb (h_par h1 x =? 0)
  then (if h_lft h1 (h_par h1 x) =? x then set_lft (h_par h1 x) n h1 else set_rgt (h_par h1 x) n h1) else h1.

Lemma ctx_px : forall c (h : heap) x px q, rpc h x px c q 0 -> x <> 0 -> (1 <= cnt x (cl c) + cnt x (cr c) -> False) ->
  match c with
  | [] => px = 0 /\ q = x
  | FL y _ _ :: _ => px = y /\ y <> 0 /\ h_lft h y = x /\ q <> x
  | FR _ y _ :: _ => px = y /\ y <> 0 /\ h_rgt h y = x /\ h_lft h y <> x /\ q <> x
  end.
Proof.
  intros [|f c] h x px q Hc Hx Hn.
  - cbn [rpc] in Hc. destruct Hc; auto.
  - assert (Hq : q <> x). { intros ->. apply Hn. apply (top_in _ _ _ _ _ _ Hc). discriminate. }
    cbn [rpc] in Hc. destruct f as [y b r|l y b]; destruct Hc as (-> & Hy & Ha & Hb & Hr & Hc); [auto|].
    do 3 (split; [auto|]). split; [|assumption]. intro Q. apply Hn. cbn [cl cr]. cnts.
    assert (Hi := rep_root_in _ _ _ _ Hr). rewrite Q in Hi. specialize (Hi Hx). lia.
Qed.

Lemma repl_ok : forall c (h h1 : heap) x px n q, rpc h x px c q 0 -> x <> 0 -> (1 <= cnt x (cl c) + cnt x (cr c) -> False) ->
  h_par h1 x = px -> (px <> 0 -> fsame h h1 px) ->
  h_par (repl h1 x n) = h_par h1 /\ h_bf (repl h1 x n) = h_bf h1 /\ h_key (repl h1 x n) = h_key h1 /\ h_root (repl h1 x n) = h_root h1 /\
  (forall y, y <> px \/ y = 0 -> h_lft (repl h1 x n) y = h_lft h1 y /\ h_rgt (repl h1 x n) y = h_rgt h1 y) /\
  match c with
  | [] => True
  | FL y _ _ :: _ => h_lft (repl h1 x n) y = n /\ h_rgt (repl h1 x n) y = h_rgt h y
  | FR _ y _ :: _ => h_rgt (repl h1 x n) y = n /\ h_lft (repl h1 x n) y = h_lft h y
  end.
Proof.
  intros c h h1 x px n q Hc Hx Hn Hp Hs. assert (Hpx := ctx_px _ _ _ _ _ Hc Hx Hn). unfold repl. rewrite Hp.
  destruct c as [|[y b r|l y b] c].
  - destruct Hpx as (-> & _). cbn [Nat.eqb negb]. auto 10.
  - destruct Hpx as (-> & Hy & Hl & _). rewrite (proj2 (Nat.eqb_neq y 0)) by assumption. cbn [negb].
    destruct (Hs Hy) as (S1 & S2 & S3 & S4). rewrite S2, Hl, Nat.eqb_refl. fld. rewrite upd_eq.
    do 4 (split; [reflexivity|]). split; [|auto]. intros z [Hz| ->]; rewrite upd_ne; auto.
  - destruct Hpx as (-> & Hy & Hl & Hr & _). rewrite (proj2 (Nat.eqb_neq y 0)) by assumption. cbn [negb].
    destruct (Hs Hy) as (S1 & S2 & S3 & S4). rewrite S2. rewrite (proj2 (Nat.eqb_neq _ x)) by assumption. fld. rewrite upd_eq.
    do 4 (split; [reflexivity|]). split; [|auto]. intros z [Hz| ->]; rewrite upd_ne; auto.
Qed.

Lemma par_if : forall p v (h : heap) y, h_par (set_par_if p v h) y = if (y =? p) && negb (p =? 0) then v else h_par h y.
Proof. intros. unfold set_par_if. destruct (p =? 0); fld; cbn [negb]; [rewrite andb_false_r; reflexivity|rewrite andb_true_r; unfold upd; reflexivity]. Qed.
Lemma lft_if : forall p v (h : heap), h_lft (set_par_if p v h) = h_lft h.
Proof. intros. unfold set_par_if. destruct (p =? 0); reflexivity. Qed.
Lemma rgt_if : forall p v (h : heap), h_rgt (set_par_if p v h) = h_rgt h.
Proof. intros. unfold set_par_if. destruct (p =? 0); reflexivity. Qed.
Lemma bf_if : forall p v (h : heap), h_bf (set_par_if p v h) = h_bf h.
Proof. intros. unfold set_par_if. destruct (p =? 0); reflexivity. Qed.
Lemma key_if : forall p v (h : heap), h_key (set_par_if p v h) = h_key h.
Proof. intros. unfold set_par_if. destruct (p =? 0); reflexivity. Qed.
Lemma root_if : forall p v (h : heap), h_root (set_par_if p v h) = h_root h.
Proof. intros. unfold set_par_if. destruct (p =? 0); reflexivity. Qed.

(** The rest of the stores when [n] takes the place of [x]: left child, parent, balance, root. *)
Definition take (h3 : heap) (x n : nat) : heap :=
  let h4 := set_par_if (h_lft h3 x) n (set_lft n (h_lft h3 x) h3) in
  let h5 := set_par n (h_par h4 x) h4 in
  let h6 := put_bf n (h_bf h5 x) h5 in
  if h_root h6 =? x then set_root n h6 else h6.

Lemma cnt_pt : forall t (h : heap) p a z, rep h p a t -> (z =? a) && negb (a =? 0) = true -> 1 <= cnt z (ino t).
Proof.
  intros t h p a z Hr H. apply andb_prop in H. destruct H as (H1 & H2). apply Nat.eqb_eq in H1. subst z.
  apply (rep_root_in _ _ _ _ Hr). intros ->. discriminate.
Qed.

(** [n] is the right child of [x]. *)
Lemma direct_ok : forall c (h : heap) x px l b n nb nr, rep h px x (T l x b (T E n nb nr)) -> rpc h x px c (h_root h) 0 ->
  nodup (cl c ++ ino (T l x b (T E n nb nr)) ++ cr c) ->
  let h' := take (repl h x n) x n in
  rep h' px n (T l n b nr) /\ rpc h' n px c (h_root h') 0 /\ h_key h' = h_key h.
Proof.
  intros c h x px l b n nb nr Hr Hc Hn.
  assert (Hn' : forall z, cnt z (cl c) + (cnt z (ino l) + ((if z =? x then 1 else 0) + ((if z =? n then 1 else 0) + (cnt z (ino nr) + cnt z (cr c))))) <= 1).
  { intro z. specialize (Hn z). cnts. lia. }
  clear Hn. rename Hn' into Hn.
  cbn [rep] in Hr. destruct Hr as (_ & Hx & Hp & Hb & Hl & (Hn1 & Hn0 & Hpn & Hnb & Hnl & Hnr)).
  assert (Hxc : 1 <= cnt x (cl c) + cnt x (cr c) -> False). { intro Q. specialize (Hn x). cntg. rewrite Nat.eqb_refl in Hn. lia. }
  assert (Hpx := ctx_px _ _ _ _ _ Hc Hx Hxc).
  destruct (repl_ok c h h x px n (h_root h) Hc Hx Hxc Hp) as (P1 & P2 & P3 & P4 & P5 & P6); [unfold fsame; auto|].
  assert (Ppx : 1 <= cnt px (cl c) + cnt px (cr c) \/ px = 0).
  { destruct c as [|[y yb yr|yl y yb] c']; destruct Hpx as (-> & Hpx); [auto| |]; left; cbn [cl cr]; cntg; rewrite Nat.eqb_refl; lia. }
  set (h2 := repl h x n) in *. set (lx := h_lft h x) in *.
  assert (Nxn : x <> n). { intros ->. specialize (Hn n). cntg. rewrite Nat.eqb_refl in Hn. lia. }
  assert (Nxp : x <> px). { intro Q. destruct Ppx as [Q1|Q1]; [|congruence]. specialize (Hn x). rewrite <- Q in Q1. cntg. rewrite Nat.eqb_refl in Hn. lia. }
  assert (Nnp : n <> px). { intro Q. destruct Ppx as [Q1|Q1]; [|congruence]. specialize (Hn n). rewrite <- Q in Q1. cntg. rewrite Nat.eqb_refl in Hn. lia. }
  assert (Elx : h_lft h2 x = lx) by (apply P5; auto).
  assert (Nxl : (x =? lx) && negb (lx =? 0) = false).
  { destruct (_ && _) eqn:Q; [|reflexivity]. assert (Q1 := cnt_pt _ _ _ _ _ Hl Q). specialize (Hn x). cntg. rewrite Nat.eqb_refl in Hn. lia. }
  assert (Hpar : forall z, h_par (take h2 x n) z = if z =? n then px else if (z =? lx) && negb (lx =? 0) then n else h_par h z).
  { intro z. unfold take. cbv zeta. match goal with |- h_par (if ?b then _ else _) _ = _ => destruct b end; fld; rewrite Elx; unfold upd at 1;
    (destruct (z =? n); [rewrite par_if, Nxl; fld; rewrite P1; exact Hp|rewrite par_if; fld; rewrite P1; reflexivity]). }
  assert (Hlft : forall z, h_lft (take h2 x n) z = if z =? n then lx else h_lft h2 z).
  { intro z. unfold take. cbv zeta. match goal with |- h_lft (if ?b then _ else _) _ = _ => destruct b end; fld; rewrite lft_if, Elx; fld; unfold upd; reflexivity. }
  assert (Hrgt : forall z, h_rgt (take h2 x n) z = h_rgt h2 z).
  { intro z. unfold take. cbv zeta. match goal with |- h_rgt (if ?b then _ else _) _ = _ => destruct b end; fld; rewrite rgt_if; reflexivity. }
  assert (Hbf : forall z, h_bf (take h2 x n) z = if z =? n then b else h_bf h z).
  { intro z. unfold take. cbv zeta. match goal with |- h_bf (if ?b then _ else _) _ = _ => destruct b end; fld; rewrite bf_if; fld; rewrite P2; unfold upd; rewrite Hb; reflexivity. }
  assert (Hroot : h_root (take h2 x n) = if h_root h =? x then n else h_root h).
  { unfold take. cbv zeta. fld. rewrite root_if. fld. rewrite P4. destruct (h_root h =? x); fld; [reflexivity|]. rewrite root_if. fld. assumption. }
  assert (Hkey : h_key (take h2 x n) = h_key h).
  { unfold take. cbv zeta. match goal with |- h_key (if ?b then _ else _) = _ => destruct b end; fld; rewrite key_if; fld; assumption. }
  assert (Hpz : forall z, 1 <= cnt z (ino l) + cnt z (ino nr) -> z <> px).
  { intros z Hz Q. destruct Ppx as [Q1|Q1].
    - specialize (Hn z). rewrite <- Q in Q1. cntg. lia.
    - rewrite Q1 in Q. destruct (cnt z (ino l)) eqn:El.
      + apply (rep_nz _ _ _ _ z Hnr); [lia|assumption].
      + apply (rep_nz _ _ _ _ z Hl); [lia|assumption]. }
  split; [|split; [|assumption]].
  - cbn [rep]. rewrite Hpar, Hbf, Hlft, Hrgt, Nat.eqb_refl. do 4 (split; [auto|]). split.
    + apply (rep_move l h _ x); [assumption| | | |].
      * intro y. specialize (Hn y). cntg. lia.
      * intros z Hz. unfold csame. rewrite Hlft, Hrgt, Hbf. assert (Hz2 := Hn z). cntg. destruct (z =? n); [lia|].
        destruct (P5 z) as (Q1 & Q2); [left; apply Hpz; lia|]. auto.
      * intros z Hz Hne. rewrite Hpar. assert (Hz2 := Hn z). cntg. destruct (z =? n); [lia|].
        rewrite (proj2 (Nat.eqb_neq z lx)) by assumption. reflexivity.
      * intro Hz. rewrite Hpar. assert (Hi := rep_root_in _ _ _ _ Hl Hz). assert (Hz2 := Hn lx). cntg. destruct (lx =? n); [lia|].
        rewrite Nat.eqb_refl, (proj2 (Nat.eqb_neq lx 0)) by assumption. reflexivity.
    + destruct (P5 n) as (_ & ->); [auto|]. apply (rep_same nr h); [|assumption].
      intros z Hz. unfold fsame. rewrite Hpar, Hlft, Hrgt, Hbf. assert (Hz2 := Hn z). cntg. destruct (z =? n); [lia|].
      destruct (P5 z) as (Q1 & Q2); [left; apply Hpz; lia|].
      destruct ((z =? lx) && _) eqn:Q; [|auto]. assert (Q3 := cnt_pt _ _ _ _ _ Hl Q). lia.
  - assert (Hfr : forall z, 1 <= cnt z (cl c) + cnt z (cr c) -> h_par (take h2 x n) z = h_par h z /\ h_bf (take h2 x n) z = h_bf h z /\ h_lft (take h2 x n) z = h_lft h2 z /\ h_rgt (take h2 x n) z = h_rgt h2 z).
    { intros z Hz. rewrite Hpar, Hlft, Hrgt, Hbf. assert (Hz2 := Hn z). cntg. destruct (z =? n); [lia|].
      destruct ((z =? lx) && _) eqn:Q; [|auto]. assert (Q3 := cnt_pt _ _ _ _ _ Hl Q). lia. }
    apply (rpc_set c h _ x n px (h_root h)); [assumption| | |].
    + intro y. specialize (Hn y). cntg. lia.
    + intros z Hz Hne. destruct (Hfr z Hz) as (Q1 & Q2 & Q3 & Q4). destruct (P5 z) as (Q5 & Q6); [auto|]. unfold fsame. rewrite Q1, Q2, Q3, Q4, Q5, Q6. auto.
    + rewrite Hroot. destruct c as [|[y yb yr|yl y yb] c'].
      * destruct Hpx as (_ & ->). rewrite Nat.eqb_refl. reflexivity.
      * destruct Hpx as (-> & Hy & Hyl & Hq). rewrite (proj2 (Nat.eqb_neq (h_root h) x)) by assumption. split; [reflexivity|].
        destruct (Hfr y) as (Q1 & Q2 & Q3 & Q4); [cbn [cl cr]; cntg; rewrite Nat.eqb_refl; lia|]. rewrite Q1, Q2, Q3, Q4. tauto.
      * destruct Hpx as (-> & Hy & Hyl & Hyr & Hq). rewrite (proj2 (Nat.eqb_neq (h_root h) x)) by assumption. split; [reflexivity|].
        destruct (Hfr y) as (Q1 & Q2 & Q3 & Q4); [cbn [cl cr]; cntg; rewrite Nat.eqb_refl; lia|]. rewrite Q1, Q2, Q3, Q4. tauto.
Qed.

(** [n] lies deeper, [y] is its parent. *)
Lemma deep_ok : forall c d (h : heap) x px l b rx n nr nb y yb yr,
  x <> 0 -> h_par h x = px -> h_bf h x = b -> rep h x (h_lft h x) l -> h_rgt h x = rx -> rpc h x px c (h_root h) 0 ->
  rep h y n (T E n nb nr) -> rpc h n y (FL y yb yr :: d) rx x -> allL d ->
  nodup (cl c ++ ino l ++ [x] ++ [n] ++ ino nr ++ [y] ++ ino yr ++ cr d ++ cr c) ->
  let h1 := set_par_if (h_rgt h n) y (set_lft y (h_rgt h n) h) in
  let h2 := repl h1 x n in
  let h3 := set_par_if (h_rgt h2 x) n (set_rgt n (h_rgt h2 x) h2) in
  let h' := take h3 x n in
  rep h' (h_par h' y) y (T nr y yb yr) /\ rpc h' y (h_par h' y) (d ++ FR l n b :: c) (h_root h') 0 /\ h_key h' = h_key h /\ h_par h2 n = y /\ h_rgt h2 x = rx.
Proof.
  intros c d h x px l b rx n nr nb y yb yr Hx Hp Hb Hl Hrx Hc Hrn Hd HL Hn h1 h2 h3 h'.
  assert (Hn' : forall z, cnt z (cl c) + (cnt z (ino l) + ((if z =? x then 1 else 0) + ((if z =? n then 1 else 0) + (cnt z (ino nr) +
    ((if z =? y then 1 else 0) + (cnt z (ino yr) + (cnt z (cr d) + cnt z (cr c)))))))) <= 1).
  { intro z. specialize (Hn z). cnts. lia. }
  clear Hn. rename Hn' into Hn.
  cbn [rep] in Hrn. destruct Hrn as (_ & Hn0 & Hpn & Hnb & Hnl & Hnr).
  set (rn := h_rgt h n) in *. set (lx := h_lft h x) in *.
  assert (Hxc : 1 <= cnt x (cl c) + cnt x (cr c) -> False). { intro Q. specialize (Hn x). cntg. rewrite Nat.eqb_refl in Hn. lia. }
  assert (Hpx := ctx_px _ _ _ _ _ Hc Hx Hxc).
  assert (Ppx : 1 <= cnt px (cl c) + cnt px (cr c) \/ px = 0).
  { destruct c as [|[y0 yb0 yr0|yl0 y0 yb0] c']; destruct Hpx as (-> & Hpx); [auto| |]; left; cbn [cl cr]; cntg; rewrite Nat.eqb_refl; lia. }
  assert (Hd0 := Hd). cbn [rpc] in Hd. destruct Hd as (_ & Hy0 & Hyl & Hyb & Hyr & Hd).
  assert (Cl := allL_cl _ HL).
  assert (Nxn : x <> n). { intros ->. specialize (Hn n). cntg. rewrite Nat.eqb_refl in Hn. lia. }
  assert (Nxy : x <> y). { intros ->. specialize (Hn y). cntg. rewrite Nat.eqb_refl in Hn. lia. }
  assert (Nny : n <> y). { intros ->. specialize (Hn y). cntg. rewrite Nat.eqb_refl in Hn. lia. }
  assert (Nxp : x <> px). { intro Q. destruct Ppx as [Q1|Q1]; [|congruence]. specialize (Hn x). rewrite <- Q in Q1. cntg. rewrite Nat.eqb_refl in Hn. lia. }
  assert (Nnp : n <> px). { intro Q. destruct Ppx as [Q1|Q1]; [|congruence]. specialize (Hn n). rewrite <- Q in Q1. cntg. rewrite Nat.eqb_refl in Hn. lia. }
  assert (Nyp : y <> px). { intro Q. destruct Ppx as [Q1|Q1]; [|congruence]. specialize (Hn y). rewrite <- Q in Q1. cntg. rewrite Nat.eqb_refl in Hn. lia. }
  assert (Crn : forall z, (z =? rn) && negb (rn =? 0) = true -> 1 <= cnt z (ino nr)) by (intros z Q; apply (cnt_pt _ _ _ _ _ Hnr Q)).
  assert (Clx : forall z, (z =? lx) && negb (lx =? 0) = true -> 1 <= cnt z (ino l)) by (intros z Q; apply (cnt_pt _ _ _ _ _ Hl Q)).
  assert (Crx : forall z, z = rx -> z = y \/ 1 <= cnt z (cr d)).
  { intros z ->. destruct d as [|f d]; [left; cbn [rpc] in Hd; destruct Hd; auto|right].
    assert (Q := top_in _ _ _ _ _ _ Hd ltac:(discriminate)). rewrite Cl in Q. cbn [cnt] in Q. lia. }
  assert (Nrx0 : rx <> 0).
  { intro Q. destruct (Crx rx eq_refl) as [Q1|Q1]; [congruence|]. apply (rpc_nz d h y (h_par h y) rx x rx Hd); [lia|assumption]. }
  assert (H1par : forall z, h_par h1 z = if (z =? rn) && negb (rn =? 0) then y else h_par h z) by (intro z; unfold h1; rewrite par_if; reflexivity).
  assert (Exr : (x =? rn) && negb (rn =? 0) = false).
  { destruct (_ && _) eqn:Q; [|reflexivity]. assert (Q1 := Crn _ Q). specialize (Hn x). cntg. rewrite Nat.eqb_refl in Hn. lia. }
  destruct (repl_ok c h h1 x px n (h_root h) Hc Hx Hxc) as (P1 & P2 & P3 & P4 & P5 & P6).
  { rewrite H1par, Exr. assumption. }
  { intro Q. unfold fsame. rewrite H1par. unfold h1. rewrite lft_if, rgt_if, bf_if. fld. rewrite upd_ne by auto.
    destruct ((px =? rn) && _) eqn:Q1; [|auto]. assert (Q2 := Crn _ Q1). destruct Ppx; [|congruence]. specialize (Hn px). cntg. lia. }
  fold h2 in P1, P2, P3, P4, P5, P6.
  assert (H2r : h_rgt h2 x = rx). { destruct (P5 x) as (_ & ->); [auto|]. unfold h1. rewrite rgt_if. fld. assumption. }
  assert (H2p : h_par h2 n = y).
  { rewrite P1, H1par. destruct ((n =? rn) && _) eqn:Q; [reflexivity|assumption]. }
  assert (H3par : forall z, h_par h3 z = if z =? rx then n else if (z =? rn) && negb (rn =? 0) then y else h_par h z).
  { intro z. unfold h3. rewrite par_if, H2r. fld. rewrite P1, H1par. rewrite (proj2 (Nat.eqb_neq rx 0)) by assumption. cbn [negb]. rewrite andb_true_r. reflexivity. }
  assert (H3l : h_lft h3 x = lx).
  { unfold h3. rewrite lft_if. fld. destruct (P5 x) as (-> & _); [auto|]. unfold h1. rewrite lft_if. fld. rewrite upd_ne by assumption. reflexivity. }
  assert (H3lft : h_lft h3 = h_lft h2) by (unfold h3; rewrite lft_if; reflexivity).
  assert (H3bf : h_bf h3 = h_bf h) by (unfold h3; rewrite bf_if; fld; rewrite P2; unfold h1; rewrite bf_if; reflexivity).
  assert (H3root : h_root h3 = h_root h) by (unfold h3; rewrite root_if; fld; rewrite P4; unfold h1; rewrite root_if; reflexivity).
  assert (H3key : h_key h3 = h_key h) by (unfold h3; rewrite key_if; fld; rewrite P3; unfold h1; rewrite key_if; reflexivity).
  assert (Nxl : (x =? lx) && negb (lx =? 0) = false).
  { destruct ((x =? lx) && _) eqn:Q; [|reflexivity]. assert (Q1 := Clx _ Q). specialize (Hn x). cntg. rewrite Nat.eqb_refl in Hn. lia. }
  assert (H3px : h_par h3 x = px).
  { rewrite H3par. destruct (Nat.eqb_spec x rx) as [Q|Q]; [|rewrite Exr; assumption].
    exfalso. destruct (Crx x Q) as [Q1|Q1]; [congruence|]. specialize (Hn x). cntg. rewrite Nat.eqb_refl in Hn. lia. }
  assert (Hpar : forall z, h_par h' z = if z =? n then px else if (z =? lx) && negb (lx =? 0) then n else if z =? rx then n else if (z =? rn) && negb (rn =? 0) then y else h_par h z).
  { intro z. unfold h', take. cbv zeta. match goal with |- h_par (if ?b then _ else _) _ = _ => destruct b end; fld; rewrite H3l; unfold upd at 1;
    (destruct (z =? n); [rewrite par_if, Nxl; fld; exact H3px|rewrite par_if; fld; rewrite H3par; reflexivity]). }
  assert (Hlft : forall z, h_lft h' z = if z =? n then lx else h_lft h2 z).
  { intro z. unfold h', take. cbv zeta. match goal with |- h_lft (if ?b then _ else _) _ = _ => destruct b end; fld; rewrite lft_if, H3l; fld; unfold upd; rewrite H3lft; reflexivity. }
  assert (Hrgt : forall z, h_rgt h' z = if z =? n then rx else h_rgt h2 z).
  { intro z. unfold h', take. cbv zeta. match goal with |- h_rgt (if ?b then _ else _) _ = _ => destruct b end; fld; rewrite rgt_if; fld; unfold h3; rewrite rgt_if; fld; rewrite H2r; reflexivity. }
  assert (Hbf : forall z, h_bf h' z = if z =? n then b else h_bf h z).
  { intro z. unfold h', take. cbv zeta. match goal with |- h_bf (if ?b then _ else _) _ = _ => destruct b end; fld; rewrite bf_if; fld; rewrite H3bf; unfold upd; rewrite Hb; reflexivity. }
  assert (Hroot : h_root h' = if h_root h =? x then n else h_root h).
  { unfold h', take. cbv zeta. fld. rewrite root_if. fld. rewrite H3root. destruct (h_root h =? x); fld; [reflexivity|]. rewrite root_if. fld. assumption. }
  assert (Hkey : h_key h' = h_key h).
  { unfold h', take. cbv zeta. match goal with |- h_key (if ?b then _ else _) = _ => destruct b end; fld; rewrite key_if; fld; assumption. }
  (* the children of nodes other than the parent of x and y *)
  assert (H2c : forall z, z <> px \/ z = 0 -> h_lft h2 z = (if z =? y then rn else h_lft h z) /\ h_rgt h2 z = h_rgt h z).
  { intros z Hz. destruct (P5 z Hz) as (-> & ->). unfold h1. rewrite lft_if, rgt_if. fld. unfold upd. auto. }
  assert (Hpz : forall z, cnt z (cl c) + cnt z (cr c) = 0 -> z <> px \/ z = 0).
  { intros z Hz. destruct Ppx as [Q1|Q1]; [|lia]. destruct (Nat.eq_dec z px) as [Q|Q]; [|auto]. rewrite <- Q in Q1. lia. }
  assert (Hyp : h_par h' y = match d with [] => n | _ => h_par h y end).
  { rewrite Hpar. assert (Hy2 := Hn y). cntg. rewrite Nat.eqb_refl in Hy2. rewrite (proj2 (Nat.eqb_neq y n)) by auto.
    destruct ((y =? lx) && _) eqn:Q; [apply Clx in Q; lia|]. destruct d as [|f d].
    - cbn [rpc] in Hd. destruct Hd as (-> & _). rewrite Nat.eqb_refl. reflexivity.
    - destruct (Nat.eqb_spec y rx) as [Q1|Q1]; [|destruct ((y =? rn) && _) eqn:Q2; [apply Crn in Q2; lia|reflexivity]].
      exfalso. assert (Q2 := top_in _ _ _ _ _ _ Hd ltac:(discriminate)). rewrite Cl, <- Q1 in Q2. cbn [cnt] in Q2. lia. }
  assert (Nylx : y <> 0) by assumption.
  split; [|split; [|split; [assumption|auto]]].
  - cbn [rep]. rewrite Hlft, Hrgt, Hbf. rewrite (proj2 (Nat.eqb_neq y n)) by auto.
    destruct (H2c y) as (-> & ->); [auto|]. rewrite Nat.eqb_refl. do 4 (split; [auto|]). split.
    + apply (rep_move nr h _ n); [assumption| | | |].
      * intro z. specialize (Hn z). cntg. lia.
      * intros z Hz. unfold csame. rewrite Hlft, Hrgt, Hbf. assert (Hz2 := Hn z). cntg. destruct (z =? n); [lia|].
        destruct (H2c z) as (-> & ->); [apply Hpz; lia|]. destruct (z =? y); [lia|]. auto.
      * intros z Hz Hne. rewrite Hpar. assert (Hz2 := Hn z). cntg. destruct (z =? n); [lia|].
        destruct ((z =? lx) && _) eqn:Q; [apply Clx in Q; lia|].
        destruct (Nat.eqb_spec z rx) as [Q1|Q1]; [exfalso; destruct (Crx z Q1) as [Q2|Q2]; [rewrite <- Q2, Nat.eqb_refl in Hz2; lia|lia]|].
        rewrite (proj2 (Nat.eqb_neq z rn)) by assumption. reflexivity.
      * intro Hz. rewrite Hpar. assert (Hi := rep_root_in _ _ _ _ Hnr Hz). assert (Hz2 := Hn rn). cntg. destruct (rn =? n); [lia|].
        destruct ((rn =? lx) && _) eqn:Q; [apply Clx in Q; lia|].
        destruct (Nat.eqb_spec rn rx) as [Q1|Q1]; [exfalso; destruct (Crx rn Q1) as [Q2|Q2]; [rewrite <- Q2, Nat.eqb_refl in Hz2; lia|lia]|].
        rewrite Nat.eqb_refl, (proj2 (Nat.eqb_neq rn 0)) by assumption. reflexivity.
    + apply (rep_same yr h); [|assumption]. intros z Hz. unfold fsame. rewrite Hpar, Hlft, Hrgt, Hbf. assert (Hz2 := Hn z). cntg.
      destruct (z =? n); [lia|]. destruct (H2c z) as (-> & ->); [apply Hpz; lia|].
      destruct ((z =? lx) && _) eqn:Q; [apply Clx in Q; lia|].
      destruct (Nat.eqb_spec z rx) as [Q1|Q1]; [exfalso; destruct (Crx z Q1) as [Q2|Q2]; [rewrite <- Q2, Nat.eqb_refl in Hz2; lia|lia]|].
      destruct ((z =? rn) && _) eqn:Q2; [apply Crn in Q2; lia|]. destruct (z =? y); [lia|]. auto.
  - apply rpc_app. exists rx, n. split.
    + rewrite Hyp. apply (rpc_top d h h' y (h_par h y) rx x n Hd).
      * intro z. specialize (Hn z). rewrite Cl. cntg. lia.
      * intros z Hz. rewrite Cl in Hz; cbn [cnt] in Hz. unfold csame. rewrite Hlft, Hrgt, Hbf. assert (Hz2 := Hn z). cntg. destruct (z =? n); [lia|].
        destruct (H2c z) as (-> & ->); [apply Hpz; lia|]. destruct (z =? y); [lia|]. auto.
      * intros z Hz Hne. rewrite Cl in Hz; cbn [cnt] in Hz. rewrite Hpar. assert (Hz2 := Hn z). cntg. destruct (z =? n); [lia|].
        destruct ((z =? lx) && _) eqn:Q; [apply Clx in Q; lia|]. rewrite (proj2 (Nat.eqb_neq z rx)) by assumption.
        destruct ((z =? rn) && _) eqn:Q2; [apply Crn in Q2; lia|]. reflexivity.
      * intro Hne. rewrite Hpar. assert (Q2 := top_in _ _ _ _ _ _ Hd Hne). rewrite Cl in Q2. cbn [cnt] in Q2.
        assert (Hz2 := Hn rx). cntg. destruct (rx =? n); [lia|]. destruct ((rx =? lx) && _) eqn:Q; [apply Clx in Q; lia|]. rewrite Nat.eqb_refl. reflexivity.
    + cbn [rpc]. rewrite Hlft, Hrgt, Hbf, Nat.eqb_refl. do 4 (split; [auto|]). split.
      * apply (rep_move l h _ x); [assumption| | | |].
        -- intro z. specialize (Hn z). cntg. lia.
        -- intros z Hz. unfold csame. rewrite Hlft, Hrgt, Hbf. assert (Hz2 := Hn z). cntg. destruct (z =? n); [lia|].
           destruct (H2c z) as (-> & ->); [apply Hpz; lia|]. destruct (z =? y); [lia|]. auto.
        -- intros z Hz Hne. rewrite Hpar. assert (Hz2 := Hn z). cntg. destruct (z =? n); [lia|].
           rewrite (proj2 (Nat.eqb_neq z lx)) by assumption. cbn [andb].
           destruct (Nat.eqb_spec z rx) as [Q1|Q1]; [exfalso; destruct (Crx z Q1) as [Q2|Q2]; [rewrite <- Q2, Nat.eqb_refl in Hz2; lia|lia]|].
           destruct ((z =? rn) && _) eqn:Q2; [apply Crn in Q2; lia|]. reflexivity.
        -- intro Hz. rewrite Hpar. assert (Hi := rep_root_in _ _ _ _ Hl Hz). assert (Hz2 := Hn lx). cntg. destruct (lx =? n); [lia|].
           rewrite Nat.eqb_refl, (proj2 (Nat.eqb_neq lx 0)) by assumption. reflexivity.
      * rewrite Hpar, Nat.eqb_refl.
        assert (Hfr : forall z, 1 <= cnt z (cl c) + cnt z (cr c) -> h_par h' z = h_par h z /\ h_bf h' z = h_bf h z /\ h_lft h' z = h_lft h2 z /\ h_rgt h' z = h_rgt h2 z).
        { intros z Hz. rewrite Hpar, Hlft, Hrgt, Hbf. assert (Hz2 := Hn z). cntg. destruct (z =? n); [lia|].
          destruct ((z =? lx) && _) eqn:Q; [apply Clx in Q; lia|].
          destruct (Nat.eqb_spec z rx) as [Q1|Q1]; [exfalso; destruct (Crx z Q1) as [Q2|Q2]; [rewrite <- Q2, Nat.eqb_refl in Hz2; lia|lia]|].
          destruct ((z =? rn) && _) eqn:Q2; [apply Crn in Q2; lia|]. auto. }
        apply (rpc_set c h _ x n px (h_root h)); [assumption| | |].
        -- intro z. specialize (Hn z). cntg. lia.
        -- intros z Hz Hne. destruct (Hfr z Hz) as (Q1 & Q2 & Q3 & Q4). destruct (H2c z) as (Q5 & Q6); [auto|]. unfold fsame. rewrite Q1, Q2, Q3, Q4, Q5, Q6.
           assert (Hz2 := Hn z). cntg. destruct (z =? y); [lia|]. auto.
        -- rewrite Hroot. destruct c as [|[y1 yb1 yr1|yl1 y1 yb1] c'].
           ++ destruct Hpx as (_ & ->). rewrite Nat.eqb_refl. reflexivity.
           ++ destruct Hpx as (-> & Hy & Hyl1 & Hq). rewrite (proj2 (Nat.eqb_neq (h_root h) x)) by assumption. split; [reflexivity|].
              destruct (Hfr y1) as (Q1 & Q2 & Q3 & Q4); [cbn [cl cr]; cntg; rewrite Nat.eqb_refl; lia|]. rewrite Q1, Q2, Q3, Q4. tauto.
           ++ destruct Hpx as (-> & Hy & Hyl1 & Hyr1 & Hq). rewrite (proj2 (Nat.eqb_neq (h_root h) x)) by assumption. split; [reflexivity|].
              destruct (Hfr y1) as (Q1 & Q2 & Q3 & Q4); [cbn [cl cr]; cntg; rewrite Nat.eqb_refl; lia|]. rewrite Q1, Q2, Q3, Q4. tauto.
Qed.
End P.
