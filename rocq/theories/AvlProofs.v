(** Proofs about the balanced tree of AvlModel.v: the shape, the rotations and the loop to the root. *)
From Coq Require Import ZArith Arith List Bool Lia.
From Verif Require Import AvlModel.
Import ListNotations.
Local Open Scope nat_scope.

Arguments h_par {A}. Arguments h_lft {A}. Arguments h_rgt {A}. Arguments h_bf {A}. Arguments h_key {A}. Arguments h_root {A}. Arguments mkH {A}.
Arguments set_par {A}. Arguments set_lft {A}. Arguments set_rgt {A}. Arguments put_bf {A}. Arguments set_root {A}. Arguments set_key {A}. Arguments set_bf {A}.
Arguments set_par_if {A}. Arguments rotate_LL {A}. Arguments rotate_RR {A}. Arguments rotate_LR {A}. Arguments rotate_RL {A}. Arguments get_balance {A}.
Arguments balance {A}. Arguments up {A}. Arguments leftmost {A}. Arguments rightmost {A}. Arguments avl_first {A}. Arguments avl_last {A}.
Arguments climb_next {A}. Arguments climb_prev {A}. Arguments avl_next {A}. Arguments avl_prev {A}. Arguments descend {A}. Arguments avl_search {A}.
Arguments avl_search_greater {A}. Arguments avl_search_smaller {A}. Arguments avl_insert {A}. Arguments avl_remove {A}. Arguments Ins {A}. Arguments Rem {A}.
Arguments do1 {A}. Arguments run {A}. Arguments avl_init {A}. Arguments forwards {A}. Arguments backwards {A}.

(** * Occurrences *)
Fixpoint cnt (y : nat) (l : list nat) : nat := match l with [] => 0 | x :: l' => (if y =? x then 1 else 0) + cnt y l' end.
Lemma cnt_app : forall y a b, cnt y (a ++ b) = cnt y a + cnt y b.
Proof. induction a as [|x a IH]; intros; cbn [cnt app]; [reflexivity|rewrite IH; lia]. Qed.
Lemma cnt_In : forall y l, In y l <-> 1 <= cnt y l.
Proof.
  induction l as [|x l IH]; cbn [cnt In]; [lia|].
  destruct (Nat.eqb_spec y x); [subst; split; [lia|auto]|].
  rewrite IH. split; [intros [->|]; [congruence|lia]|intro; right; lia].
Qed.
Definition nodup (l : list nat) : Prop := forall y, cnt y l <= 1.
Lemma nodup_NoDup : forall l, nodup l <-> NoDup l.
Proof.
  induction l as [|x l IH]; split; intro H.
  - constructor.
  - intro y; cbn; lia.
  - constructor.
    + rewrite cnt_In. specialize (H x). cbn [cnt] in H. rewrite Nat.eqb_refl in H. lia.
    + apply IH. intro y. specialize (H y). cbn [cnt] in H. lia.
  - inversion H as [|? ? H1 H2]; subst. intro y. cbn [cnt].
    rewrite cnt_In in H1. apply IH in H2. specialize (H2 y). destruct (Nat.eqb_spec y x); [subst; lia|lia].
Qed.

(** * Trees *)
Inductive tree := E | T (l : tree) (x : nat) (b : Z) (r : tree).
Fixpoint ino (t : tree) : list nat := match t with E => [] | T l x _ r => ino l ++ x :: ino r end.
Fixpoint hgt (t : tree) : Z := match t with E => 0%Z | T l _ _ r => (1 + Z.max (hgt l) (hgt r))%Z end.
Fixpoint bal (t : tree) : Prop :=
  match t with E => True | T l _ b r => bal l /\ bal r /\ (b = hgt r - hgt l)%Z /\ (-1 <= b <= 1)%Z end.
Definition rbf (t : tree) : Z := match t with E => 0%Z | T _ _ b _ => b end.

Lemma hgt_pos : forall t, (0 <= hgt t)%Z.
Proof. induction t; cbn [hgt]; lia. Qed.
Lemma hgt0 : forall t, (hgt t <= 0)%Z -> t = E.
Proof. destruct t; cbn [hgt]; [reflexivity|]. pose proof (hgt_pos t1). pose proof (hgt_pos t2). lia. Qed.

Ltac spif := unfold set_par_if in *.
Ltac fld := cbn [h_par h_lft h_rgt h_bf h_key h_root set_par set_lft set_rgt put_bf set_root set_key] in *.
Ltac cnts := cbn [ino] in *; repeat rewrite cnt_app in *; cbn [cnt] in *; repeat rewrite cnt_app in *; cbn [cnt] in *; repeat rewrite cnt_app in *; cbn [cnt] in *.

Section P.
Context {A : Type}.
Notation heap := (heap A).

Definition fsame (h h' : heap) (y : nat) : Prop :=
  h_par h' y = h_par h y /\ h_lft h' y = h_lft h y /\ h_rgt h' y = h_rgt h y /\ h_bf h' y = h_bf h y.
Definition csame (h h' : heap) (y : nat) : Prop :=
  h_lft h' y = h_lft h y /\ h_rgt h' y = h_rgt h y /\ h_bf h' y = h_bf h y.

Fixpoint rep (h : heap) (p a : nat) (t : tree) : Prop :=
  match t with
  | E => a = 0
  | T l x b r => a = x /\ x <> 0 /\ h_par h x = p /\ h_bf h x = b /\ rep h x (h_lft h x) l /\ rep h x (h_rgt h x) r
  end.

Lemma rep_same : forall t h h' p a, (forall y, 1 <= cnt y (ino t) -> fsame h h' y) -> rep h p a t -> rep h' p a t.
Proof.
  induction t as [|l IHl x b r IHr]; intros h h' p a Hs Hr; cbn [rep] in *; [assumption|].
  destruct Hr as (Ha & Hx & Hp & Hb & Hl & Hrr).
  destruct (Hs x) as (S1 & S2 & S3 & S4).
  { cbn [ino]. rewrite cnt_app. cbn [cnt]. rewrite Nat.eqb_refl. lia. }
  rewrite S1, S2, S3, S4. do 4 (split; [assumption|]). split.
  - apply (IHl h); [|assumption]. intros y Hy. apply Hs. cbn [ino]. rewrite cnt_app. lia.
  - apply (IHr h); [|assumption]. intros y Hy. apply Hs. cbn [ino]. rewrite cnt_app. cbn [cnt]. lia.
Qed.

Lemma rep_root_in : forall t h p a, rep h p a t -> a <> 0 -> 1 <= cnt a (ino t).
Proof.
  destruct t as [|l x b r]; intros h p a H Ha; cbn [rep] in H; [congruence|].
  destruct H as (-> & _). cbn [ino]. rewrite cnt_app. cbn [cnt]. rewrite Nat.eqb_refl. lia.
Qed.
Lemma rep_nz : forall t h p a y, rep h p a t -> 1 <= cnt y (ino t) -> y <> 0.
Proof.
  induction t as [|l IHl x b r IHr]; intros h p a y H Hy; cbn [ino cnt] in Hy; [lia|].
  cbn [rep] in H. destruct H as (Ha & Hx & Hp & Hb & Hl & Hrr).
  rewrite cnt_app in Hy. cbn [cnt] in Hy. destruct (Nat.eqb_spec y x); [congruence|].
  destruct (cnt y (ino l)) eqn:El; [apply (IHr _ _ _ _ Hrr); lia|apply (IHl _ _ _ _ Hl); lia].
Qed.

Lemma rep_move : forall t h h' p p' a, rep h p a t -> nodup (ino t) ->
  (forall y, 1 <= cnt y (ino t) -> csame h h' y) ->
  (forall y, 1 <= cnt y (ino t) -> y <> a -> h_par h' y = h_par h y) ->
  (a <> 0 -> h_par h' a = p') -> rep h' p' a t.
Proof.
  intros [|l x b r] h h' p p' a H Hn Hc Hp Ha; cbn [rep] in *; [assumption|].
  destruct H as (-> & Hx & Hpx & Hb & Hl & Hrr).
  destruct (Hc x) as (S2 & S3 & S4).
  { cbn [ino]. rewrite cnt_app. cbn [cnt]. rewrite Nat.eqb_refl. lia. }
  rewrite S2, S3, S4. split; [reflexivity|]. split; [assumption|]. split; [auto|]. split; [assumption|].
  assert (Hnx := Hn x). cbn [ino] in Hnx. rewrite cnt_app in Hnx. cbn [cnt] in Hnx. rewrite Nat.eqb_refl in Hnx.
  split.
  - apply (rep_same l h); [|assumption]. intros y Hy.
    assert (Hy2 : 1 <= cnt y (ino (T l x b r))) by (cbn [ino]; rewrite cnt_app; lia).
    split; [apply Hp; [assumption|intros ->; lia]|apply Hc; assumption].
  - apply (rep_same r h); [|assumption]. intros y Hy.
    assert (Hy2 : 1 <= cnt y (ino (T l x b r))) by (cbn [ino]; rewrite cnt_app; cbn [cnt]; lia).
    split; [apply Hp; [assumption|intros ->; lia]|apply Hc; assumption].
Qed.

(** * Contexts: what lies above a subtree, innermost first *)
Inductive frame := FL (x : nat) (b : Z) (r : tree) | FR (l : tree) (x : nat) (b : Z).
Definition fnode (f : frame) : nat := match f with FL x _ _ => x | FR _ x _ => x end.
Definition fplug (f : frame) (t : tree) : tree := match f with FL x b r => T t x b r | FR l x b => T l x b t end.
Fixpoint plug (c : list frame) (t : tree) : tree := match c with [] => t | f :: c' => plug c' (fplug f t) end.
Fixpoint cl (c : list frame) : list nat := match c with [] => [] | FL _ _ _ :: c' => cl c' | FR l x _ :: c' => cl c' ++ ino l ++ [x] end.
Fixpoint cr (c : list frame) : list nat := match c with [] => [] | FL x _ r :: c' => x :: ino r ++ cr c' | FR _ _ _ :: c' => cr c' end.
(** [a] under parent [p] is at the bottom of [c]; the top of [c] is [q] under [pq]. *)
Fixpoint rpc (h : heap) (a p : nat) (c : list frame) (q pq : nat) : Prop :=
  match c with
  | [] => a = q /\ p = pq
  | FL x b r :: c' => p = x /\ x <> 0 /\ h_lft h x = a /\ h_bf h x = b /\ rep h x (h_rgt h x) r /\ rpc h x (h_par h x) c' q pq
  | FR l x b :: c' => p = x /\ x <> 0 /\ h_rgt h x = a /\ h_bf h x = b /\ rep h x (h_lft h x) l /\ rpc h x (h_par h x) c' q pq
  end.
Fixpoint cbal (H : Z) (c : list frame) : Prop :=
  match c with
  | [] => True
  | FL x b r :: c' => bal r /\ (b = hgt r - H)%Z /\ (-1 <= b <= 1)%Z /\ cbal (1 + Z.max H (hgt r))%Z c'
  | FR l x b :: c' => bal l /\ (b = H - hgt l)%Z /\ (-1 <= b <= 1)%Z /\ cbal (1 + Z.max (hgt l) H)%Z c'
  end.

Lemma ino_plug : forall c t, ino (plug c t) = cl c ++ ino t ++ cr c.
Proof.
  induction c as [|f c IH]; intro t; cbn [plug cl cr]; [cbn; rewrite app_nil_r; reflexivity|].
  destruct f as [x b r|l x b]; rewrite IH; cbn [fplug ino]; repeat rewrite <- app_assoc; reflexivity.
Qed.
Lemma plug_app : forall c1 c2 t, plug (c1 ++ c2) t = plug c2 (plug c1 t).
Proof. induction c1 as [|f c1 IH]; intros; cbn; [reflexivity|apply IH]. Qed.
Lemma cl_app : forall c1 c2, cl (c1 ++ c2) = cl c2 ++ cl c1.
Proof. induction c1 as [|[x b r|l x b] c1 IH]; intros; cbn [cl app]; [rewrite app_nil_r; reflexivity|apply IH|rewrite IH; repeat rewrite <- app_assoc; reflexivity]. Qed.
Lemma cr_app : forall c1 c2, cr (c1 ++ c2) = cr c1 ++ cr c2.
Proof. induction c1 as [|[x b r|l x b] c1 IH]; intros; cbn [cr app]; [reflexivity| |apply IH]. rewrite IH, <- app_assoc. reflexivity. Qed.
Lemma plug_bal : forall c t, bal (plug c t) <-> bal t /\ cbal (hgt t) c.
Proof.
  induction c as [|f c IH]; intro t; cbn [plug cbal]; [tauto|].
  destruct f as [x b r|l x b]; rewrite IH; cbn [fplug bal hgt]; intuition.
Qed.
Lemma rpc_app : forall c1 c2 h a p q pq, rpc h a p (c1 ++ c2) q pq <-> exists q1 p1, rpc h a p c1 q1 p1 /\ rpc h q1 p1 c2 q pq.
Proof.
  induction c1 as [|f c1 IH]; intros c2 h a p q pq; cbn [app rpc].
  - split; [intro H; exists a, p; auto|intros (q1 & p1 & (-> & ->) & H); assumption].
  - destruct f as [x b r|l x b]; rewrite IH; split.
    + intros (H1 & H2 & H3 & H4 & H5 & q1 & p1 & H6 & H7). exists q1, p1. tauto.
    + intros (q1 & p1 & (H1 & H2 & H3 & H4 & H5 & H6) & H7). do 5 (split; [assumption|]). exists q1, p1; auto.
    + intros (H1 & H2 & H3 & H4 & H5 & q1 & p1 & H6 & H7). exists q1, p1. tauto.
    + intros (q1 & p1 & (H1 & H2 & H3 & H4 & H5 & H6) & H7). do 5 (split; [assumption|]). exists q1, p1; auto.
Qed.
Lemma plug_rep : forall c h a p q pq t, rpc h a p c q pq -> rep h p a t -> rep h pq q (plug c t).
Proof.
  induction c as [|f c IH]; intros h a p q pq t Hc Ht; cbn [rpc plug] in *.
  - destruct Hc as (-> & ->). assumption.
  - destruct f as [x b r|l x b]; destruct Hc as (-> & Hx & Ha & Hb & Hr & Hc); apply (IH _ _ _ _ _ _ Hc); cbn [fplug rep]; rewrite Ha; tauto.
Qed.
Lemma rpc_same : forall c h h' a p q pq, (forall y, 1 <= cnt y (cl c) + cnt y (cr c) -> fsame h h' y) -> rpc h a p c q pq -> rpc h' a p c q pq.
Proof.
  induction c as [|f c IH]; intros h h' a p q pq Hs Hc; cbn [rpc] in *; [assumption|].
  destruct f as [x b r|l x b]; destruct Hc as (-> & Hx & Ha & Hb & Hr & Hc); cbn [cl cr] in Hs.
  - destruct (Hs x) as (S1 & S2 & S3 & S4).
    { cbn [cnt]. rewrite Nat.eqb_refl. lia. }
    rewrite S1, S2, S3, S4. do 4 (split; [auto|]). split.
    + apply (rep_same r h); [|assumption]. intros y Hy. apply Hs. cbn [cnt]. rewrite cnt_app. lia.
    + apply (IH h); [|assumption]. intros y Hy. apply Hs. cbn [cnt]. rewrite cnt_app. lia.
  - destruct (Hs x) as (S1 & S2 & S3 & S4).
    { rewrite 2 cnt_app. cbn [cnt]. rewrite Nat.eqb_refl. lia. }
    rewrite S1, S2, S3, S4. do 4 (split; [auto|]). split.
    + apply (rep_same l h); [|assumption]. intros y Hy. apply Hs. rewrite 2 cnt_app. lia.
    + apply (IH h); [|assumption]. intros y Hy. apply Hs. rewrite 2 cnt_app. lia.
Qed.
Lemma rpc_nz : forall c h a p q pq y, rpc h a p c q pq -> 1 <= cnt y (cl c) + cnt y (cr c) -> y <> 0.
Proof.
  induction c as [|f c IH]; intros h a p q pq y Hc Hy; cbn [cl cr cnt] in Hy; [lia|].
  cbn [rpc] in Hc. destruct f as [x b r|l x b]; destruct Hc as (-> & Hx & Ha & Hb & Hr & Hc).
  - cbn [cnt] in Hy. rewrite cnt_app in Hy. destruct (Nat.eqb_spec y x); [congruence|].
    destruct (cnt y (ino r)) eqn:Er; [apply (IH _ _ _ _ _ _ Hc); lia|apply (rep_nz _ _ _ _ y Hr); lia].
  - rewrite 2 cnt_app in Hy. cbn [cnt] in Hy. destruct (Nat.eqb_spec y x); [congruence|].
    destruct (cnt y (ino l)) eqn:Er; [apply (IH _ _ _ _ _ _ Hc); lia|apply (rep_nz _ _ _ _ y Hr); lia].
Qed.
Lemma len_hgt : forall c t, (Z.of_nat (length c) + hgt t <= hgt (plug c t))%Z.
Proof.
  induction c as [|f c IH]; intro t; cbn [plug length]; [lia|]. specialize (IH (fplug f t)).
  destruct f as [x b r|l x b]; cbn [fplug hgt] in *; lia.
Qed.
Lemma len_ctx : forall c, length c <= length (cl c ++ cr c).
Proof.
  induction c as [|[x b r|l x b] c IH]; cbn [cl cr length]; [lia| |]; repeat rewrite app_length in *; cbn [length] in *; repeat rewrite app_length in *; cbn [length]; lia.
Qed.

(** * Rotations *)
Lemma upd_eq : forall (B : Type) (f : nat -> B) x v, upd f x v x = v.
Proof. intros. unfold upd. rewrite Nat.eqb_refl. reflexivity. Qed.
Lemma upd_ne : forall (B : Type) (f : nat -> B) x v y, y <> x -> upd f x v y = f y.
Proof. intros. unfold upd. destruct (Nat.eqb_spec y x); [congruence|reflexivity]. Qed.

Lemma set_bf_ok : forall x v (h : heap), (-1 <= v <= 2)%Z -> set_bf x v h = Some (put_bf x v h).
Proof.
  intros x v h H. unfold set_bf. rewrite (proj2 (Z.leb_le (-1) v)) by lia. rewrite (proj2 (Z.leb_le v 2)) by lia. reflexivity.
Qed.

Definition LLheap (h : heap) (a c : nat) (v : Z) : heap :=
  let h1 := put_bf a v h in
  let cr := h_rgt h1 c in
  let h2 := set_par_if cr a (set_lft a cr h1) in
  let h3 := set_rgt c a h2 in
  let h4 := set_par c (h_par h3 a) h3 in set_par a c h4.
Definition RRheap (h : heap) (a c : nat) (v : Z) : heap :=
  let h1 := put_bf a v h in
  let cl := h_lft h1 c in
  let h2 := set_par_if cl a (set_rgt a cl h1) in
  let h3 := set_lft c a h2 in
  let h4 := set_par c (h_par h3 a) h3 in set_par a c h4.


Lemma LL_rep : forall h p a ta c cb tb ab td v,
  rep h p a (T (T ta c cb tb) a ab td) -> nodup (ino (T (T ta c cb tb) a ab td)) ->
  rep (LLheap h a c v) p c (T ta c cb (T tb a v td)) /\
  (forall y, cnt y (ino (T (T ta c cb tb) a ab td)) = 0 -> fsame h (LLheap h a c v) y) /\
  h_key (LLheap h a c v) = h_key h /\ h_root (LLheap h a c v) = h_root h.
Proof.
  intros h p a ta c cb tb ab td v H Hn.
  cbn [rep] in H. destruct H as (_ & Ha & Hp & Hb & (Hlc & Hc & Hpc & Hbc & Hta & Htb) & Htd).
  assert (Nac : a <> c). { intros ->. specialize (Hn c). cnts. rewrite Nat.eqb_refl in Hn. lia. }
  set (br := h_rgt h c) in *.
  assert (Hbr : br <> 0 -> br <> a /\ br <> c).
  { intro Hz. assert (Hi := rep_root_in _ _ _ _ Htb Hz). specialize (Hn br). cnts.
    split; intro Q; rewrite Q in Hn, Hi; rewrite Nat.eqb_refl in Hn; lia. }
  assert (Hpar : forall y, h_par (LLheap h a c v) y = if y =? a then c else if y =? c then p else if (y =? br) && negb (br =? 0) then a else h_par h y).
  { intro y. unfold LLheap. spif. fld. fold br. destruct (br =? 0) eqn:Z0; fld; unfold upd.
    - destruct (y =? a) eqn:Ya; [reflexivity|]. destruct (y =? c) eqn:Yc; [assumption|]. rewrite andb_false_r. reflexivity.
    - destruct (y =? a) eqn:Ya; [reflexivity|]. destruct (y =? c) eqn:Yc.
      + apply Nat.eqb_neq in Z0. destruct (Nat.eqb_spec a br); [destruct (Hbr Z0); congruence|assumption].
      + rewrite andb_true_r. reflexivity. }
  assert (Hlft : forall y, h_lft (LLheap h a c v) y = if y =? a then br else h_lft h y).
  { intro y. unfold LLheap. spif. fld. fold br. destruct (br =? 0); fld; unfold upd; reflexivity. }
  assert (Hrgt : forall y, h_rgt (LLheap h a c v) y = if y =? c then a else h_rgt h y).
  { intro y. unfold LLheap. spif. fld. fold br. destruct (br =? 0); fld; unfold upd; reflexivity. }
  assert (Hbf : forall y, h_bf (LLheap h a c v) y = if y =? a then v else h_bf h y).
  { intro y. unfold LLheap. spif. fld. fold br. destruct (br =? 0); fld; unfold upd; reflexivity. }
  split; [|split].
  - cbn [rep]. rewrite !Hpar, !Hlft, !Hrgt, !Hbf. rewrite !Nat.eqb_refl.
    rewrite (proj2 (Nat.eqb_neq c a)) by congruence. rewrite (proj2 (Nat.eqb_neq a c)) by congruence.
    do 4 (split; [auto|]). split; [|do 4 (split; [auto|]); split].
    + apply (rep_same ta h); [|assumption]. intros y Hy. unfold fsame. rewrite Hpar, Hlft, Hrgt, Hbf.
      assert (Hny := Hn y). cnts. destruct (y =? a); [lia|]. destruct (y =? c); [lia|].
      destruct (Nat.eqb_spec y br); [|cbn; auto]. destruct (Nat.eqb_spec br 0); [cbn; auto|].
      assert (Hi := rep_root_in _ _ _ _ Htb n). subst y. lia.
    + apply (rep_move tb h _ c); [assumption| | | |].
      * intro y. specialize (Hn y). cnts. lia.
      * intros y Hy. unfold csame. rewrite Hlft, Hrgt, Hbf. specialize (Hn y). cnts. destruct (y =? a); [lia|]. destruct (y =? c); [lia|]. auto.
      * intros y Hy Hne. rewrite Hpar. specialize (Hn y). cnts. destruct (y =? a); [lia|]. destruct (y =? c); [lia|].
        rewrite (proj2 (Nat.eqb_neq y br)) by assumption. reflexivity.
      * intro Hz. rewrite Hpar. destruct (Hbr Hz). rewrite 2 (proj2 (Nat.eqb_neq _ _)) by assumption.
        rewrite Nat.eqb_refl. rewrite (proj2 (Nat.eqb_neq _ _)) by assumption. reflexivity.
    + apply (rep_same td h); [|assumption]. intros y Hy. unfold fsame. rewrite Hpar, Hlft, Hrgt, Hbf.
      assert (Hny := Hn y). cnts. destruct (y =? a); [lia|]. destruct (y =? c); [lia|].
      destruct (Nat.eqb_spec y br); [|cbn; auto]. destruct (Nat.eqb_spec br 0); [cbn; auto|].
      assert (Hi := rep_root_in _ _ _ _ Htb n). subst y. lia.
  - intros y Hy. unfold fsame. rewrite Hpar, Hlft, Hrgt, Hbf. cnts. destruct (y =? a); [lia|]. destruct (y =? c); [lia|].
    destruct (Nat.eqb_spec y br); [|cbn; auto]. destruct (Nat.eqb_spec br 0); [cbn; auto|].
    assert (Hi := rep_root_in _ _ _ _ Htb n). subst y. lia.
  - unfold LLheap. spif. fld. destruct (h_rgt h c =? 0); fld; auto.
Qed.

Lemma RR_rep : forall h p a ta c cb tb ab td v,
  rep h p a (T td a ab (T tb c cb ta)) -> nodup (ino (T td a ab (T tb c cb ta))) ->
  rep (RRheap h a c v) p c (T (T td a v tb) c cb ta) /\
  (forall y, cnt y (ino (T td a ab (T tb c cb ta))) = 0 -> fsame h (RRheap h a c v) y) /\
  h_key (RRheap h a c v) = h_key h /\ h_root (RRheap h a c v) = h_root h.
Proof.
  intros h p a ta c cb tb ab td v H Hn.
  cbn [rep] in H. destruct H as (_ & Ha & Hp & Hb & Htd & (Hlc & Hc & Hpc & Hbc & Htb & Hta)).
  assert (Nac : a <> c). { intros ->. specialize (Hn c). cnts. rewrite Nat.eqb_refl in Hn. lia. }
  set (br := h_lft h c) in *.
  assert (Hbr : br <> 0 -> br <> a /\ br <> c).
  { intro Hz. assert (Hi := rep_root_in _ _ _ _ Htb Hz). specialize (Hn br). cnts.
    split; intro Q; rewrite Q in Hn, Hi; rewrite Nat.eqb_refl in Hn; lia. }
  assert (Hpar : forall y, h_par (RRheap h a c v) y = if y =? a then c else if y =? c then p else if (y =? br) && negb (br =? 0) then a else h_par h y).
  { intro y. unfold RRheap. spif. fld. fold br. destruct (br =? 0) eqn:Z0; fld; unfold upd.
    - destruct (y =? a) eqn:Ya; [reflexivity|]. destruct (y =? c) eqn:Yc; [assumption|]. rewrite andb_false_r. reflexivity.
    - destruct (y =? a) eqn:Ya; [reflexivity|]. destruct (y =? c) eqn:Yc.
      + apply Nat.eqb_neq in Z0. destruct (Nat.eqb_spec a br); [destruct (Hbr Z0); congruence|assumption].
      + rewrite andb_true_r. reflexivity. }
  assert (Hrgt : forall y, h_rgt (RRheap h a c v) y = if y =? a then br else h_rgt h y).
  { intro y. unfold RRheap. spif. fld. fold br. destruct (br =? 0); fld; unfold upd; reflexivity. }
  assert (Hlft : forall y, h_lft (RRheap h a c v) y = if y =? c then a else h_lft h y).
  { intro y. unfold RRheap. spif. fld. fold br. destruct (br =? 0); fld; unfold upd; reflexivity. }
  assert (Hbf : forall y, h_bf (RRheap h a c v) y = if y =? a then v else h_bf h y).
  { intro y. unfold RRheap. spif. fld. fold br. destruct (br =? 0); fld; unfold upd; reflexivity. }
  split; [|split].
  - cbn [rep]. rewrite !Hpar, !Hlft, !Hrgt, !Hbf. rewrite !Nat.eqb_refl.
    rewrite (proj2 (Nat.eqb_neq c a)) by congruence. rewrite (proj2 (Nat.eqb_neq a c)) by congruence.
    do 4 (split; [auto|]). split; [do 4 (split; [auto|]); split|].
    + apply (rep_same td h); [|assumption]. intros y Hy. unfold fsame. rewrite Hpar, Hlft, Hrgt, Hbf.
      assert (Hny := Hn y). cnts. destruct (y =? a); [lia|]. destruct (y =? c); [lia|].
      destruct (Nat.eqb_spec y br); [|cbn; auto]. destruct (Nat.eqb_spec br 0); [cbn; auto|].
      assert (Hi := rep_root_in _ _ _ _ Htb n). subst y. lia.
    + apply (rep_move tb h _ c); [assumption| | | |].
      * intro y. specialize (Hn y). cnts. lia.
      * intros y Hy. unfold csame. rewrite Hlft, Hrgt, Hbf. specialize (Hn y). cnts. destruct (y =? a); [lia|]. destruct (y =? c); [lia|]. auto.
      * intros y Hy Hne. rewrite Hpar. specialize (Hn y). cnts. destruct (y =? a); [lia|]. destruct (y =? c); [lia|].
        rewrite (proj2 (Nat.eqb_neq y br)) by assumption. reflexivity.
      * intro Hz. rewrite Hpar. destruct (Hbr Hz). rewrite 2 (proj2 (Nat.eqb_neq _ _)) by assumption.
        rewrite Nat.eqb_refl. rewrite (proj2 (Nat.eqb_neq _ _)) by assumption. reflexivity.
    + apply (rep_same ta h); [|assumption]. intros y Hy. unfold fsame. rewrite Hpar, Hlft, Hrgt, Hbf.
      assert (Hny := Hn y). cnts. destruct (y =? a); [lia|]. destruct (y =? c); [lia|].
      destruct (Nat.eqb_spec y br); [|cbn; auto]. destruct (Nat.eqb_spec br 0); [cbn; auto|].
      assert (Hi := rep_root_in _ _ _ _ Htb n). subst y. lia.
  - intros y Hy. unfold fsame. rewrite Hpar, Hlft, Hrgt, Hbf. cnts. destruct (y =? a); [lia|]. destruct (y =? c); [lia|].
    destruct (Nat.eqb_spec y br); [|cbn; auto]. destruct (Nat.eqb_spec br 0); [cbn; auto|].
    assert (Hi := rep_root_in _ _ _ _ Htb n). subst y. lia.
  - unfold RRheap. spif. fld. destruct (h_lft h c =? 0); fld; auto.
Qed.

Lemma LL_run : forall h p a ta c cb tb ab td pbf cbf,
  rep h p a (T (T ta c cb tb) a ab td) ->
  (cbf = hgt tb - hgt ta)%Z -> (pbf = hgt td - (1 + Z.max (hgt ta) (hgt tb)))%Z -> (-1 <= hgt td - hgt tb <= 2)%Z ->
  rotate_LL h a pbf cbf = Some (LLheap h a c (hgt td - hgt tb)%Z, c, (1 + Z.max (hgt tb) (hgt td) - hgt ta)%Z,
    (Z.max (hgt ta) (1 + Z.max (hgt tb) (hgt td)) - (1 + Z.max (hgt ta) (hgt tb)))%Z).
Proof.
  intros h p a ta c cb tb ab td pbf cbf H -> -> Hv.
  cbn [rep] in H. destruct H as (_ & Ha & Hp & Hb & (Hlc & Hc & Hpc & Hbc & Hta & Htb) & Htd).
  unfold rotate_LL. rewrite Hlc. rewrite (proj2 (Nat.eqb_neq c 0)) by assumption.
  destruct (Z.ltb_spec (hgt tb - hgt ta) 0).
  - generalize (one_if (h_rgt h c)); intro u. cbn zeta iota beta.
    match goal with |- context [set_bf a ?v h] => replace v with (hgt td - hgt tb)%Z by lia end.
    rewrite set_bf_ok by lia. unfold LLheap. f_equal. f_equal; [f_equal|]; lia.
  - generalize (one_if (h_lft h c)); intro u. cbn zeta iota beta.
    match goal with |- context [set_bf a ?v h] => replace v with (hgt td - hgt tb)%Z by lia end.
    rewrite set_bf_ok by lia. unfold LLheap. f_equal. f_equal; [f_equal|]; lia.
Qed.
Lemma RR_run : forall h p a ta c cb tb ab td pbf cbf,
  rep h p a (T td a ab (T tb c cb ta)) ->
  (cbf = hgt ta - hgt tb)%Z -> (pbf = (1 + Z.max (hgt ta) (hgt tb)) - hgt td)%Z -> (-1 <= hgt tb - hgt td <= 2)%Z ->
  rotate_RR h a pbf cbf = Some (RRheap h a c (hgt tb - hgt td)%Z, c, (hgt ta - (1 + Z.max (hgt tb) (hgt td)))%Z,
    (Z.max (hgt ta) (1 + Z.max (hgt tb) (hgt td)) - (1 + Z.max (hgt ta) (hgt tb)))%Z).
Proof.
  intros h p a ta c cb tb ab td pbf cbf H -> -> Hv.
  cbn [rep] in H. destruct H as (_ & Ha & Hp & Hb & Htd & (Hlc & Hc & Hpc & Hbc & Htb & Hta)).
  unfold rotate_RR. rewrite Hlc. rewrite (proj2 (Nat.eqb_neq c 0)) by assumption.
  destruct (Z.ltb_spec (hgt ta - hgt tb) 0).
  - generalize (one_if (h_rgt h c)); intro u. cbn zeta iota beta.
    match goal with |- context [set_bf a ?v h] => replace v with (hgt tb - hgt td)%Z by lia end.
    rewrite set_bf_ok by lia. unfold RRheap. f_equal. f_equal; [f_equal|]; lia.
  - generalize (one_if (h_lft h c)); intro u. cbn zeta iota beta.
    match goal with |- context [set_bf a ?v h] => replace v with (hgt tb - hgt td)%Z by lia end.
    rewrite set_bf_ok by lia. unfold RRheap. f_equal. f_equal; [f_equal|]; lia.
Qed.
End P.
