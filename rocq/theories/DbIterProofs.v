(** The iterator of the database moves over the merge of its leaves (proofs). *)
From Coq Require Import List NArith Bool Arith Lia Sorted Permutation.
From Verif Require Import Base LogFormatModel KeyModel KeyProofs MemTableModel IterModel IterProofs LeafIterModel DbIterModel.
Import ListNotations.
Local Open Scope nat_scope.

(** ** Specification: a cursor over a list, that skips what is not shown *)

(** The next position after [i] that is shown; the previous one before [i]. *)
Fixpoint find_from (p : rec -> bool) (l : list rec) (j : nat) : option nat :=
  match l with [] => None | x :: l' => if p x then Some j else find_from p l' (S j) end.
Definition next_shown (p : rec -> bool) (M : list rec) (i : nat) : option nat := find_from p (skipn (S i) M) (S i).
Fixpoint find_back (p : rec -> bool) (M : list rec) (i : nat) : option nat :=
  match i with
  | O => None
  | S j => match nth_error M j with Some x => if p x then Some j else find_back p M j | None => None end
  end.

(** ** The table leaf *)

(** Where a seek for [t] in [l] must land. *)
Definition at_greater (ty : itype) (t : rec) (l : list rec) (r : rec) : Prop :=
  (le ty t r /\ forall x, In x l -> le ty t x -> le ty r x) \/ (forall x, In x l -> lt ty x t /\ le ty x r).
Definition at_smaller (ty : itype) (t : rec) (l : list rec) (r : rec) : Prop := le ty r t /\ forall x, In x l -> le ty x t -> le ty x r.
(** Some record of [l] is not below [t]; or the greatest key is in one of the lists only. *)
Definition reaches (ty : itype) (t : rec) (l : list rec) : Prop := exists x, In x l /\ le ty t x.
Definition one_top (ty : itype) (Ls : nat -> list rec) (l : list rec) : Prop :=
  forall n n' x y, In x (Ls n) -> In y (Ls n') -> (forall z, In z l -> le ty z x) -> le ty y x -> le ty x y -> n = n'.
Definition tops (ty : itype) (T : rec -> Prop) (Ls : nat -> list rec) (l : list rec) : Prop := forall t, T t -> reaches ty t l \/ one_top ty Ls l.
Lemma reaches_dec : forall ty t l, reaches ty t l \/ forall x, In x l -> lt ty x t.
Proof.
  intros ty t l. induction l as [|x l IH]; [right; intros x []|]. destruct IH as [(y & Hy & H)|H]; [left; exists y; split; [now right|exact H]|].
  destruct (lt_dec ty x t) as [Hl|Hl]; [right; intros y [<-|Hy]; auto|]. left. exists x. split; [now left|exact Hl].
Qed.

Section Leaf.
Variable ty : itype.
Variable TS : rec -> Prop.
Definition RT (t : tfi) (l : list rec) (p : nat) : Prop := (t_docs t = l /\ t_pos t = p /\ p < length l /\ csorted ty l) /\
  forall q, TS q -> (ty = ByKey -> r_key q <> []) /\ exists x, In x l /\ le ty x q.
Lemma rt_get : forall t l p, RT t l p -> nth_error l p = Some (t_get t) /\ csorted ty l.
Proof.
  intros t l p [(<- & <- & H & C) _]. split; [|exact C]. unfold t_get. now apply nth_error_nth'.
Qed.
Lemma rt_next : forall t l p, RT t l p -> exists t', t_next t = Some (t', Nat.ltb (S p) (length l)) /\ RT t' l (if Nat.ltb (S p) (length l) then S p else p).
Proof.
  intros t l p [(<- & <- & H & C) Q]. unfold t_next. destruct (Nat.ltb_spec (S (t_pos t)) (length (t_docs t))) as [E|E];
    eexists; (split; [reflexivity|]); (split; [repeat split; auto|exact Q]).
Qed.
Lemma rt_prev : forall t l p, RT t l p -> exists t', t_prev t = Some (t', Nat.ltb 0 p) /\ RT t' l (pred p).
Proof.
  intros t l p [(<- & <- & H & C) Q]. unfold t_prev. destruct (t_pos t) as [|q] eqn:E; cbn; eexists; (split; [reflexivity|]); (split; [repeat split; auto; cbn; lia|exact Q]).
Qed.
Lemma pos_of_spec : forall p l,
  match pos_of p l with
  | Some i => exists x, nth_error l i = Some x /\ p x = true /\ forall j y, j < i -> nth_error l j = Some y -> p y = false
  | None => forall y, In y l -> p y = false
  end.
Proof.
  intros p l. induction l as [|x l IH]; cbn [pos_of]; [intros y []|]. destruct (p x) eqn:P.
  - exists x. repeat split; [exact P|]. intros j y Hj. lia.
  - destruct (pos_of p l) as [i|]; cbn [option_map].
    + destruct IH as (y & N & Py & H). exists y. repeat split; [exact N|exact Py|]. intros [|j] z Hj Hz; [cbn in Hz; injection Hz as <-; exact P|]. apply (H j z); [lia|exact Hz].
    + intros y [<-|Hy]; auto.
Qed.
Lemma kle_nil : forall k, kle [] k.
Proof. intros [|b k]; [apply kle_refl|]. unfold kle. cbn. discriminate. Qed.
Lemma le_of_nlt : forall x q, negb (is_lt (cmpr ty x q)) = true <-> le ty q x.
Proof.
  intros x q. unfold le. rewrite (cmpr_antisym ty x q). destruct (cmpr ty x q); cbn; split; try discriminate; try reflexivity; intros H; congruence.
Qed.
Lemma le_of_ngt : forall x q, negb (is_gt (cmpr ty x q)) = true <-> le ty x q.
Proof. intros x q. unfold le. destruct (cmpr ty x q); cbn; split; try discriminate; try reflexivity; intros H; congruence. Qed.
Lemma csorted_le : forall l i j x y, csorted ty l -> i <= j -> nth_error l i = Some x -> nth_error l j = Some y -> le ty x y.
Proof.
  intros l i j x y C H Hx Hy. destruct (Nat.eq_dec i j) as [->|Hn]; [rewrite Hx in Hy; injection Hy as ->; apply le_refl|]. apply lt_le. apply (C i j); [lia|exact Hx|exact Hy].
Qed.
Lemma rt_greater : forall q t l p, RT t l p -> exists t' p', t_seek ty true q t = Some (t', true) /\ RT t' l p' /\ at_greater ty q l (t_get t').
Proof.
  intros q t l p [(E & _ & Hp & C) Q]. unfold t_seek. destruct (match ty with ByKey => keqb (r_key q) [] | BySeq => false end) eqn:K.
  - exists (mkT (t_docs t) 0), 0. split; [reflexivity|]. assert (R' : RT (mkT (t_docs t) 0) l 0) by (split; [repeat split; auto; lia|exact Q]). split; [exact R'|].
    destruct (rt_get _ _ _ R') as [N _]. left. split.
    + destruct ty; [|discriminate]. apply keqb_true in K. unfold le, cmpr. rewrite K. apply kle_nil.
    + intros x Hx _. apply In_nth_error in Hx as [j Hj]. eapply (csorted_le l 0 j); [exact C|lia|exact N|exact Hj].
  - rewrite E. set (b := match pos_of _ l with Some i => i | None => _ end). assert (Hb : b < length l /\ forall x, nth_error l b = Some x -> at_greater ty q l x).
    { unfold b. pose proof (pos_of_spec (fun x => negb (is_lt (cmpr ty x q))) l) as F. cbv beta in F. destruct (pos_of _ l) as [i|].
      - destruct F as (x & N & Px & H). split; [apply nth_error_Some; rewrite N; discriminate|]. intros x' Hx'. rewrite N in Hx'. injection Hx' as <-. left. split; [now apply le_of_nlt|].
        intros y Hy Ly. apply In_nth_error in Hy as [j Hj]. destruct (Nat.le_gt_cases i j) as [L|L]; [exact (csorted_le l i j x y C L N Hj)|].
        apply le_of_nlt in Ly. rewrite (H j y L Hj) in Ly. discriminate.
      - split; [lia|]. intros x Hx. right. intros y Hy. split.
        + destruct (lt_dec ty y q) as [L|L]; [exact L|]. apply le_of_nlt in L. rewrite (F y Hy) in L. discriminate.
        + apply In_nth_error in Hy as [j Hj]. assert (j < length l) by (apply nth_error_Some; rewrite Hj; discriminate). eapply (csorted_le l j); [exact C| |exact Hj|exact Hx]. lia. }
    clearbody b. destruct Hb as [Hb Hx]. exists (mkT l b), b. split; [reflexivity|]. assert (R' : RT (mkT l b) l b) by (split; [repeat split; auto|exact Q]). split; [exact R'|].
    apply Hx. apply (rt_get _ _ _ R').
Qed.
Lemma rt_smaller : forall q t l p, TS q -> RT t l p -> exists t' p', t_seek ty false q t = Some (t', true) /\ RT t' l p' /\ at_smaller ty q l (t_get t').
Proof.
  intros q t l p Hq [(E & _ & Hp & C) Q]. destruct (Q q Hq) as (Kn & x0 & X1 & X2). unfold t_seek.
  assert ((match ty with ByKey => keqb (r_key q) [] | BySeq => false end) = false) as ->.
  { destruct ty; [|reflexivity]. apply keqb_false. now apply Kn. }
  rewrite E. set (b := match pos_of _ (rev l) with Some i => _ | None => _ end). assert (Hb : b < length l /\ forall x, nth_error l b = Some x -> at_smaller ty q l x).
  { unfold b. pose proof (pos_of_spec (fun x => negb (is_gt (cmpr ty x q))) (rev l)) as F. cbv beta in F. destruct (pos_of _ (rev l)) as [i|].
    - destruct F as (x & N & Px & H). assert (Hi : i < length l) by (rewrite <- rev_length; apply nth_error_Some; rewrite N; discriminate).
      assert (Rv : forall k, k < length l -> nth_error (rev l) (pred (length l) - k) = nth_error l k).
      { intros k Hk. rewrite (nth_error_nth' (rev l) no_rec) by (rewrite rev_length; lia). rewrite rev_nth by lia. rewrite (nth_error_nth' l no_rec) by lia. f_equal. f_equal. lia. }
      split; [lia|]. intros x' Hx'. rewrite <- (Rv (pred (length l) - i)) in Hx' by lia. replace (pred (length l) - (pred (length l) - i)) with i in Hx' by lia. rewrite N in Hx'. injection Hx' as <-.
      split; [now apply le_of_ngt|]. intros y Hy Ly. apply In_nth_error in Hy as [j Hj]. assert (Hjl : j < length l) by (apply nth_error_Some; rewrite Hj; discriminate).
      destruct (Nat.le_gt_cases j (pred (length l) - i)) as [L|L].
      + eapply (csorted_le l j (pred (length l) - i)); [exact C|exact L|exact Hj|]. rewrite <- Rv by lia. now replace (pred (length l) - (pred (length l) - i)) with i by lia.
      + apply le_of_ngt in Ly. rewrite <- (Rv j Hjl) in Hj. rewrite (H (pred (length l) - j) y ltac:(lia) Hj) in Ly. discriminate.
    - exfalso. apply le_of_ngt in X2. rewrite (F x0) in X2; [discriminate|]. now apply -> in_rev. }
  clearbody b. destruct Hb as [Hb Hx]. exists (mkT l b), b. split; [reflexivity|]. assert (R' : RT (mkT l b) l b) by (split; [repeat split; auto|exact Q]). split; [exact R'|].
  apply Hx. apply (rt_get _ _ _ R').
Qed.
End Leaf.

Section Shown.
Variable ty : itype.
Local Notation shown := (shown ty).
Lemma skipn_nth : forall (M : list rec) i x, nth_error M i = Some x -> skipn i M = x :: skipn (S i) M.
Proof.
  induction M as [|y M IH]; intros [|i] x H; try discriminate; [now injection H as ->|]. cbn [skipn]. rewrite (IH i x H). reflexivity.
Qed.

Lemma firstn_nth : forall (M : list rec) i x, nth_error M i = Some x -> firstn (S i) M = firstn i M ++ [x].
Proof.
  induction M as [|y M IH]; intros [|i] x H; try discriminate; [now injection H as ->|]. cbn [firstn app]. f_equal. now apply IH.
Qed.
Lemma find_from_spec : forall p l j,
  match find_from p l j with
  | Some k => exists q x, k = j + q /\ nth_error l q = Some x /\ p x = true /\ forall q' y, q' < q -> nth_error l q' = Some y -> p y = false
  | None => forall y, In y l -> p y = false
  end.
Proof.
  intros p l. induction l as [|x l IH]; intros j; cbn [find_from]; [intros y []|]. destruct (p x) eqn:P.
  - exists 0, x. repeat split; [lia|exact P|]. intros q' y H. lia.
  - specialize (IH (S j)). destruct (find_from p l (S j)) as [k|].
    + destruct IH as (q & y & -> & N & Py & H). exists (S q), y. repeat split; [lia|exact N|exact Py|]. intros [|q'] z Hq Hz; [cbn in Hz; injection Hz as <-; exact P|]. apply (H q' z); [lia|exact Hz].
    + intros y [<-|Hy]; auto.
Qed.
Lemma nth_skipn : forall (M : list rec) m q, nth_error (skipn m M) q = nth_error M (m + q).
Proof.
  induction M as [|y M IH]; intros [|m] q; cbn [skipn Nat.add]; [reflexivity| |reflexivity|apply IH]. destruct q; reflexivity.
Qed.
Lemma next_shown_spec : forall M i,
  match next_shown shown M i with
  | Some j => i < j /\ (exists x, nth_error M j = Some x /\ shown x = true) /\ forall k y, i < k -> k < j -> nth_error M k = Some y -> shown y = false
  | None => forall k y, i < k -> nth_error M k = Some y -> shown y = false
  end.
Proof.
  intros M i. unfold next_shown. pose proof (find_from_spec shown (skipn (S i) M) (S i)) as F. destruct (find_from shown (skipn (S i) M) (S i)) as [j|].
  - destruct F as (q & x & -> & N & P & H). split; [lia|]. split; [exists x; split; [now rewrite <- nth_skipn|exact P]|].
    intros k y K1 K2 Hy. apply (H (k - S i) y); [lia|]. rewrite nth_skipn. replace (S i + (k - S i)) with k by lia. exact Hy.
  - intros k y K Hy. apply F. apply (nth_error_In _ (k - S i)). rewrite nth_skipn. replace (S i + (k - S i)) with k by lia. exact Hy.
Qed.
Lemma find_back_spec : forall M i, i <= length M ->
  match find_back shown M i with
  | Some j => j < i /\ (exists x, nth_error M j = Some x /\ shown x = true) /\ forall k y, j < k -> k < i -> nth_error M k = Some y -> shown y = false
  | None => forall k y, k < i -> nth_error M k = Some y -> shown y = false
  end.
Proof.
  intros M i. induction i as [|i IH]; intros Hi; cbn [find_back]; [intros k y Hk; lia|]. destruct (nth_error M i) as [x|] eqn:N.
  - destruct (shown x) eqn:Sx.
    + split; [lia|]. split; [now exists x|]. intros k y K1 K2; lia.
    + specialize (IH ltac:(lia)). destruct (find_back shown M i) as [j|].
      * destruct IH as (A & B & C). split; [lia|]. split; [exact B|]. intros k y K1 K2 Hy. destruct (Nat.eq_dec k i) as [->|Hne]; [congruence|]. apply (C k y); [lia|lia|exact Hy].
      * intros k y K Hy. destruct (Nat.eq_dec k i) as [->|Hne]; [congruence|]. apply (IH k y); [lia|exact Hy].
  - apply nth_error_None in N. lia.
Qed.

End Shown.

Section Db.
Variable L : Type.
Variable l_get : L -> rec.
Variable l_next l_prev : L -> option (L * bool).
Variable l_seek : bool -> rec -> L -> option (L * bool).
Variable l_end : L -> option (L * bool).
Variable ty : itype.
(** The keys sought with GREATER and with SMALLER. *)
Variable TG TS : rec -> Prop.
Variable RL : L -> list rec -> nat -> Prop.
Hypothesis RL_get : forall s l p, RL s l p -> nth_error l p = Some (l_get s) /\ csorted ty l.
Hypothesis RL_next : forall s l p, RL s l p -> exists s', l_next s = Some (s', Nat.ltb (S p) (length l)) /\ RL s' l (if Nat.ltb (S p) (length l) then S p else p).
Hypothesis RL_prev : forall s l p, RL s l p -> exists s', l_prev s = Some (s', Nat.ltb 0 p) /\ RL s' l (pred p).
Hypothesis RL_end : forall s l p, RL s l p -> exists s' q, l_end s = Some (s', true) /\ RL s' l q /\ S q = length l.

Hypothesis RL_greater : forall t s l p, TG t -> RL s l p -> exists s' q, l_seek true t s = Some (s', true) /\ RL s' l q /\ at_greater ty t l (l_get s').
Hypothesis RL_smaller : forall t s l p, TS t -> RL s l p -> exists s' q, l_seek false t s = Some (s', true) /\ RL s' l q /\ at_smaller ty t l (l_get s').

Notation src := (src L).
Notation s_get := (s_get L l_get).
Notation s_next := (s_next L l_get l_next ty).
Notation s_prev := (s_prev L l_get l_prev ty).
Notation s_seek := (s_seek L l_get l_seek l_end ty).
Notation s_end := (s_end L l_get l_seek l_end ty).
Notation d_cur := (d_cur L l_get).
Notation d_next := (d_next L l_get l_next ty).
Notation d_prev := (d_prev L l_get l_prev ty).
Notation d_seek := (d_seek L l_get l_next l_prev l_seek l_end ty).
Notation shown := (shown ty).
Notation RT := (RT ty TS).

(** The two inner iterators as sources. *)
Definition RS (fwd bwd : bool) (s : src) (l : list rec) (p : nat) : Prop :=
  match s with
  | LogS m => exists Ls, Inv L l_get ty fwd bwd RL Ls m l p /\ tops ty TG Ls l
  | TabS m => exists Ls, Inv tfi t_get ty fwd bwd RT Ls m l p /\ tops ty TG Ls l
  end.
Definition DInv (fwd bwd : bool) (d : dit L) (M : list rec) (i : nat) : Prop :=
  exists Lo, Inv src s_get ty fwd bwd (RS fwd bwd) Lo d M i /\ tops ty TG Lo M.

Lemma rs_get : forall fwd bwd s l p, RS fwd bwd s l p -> nth_error l p = Some (s_get s) /\ csorted ty l.
Proof.
  intros fwd bwd [m|m] l p (Ls & H & HQ); (split; [exact (inv_get _ _ _ _ _ _ _ _ _ _ H)|]); apply (v_merge _ _ _ _ _ _ _ _ _ _ H).
Qed.
Lemma rs_next : forall fwd bwd, fwd = true -> forall s l p, RS fwd bwd s l p ->
  exists s', s_next s = Some (s', Nat.ltb (S p) (length l)) /\ RS fwd bwd s' l (if Nat.ltb (S p) (length l) then S p else p).
Proof.
  intros fwd bwd F [m|m] l p (Ls & H & HQ).
  - destruct (m_next_spec L l_get l_next l_prev l_seek l_end ty fwd bwd RL RL_get (fun _ => RL_next) (fun _ => RL_prev) Ls F m l p H) as (m' & E & I & _).
    exists (LogS m'). cbn [DbIterModel.s_next]. rewrite E. split; [reflexivity|exists Ls; now split].
  - destruct (m_next_spec tfi t_get t_next t_prev (t_seek ty) t_to_end ty fwd bwd RT (rt_get ty TS) (fun _ => rt_next ty TS) (fun _ => rt_prev ty TS) Ls F m l p H) as (m' & E & I & _).
    exists (TabS m'). cbn [DbIterModel.s_next]. rewrite E. split; [reflexivity|exists Ls; now split].
Qed.
Lemma rs_prev : forall fwd bwd, bwd = true -> forall s l p, RS fwd bwd s l p ->
  exists s', s_prev s = Some (s', Nat.ltb 0 p) /\ RS fwd bwd s' l (pred p).
Proof.
  intros fwd bwd F [m|m] l p (Ls & H & HQ).
  - destruct (m_prev_spec L l_get l_next l_prev l_seek l_end ty fwd bwd RL RL_get (fun _ => RL_next) (fun _ => RL_prev) Ls F m l p H) as (m' & E & I & _).
    exists (LogS m'). cbn [DbIterModel.s_prev]. rewrite E. split; [reflexivity|exists Ls; now split].
  - destruct (m_prev_spec tfi t_get t_next t_prev (t_seek ty) t_to_end ty fwd bwd RT (rt_get ty TS) (fun _ => rt_next ty TS) (fun _ => rt_prev ty TS) Ls F m l p H) as (m' & E & I & _).
    exists (TabS m'). cbn [DbIterModel.s_prev]. rewrite E. split; [reflexivity|exists Ls; now split].
Qed.

Lemma dinv_cur : forall fwd bwd d M i, DInv fwd bwd d M i -> nth_error M i = Some (d_cur d).
Proof. intros fwd bwd d M i (Lo & H & HQ). exact (inv_get _ _ _ _ _ _ _ _ _ _ H). Qed.
Lemma dinv_step_next : forall fwd bwd d M i, fwd = true -> DInv fwd bwd d M i ->
  exists d', m_next src s_get s_next ty d = Some (d', Nat.ltb (S i) (length M)) /\ DInv fwd bwd d' M (if Nat.ltb (S i) (length M) then S i else i).
Proof.
  intros fwd bwd d M i F (Lo & H & HQ).
  destruct (m_next_spec src s_get s_next s_prev s_seek s_end ty fwd bwd (RS fwd bwd) (rs_get fwd bwd) (rs_next fwd bwd) (rs_prev fwd bwd) Lo F d M i H) as (d' & E & I & _).
  exists d'. split; [exact E|exists Lo; now split].
Qed.
Lemma dinv_step_prev : forall fwd bwd d M i, bwd = true -> DInv fwd bwd d M i ->
  exists d', m_prev src s_get s_prev ty d = Some (d', Nat.ltb 0 i) /\ DInv fwd bwd d' M (pred i).
Proof.
  intros fwd bwd d M i F (Lo & H & HQ).
  destruct (m_prev_spec src s_get s_next s_prev s_seek s_end ty fwd bwd (RS fwd bwd) (rs_get fwd bwd) (rs_next fwd bwd) (rs_prev fwd bwd) Lo F d M i H) as (d' & E & I & _).
  exists d'. split; [exact E|exists Lo; now split].
Qed.
Lemma dinv_lt : forall fwd bwd d M i, DInv fwd bwd d M i -> i < length M.
Proof. intros fwd bwd d M i H. apply nth_error_Some. rewrite (dinv_cur _ _ _ _ _ H). discriminate. Qed.

(** next() and prev() of the database. *)
Theorem d_next_spec : forall bwd fuel d M i, DInv true bwd d M i -> length M - i <= fuel ->
  match next_shown shown M i with
  | Some j => exists d', d_next fuel d = Some (d', true) /\ DInv true bwd d' M j
  | None => exists d', d_next fuel d = Some (d', false) /\ DInv true bwd d' M (pred (length M))
  end.
Proof.
  intros bwd fuel. induction fuel as [|fuel IH]; intros d M i H Hf.
  - apply dinv_lt in H. lia.
  - cbn [DbIterModel.d_next]. destruct (dinv_step_next true bwd d M i eq_refl H) as (d' & -> & I).
    unfold next_shown. destruct (Nat.ltb_spec (S i) (length M)) as [E|E].
    + pose proof (dinv_cur _ _ _ _ _ I) as C. rewrite (skipn_nth _ _ _ C). cbn [find_from]. destruct (shown (d_cur d')) eqn:Sh; [now exists d'|].
      specialize (IH d' M (S i) I ltac:(lia)). exact IH.
    + rewrite skipn_all2 by lia. cbn [find_from]. exists d'. split; [reflexivity|]. pose proof (dinv_lt _ _ _ _ _ I). replace (pred (length M)) with i by lia. exact I.
Qed.
Theorem d_prev_spec : forall fwd fuel d M i, DInv fwd true d M i -> S i <= fuel ->
  match find_back shown M i with
  | Some j => exists d', d_prev fuel d = Some (d', true) /\ DInv fwd true d' M j
  | None => exists d', d_prev fuel d = Some (d', false) /\ DInv fwd true d' M 0
  end.
Proof.
  intros fwd fuel. induction fuel as [|fuel IH]; intros d M i H Hf; [lia|].
  cbn [DbIterModel.d_prev]. destruct (dinv_step_prev fwd true d M i eq_refl H) as (d' & -> & I). destruct i as [|i].
  - cbn [Nat.ltb Nat.leb find_back]. exists d'. split; [reflexivity|exact I].
  - cbn [Nat.ltb Nat.leb find_back]. cbn [pred] in I. pose proof (dinv_cur _ _ _ _ _ I) as C. rewrite C. destruct (shown (d_cur d')) eqn:Sh; [now exists d'|].
    exact (IH d' M i I ltac:(lia)).
Qed.

(** ** Whole scans *)
Lemma scan_from : forall bwd n fuel d M i, DInv true bwd d M i -> shown (d_cur d) = true -> length M - i <= n -> length M <= fuel ->
  d_scan L l_get l_next ty n fuel d = filter shown (skipn i M).
Proof.
  intros bwd n. induction n as [|n IH]; intros fuel d M i H Sh Hn Hf; [apply dinv_lt in H; lia|].
  cbn [d_scan]. unfold d_get. rewrite Sh. pose proof (dinv_cur _ _ _ _ _ H) as C. rewrite (skipn_nth _ _ _ C). cbn [filter]. rewrite Sh. f_equal.
  pose proof (d_next_spec bwd fuel d M i H ltac:(lia)) as D. unfold next_shown in D.
  assert (F : forall l j, match find_from shown l j with
                        | Some k => exists q x, k = j + q /\ nth_error l q = Some x /\ shown x = true /\ filter shown l = filter shown (skipn q l)
                        | None => filter shown l = [] end).
  { clear. induction l as [|x l IH]; intros j; [reflexivity|]. cbn [find_from filter]. destruct (shown x) eqn:Sx.
    - exists 0, x. repeat split; [lia|exact Sx|]. cbn [skipn filter]. now rewrite Sx.
    - specialize (IH (S j)). destruct (find_from shown l (S j)) as [k|]; [|exact IH]. destruct IH as (q & y & -> & N & Sy & E). exists (S q), y. repeat split; [lia|exact N|exact Sy|exact E]. }
  specialize (F (skipn (S i) M) (S i)). destruct (find_from shown (skipn (S i) M) (S i)) as [k|].
  - destruct F as (q & x & -> & N & Sx & E). destruct D as (d' & -> & I). rewrite E. rewrite skipn_skipn.
    pose proof (dinv_cur _ _ _ _ _ I) as C'. rewrite (IH fuel d' M (S i + q) I).
    + f_equal.
    + assert (nth_error M (S i + q) = Some x) as C2.
      { clear -N. revert N. generalize (S i) as m. induction M as [|y M IH]; intros m N; [rewrite skipn_nil in N; destruct q; discriminate|].
        destruct m; [exact N|]. cbn [skipn] in N. cbn [Nat.add nth_error]. now apply IH. }
      rewrite C2 in C'. injection C' as <-. exact Sx.
    + apply dinv_lt in I. lia.
    + exact Hf.
  - destruct D as (d' & -> & _). now rewrite F.
Qed.

Lemma scan_back_from : forall fwd n fuel d M i, DInv fwd true d M i -> shown (d_cur d) = true -> S i <= n -> length M <= fuel ->
  d_scan_back L l_get l_prev ty n fuel d = rev (filter shown (firstn (S i) M)).
Proof.
  intros fwd n. induction n as [|n IH]; intros fuel d M i H Sh Hn Hf; [lia|].
  cbn [d_scan_back]. unfold d_get. rewrite Sh. pose proof (dinv_cur _ _ _ _ _ H) as C. rewrite (firstn_nth _ _ _ C). rewrite filter_app, rev_app_distr. cbn [filter]. rewrite Sh. cbn [rev app]. f_equal.
  pose proof (d_prev_spec fwd fuel d M i H ltac:(apply dinv_lt in H; lia)) as D.
  assert (Li : i <= length M) by (apply dinv_lt in H; lia).
  assert (F : match find_back shown M i with
              | Some k => k < i /\ (exists x, nth_error M k = Some x /\ shown x = true) /\ filter shown (firstn i M) = filter shown (firstn (S k) M)
              | None => filter shown (firstn i M) = [] end).
  { clear -Li. induction i as [|i IH]; [reflexivity|]. cbn [find_back]. destruct (nth_error M i) as [x|] eqn:N.
    - rewrite (firstn_nth _ _ _ N). rewrite filter_app. cbn [filter]. destruct (shown x) eqn:Sx.
      + split; [lia|]. split; [now exists x|]. rewrite (firstn_nth _ _ _ N), filter_app. cbn [filter]. now rewrite Sx.
      + rewrite app_nil_r. specialize (IH ltac:(lia)). destruct (find_back shown M i) as [k|]; [|exact IH]. destruct IH as (A & B & C). split; [lia|]. now split.
    - apply nth_error_None in N. lia. }
  destruct (find_back shown M i) as [k|].
  - destruct F as (A & (x & B & Sx) & E). destruct D as (d' & -> & I). rewrite E. pose proof (dinv_cur _ _ _ _ _ I) as C'. rewrite B in C'. injection C' as ->. apply (IH fuel d' M k I Sx); [lia|exact Hf].
  - destruct D as (d' & -> & _). now rewrite F.
Qed.

(** ** The base: what does not depend on the position *)
Definition SB (fwd bwd : bool) (s : src) (l : list rec) : Prop :=
  match s with
  | LogS m => exists Ls, Bas L ty fwd bwd Ls m l /\ tops ty TG Ls l /\ forall it, In it (m_win L m) -> exists p, RL (i_src L it) (Ls (i_id L it)) p
  | TabS m => exists Ls, Bas tfi ty fwd bwd Ls m l /\ tops ty TG Ls l /\ forall it, In it (m_win tfi m) -> exists p, RT (i_src tfi it) (Ls (i_id tfi it)) p
  end.
Definition DBas (fwd bwd : bool) (d : dit L) (M : list rec) : Prop :=
  exists Lo, Bas src ty fwd bwd Lo d M /\ tops ty TG Lo M /\ forall it, In it (m_win src d) -> SB fwd bwd (i_src src it) (Lo (i_id src it)).

Lemma inv_leaf : forall S0 (g : S0 -> rec) fwd bwd R Ls m M i, Inv S0 g ty fwd bwd R Ls m M i ->
  forall it, In it (m_win S0 m) -> exists p, R (i_src S0 it) (Ls (i_id S0 it)) p.
Proof.
  intros S0 g fwd bwd R Ls m M i H it Hit. destruct (v_cur _ _ _ _ _ _ _ _ _ _ H) as (ci & _ & _ & HJ). rewrite Forall_forall in HJ. apply (j_r _ _ _ _ _ _ _ _ _ (HJ it Hit)).
Qed.
Lemma rs_sb : forall fwd bwd s l p, RS fwd bwd s l p -> SB fwd bwd s l.
Proof.
  intros fwd bwd [m|m] l p (Ls & H & HQ); exists Ls; (split; [exact (inv_bas _ _ _ _ _ _ _ _ _ _ H)|split; [exact HQ|]; exact (inv_leaf _ _ _ _ _ _ _ _ _ H)]).
Qed.
Lemma dinv_bas : forall fwd bwd d M i, DInv fwd bwd d M i -> DBas fwd bwd d M.
Proof.
  intros fwd bwd d M i (Lo & H & HQ). exists Lo. split; [exact (inv_bas _ _ _ _ _ _ _ _ _ _ H)|split; [exact HQ|]]. intros it Hit.
  destruct (inv_leaf _ _ _ _ _ _ _ _ _ H it Hit) as [p Hp]. exact (rs_sb _ _ _ _ _ Hp).
Qed.

Lemma bas_one_way : forall S0 f b f' b' Ls m M, f' && b' = false -> Bas S0 ty f b Ls m M -> Bas S0 ty f' b' Ls m M.
Proof.
  intros S0 f b f' b' Ls m M E H. constructor; try apply H. intros it _ F B. rewrite F, B in E. discriminate.
Qed.
(** In one direction only, nothing is asked of the sources. *)
Lemma dbas_one_way : forall f b f' b' d M, f' && b' = false -> DBas f b d M -> DBas f' b' d M.
Proof.
  intros f b f' b' d M E (Lo & H & HQ & HS). exists Lo. split; [eapply bas_one_way; eassumption|split; [exact HQ|]]. intros it Hit. specialize (HS it Hit).
  destruct (i_src src it) as [m|m]; destruct HS as (Ls & HB & HQ2 & HL); exists Ls; (split; [eapply bas_one_way; eassumption|split; [exact HQ2|exact HL]]).
Qed.

(** gotoEnd. *)
Lemma sb_end : forall fwd bwd s l, SB fwd bwd s l -> exists s' p, s_end s = Some (s', true) /\ RS fwd bwd s' l p /\ S p = length l.
Proof.
  intros fwd bwd [m|m] l (Ls & HB & HQ & HL).
  - destruct (m_seek_end L l_get l_seek l_end ty fwd bwd RL RL_get Ls no_rec m l HB) as (m' & i & E & I & _ & Hi).
    + intros it Hit. destruct (HL it Hit) as [p Hp]. destruct (RL_end _ _ _ Hp) as (s' & q & E & R' & Eq). exists s', q. split; [exact E|]. split; [exact R'|].
      destruct (RL_get _ _ _ R') as [N C]. intros x Hx. unfold li in Hx. apply In_nth_error in Hx as [j Hj].
      assert (j < length (Ls (i_id L it))) by (apply nth_error_Some; rewrite Hj; discriminate).
      destruct (Nat.eq_dec j q) as [->|Hne]; [rewrite N in Hj; injection Hj as ->; apply le_refl|]. apply lt_le. apply (C j q x (l_get s')); [lia|exact Hj|exact N].
    + exists (LogS m'), i. cbn [DbIterModel.s_end]. rewrite E. split; [reflexivity|]. split; [exists Ls; now split|exact Hi].
  - destruct (m_seek_end tfi t_get (t_seek ty) t_to_end ty fwd bwd RT (rt_get ty TS) Ls no_rec m l HB) as (m' & i & E & I & _ & Hi).
    + intros it Hit. destruct (HL it Hit) as [p Hp]. destruct Hp as [(D & P & Lt & C) Q0]. exists (mkT (t_docs (i_src tfi it)) (pred (length (t_docs (i_src tfi it))))), (pred (length (Ls (i_id tfi it)))).
      split; [reflexivity|]. assert (R' : RT (mkT (t_docs (i_src tfi it)) (pred (length (t_docs (i_src tfi it))))) (Ls (i_id tfi it)) (pred (length (Ls (i_id tfi it))))).
      { split; [|exact Q0]. split; [exact D|]. split; [cbn; now rewrite D|]. split; [lia|exact C]. }
      split; [exact R'|]. destruct (rt_get ty TS _ _ _ R') as [N _]. intros x Hx. unfold li in Hx. apply In_nth_error in Hx as [j Hj].
      assert (j < length (Ls (i_id tfi it))) by (apply nth_error_Some; rewrite Hj; discriminate).
      destruct (Nat.eq_dec j (pred (length (Ls (i_id tfi it))))) as [->|Hne]; [rewrite N in Hj; injection Hj as ->; apply le_refl|]. apply lt_le. eapply (C j _ x); [|exact Hj|exact N]. lia.
    + exists (TabS m'), i. cbn [DbIterModel.s_end]. rewrite E. split; [reflexivity|]. split; [exists Ls; now split|exact Hi].
Qed.
Theorem d_end_spec : forall fwd bwd d M, DBas fwd bwd d M ->
  exists d', m_seek src s_get s_seek s_end ty false true no_rec d = Some (d', true) /\ DInv fwd bwd d' M (pred (length M)).
Proof.
  intros fwd bwd d M (Lo & HB & HQ & HS).
  destruct (m_seek_end src s_get s_seek s_end ty fwd bwd (RS fwd bwd) (rs_get fwd bwd) Lo no_rec d M HB) as (d' & i & E & I & _ & Hi).
  - intros it Hit. destruct (sb_end _ _ _ _ (HS it Hit)) as (s' & p & E & R' & Ep). exists s', p. split; [exact E|]. split; [exact R'|].
    destruct (rs_get _ _ _ _ _ R') as [N C]. intros x Hx. unfold li in Hx. apply In_nth_error in Hx as [j Hj].
    assert (j < length (Lo (i_id src it))) by (apply nth_error_Some; rewrite Hj; discriminate).
    destruct (Nat.eq_dec j p) as [->|Hne]; [rewrite N in Hj; injection Hj as ->; apply le_refl|]. apply lt_le. eapply (C j p x); [lia|exact Hj|exact N].
  - exists d'. split; [exact E|]. replace (pred (length M)) with i by lia. exists Lo; now split.
Qed.

(** *** seek *)

Lemma inner_greater : forall S0 (g : S0 -> rec) sk en fwd bwd (R : S0 -> list rec -> nat -> Prop), (forall s l p, R s l p -> nth_error l p = Some (g s) /\ csorted ty l) ->
  forall Ls t m l, TG t -> Bas S0 ty fwd bwd Ls m l -> (forall it, In it (m_win S0 m) -> lands_greater S0 g sk ty R Ls t it) -> tops ty TG Ls l ->
  exists m' i r, m_seek S0 g sk en ty true false t m = Some (m', true) /\ Inv S0 g ty fwd bwd R Ls m' l i /\ nth_error l i = Some r /\ at_greater ty t l r.
Proof.
  intros S0 g sk en fwd bwd R HR Ls t m l Ht HB HL Ho.
  destruct (reaches_dec ty t l) as [D|D].
  - destruct (m_seek_greater S0 g sk en ty fwd bwd R HR Ls t m l HB HL D) as (m' & i & r & E & I & _ & N & A & B). exists m', i, r. repeat (split; [assumption|]). left. now split.
  - destruct (Ho t Ht) as [(x & Hx & Lx)|Ho']; [destruct (le_not_lt _ _ _ Lx (D x Hx))|].
    destruct (m_seek_beyond S0 g sk en ty fwd bwd R HR Ls t m l HB HL D) as (m' & i & E & I & _ & Hi).
    { intros n n' x y _ _. apply Ho'. }
    exists m', i, (m_get S0 g m').
    pose proof (inv_get _ _ _ _ _ _ _ _ _ _ I) as N. repeat (split; [assumption|]). right. intros x Hx. split; [now apply D|].
    pose proof (v_merge _ _ _ _ _ _ _ _ _ _ I) as [C _]. apply In_nth_error in Hx as [j Hj]. assert (j < length l) by (apply nth_error_Some; rewrite Hj; discriminate).
    destruct (Nat.eq_dec j i) as [->|Hne]; [rewrite N in Hj; injection Hj as ->; apply le_refl|]. apply lt_le. eapply (C j i); [lia|exact Hj|exact N].
Qed.

Lemma sb_greater : forall fwd bwd t s l, TG t -> SB fwd bwd s l -> exists s' p, s_seek true t s = Some (s', true) /\ RS fwd bwd s' l p /\ at_greater ty t l (s_get s').
Proof.
  intros fwd bwd t [m|m] l Ht (Ls & HB & HQ & HL).
  - destruct (inner_greater L l_get l_seek l_end fwd bwd RL RL_get Ls t m l Ht HB ltac:(intros it Hit; destruct (HL it Hit) as [p Hp]; exact (RL_greater t _ _ _ Ht Hp)) HQ) as (m' & i & r & E & I & N & D).
    exists (LogS m'), i. cbn [DbIterModel.s_seek DbIterModel.s_get]. rewrite E. split; [reflexivity|]. split; [exists Ls; now split|]. pose proof (inv_get _ _ _ _ _ _ _ _ _ _ I) as N2. rewrite N in N2. injection N2 as ->. exact D.
  - destruct (inner_greater tfi t_get (t_seek ty) t_to_end fwd bwd RT (rt_get ty TS) Ls t m l Ht HB ltac:(intros it Hit; destruct (HL it Hit) as [p Hp]; exact (rt_greater ty TS t _ _ _ Hp)) HQ) as (m' & i & r & E & I & N & D).
    exists (TabS m'), i. cbn [DbIterModel.s_seek DbIterModel.s_get]. rewrite E. split; [reflexivity|]. split; [exists Ls; now split|]. pose proof (inv_get _ _ _ _ _ _ _ _ _ _ I) as N2. rewrite N in N2. injection N2 as ->. exact D.
Qed.
Lemma sb_smaller : forall fwd bwd t s l, TS t -> SB fwd bwd s l -> exists s' p, s_seek false t s = Some (s', true) /\ RS fwd bwd s' l p /\ at_smaller ty t l (s_get s').
Proof.
  intros fwd bwd t [m|m] l Ht (Ls & HB & HQ & HL).
  - destruct (m_seek_smaller L l_get l_seek l_end ty fwd bwd RL RL_get Ls t m l HB) as (m' & i & r & E & I & _ & N & A & B).
    { intros it Hit. destruct (HL it Hit) as [p Hp]. destruct (RL_smaller t _ _ _ Ht Hp) as (s' & q & E & R' & A1 & A2). exists s', q. auto. }
    exists (LogS m'), i. cbn [DbIterModel.s_seek DbIterModel.s_get]. rewrite E. split; [reflexivity|]. split; [exists Ls; now split|]. pose proof (inv_get _ _ _ _ _ _ _ _ _ _ I) as N2. rewrite N in N2. injection N2 as ->. now split.
  - destruct (m_seek_smaller tfi t_get (t_seek ty) t_to_end ty fwd bwd RT (rt_get ty TS) Ls t m l HB) as (m' & i & r & E & I & _ & N & A & B).
    { intros it Hit. destruct (HL it Hit) as [p Hp]. destruct (rt_smaller ty TS t _ _ _ Ht Hp) as (s' & q & E & R' & A1 & A2). exists s', q. auto. }
    exists (TabS m'), i. cbn [DbIterModel.s_seek DbIterModel.s_get]. rewrite E. split; [reflexivity|]. split; [exists Ls; now split|]. pose proof (inv_get _ _ _ _ _ _ _ _ _ _ I) as N2. rewrite N in N2. injection N2 as ->. now split.
Qed.

(** seek(t, GREATER): the first shown record not below [t]; if there is none, the last position. *)
Theorem d_seek_greater : forall bwd fuel d M t, TG t -> DBas true bwd d M -> length M <= fuel ->
  exists d' i, d_seek fuel true false t d = Some d' /\ DInv true bwd d' M i /\
    ((exists r, nth_error M i = Some r /\ shown r = true /\ le ty t r /\ forall x, In x M -> shown x = true -> le ty t x -> le ty r x) \/
     (S i = length M /\ forall x, In x M -> shown x = true -> lt ty x t)).
Proof.
  intros bwd fuel d M t Ht (Lo & HB & HQ & HS) Hf.
  destruct (inner_greater src s_get s_seek s_end true bwd (RS true bwd) (rs_get true bwd) Lo t d M Ht HB ltac:(intros it Hit; exact (sb_greater true bwd t _ _ Ht (HS it Hit))) HQ) as (d1 & i & r & E & I & N & D0).
  assert (D1 : DInv true bwd d1 M i) by (exists Lo; now split). pose proof (dinv_cur _ _ _ _ _ D1) as C. rewrite N in C. injection C as C.
  destruct (v_merge _ _ _ _ _ _ _ _ _ _ I) as [Cs _].
  unfold DbIterModel.d_seek. rewrite E. rewrite <- C. destruct (shown r) eqn:Sr.
  - exists d1, i. split; [reflexivity|]. split; [exact D1|]. destruct D0 as [[A B]|A].
    + left. exists r. repeat (split; [assumption|]). auto.
    + right. split; [|intros x Hx _; now apply A]. apply (csorted_last ty M i r Cs N). intros z Hz. now apply A.
  - pose proof (d_next_spec bwd fuel d1 M i D1 ltac:(lia)) as D. pose proof (next_shown_spec ty M i) as F.
    assert (Pos : forall x k, nth_error M k = Some x -> le ty t x -> shown x = true -> i < k).
    { intros x k Hk Lx Sx. destruct (Nat.lt_trichotomy k i) as [K|[->|K]]; [|congruence|exact K]. exfalso. destruct D0 as [[A B]|A].
      - exact (le_not_lt _ _ _ (B x (nth_error_In _ _ Hk) Lx) (Cs k i x r K Hk N)).
      - exact (le_not_lt _ _ _ Lx (proj1 (A x (nth_error_In _ _ Hk)))). }
    destruct (next_shown shown M i) as [j|].
    + destruct F as (Fi & (x & Nx & Sx) & Fm). destruct D as (d' & -> & I'). exists d', j. split; [reflexivity|]. split; [exact I'|].
      pose proof (Cs i j r x Fi N Nx) as Lrx. destruct D0 as [[A B]|A].
      * left. exists x. repeat (split; [assumption|]). split; [exact (le_trans _ _ _ _ A (lt_le _ _ _ Lrx))|].
        intros y Hy Sy Ly. apply In_nth_error in Hy as [k Hk]. pose proof (Pos y k Hk Ly Sy) as Pk. destruct (Nat.lt_trichotomy k j) as [K|[->|K]].
        -- rewrite (Fm k y Pk K Hk) in Sy. discriminate.
        -- rewrite Nx in Hk. injection Hk as ->. apply le_refl.
        -- apply lt_le. exact (Cs j k x y K Nx Hk).
      * exfalso. exact (le_not_lt _ _ _ (proj2 (A x (nth_error_In _ _ Nx))) Lrx).
    + destruct D as (d' & -> & I'). exists d', (pred (length M)). split; [reflexivity|]. split; [exact I'|]. right. pose proof (dinv_lt _ _ _ _ _ I'). split; [lia|].
      intros x Hx Sx. destruct (lt_dec ty x t) as [Hl|Hl]; [exact Hl|]. exfalso. apply In_nth_error in Hx as [k Hk]. pose proof (Pos x k Hk Hl Sx) as Pk. rewrite (F k x Pk Hk) in Sx. discriminate.
Qed.

(** seek(t, SMALLER): the last shown record not above [t]; if there is none, the first position. *)
Theorem d_seek_smaller : forall fwd fuel d M t, TS t -> DBas fwd true d M -> length M <= fuel ->
  exists d' i, d_seek fuel false false t d = Some d' /\ DInv fwd true d' M i /\
    ((exists r, nth_error M i = Some r /\ shown r = true /\ le ty r t /\ forall x, In x M -> shown x = true -> le ty x t -> le ty x r) \/
     (i = 0 /\ (exists x, nth_error M 0 = Some x /\ shown x = false) /\ forall x, In x M -> shown x = true -> lt ty t x)).
Proof.
  intros fwd fuel d M t Ht (Lo & HB & HQ & HS) Hf.
  destruct (m_seek_smaller src s_get s_seek s_end ty fwd true (RS fwd true) (rs_get fwd true) Lo t d M HB) as (d1 & i & r & E & I & _ & N & A & B).
  { intros it Hit. destruct (sb_smaller fwd true t _ _ Ht (HS it Hit)) as (s' & p & E & R' & A1 & A2). exists s', p. auto. }
  assert (D1 : DInv fwd true d1 M i) by (exists Lo; now split). pose proof (dinv_cur _ _ _ _ _ D1) as C. rewrite N in C. injection C as C.
  destruct (v_merge _ _ _ _ _ _ _ _ _ _ I) as [Cs _].
  unfold DbIterModel.d_seek. rewrite E. rewrite <- C. destruct (shown r) eqn:Sr.
  - exists d1, i. split; [reflexivity|]. split; [exact D1|]. left. exists r. repeat (split; [assumption|]). auto.
  - pose proof (dinv_lt _ _ _ _ _ D1) as Hi.
    pose proof (d_prev_spec fwd fuel d1 M i D1 ltac:(lia)) as D. pose proof (find_back_spec ty M i ltac:(lia)) as F.
    assert (Pos : forall x k, nth_error M k = Some x -> le ty x t -> shown x = true -> k < i).
    { intros x k Hk Lx Sx. destruct (Nat.lt_trichotomy k i) as [K|[->|K]]; [exact K|congruence|]. exfalso.
      exact (le_not_lt _ _ _ (B x (nth_error_In _ _ Hk) Lx) (Cs i k r x K N Hk)). }
    destruct (find_back shown M i) as [j|].
    + destruct F as (Fi & (x & Nx & Sx) & Fm). destruct D as (d' & -> & I'). exists d', j. split; [reflexivity|]. split; [exact I'|]. left. exists x. repeat (split; [assumption|]).
      pose proof (lt_le ty _ _ (Cs j i x r Fi Nx N)) as Lrx. split; [exact (le_trans _ _ _ _ Lrx A)|].
      intros y Hy Sy Ly. apply In_nth_error in Hy as [k Hk]. pose proof (Pos y k Hk Ly Sy) as Pk. destruct (Nat.lt_trichotomy k j) as [K|[->|K]].
      * apply lt_le. exact (Cs k j y x K Hk Nx).
      * rewrite Nx in Hk. injection Hk as ->. apply le_refl.
      * rewrite (Fm k y K Pk Hk) in Sy. discriminate.
    + destruct D as (d' & -> & I'). exists d', 0. split; [reflexivity|]. split; [exact I'|]. right. split; [reflexivity|]. split.
      { exists (d_cur d'). pose proof (dinv_cur _ _ _ _ _ I') as N0. split; [exact N0|]. destruct i as [|i']; [congruence|]. apply (F 0); [lia|exact N0]. }
      intros x Hx Sx. destruct (lt_dec ty t x) as [Hl|Hl]; [exact Hl|]. exfalso. apply In_nth_error in Hx as [k Hk]. pose proof (Pos x k Hk Hl Sx) as Pk. rewrite (F k x Pk Hk) in Sx. discriminate.
Qed.
End Db.
