(** The merging iterator over sources that behave like cursors over sorted lists. *)
From Coq Require Import List NArith Bool Arith Lia Sorted Permutation.
From Verif Require Import Base LogFormatModel KeyModel KeyProofs IterModel.
Import ListNotations.
Local Open Scope N_scope.

(** ** Order of the records *)

Section Order.
Variable ty : itype.
Definition lt (a b : rec) : Prop := cmpr ty a b = Lt.
Definition le (a b : rec) : Prop := cmpr ty a b <> Gt.

Lemma cmpr_antisym : forall a b, cmpr ty b a = CompOpp (cmpr ty a b).
Proof. intros a b. unfold cmpr. destruct ty; [apply kcmp_antisym|apply N.compare_antisym]. Qed.
Lemma lt_irrefl : forall a, ~ lt a a.
Proof. intros a. unfold lt, cmpr. destruct ty; [rewrite kcmp_refl|rewrite N.compare_refl]; discriminate. Qed.
Lemma lt_trans : forall a b c, lt a b -> lt b c -> lt a c.
Proof. intros a b c. unfold lt, cmpr. destruct ty; [apply klt_trans|]. rewrite !N.compare_lt_iff. apply N.lt_trans. Qed.
Lemma gt_lt : forall a b, cmpr ty a b = Gt <-> lt b a.
Proof. intros a b. unfold lt. rewrite (cmpr_antisym a b). destruct (cmpr ty a b); cbn; split; congruence. Qed.
Lemma not_lt_le : forall a b, ~ lt b a -> le a b.
Proof. intros a b H E. apply H. now apply gt_lt. Qed.
Lemma le_not_lt : forall a b, le a b -> ~ lt b a.
Proof. intros a b H E. apply H. now apply gt_lt. Qed.
Lemma lt_dec : forall a b, {lt a b} + {le b a}.
Proof. intros a b. destruct (cmpr ty a b) eqn:E; [right|left; exact E|right]; apply not_lt_le; unfold lt; congruence. Qed.
Lemma not_le_lt : forall a b, ~ le b a -> lt a b.
Proof. intros a b H. destruct (lt_dec a b); [assumption|contradiction]. Qed.
Lemma lt_le : forall a b, lt a b -> le a b.
Proof. intros a b H. apply not_lt_le. intros H2. exact (lt_irrefl a (lt_trans _ _ _ H H2)). Qed.
Lemma le_refl : forall a, le a a.
Proof. intros a. apply not_lt_le, lt_irrefl. Qed.
Lemma eq_same : forall a b, cmpr ty a b = Eq -> match ty with ByKey => r_key a = r_key b | BySeq => r_seq a = r_seq b end.
Proof. intros a b. unfold cmpr. destruct ty; [apply kcmp_eq|apply N.compare_eq]. Qed.
Lemma le_lt_trans : forall a b c, le a b -> lt b c -> lt a c.
Proof.
  intros a b c H1 H2. unfold le in H1. destruct (cmpr ty a b) eqn:E; [|exact (lt_trans _ _ _ E H2)|congruence].
  apply eq_same in E. unfold lt, cmpr in *. destruct ty; now rewrite E.
Qed.
Lemma lt_le_trans : forall a b c, lt a b -> le b c -> lt a c.
Proof.
  intros a b c H1 H2. unfold le in H2. destruct (cmpr ty b c) eqn:E; [|exact (lt_trans _ _ _ H1 E)|congruence].
  apply eq_same in E. unfold lt, cmpr in *. destruct ty; now rewrite <- E.
Qed.
Lemma le_trans : forall a b c, le a b -> le b c -> le a c.
Proof. intros a b c H1 H2. apply not_lt_le. intros H. apply (le_not_lt _ _ H1). exact (le_lt_trans _ _ _ H2 H). Qed.
Lemma eq_le : forall a b, cmpr ty a b = Eq <-> le a b /\ le b a.
Proof.
  intros a b. split.
  - intros E. split; [unfold le; congruence|]. unfold le. rewrite (cmpr_antisym a b), E. discriminate.
  - intros [H1 H2]. destruct (cmpr ty a b) eqn:E; [reflexivity| |now elim H1]. exfalso. exact (le_not_lt _ _ H2 E).
Qed.
Lemma is_gt_true : forall a b, is_gt (cmpr ty a b) = true <-> lt b a.
Proof. intros a b. rewrite <- gt_lt. destruct (cmpr ty a b); cbn; split; congruence. Qed.
Lemma is_gt_false : forall a b, is_gt (cmpr ty a b) = false <-> le a b.
Proof. intros a b. unfold le. destruct (cmpr ty a b); cbn; split; congruence. Qed.
Lemma is_lt_true : forall a b, is_lt (cmpr ty a b) = true <-> lt a b.
Proof. intros a b. unfold lt. destruct (cmpr ty a b); cbn; split; congruence. Qed.
Lemma is_lt_false : forall a b, is_lt (cmpr ty a b) = false <-> le b a.
Proof.
  intros a b. split; intros H.
  - apply not_lt_le. intros E. apply is_lt_true in E. congruence.
  - destruct (is_lt (cmpr ty a b)) eqn:E; [|reflexivity]. apply is_lt_true in E. exfalso. exact (le_not_lt _ _ H E).
Qed.
Lemma is_eq_true : forall a b, is_eq (cmpr ty a b) = true <-> le a b /\ le b a.
Proof. intros a b. rewrite <- eq_le. destruct (cmpr ty a b); cbn; split; congruence. Qed.

(** Keys, or numbers, strictly increasing. *)
Definition csorted (l : list rec) : Prop := forall i j x y, (i < j)%nat -> nth_error l i = Some x -> nth_error l j = Some y -> lt x y.

Lemma csorted_inj : forall l x y, csorted l -> In x l -> In y l -> le x y -> le y x -> x = y.
Proof.
  intros l x y Hs Hx Hy H1 H2. apply In_nth_error in Hx as [i Hi]. apply In_nth_error in Hy as [j Hj].
  destruct (Nat.lt_trichotomy i j) as [L|[->|L]].
  - pose proof (Hs _ _ _ _ L Hi Hj). exfalso. eapply le_not_lt; eassumption.
  - congruence.
  - pose proof (Hs _ _ _ _ L Hj Hi). exfalso. eapply (le_not_lt x y); eassumption.
Qed.

Lemma csorted_pos : forall l i x y, csorted l -> nth_error l i = Some x -> In y l -> lt x y ->
  (forall z, In z l -> le z x \/ le y z) -> nth_error l (S i) = Some y.
Proof.
  intros l i x y Hs Hi Hy Hlt Hb. apply In_nth_error in Hy as [j Hj].
  destruct (Nat.lt_trichotomy j (S i)) as [L|[->|L]].
  - exfalso. destruct (Nat.eq_dec j i) as [->|N]; [rewrite Hi in Hj; injection Hj as <-; exact (lt_irrefl _ Hlt)|].
    assert (Lj : (j < i)%nat) by lia. pose proof (Hs _ _ _ _ Lj Hj Hi) as L2. exact (lt_irrefl _ (lt_trans _ _ _ Hlt L2)).
  - exact Hj.
  - exfalso. destruct (nth_error l (S i)) as [z|] eqn:Hz.
    + pose proof (Hs _ _ _ _ (Nat.lt_succ_diag_r i) Hi Hz) as L1. pose proof (Hs _ _ _ _ L Hz Hj) as L2.
      destruct (Hb z) as [H|H]; [eapply nth_error_In; exact Hz| |]; eapply le_not_lt; eassumption.
    + apply nth_error_None in Hz. assert (nth_error l j <> None) by congruence. apply nth_error_Some in H. lia.
Qed.
Lemma csorted_pre : forall l i x y, csorted l -> nth_error l i = Some x -> In y l -> lt y x ->
  (forall z, In z l -> le x z \/ le z y) -> (0 < i)%nat /\ nth_error l (pred i) = Some y.
Proof.
  intros l i x y Hs Hi Hy Hlt Hb. apply In_nth_error in Hy as [j Hj].
  assert (Lj : (j < i)%nat).
  { destruct (Nat.lt_trichotomy j i) as [L|[->|L]]; [exact L| |].
    - rewrite Hi in Hj. injection Hj as <-. exfalso. exact (lt_irrefl _ Hlt).
    - pose proof (Hs _ _ _ _ L Hi Hj) as L2. exfalso. exact (lt_irrefl _ (lt_trans _ _ _ Hlt L2)). }
  split; [lia|]. destruct (Nat.eq_dec j (pred i)) as [<-|N]; [exact Hj|].
  assert (L : (j < pred i)%nat) by lia. destruct (nth_error l (pred i)) as [z|] eqn:Hz.
  - assert (L0 : (pred i < i)%nat) by lia. pose proof (Hs _ _ _ _ L0 Hz Hi) as L1. pose proof (Hs _ _ _ _ L Hj Hz) as L2.
    exfalso. destruct (Hb z) as [H|H]; [eapply nth_error_In; exact Hz| |]; eapply le_not_lt; eassumption.
  - apply nth_error_None in Hz. assert (nth_error l i <> None) by congruence. apply nth_error_Some in H. lia.
Qed.
Lemma csorted_last : forall l i x, csorted l -> nth_error l i = Some x -> (forall z, In z l -> le z x) -> S i = length l.
Proof.
  intros l i x Hs Hi Hb. assert (Hl : (i < length l)%nat) by (apply nth_error_Some; congruence).
  destruct (nth_error l (S i)) as [z|] eqn:Hz.
  - pose proof (Hs _ _ _ _ (Nat.lt_succ_diag_r i) Hi Hz) as L1. exfalso. eapply le_not_lt; [apply Hb; eapply nth_error_In; exact Hz|exact L1].
  - apply nth_error_None in Hz. lia.
Qed.
Lemma csorted_first : forall l i x, csorted l -> nth_error l i = Some x -> (forall z, In z l -> le x z) -> i = 0%nat.
Proof.
  intros l i x Hs Hi Hb. destruct i as [|i]; [reflexivity|]. exfalso.
  destruct (nth_error l 0) as [z|] eqn:Hz.
  - assert (L : (0 < S i)%nat) by lia. pose proof (Hs _ _ _ _ L Hz Hi) as L1. eapply le_not_lt; [apply Hb; eapply nth_error_In; exact Hz|exact L1].
  - apply nth_error_None in Hz. assert (nth_error l (S i) <> None) by congruence. apply nth_error_Some in H. lia.
Qed.

(** The order of the window, without the last tie-break. *)
Definition wle (a b : rec) : Prop := lt a b \/ (le a b /\ le b a /\ (ty = ByKey -> r_seq b <= r_seq a)).
Lemma wle_le : forall a b, wle a b -> le a b.
Proof. intros a b [H|[H _]]; [now apply lt_le|exact H]. Qed.
Lemma wle_trans : forall a b c, wle a b -> wle b c -> wle a c.
Proof.
  intros a b c [H1|(H1 & H2 & H3)] [G1|(G1 & G2 & G3)].
  - left. exact (lt_trans _ _ _ H1 G1).
  - left. exact (lt_le_trans _ _ _ H1 G1).
  - left. exact (le_lt_trans _ _ _ H1 G1).
  - right. split; [exact (le_trans _ _ _ H1 G1)|]. split; [exact (le_trans _ _ _ G2 H2)|]. intros E. specialize (H3 E). specialize (G3 E). lia.
Qed.
Lemma wlt_true : forall a i b j, wlt ty a i b j = true -> wle a b.
Proof.
  intros a i b j. unfold wlt. destruct (cmpr ty a b) eqn:E; intros H; [|left; exact E|discriminate].
  right. apply eq_le in E as [E1 E2]. split; [exact E1|]. split; [exact E2|]. intros ->.
  destruct (N.compare_spec (r_seq b) (r_seq a)) as [C|C|C]; [lia|lia|discriminate].
Qed.
Lemma wlt_false : forall a i b j, wlt ty a i b j = false -> wle b a.
Proof.
  intros a i b j. unfold wlt. destruct (cmpr ty a b) eqn:E; intros H; [|discriminate|left; now apply gt_lt].
  right. apply eq_le in E as [E1 E2]. split; [exact E2|]. split; [exact E1|]. intros ->.
  destruct (N.compare_spec (r_seq b) (r_seq a)) as [C|C|C]; [lia|discriminate|lia].
Qed.

Lemma csorted_ss : forall l, csorted l <-> StronglySorted lt l.
Proof.
  intros l. split.
  - intros H. induction l as [|x l IH]; [constructor|]. constructor.
    + apply IH. intros i j a b L Hi Hj. apply (H (S i) (S j)); [lia|exact Hi|exact Hj].
    + rewrite Forall_forall. intros y Hy. apply In_nth_error in Hy as [j Hj]. apply (H 0%nat (S j)); [lia|reflexivity|exact Hj].
  - intros H. induction H as [|x l H IH F]; intros i j a b L Hi Hj.
    + destruct i; discriminate.
    + rewrite Forall_forall in F. destruct j as [|j]; [lia|]. destruct i as [|i].
      * cbn in Hi. injection Hi as <-. apply F. eapply nth_error_In; exact Hj.
      * apply (IH i j); [lia|exact Hi|exact Hj].
Qed.

(** The newest records of a list, in order. *)
Fixpoint minsert (r : rec) (M : list rec) : list rec :=
  match M with
  | [] => [r]
  | x :: M' => match cmpr ty r x with
               | Lt => r :: M
               | Eq => (if r_seq x <? r_seq r then r else x) :: M'
               | Gt => x :: minsert r M'
               end
  end.
Lemma minsert_spec : forall r M, csorted M -> (forall y, In y M -> le r y -> le y r -> r_seq r = r_seq y -> r = y) ->
  csorted (minsert r M) /\
  forall z, In z (minsert r M) <-> (z = r /\ forall y, In y M -> le r y -> le y r -> ty = ByKey -> r_seq y <= r_seq r) \/
                                  (In z M /\ (le r z -> le z r -> ty = ByKey -> r_seq r <= r_seq z)).
Proof.
  intros r M HM Hsame. rewrite csorted_ss in *. induction HM as [|x M HM IH HF].
  - cbn [minsert]. split; [repeat constructor|]. intros z. cbn [In]. split; [intros [<-|[]]; left; split; [reflexivity|intros y []]|].
    intros [[-> _]|[[] _]]. now left.
  - cbn [minsert]. rewrite Forall_forall in HF. destruct (cmpr ty r x) eqn:E.
    + apply eq_le in E as [E1 E2]. assert (Hno : forall y, In y M -> lt r y) by (intros y Hy; eapply le_lt_trans; [exact E1|now apply HF]).
      destruct (N.ltb_spec (r_seq x) (r_seq r)) as [L|L].
      * split; [constructor; [exact HM|rewrite Forall_forall; exact Hno]|]. intros z. cbn [In]. split.
        -- intros [<-|Hz]; [left; split; [reflexivity|]|right; split; [now right|]].
           ++ intros y [<-|Hy] Y1 Y2 _; [lia|]. exfalso. exact (le_not_lt _ _ Y2 (Hno y Hy)).
           ++ intros _ Y2. exfalso. exact (le_not_lt _ _ Y2 (Hno z Hz)).
        -- intros [[-> _]|[[<-|Hz] H]]; [now left| |now right]. destruct ty eqn:T.
           ++ specialize (H E1 E2 eq_refl). lia.
           ++ assert (C : cmpr ty r x = Eq) by (apply eq_le; split; assumption). apply eq_same in C. rewrite T in C. lia.
      * split; [constructor; [exact HM|rewrite Forall_forall; exact HF]|]. intros z. cbn [In]. split.
        -- intros [<-|Hz]; right; (split; [auto|]); [intros; assumption|]. intros _ Y2. exfalso. exact (le_not_lt _ _ Y2 (Hno z Hz)).
        -- intros [[-> H]|[Hz _]]; [|exact Hz]. left. symmetry. apply Hsame; [now left|assumption|assumption|]. destruct ty eqn:T.
           ++ assert (r_seq x <= r_seq r) by (apply H; [now left|assumption|assumption|reflexivity]). lia.
           ++ assert (C : cmpr ty r x = Eq) by (apply eq_le; split; assumption). apply eq_same in C. rewrite T in C. exact C.
    + assert (Hno : forall y, In y (x :: M) -> lt r y).
      { intros y [<-|Hy]; [exact E|]. eapply lt_trans; [exact E|now apply HF]. }
      split; [constructor; [constructor; [exact HM|now rewrite Forall_forall]|rewrite Forall_forall; exact Hno]|]. intros z. split.
      * intros [<-|Hz]; [left; split; [reflexivity|]|right; split; [exact Hz|]].
        -- intros y Hy _ Y2. exfalso. exact (le_not_lt _ _ Y2 (Hno y Hy)).
        -- intros _ Y2. exfalso. exact (le_not_lt _ _ Y2 (Hno z Hz)).
      * intros [[-> _]|[Hz _]]; [now left|now right].
    + apply gt_lt in E. destruct IH as [I1 I2]; [intros y Hy; apply Hsame; now right|]. split.
      * constructor; [exact I1|]. rewrite Forall_forall. intros y Hy. apply I2 in Hy as [[-> _]|[Hy _]]; [exact E|now apply HF].
      * intros z. cbn [In]. rewrite I2. split.
        -- intros [<-|[[-> H]|[Hz H]]].
           ++ right. split; [now left|]. intros Y1. exfalso. exact (le_not_lt _ _ Y1 E).
           ++ left. split; [reflexivity|]. intros y [<-|Hy] Y1; [exfalso; exact (le_not_lt _ _ Y1 E)|now apply H].
           ++ right. split; [now right|exact H].
        -- intros [[-> H]|[[<-|Hz] H]]; [|now left|].
           ++ right. left. split; [reflexivity|]. intros y Hy. apply H. now right.
           ++ right. right. now split.
Qed.
Definition newest_of (l : list rec) : list rec := fold_right minsert [] l.
Lemma minsert_cover : forall r M x, x = r \/ In x M -> exists z, In z (minsert r M) /\ le x z /\ le z x.
Proof.
  intros r M. induction M as [|y M IH]; intros x H; cbn [minsert].
  - destruct H as [-> |[]]. exists r. split; [now left|]. split; apply le_refl.
  - destruct (cmpr ty r y) eqn:C.
    + destruct (proj1 (eq_le _ _) C) as [E1 E2]. destruct (r_seq y <? r_seq r)%N eqn:B; (destruct H as [-> |[<- |H]]).
      * exists r. split; [now left|]. split; apply le_refl.
      * exists r. split; [now left|]. now split.
      * exists x. split; [now right|]. split; apply le_refl.
      * exists y. split; [now left|]. now split.
      * exists y. split; [now left|]. split; apply le_refl.
      * exists x. split; [now right|]. split; apply le_refl.
    + exists x. split; [|split; apply le_refl]. destruct H as [-> |[<- |H]]; cbn [In]; auto.
    + destruct H as [-> |[<- |H]].
      * destruct (IH r (or_introl eq_refl)) as (z & Z & Z2). exists z. split; [now right|exact Z2].
      * exists y. split; [now left|]. split; apply le_refl.
      * destruct (IH x (or_intror H)) as (z & Z & Z2). exists z. split; [now right|exact Z2].
Qed.
Lemma newest_of_cover : forall l x, In x l -> exists z, In z (newest_of l) /\ le x z /\ le z x.
Proof.
  induction l as [|r l IH]; intros x H; [destruct H|]. cbn [newest_of fold_right]. fold (newest_of l). destruct H as [<- |H].
  - apply minsert_cover. now left.
  - destruct (IH x H) as (z & Z1 & Z2 & Z3). destruct (minsert_cover r (newest_of l) z (or_intror Z1)) as (w & W1 & W2 & W3). exists w. split; [exact W1|].
    split; [exact (le_trans _ _ _ Z2 W2)|exact (le_trans _ _ _ W3 Z3)].
Qed.
Lemma newest_of_spec : forall l, (forall x y, In x l -> In y l -> le x y -> le y x -> r_seq x = r_seq y -> x = y) ->
  csorted (newest_of l) /\
  forall z, In z (newest_of l) <-> In z l /\ forall x, In x l -> le x z -> le z x -> ty = ByKey -> r_seq x <= r_seq z.
Proof.
  induction l as [|r l IH]; intros Hs.
  - split; [intros i j x y _ Hi; destruct i; discriminate|]. intros z. cbn. tauto.
  - destruct IH as [I1 I2]; [intros x y Hx Hy; apply Hs; now right|]. cbn [newest_of fold_right]. fold (newest_of l).
    destruct (minsert_spec r (newest_of l) I1) as [J1 J2].
    { intros y Hy. apply Hs; [now left|right; now apply I2]. }
    split; [exact J1|]. intros z. rewrite J2. cbn [In]. split.
    + intros [[-> H]|[Hz H]].
      * split; [now left|]. intros x [<-|Hx] X1 X2 T; [lia|].
        (* some newest version of x is in the list *)
        assert (Hmax : forall l', (forall y, In y l' -> In y l) -> forall x0, In x0 l' -> exists y, In y l' /\ le y x0 /\ le x0 y /\ forall y', In y' l' -> le y' x0 -> le x0 y' -> r_seq y' <= r_seq y).
        { clear. induction l' as [|a l' IHl]; intros Hl x0 Hx; [destruct Hx|].
          assert (Hd : (exists b, In b l' /\ le b x0 /\ le x0 b) \/ forall b, In b l' -> ~ (le b x0 /\ le x0 b)).
          { clear. induction l' as [|b l' IHb]; [right; intros b []|]. destruct IHb as [(c & C1 & C2)|N].
            - left. exists c. split; [now right|exact C2].
            - destruct (lt_dec b x0) as [L|L]; [|destruct (lt_dec x0 b) as [L2|L2]].
              + right. intros c [<-|Hc]; [|now apply N]. intros [_ X]. exact (le_not_lt _ _ X L).
              + right. intros c [<-|Hc]; [|now apply N]. intros [X _]. exact (le_not_lt _ _ X L2).
              + left. exists b. split; [now left|now split]. }
          destruct Hd as [(b & B1 & B2 & B3)|N].
          - destruct (IHl (fun y Hy => Hl y (or_intror Hy)) b B1) as (y & Y1 & Y2 & Y3 & Y4).
            assert (E1 : le y x0) by exact (le_trans _ _ _ Y2 B2). assert (E2 : le x0 y) by exact (le_trans _ _ _ B3 Y3).
            destruct (lt_dec a x0) as [L|L]; [|destruct (lt_dec x0 a) as [L2|L2]].
            + exists y. split; [now right|]. split; [exact E1|]. split; [exact E2|]. intros y' [<-|Hy'] A1 A2; [exfalso; exact (le_not_lt _ _ A2 L)|].
              apply Y4; [exact Hy'|exact (le_trans _ _ _ A1 B3)|exact (le_trans _ _ _ B2 A2)].
            + exists y. split; [now right|]. split; [exact E1|]. split; [exact E2|]. intros y' [<-|Hy'] A1 A2; [exfalso; exact (le_not_lt _ _ A1 L2)|].
              apply Y4; [exact Hy'|exact (le_trans _ _ _ A1 B3)|exact (le_trans _ _ _ B2 A2)].
            + destruct (N.le_gt_cases (r_seq a) (r_seq y)) as [C|C].
              * exists y. split; [now right|]. split; [exact E1|]. split; [exact E2|]. intros y' [<-|Hy'] A1 A2; [exact C|].
                apply Y4; [exact Hy'|exact (le_trans _ _ _ A1 B3)|exact (le_trans _ _ _ B2 A2)].
              * exists a. split; [now left|]. split; [exact L2|]. split; [exact L|]. intros y' [<-|Hy'] A1 A2; [lia|].
                assert (r_seq y' <= r_seq y) by (apply Y4; [exact Hy'|exact (le_trans _ _ _ A1 B3)|exact (le_trans _ _ _ B2 A2)]). lia.
          - destruct Hx as [->|Hx]; [|exfalso; apply (N x0 Hx); split; apply le_refl].
            exists x0. split; [now left|]. split; [apply le_refl|]. split; [apply le_refl|]. intros y' [<-|Hy'] A1 A2; [lia|]. exfalso. now apply (N y' Hy'). }
        destruct (Hmax l (fun y Hy => Hy) x Hx) as (y & Y1 & Y2 & Y3 & Y4).
        assert (Hy : In y (newest_of l)).
        { apply I2. split; [exact Y1|]. intros x' Hx' A1 A2 _. apply Y4; [exact Hx'|exact (le_trans _ _ _ A1 Y2)|exact (le_trans _ _ _ Y3 A2)]. }
        assert (r_seq y <= r_seq r) by (apply H; [exact Hy|exact (le_trans _ _ _ X2 Y3)|exact (le_trans _ _ _ Y2 X1)|exact T]).
        assert (r_seq x <= r_seq y) by (apply Y4; [exact Hx|apply le_refl|apply le_refl]). lia.
      * apply I2 in Hz as [Hz Hn]. split; [now right|]. intros x [<-|Hx] X1 X2 T; [now apply H|now apply Hn].
    + intros [[<-|Hz] H].
      * left. split; [reflexivity|]. intros y Hy Y1 Y2 T. apply H; [right; now apply I2|exact Y2|exact Y1|exact T].
      * right. split; [apply I2; split; [exact Hz|intros x Hx; apply H; now right]|]. intros Y1 Y2 T. apply H; [now left|assumption|assumption|exact T].
Qed.
End Order.

(** ** The iterator *)

Section Merge.
Variable S : Type.
Variable s_get : S -> rec.
Variable s_next s_prev : S -> option (S * bool).
Variable s_seek : bool -> rec -> S -> option (S * bool).
Variable s_end : S -> option (S * bool).
Variable ty : itype.

(** Which directions are used. *)
Variable fwd bwd : bool.
(** [R s l p]: the source is a cursor at position [p] of the list [l]. *)
Variable R : S -> list rec -> nat -> Prop.
Hypothesis R_get : forall s l p, R s l p -> nth_error l p = Some (s_get s) /\ csorted ty l.
Hypothesis R_next : fwd = true -> forall s l p, R s l p -> exists s', s_next s = Some (s', Nat.ltb (Datatypes.S p) (length l)) /\
  R s' l (if Nat.ltb (Datatypes.S p) (length l) then Datatypes.S p else p).
Hypothesis R_prev : bwd = true -> forall s l p, R s l p -> exists s', s_prev s = Some (s', Nat.ltb 0 p) /\ R s' l (pred p).

Local Notation item := (item S).
Local Notation mit := (mit S).
Local Notation i_rec := (i_rec S s_get).
Local Notation i_id := (i_id S).
Local Notation i_src := (i_src S).
Local Notation i_np := (i_np S).
Local Notation i_nn := (i_nn S).
Local Notation mkI := (mkI S).
Local Notation lt := (lt ty).
Local Notation le := (le ty).
Local Notation wle := (wle ty).
Local Notation w_insert := (w_insert S s_get ty).

(** The lists of the sources. *)
Variable Ls : nat -> list rec.
Definition li (it : item) : list rec := Ls (i_id it).

Lemma get_in : forall s l p, R s l p -> In (s_get s) l.
Proof. intros s l p H. destruct (R_get _ _ _ H) as [E _]. eapply nth_error_In; exact E. Qed.

Lemma move_next : fwd = true -> forall s l p, R s l p ->
  (exists s', s_next s = Some (s', true) /\ (exists p', R s' l p') /\ lt (s_get s) (s_get s') /\ forall x, In x l -> le x (s_get s) \/ le (s_get s') x) \/
  (exists s', s_next s = Some (s', false) /\ R s' l p /\ s_get s' = s_get s /\ forall x, In x l -> le x (s_get s)).
Proof.
  intros F s l p H. destruct (R_next F _ _ _ H) as (s' & E & H'). destruct (R_get _ _ _ H) as [G Hs].
  destruct (Nat.ltb_spec (Datatypes.S p) (length l)) as [L|L].
  - left. exists s'. split; [exact E|]. split; [now exists (Datatypes.S p)|]. destruct (R_get _ _ _ H') as [G' _]. split.
    + exact (Hs _ _ _ _ (Nat.lt_succ_diag_r p) G G').
    + intros x Hx. apply In_nth_error in Hx as [j Hj]. destruct (Nat.le_gt_cases j p) as [J|J].
      * left. destruct (Nat.eq_dec j p) as [->|N]; [rewrite G in Hj; injection Hj as <-; apply le_refl|].
        apply lt_le. apply (Hs j p); [lia|assumption|assumption].
      * right. destruct (Nat.eq_dec j (Datatypes.S p)) as [->|N]; [rewrite G' in Hj; injection Hj as <-; apply le_refl|].
        apply lt_le. apply (Hs (Datatypes.S p) j); [lia|assumption|assumption].
  - right. exists s'. split; [exact E|]. split; [exact H'|]. destruct (R_get _ _ _ H') as [G' _]. rewrite G in G'. injection G' as <-. split; [reflexivity|].
    intros x Hx. apply In_nth_error in Hx as [j Hj]. assert (j < length l)%nat by (apply nth_error_Some; congruence).
    destruct (Nat.eq_dec j p) as [->|N]; [rewrite G in Hj; injection Hj as <-; apply le_refl|]. apply lt_le. apply (Hs j p); [lia|assumption|assumption].
Qed.

Lemma move_prev : bwd = true -> forall s l p, R s l p ->
  (exists s', s_prev s = Some (s', true) /\ (exists p', R s' l p') /\ lt (s_get s') (s_get s) /\ forall x, In x l -> le (s_get s) x \/ le x (s_get s')) \/
  (exists s', s_prev s = Some (s', false) /\ R s' l p /\ s_get s' = s_get s /\ forall x, In x l -> le (s_get s) x).
Proof.
  intros F s l p H. destruct (R_prev F _ _ _ H) as (s' & E & H'). destruct (R_get _ _ _ H) as [G Hs].
  destruct p as [|p]; cbn [Nat.ltb Nat.leb pred] in E, H'.
  - right. exists s'. split; [exact E|]. split; [exact H'|]. destruct (R_get _ _ _ H') as [G' _]. rewrite G in G'. injection G' as <-. split; [reflexivity|].
    intros x Hx. apply In_nth_error in Hx as [j Hj]. destruct j as [|j]; [rewrite G in Hj; injection Hj as <-; apply le_refl|].
    apply lt_le. apply (Hs 0%nat (Datatypes.S j)); [lia|assumption|assumption].
  - left. exists s'. split; [exact E|]. split; [now exists p|]. destruct (R_get _ _ _ H') as [G' _]. split.
    + exact (Hs _ _ _ _ (Nat.lt_succ_diag_r p) G' G).
    + intros x Hx. apply In_nth_error in Hx as [j Hj]. destruct (Nat.le_gt_cases j p) as [J|J].
      * right. destruct (Nat.eq_dec j p) as [->|N]; [rewrite G' in Hj; injection Hj as <-; apply le_refl|].
        apply lt_le. apply (Hs j p); [lia|assumption|assumption].
      * left. destruct (Nat.eq_dec j (Datatypes.S p)) as [->|N]; [rewrite G in Hj; injection Hj as <-; apply le_refl|].
        apply lt_le. apply (Hs (Datatypes.S p) j); [lia|assumption|assumption].
Qed.

(** ** The window *)

Definition wsorted (w : list item) : Prop := StronglySorted (fun x y => wle (i_rec x) (i_rec y)) w.

Lemma w_insert_perm : forall x w, Permutation (x :: w) (w_insert x w).
Proof.
  intros x w. induction w as [|y w IH]; cbn [IterModel.w_insert]; [reflexivity|].
  destruct (wlt _ _ _ _ _); [reflexivity|]. etransitivity; [apply perm_swap|]. now constructor.
Qed.
Lemma w_insert_in : forall x w y, In y (w_insert x w) <-> y = x \/ In y w.
Proof.
  intros x w y. split; intros H.
  - eapply Permutation_in in H; [|symmetry; apply w_insert_perm]. destruct H as [<-|H]; auto.
  - eapply Permutation_in; [apply w_insert_perm|]. destruct H as [->|H]; [now left|now right].
Qed.
Lemma w_insert_sorted : forall x w, wsorted w -> wsorted (w_insert x w).
Proof.
  intros x w H. induction H as [|y w H IH F]; cbn [IterModel.w_insert]; [repeat constructor|].
  destruct (wlt _ _ _ _ _) eqn:E.
  - constructor; [now constructor|]. apply wlt_true in E. constructor; [exact E|]. rewrite Forall_forall in *. intros z Hz. specialize (F z Hz).
    eapply wle_trans; [exact E|exact F].
  - constructor; [exact IH|]. apply wlt_false in E. rewrite Forall_forall in *. intros z Hz. apply w_insert_in in Hz as [->|Hz]; [exact E|auto].
Qed.
Lemma sorted_mid : forall a x b, wsorted (a ++ x :: b) -> wsorted (a ++ b).
Proof.
  intros a x b. induction a as [|y a IH]; cbn [app]; intros H; inversion H as [|? ? H1 H2]; subst; [exact H1|].
  constructor; [now apply IH|]. rewrite Forall_forall in *. intros z Hz. apply H2. apply in_app_iff in Hz as [Hz|Hz]; apply in_app_iff; [now left|right; now right].
Qed.
Lemma sorted_swap : forall a x x' b, i_rec x' = i_rec x -> wsorted (a ++ x :: b) -> wsorted (a ++ x' :: b).
Proof.
  intros a x x' b E. induction a as [|y a IH]; cbn [app]; intros H; inversion H as [|? ? H1 H2]; subst.
  - constructor; [exact H1|]. now rewrite E.
  - constructor; [now apply IH|]. rewrite Forall_forall in *. intros z Hz. apply in_app_iff in Hz as [Hz|[<-|Hz]].
    + apply H2, in_app_iff. now left.
    + rewrite E. apply H2, in_app_iff. right. now left.
    + apply H2, in_app_iff. right. now right.
Qed.
Lemma sorted_after : forall a x b y, wsorted (a ++ x :: b) -> In y b -> wle (i_rec x) (i_rec y).
Proof.
  intros a x b y. induction a as [|z a IH]; cbn [app]; intros H Hy; inversion H as [|? ? H1 H2]; subst; [|now apply IH].
  rewrite Forall_forall in H2. now apply H2.
Qed.
Lemma sorted_before : forall a x b y, wsorted (a ++ x :: b) -> In y a -> wle (i_rec y) (i_rec x).
Proof.
  intros a x b y H Hy. apply in_split in Hy as (a1 & a2 & ->). rewrite <- app_assoc in H. cbn [app] in H.
  eapply sorted_after; [exact H|]. apply in_app_iff. right. now left.
Qed.

Definition ids (w : list item) : list nat := map i_id w.

(** ** Moving forward *)

(** During the loop of next(). *)
Record KN (cur : rec) (it : item) : Prop := {
  kn_r : exists p, R (i_src it) (li it) p;
  kn_1 : forall x, In x (li it) -> lt (i_rec it) x -> le x cur -> False;
  kn_2 : forall x, In x (li it) -> lt cur x -> lt x (i_rec it) -> False;
  kn_nn : fwd = true -> i_nn it = true -> (forall x, In x (li it) -> le x (i_rec it)) /\ le (i_rec it) cur;
  kn_np : bwd = true -> i_np it = true -> (forall x, In x (li it) -> le (i_rec it) x) /\ le cur (i_rec it);
  kn_two : fwd = true -> bwd = true -> exists x y, In x (li it) /\ In y (li it) /\ lt x y }.

Lemma kn_both : forall cur it, KN cur it -> fwd = true -> bwd = true -> i_np it = true -> i_nn it = true -> False.
Proof.
  intros cur it K F1 F2 N1 N2. destruct (kn_two _ _ K F1 F2) as (x & y & Hx & Hy & L).
  destruct (kn_np _ _ K F2 N1) as [A _]. destruct (kn_nn _ _ K F1 N2) as [B _]. specialize (A x Hx). specialize (B y Hy).
  apply (lt_irrefl ty x). eapply lt_le_trans; [exact L|]. eapply le_trans; eassumption.
Qed.

Definition pending (cur : rec) (it : item) : bool := negb (i_nn it) && negb (is_gt (cmpr ty (i_rec it) cur)).
Definition cnt (cur : rec) (w : list item) : nat := length (filter (pending cur) w).

Lemma cnt_app : forall cur a b, cnt cur (a ++ b) = (cnt cur a + cnt cur b)%nat.
Proof. intros cur a b. unfold cnt. rewrite filter_app, app_length. reflexivity. Qed.
Lemma cnt_perm : forall cur a b, Permutation a b -> cnt cur a = cnt cur b.
Proof.
  intros cur a b H. induction H as [|x a b H IH|x y a|a b c H1 IH1 H2 IH2]; [reflexivity| | |congruence].
  - unfold cnt in *. cbn [filter]. destruct (pending cur x); cbn [length]; lia.
  - unfold cnt. cbn [filter]. destruct (pending cur x), (pending cur y); reflexivity.
Qed.
Lemma cnt_cons : forall cur x w, cnt cur (x :: w) = ((if pending cur x then 1 else 0) + cnt cur w)%nat.
Proof. intros cur x w. unfold cnt. cbn [filter]. now destruct (pending cur x). Qed.
Lemma cnt_le : forall cur w, (cnt cur w <= length w)%nat.
Proof. intros cur w. induction w as [|x w IH]; [reflexivity|]. rewrite cnt_cons. cbn [length]. destruct (pending cur x); lia. Qed.

Lemma pass_next_spec : fwd = true -> forall cur rest past, wsorted (past ++ rest) -> Forall (KN cur) (past ++ rest) -> cnt cur past = 0%nat ->
  exists w moved, pass_next S s_get s_next ty cur past rest = Some (w, moved) /\ wsorted w /\ Forall (KN cur) w /\
    Permutation (ids w) (ids (past ++ rest)) /\
    (if moved then (cnt cur w < cnt cur rest)%nat else cnt cur w = 0%nat).
Proof.
  intros F cur rest. induction rest as [|it rest IH]; intros past Hs HK Hc.
  - cbn [pass_next]. rewrite app_nil_r in *. exists past, false. repeat split; auto.
  - cbn [pass_next]. destruct (i_nn it) eqn:Enn.
    + replace (past ++ it :: rest) with ((past ++ [it]) ++ rest) in * by now rewrite <- app_assoc.
      assert (Hc' : cnt cur (past ++ [it]) = 0%nat).
      { rewrite cnt_app, Hc, cnt_cons. unfold pending. rewrite Enn. reflexivity. }
      destruct (IH (past ++ [it]) Hs HK Hc') as (w & mv & E & A1 & A2 & A3 & A4). exists w, mv. repeat (split; [assumption|]).
      destruct mv; [|exact A4]. rewrite cnt_cons. unfold pending at 1. rewrite Enn. exact A4.
    + assert (Ki : KN cur it) by (rewrite Forall_forall in HK; apply HK, in_app_iff; right; now left).
      destruct (is_gt (cmpr ty (i_rec it) cur)) eqn:G.
      * exists (past ++ it :: rest), false. repeat (split; [solve [auto]|]). rewrite cnt_app, Hc. cbn [Nat.add].
        apply is_gt_true in G. assert (Hz : forall y, In y (it :: rest) -> pending cur y = false).
        { intros y Hy. unfold pending. apply andb_false_iff. right. apply negb_false_iff, is_gt_true.
          destruct Hy as [<-|Hy]; [exact G|]. eapply lt_le_trans; [exact G|]. apply wle_le. eapply sorted_after; eassumption. }
        unfold cnt. assert (Hn : filter (pending cur) (it :: rest) = []); [|now rewrite Hn].
        revert Hz. generalize (it :: rest). induction l as [|y l IHl]; intros Hz; [reflexivity|]. cbn [filter]. rewrite (Hz y (or_introl eq_refl)).
        apply IHl. intros z Hz'. apply Hz. now right.
      * apply is_gt_false in G. destruct (kn_r _ _ Ki) as [p Hp].
        assert (Pend : pending cur it = true).
        { unfold pending. rewrite Enn. cbn. apply negb_true_iff. now apply is_gt_false. }
        destruct (move_next F _ _ _ Hp) as [(s' & E & [p' Hp'] & L & B)|(s' & E & Hp' & Eg & B)]; rewrite E.
        -- (* moved *)
           set (it' := mkI (i_id it) s' false false). fold it'. exists (w_insert it' (past ++ rest)), true. split; [reflexivity|].
           assert (Lc : lt cur (s_get s')).
           { destruct (lt_dec ty cur (s_get s')) as [H|H]; [exact H|]. exfalso. apply (kn_1 _ _ Ki (s_get s')); [eapply get_in; exact Hp'|exact L|exact H]. }
           assert (Ki' : KN cur it').
           { constructor; cbn.
             - now exists p'.
             - intros x Hx H1 H2. apply (lt_irrefl ty cur). eapply lt_trans; [exact Lc|]. eapply lt_le_trans; [exact H1|exact H2].
             - intros x Hx H1 H2. destruct (B x Hx) as [H|H].
               + apply (lt_irrefl ty cur). eapply lt_le_trans; [exact H1|]. eapply le_trans; [exact H|exact G].
               + exact (le_not_lt _ _ _ H H2).
             - intros _ X; discriminate.
             - intros _ X; discriminate.
             - apply (kn_two _ _ Ki). }
           split; [apply w_insert_sorted; eapply sorted_mid; exact Hs|]. split.
           ++ rewrite Forall_forall in *. intros y Hy. apply w_insert_in in Hy as [->|Hy]; [exact Ki'|]. apply HK.
              apply in_app_iff in Hy as [Hy|Hy]; apply in_app_iff; [now left|right; now right].
           ++ split.
              ** unfold ids. rewrite <- (Permutation_map i_id (w_insert_perm it' (past ++ rest))). cbn [map]. change (i_id it') with (i_id it).
                 rewrite !map_app. cbn [map]. apply Permutation_middle.
              ** rewrite <- (cnt_perm cur _ _ (w_insert_perm it' (past ++ rest))). rewrite cnt_cons, cnt_app, Hc, cnt_cons, Pend.
                 assert (P' : pending cur it' = false).
                 { unfold pending. cbn. apply negb_false_iff. now apply is_gt_true. }
                 rewrite P'. lia.
        -- (* exhausted *)
           set (it' := mkI (i_id it) s' (i_np it) true). fold it'. assert (Er : i_rec it' = i_rec it) by exact Eg.
           assert (Ki' : KN cur it').
           { constructor.
             - now exists p.
             - rewrite Er. apply (kn_1 _ _ Ki).
             - rewrite Er. apply (kn_2 _ _ Ki).
             - intros _ _. rewrite Er. now split.
             - rewrite Er. apply (kn_np _ _ Ki).
             - apply (kn_two _ _ Ki). }
           destruct (IH (past ++ [it'])) as (w & mv & E' & A1 & A2 & A3 & A4).
           { rewrite <- app_assoc. cbn [app]. eapply sorted_swap; [exact Er|exact Hs]. }
           { rewrite <- app_assoc. cbn [app]. rewrite Forall_forall in *. intros y Hy. apply in_app_iff in Hy as [Hy|[<-|Hy]]; [apply HK, in_app_iff; now left|exact Ki'|].
             apply HK, in_app_iff. right. now right. }
           { rewrite cnt_app, Hc, cnt_cons. unfold pending. cbn. reflexivity. }
           exists w, mv. split; [exact E'|]. split; [exact A1|]. split; [exact A2|]. split.
           ++ rewrite A3. unfold ids. rewrite <- app_assoc. cbn [app]. rewrite !map_app. cbn [map]. change (i_id it') with (i_id it). reflexivity.
           ++ destruct mv; [|exact A4]. rewrite cnt_cons, Pend. lia.
Qed.

Lemma adv_next_spec : fwd = true -> forall cur f w, wsorted w -> Forall (KN cur) w -> (cnt cur w < f)%nat ->
  exists w', adv_next S s_get s_next ty f cur w = Some w' /\ wsorted w' /\ Forall (KN cur) w' /\ Permutation (ids w') (ids w) /\ cnt cur w' = 0%nat.
Proof.
  intros F cur f. induction f as [|f IH]; intros w Hs HK Hc; [lia|]. cbn [adv_next].
  destruct (pass_next_spec F cur w [] Hs HK eq_refl) as (w1 & mv & E & A1 & A2 & A3 & A4). rewrite E. cbn [app] in A3. destruct mv.
  - destruct (IH w1 A1 A2) as (w' & E' & B1 & B2 & B3 & B4); [lia|]. exists w'. repeat (split; [assumption|]). split; [|exact B4]. now rewrite B3.
  - exists w1. repeat (split; [assumption|]). now split.
Qed.

(** ** The invariant between calls *)

Record J (cur : rec) (it : item) : Prop := {
  j_r : exists p, R (i_src it) (li it) p;
  j_1 : forall x, In x (li it) -> lt (i_rec it) x -> le x cur -> False;
  j_2 : forall x, In x (li it) -> le cur x -> lt x (i_rec it) -> False;
  j_nn : fwd = true -> i_nn it = true -> (forall x, In x (li it) -> le x (i_rec it)) /\ le (i_rec it) cur;
  j_np : bwd = true -> i_np it = true -> (forall x, In x (li it) -> le (i_rec it) x) /\ le cur (i_rec it);
  j_two : fwd = true -> bwd = true -> exists x y, In x (li it) /\ In y (li it) /\ lt x y }.

Lemma j_kn : forall cur it, J cur it -> KN cur it.
Proof.
  intros cur it H. constructor; try apply H. intros x Hx H1 H2. apply (j_2 _ _ H x Hx); [now apply lt_le|exact H2].
Qed.

(** The newest versions of all keys (all numbers) of the sources in [ns], in order. *)
Definition is_merge (ns : list nat) (M : list rec) : Prop :=
  csorted ty M /\
  forall r, In r M <-> (exists n, In n ns /\ In r (Ls n)) /\
                       forall n x, In n ns -> In x (Ls n) -> le x r -> le r x -> ty = ByKey -> r_seq x <= r_seq r.

Definition same_rec (ns : list nat) : Prop :=
  forall n n' x y, In n ns -> In n' ns -> In x (Ls n) -> In y (Ls n') -> le x y -> le y x -> r_seq x = r_seq y -> x = y.

Record Inv (m : mit) (M : list rec) (i : nat) : Prop := {
  v_sorted : wsorted (m_win S m);
  v_nodup : NoDup (ids (m_win S m));
  v_same : same_rec (ids (m_win S m));
  v_merge : is_merge (ids (m_win S m)) M;
  v_cur : exists ci, cur_item S m = Some ci /\ nth_error M i = Some (i_rec ci) /\ Forall (J (i_rec ci)) (m_win S m) }.

Lemma find_id : forall w it, NoDup (ids w) -> In it w -> find (fun x => Nat.eqb (i_id x) (i_id it)) w = Some it.
Proof.
  intros w it. induction w as [|x w IH]; intros N H; [destruct H|]. cbn [find]. unfold ids in N. cbn [map] in N. inversion N as [|? ? N1 N2]; subst.
  destruct H as [->|H]; [now rewrite Nat.eqb_refl|]. destruct (Nat.eqb_spec (i_id x) (i_id it)) as [E|E]; [|now apply IH].
  exfalso. apply N1. rewrite E. now apply in_map.
Qed.

Lemma cur_in : forall m ci, cur_item S m = Some ci -> In ci (m_win S m) /\ i_id ci = m_cur S m.
Proof. intros m ci H. apply find_some in H as [H1 H2]. now apply Nat.eqb_eq in H2. Qed.

Lemma kn_get_in : forall cur it, KN cur it -> In (i_rec it) (li it).
Proof. intros cur it K. destruct (kn_r _ _ K) as [p H]. eapply get_in; exact H. Qed.
Lemma kn_sorted : forall cur it, KN cur it -> csorted ty (li it).
Proof. intros cur it K. destruct (kn_r _ _ K) as [p H]. apply (R_get _ _ _ H). Qed.

(** The item of the new window that has the same number. *)
Lemma same_item : forall w w' it, Permutation (ids w') (ids w) -> In it w -> exists it', In it' w' /\ i_id it' = i_id it.
Proof.
  intros w w' it P H. apply (in_map i_id) in H. fold (ids w) in H. eapply Permutation_in in H; [|symmetry; exact P].
  apply in_map_iff in H as (y & E & Hy). now exists y.
Qed.

Lemma last_valid_spec : forall rw, rw <> [] -> StronglySorted (fun x y => wle (i_rec y) (i_rec x)) rw ->
  exists it, last_valid S s_get ty rw = Some it /\ In it rw /\ forall y, In y rw -> le (i_rec y) (i_rec it) /\ (le (i_rec it) (i_rec y) -> ty = ByKey -> r_seq (i_rec y) <= r_seq (i_rec it)).
Proof.
  induction rw as [|x rw IH]; intros N H; [congruence|]. inversion H as [|? ? H1 H2]; subst. rewrite Forall_forall in H2.
  destruct ty eqn:T.
  - destruct rw as [|p rw'].
    + exists x. split; [reflexivity|]. split; [now left|]. intros y [<-|[]]. split; [apply le_refl|lia].
    + change (last_valid S s_get ByKey (x :: p :: rw')) with (if is_eq (cmpr ByKey (i_rec x) (i_rec p)) then last_valid S s_get ByKey (p :: rw') else Some x).
      destruct (is_eq (cmpr ByKey (i_rec x) (i_rec p))) eqn:E.
      * apply is_eq_true in E as [E1 E2]. destruct IH as (it & I1 & I2 & I3); [discriminate|exact H1|]. exists it. split; [exact I1|]. split; [now right|].
        intros y [<-|Hy]; [|now apply I3]. destruct (I3 p (or_introl eq_refl)) as [J1 J2]. split; [eapply IterProofs.le_trans; eassumption|].
        intros L T2. specialize (J2 (IterProofs.le_trans _ _ _ _ L E1) T2). destruct (H2 p (or_introl eq_refl)) as [W|(_ & _ & W)]; [|specialize (W eq_refl); lia].
        exfalso. exact (le_not_lt _ _ _ E1 W).
      * exists x. split; [reflexivity|]. split; [now left|]. assert (Hp : IterProofs.lt ByKey (i_rec p) (i_rec x)).
        { destruct (H2 p (or_introl eq_refl)) as [W|(W1 & W2 & _)]; [exact W|]. exfalso. assert (is_eq (cmpr ByKey (i_rec x) (i_rec p)) = true) by (apply is_eq_true; now split). congruence. }
        inversion H1 as [|? ? H3 H4]; subst. rewrite Forall_forall in H4.
        intros y [<-|[<-|Hy]].
        -- split; [apply le_refl|lia].
        -- split; [now apply lt_le|]. intros L _. exfalso. exact (le_not_lt _ _ _ L Hp).
        -- assert (Ly : IterProofs.lt ByKey (i_rec y) (i_rec x)) by (eapply IterProofs.le_lt_trans; [apply wle_le, H4; exact Hy|exact Hp]).
           split; [now apply lt_le|]. intros L _. exfalso. exact (le_not_lt _ _ _ L Ly).
  - exists x. split; [destruct rw; reflexivity|]. split; [now left|]. intros y Hy. split; [|discriminate].
    destruct Hy as [<-|Hy]; [apply le_refl|apply wle_le; now apply H2].
Qed.

Lemma rev_sorted : forall w, wsorted w -> StronglySorted (fun x y => wle (i_rec y) (i_rec x)) (rev w).
Proof.
  intros w H. induction H as [|x w H IH F]; [constructor|]. cbn [rev]. rewrite Forall_forall in F.
  assert (A : forall y, In y (rev w) -> wle (i_rec x) (i_rec y)) by (intros y Hy; apply F; now apply in_rev).
  revert IH A. generalize (rev w). induction l as [|y l IHl]; intros IH A; [repeat constructor|]. cbn [app]. inversion IH as [|? ? I1 I2]; subst.
  constructor; [apply IHl; [exact I1|intros z Hz; apply A; now right]|]. rewrite Forall_forall in *. intros z Hz. apply in_app_iff in Hz as [Hz|[<-|[]]]; [now apply I2|].
  apply A. now left.
Qed.

(** Everything about the current record after a move. *)
Lemma merge_perm : forall a b M, Permutation a b -> is_merge a M -> is_merge b M.
Proof.
  intros a b M P [H1 H2]. split; [exact H1|]. intros r. rewrite H2. split.
  - intros [(n & N1 & N2) H]. split; [exists n; split; [now apply (Permutation_in _ P)|exact N2]|]. intros k x Hk. apply H. now apply (Permutation_in _ (Permutation_sym P)).
  - intros [(n & N1 & N2) H]. split; [exists n; split; [now apply (Permutation_in _ (Permutation_sym P))|exact N2]|]. intros k x Hk. apply H. now apply (Permutation_in _ P).
Qed.
Lemma same_perm : forall a b, Permutation a b -> same_rec a -> same_rec b.
Proof.
  intros a b P H n n' x y Hn Hn'. apply H; now apply (Permutation_in _ (Permutation_sym P)).
Qed.

Lemma in_ids : forall w n, In n (ids w) <-> exists it, In it w /\ i_id it = n.
Proof. intros w n. unfold ids. rewrite in_map_iff. split; intros (x & H); exists x; tauto. Qed.

Theorem m_next_spec : fwd = true -> forall m M i, Inv m M i ->
  exists m', m_next S s_get s_next ty m = Some (m', Nat.ltb (Datatypes.S i) (length M)) /\
    Inv m' M (if Nat.ltb (Datatypes.S i) (length M) then Datatypes.S i else i) /\ Permutation (ids (m_win S m')) (ids (m_win S m)).
Proof.
  intros F m M i HI. destruct (v_cur _ _ _ HI) as (ci & Ec & En & HJ). pose proof (cur_in _ _ Ec) as [Hci Eid].
  set (cur := i_rec ci) in *. unfold m_next. rewrite Ec. fold cur.
  assert (HK : Forall (KN cur) (m_win S m)) by (rewrite Forall_forall in *; intros y Hy; now apply j_kn, HJ).
  destruct (adv_next_spec F cur (Datatypes.S (length (m_win S m))) (m_win S m) (v_sorted _ _ _ HI) HK) as (w & E & Hs & HKw & P & Hc).
  { pose proof (cnt_le cur (m_win S m)). lia. }
  rewrite E. rewrite Forall_forall in HKw, HK, HJ.
  assert (Nd : NoDup (ids w)) by (eapply Permutation_NoDup; [symmetry; exact P|apply (v_nodup _ _ _ HI)]).
  pose proof (merge_perm _ _ _ (Permutation_sym P) (v_merge _ _ _ HI)) as HM. destruct HM as [HMs HMi].
  pose proof (same_perm _ _ (Permutation_sym P) (v_same _ _ _ HI)) as Hsame.
  assert (Hfin : forall y, In y w -> i_nn y = true \/ lt cur (i_rec y)).
  { intros y Hy. destruct (i_nn y) eqn:N; [now left|right]. destruct (is_gt (cmpr ty (i_rec y) cur)) eqn:G; [now apply is_gt_true in G|].
    exfalso. assert (Pd : In y (filter (pending cur) w)) by (apply filter_In; split; [exact Hy|unfold pending; now rewrite N, G]).
    unfold cnt in Hc. apply length_zero_iff_nil in Hc. rewrite Hc in Pd. destruct Pd. }
  assert (HcurM : In cur M) by (eapply nth_error_In; exact En).
  destruct (choose_next S s_get ty cur w) as [it|] eqn:Ch.
  - (* a next record *)
    unfold choose_next in Ch. pose proof (find_some _ _ Ch) as [Hit Hv]. apply andb_prop in Hv as [Hv _]. apply negb_true_iff in Hv.
    assert (Lit : lt cur (i_rec it)) by (destruct (Hfin it Hit) as [N|L]; [congruence|exact L]).
    assert (Hmin : forall y, In y w -> i_nn y = false -> wle (i_rec it) (i_rec y) \/ y = it).
    { intros y Hy N. clear - Ch Hs Hy N Hfin Hit. revert Ch Hs Hy Hfin. induction w as [|x w IHw]; intros Ch Hs Hy Hfin; [destruct Hy|].
      cbn [find] in Ch. destruct (negb (i_nn x) && negb (is_eq (cmpr ty (i_rec x) cur))) eqn:V.
      - injection Ch as ->. destruct Hy as [->|Hy]; [now right|left]. inversion Hs as [|? ? _ H2]; subst. rewrite Forall_forall in H2. now apply H2.
      - inversion Hs as [|? ? H1 H2]; subst. destruct Hy as [->|Hy].
        + exfalso. apply andb_false_iff in V as [V|V]; [rewrite N in V; discriminate|]. apply negb_false_iff, is_eq_true in V as [V1 V2].
          destruct (Hfin y (or_introl eq_refl)) as [X|X]; [congruence|]. exact (le_not_lt _ _ _ V1 X).
        + apply find_some in Ch as Hin. apply (IHw (proj1 Hin) Ch H1 Hy). intros z Hz. apply Hfin. now right. }
    assert (Hle : forall y, In y w -> i_nn y = false -> le (i_rec it) (i_rec y)).
    { intros y Hy N. destruct (Hmin y Hy N) as [W| ->]; [now apply wle_le|apply le_refl]. }
    assert (Hgap : forall y x, In y w -> In x (li y) -> le x cur \/ le (i_rec it) x).
    { intros y x Hy Hx. destruct (lt_dec ty cur x) as [L|L]; [right|now left]. pose proof (HKw y Hy) as Ky. destruct (i_nn y) eqn:N.
      - exfalso. destruct (kn_nn _ _ Ky F N) as [A B]. apply (le_not_lt _ _ _ (le_trans _ _ _ _ (A x Hx) B) L).
      - eapply le_trans; [apply Hle; eassumption|]. apply not_lt_le. intros L2. exact (kn_2 _ _ Ky x Hx L L2). }
    assert (HitM : In (i_rec it) M).
    { apply HMi. split.
      - exists (i_id it). split; [apply in_ids; now exists it|]. apply (kn_get_in cur it). now apply HKw.
      - intros n x Hn Hx L1 L2 T. apply in_ids in Hn as (y & Hy & <-). pose proof (HKw y Hy) as Ky. destruct (i_nn y) eqn:N.
        + exfalso. destruct (kn_nn _ _ Ky F N) as [A B]. apply (lt_irrefl ty cur). eapply lt_le_trans; [exact Lit|]. eapply le_trans; [exact L2|].
          eapply le_trans; [apply A; exact Hx|exact B].
        + assert (Lx : lt cur x) by (eapply lt_le_trans; [exact Lit|exact L2]).
          assert (Eq : x = i_rec y).
          { apply (csorted_inj ty (li y)); [apply (kn_sorted cur y Ky)|exact Hx|apply (kn_get_in cur y Ky)| |].
            - eapply le_trans; [exact L1|now apply Hle].
            - apply not_lt_le. intros L3. exact (kn_2 _ _ Ky x Hx Lx L3). }
          subst x. destruct (Hmin y Hy N) as [[W|(_ & _ & W)]| ->]; [|now apply W|lia]. exfalso. exact (le_not_lt _ _ _ L1 W). }
    assert (Hnext : nth_error M (Datatypes.S i) = Some (i_rec it)).
    { apply (csorted_pos ty M i cur); auto. intros z Hz. apply HMi in Hz as [(n & Hn & Hz) _]. apply in_ids in Hn as (y & Hy & <-). now apply (Hgap y). }
    assert (Lb : Nat.ltb (Datatypes.S i) (length M) = true) by (apply Nat.ltb_lt, nth_error_Some; congruence). rewrite Lb.
    exists (mkM S w (i_id it)). split; [reflexivity|]. split; [|exact P]. constructor; cbn [m_win]; auto.
    + now split.
    + exists it. unfold cur_item. cbn [m_win m_cur]. rewrite (find_id w it Nd Hit). split; [reflexivity|]. split; [exact Hnext|].
      rewrite Forall_forall. intros y Hy. pose proof (HKw y Hy) as Ky. constructor.
      * apply Ky.
      * intros x Hx L1 L2. destruct (i_nn y) eqn:N.
        -- destruct (kn_nn _ _ Ky F N) as [A _]. exact (le_not_lt _ _ _ (A x Hx) L1).
        -- apply (le_not_lt _ _ _ (le_trans _ _ _ _ L2 (Hle y Hy N)) L1).
      * intros x Hx L1 L2. apply (kn_2 _ _ Ky x Hx); [|exact L2]. eapply lt_le_trans; [exact Lit|exact L1].
      * intros _ N. destruct (kn_nn _ _ Ky F N) as [A B]. split; [exact A|]. eapply le_trans; [exact B|now apply lt_le].
      * intros B0 N. destruct (kn_np _ _ Ky B0 N) as [A B]. split; [exact A|]. apply Hle; [exact Hy|].
        destruct (i_nn y) eqn:N2; [|reflexivity]. exfalso. exact (kn_both _ _ Ky F B0 N N2).
      * apply Ky.
  - (* the end *)
    assert (Hall : forall y, In y w -> i_nn y = true).
    { intros y Hy. unfold choose_next in Ch. pose proof (find_none _ _ Ch y Hy) as V. destruct (Hfin y Hy) as [N|L]; [exact N|].
      destruct (i_nn y) eqn:N2; [reflexivity|]. cbn beta in V. rewrite N2 in V. cbn [negb andb] in V. apply negb_false_iff, is_eq_true in V as [V1 _]. exfalso. exact (le_not_lt _ _ _ V1 L). }
    assert (Hle : forall y x, In y w -> In x (li y) -> le x cur).
    { intros y x Hy Hx. destruct (kn_nn _ _ (HKw y Hy) F (Hall y Hy)) as [A B]. eapply le_trans; [apply A; exact Hx|exact B]. }
    destruct (same_item _ _ _ P Hci) as (c' & Hc' & Ic).
    assert (Ecur : i_rec c' = cur).
    { pose proof (HKw c' Hc') as Kc. assert (Hl : li c' = li ci) by (unfold li; now rewrite Ic).
      apply (csorted_inj ty (li c')); [apply (kn_sorted cur c' Kc)|apply (kn_get_in cur c' Kc)| |now apply (Hle c'), (kn_get_in cur c' Kc)|].
      - rewrite Hl. apply (kn_get_in cur ci). now apply HK.
      - apply (kn_nn _ _ Kc F (Hall c' Hc')). rewrite Hl. apply (kn_get_in cur ci). now apply HK. }
    destruct (last_valid_spec (rev w)) as (it & L1 & L2 & L3).
    { intros X. apply (f_equal (@rev _)) in X. rewrite rev_involutive in X. cbn in X. subst w. destruct Hc'. }
    { now apply rev_sorted. }
    apply in_rev in L2. rewrite L1.
    assert (Erec : i_rec it = cur).
    { destruct (L3 c') as [M1 M2]; [now apply in_rev in Hc'|]. rewrite Ecur in M1, M2.
      assert (Li : In (i_rec it) (li it)) by (apply (kn_get_in cur it); now apply HKw).
      assert (M3 : le (i_rec it) cur) by (apply (Hle it); assumption).
      assert (Lc : In cur (li c')) by (rewrite <- Ecur; apply (kn_get_in cur c'); now apply HKw).
      apply (Hsame (i_id it) (i_id c')); [apply in_ids; now exists it|apply in_ids; now exists c'|exact Li|exact Lc|exact M3|exact M1|].
      - apply HMi in HcurM as [_ HcM]. destruct ty eqn:T.
        + assert (r_seq (i_rec it) <= r_seq cur) by (apply (HcM (i_id it)); auto; apply in_ids; now exists it).
          specialize (M2 M3 eq_refl). lia.
        + pose proof (proj2 (eq_le BySeq (i_rec it) cur) (conj M3 M1)) as Ee. apply (eq_same BySeq) in Ee. exact Ee. }
    assert (HMle : forall z, In z M -> le z cur).
    { intros z Hz. apply HMi in Hz as [(n & Hn & Hz) _]. apply in_ids in Hn as (y & Hy & <-). now apply (Hle y). }
    pose proof (csorted_last ty M i cur HMs En HMle) as Hlast. assert (Lb : Nat.ltb (Datatypes.S i) (length M) = false) by (apply Nat.ltb_ge; lia). rewrite Lb.
    exists (mkM S w (i_id it)). split; [reflexivity|]. split; [|exact P]. constructor; cbn [m_win]; auto.
    + now split.
    + exists it. unfold cur_item. cbn [m_win m_cur]. rewrite (find_id w it Nd L2). split; [reflexivity|]. rewrite Erec. split; [exact En|].
      rewrite Forall_forall. intros y Hy. pose proof (HKw y Hy) as Ky. pose proof (Hall y Hy) as N. destruct (kn_nn _ _ Ky F N) as [A B]. constructor.
      * apply Ky.
      * apply (kn_1 _ _ Ky).
      * intros x Hx G1 G2. apply (lt_irrefl ty x). eapply lt_le_trans; [exact G2|]. eapply le_trans; [exact B|exact G1].
      * intros _ _. now split.
      * intros B0 N2. exfalso. exact (kn_both _ _ Ky F B0 N2 N).
      * apply Ky.
Qed.

(** ** Moving backward *)

Definition dsorted (l : list item) : Prop := StronglySorted (fun x y => wle (i_rec y) (i_rec x)) l.
Lemma drev_sorted : forall l, dsorted l -> wsorted (rev l).
Proof.
  intros w H. induction H as [|x w H IH F]; [constructor|]. cbn [rev]. rewrite Forall_forall in F.
  assert (A : forall y, In y (rev w) -> wle (i_rec y) (i_rec x)) by (intros y Hy; apply F; now apply in_rev).
  revert IH A. generalize (rev w). induction l as [|y l IHl]; intros IH A; [repeat constructor|]. cbn [app]. inversion IH as [|? ? I1 I2]; subst.
  constructor; [apply IHl; [exact I1|intros z Hz; apply A; now right]|]. rewrite Forall_forall in *. intros z Hz. apply in_app_iff in Hz as [Hz|[<-|[]]]; [now apply I2|].
  apply A. now left.
Qed.
Lemma dsorted_of : forall l, wsorted (rev l) -> dsorted l.
Proof. intros l H. rewrite <- (rev_involutive l). now apply rev_sorted. Qed.
Lemma dsorted_mid : forall a x b, dsorted (a ++ x :: b) -> dsorted (a ++ b).
Proof.
  intros a x b. induction a as [|y a IH]; cbn [app]; intros H; inversion H as [|? ? H1 H2]; subst; [exact H1|].
  constructor; [now apply IH|]. rewrite Forall_forall in *. intros z Hz. apply H2. apply in_app_iff in Hz as [Hz|Hz]; apply in_app_iff; [now left|right; now right].
Qed.
Lemma dsorted_swap : forall a x x' b, i_rec x' = i_rec x -> dsorted (a ++ x :: b) -> dsorted (a ++ x' :: b).
Proof.
  intros a x x' b E. induction a as [|y a IH]; cbn [app]; intros H; inversion H as [|? ? H1 H2]; subst.
  - constructor; [exact H1|]. now rewrite E.
  - constructor; [now apply IH|]. rewrite Forall_forall in *. intros z Hz. apply in_app_iff in Hz as [Hz|[<-|Hz]].
    + apply H2, in_app_iff. now left.
    + rewrite E. apply H2, in_app_iff. right. now left.
    + apply H2, in_app_iff. right. now right.
Qed.
Lemma dsorted_after : forall a x b y, dsorted (a ++ x :: b) -> In y b -> wle (i_rec y) (i_rec x).
Proof.
  intros a x b y. induction a as [|z a IH]; cbn [app]; intros H Hy; inversion H as [|? ? H1 H2]; subst; [|now apply IH].
  rewrite Forall_forall in H2. now apply H2.
Qed.

(** During the loop of prev(). *)
Record KP (cur : rec) (it : item) : Prop := {
  kp_r : exists p, R (i_src it) (li it) p;
  kp_1 : forall x, In x (li it) -> lt x (i_rec it) -> le cur x -> False;
  kp_2 : forall x, In x (li it) -> lt x cur -> lt (i_rec it) x -> False;
  kp_nn : fwd = true -> i_nn it = true -> (forall x, In x (li it) -> le x (i_rec it)) /\ le (i_rec it) cur;
  kp_np : bwd = true -> i_np it = true -> (forall x, In x (li it) -> le (i_rec it) x) /\ le cur (i_rec it);
  kp_two : fwd = true -> bwd = true -> exists x y, In x (li it) /\ In y (li it) /\ lt x y }.

Lemma kp_both : forall cur it, KP cur it -> fwd = true -> bwd = true -> i_np it = true -> i_nn it = true -> False.
Proof.
  intros cur it K F1 F2 N1 N2. destruct (kp_two _ _ K F1 F2) as (x & y & Hx & Hy & L).
  destruct (kp_np _ _ K F2 N1) as [A _]. destruct (kp_nn _ _ K F1 N2) as [B _]. specialize (A x Hx). specialize (B y Hy).
  apply (lt_irrefl ty x). eapply lt_le_trans; [exact L|]. eapply le_trans; eassumption.
Qed.
Lemma kp_get_in : forall cur it, KP cur it -> In (i_rec it) (li it).
Proof. intros cur it K. destruct (kp_r _ _ K) as [p H]. eapply get_in; exact H. Qed.
Lemma kp_sorted : forall cur it, KP cur it -> csorted ty (li it).
Proof. intros cur it K. destruct (kp_r _ _ K) as [p H]. apply (R_get _ _ _ H). Qed.
Lemma j_kp : forall cur it, J cur it -> KP cur it.
Proof.
  intros cur it H. constructor; try apply H.
  - intros x Hx H1 H2. exact (j_2 _ _ H x Hx H2 H1).
  - intros x Hx H1 H2. apply (j_1 _ _ H x Hx H2). now apply lt_le.
Qed.

Definition pendp (cur : rec) (it : item) : bool := negb (i_np it) && negb (is_lt (cmpr ty (i_rec it) cur)).
Definition cntp (cur : rec) (w : list item) : nat := length (filter (pendp cur) w).
Lemma cntp_app : forall cur a b, cntp cur (a ++ b) = (cntp cur a + cntp cur b)%nat.
Proof. intros cur a b. unfold cntp. rewrite filter_app, app_length. reflexivity. Qed.
Lemma cntp_perm : forall cur a b, Permutation a b -> cntp cur a = cntp cur b.
Proof.
  intros cur a b H. induction H as [|x a b H IH|x y a|a b c H1 IH1 H2 IH2]; [reflexivity| | |congruence].
  - unfold cntp in *. cbn [filter]. destruct (pendp cur x); cbn [length]; lia.
  - unfold cntp. cbn [filter]. destruct (pendp cur x), (pendp cur y); reflexivity.
Qed.
Lemma cntp_cons : forall cur x w, cntp cur (x :: w) = ((if pendp cur x then 1 else 0) + cntp cur w)%nat.
Proof. intros cur x w. unfold cntp. cbn [filter]. now destruct (pendp cur x). Qed.
Lemma cntp_le : forall cur w, (cntp cur w <= length w)%nat.
Proof. intros cur w. induction w as [|x w IH]; [reflexivity|]. rewrite cntp_cons. cbn [length]. destruct (pendp cur x); lia. Qed.
Lemma cntp_rev : forall cur w, cntp cur (rev w) = cntp cur w.
Proof. intros cur w. symmetry. apply cntp_perm, Permutation_rev. Qed.

Lemma pass_prev_spec : bwd = true -> forall cur rest past, dsorted (past ++ rest) -> Forall (KP cur) (past ++ rest) -> cntp cur past = 0%nat ->
  exists w moved, pass_prev S s_get s_prev ty cur past rest = Some (w, moved) /\ wsorted w /\ Forall (KP cur) w /\
    Permutation (ids w) (ids (past ++ rest)) /\
    (if moved then (cntp cur w < cntp cur rest)%nat else cntp cur w = 0%nat).
Proof.
  intros F cur rest. induction rest as [|it rest IH]; intros past Hs HK Hc.
  - cbn [pass_prev]. rewrite app_nil_r in *. exists (rev past), false. split; [reflexivity|]. split; [now apply drev_sorted|].
    split; [rewrite Forall_forall in *; intros y Hy; apply HK; now apply in_rev|]. split; [unfold ids; apply Permutation_map, Permutation_sym, Permutation_rev|].
    now rewrite cntp_rev.
  - cbn [pass_prev]. destruct (i_np it) eqn:Enn.
    + replace (past ++ it :: rest) with ((past ++ [it]) ++ rest) in * by now rewrite <- app_assoc.
      assert (Hc' : cntp cur (past ++ [it]) = 0%nat).
      { rewrite cntp_app, Hc, cntp_cons. unfold pendp. rewrite Enn. reflexivity. }
      destruct (IH (past ++ [it]) Hs HK Hc') as (w & mv & E & A1 & A2 & A3 & A4). exists w, mv. repeat (split; [assumption|]).
      destruct mv; [|exact A4]. rewrite cntp_cons. unfold pendp at 1. rewrite Enn. exact A4.
    + assert (Ki : KP cur it) by (rewrite Forall_forall in HK; apply HK, in_app_iff; right; now left).
      destruct (is_lt (cmpr ty (i_rec it) cur)) eqn:G.
      * exists (rev (past ++ it :: rest)), false. split; [reflexivity|]. split; [now apply drev_sorted|].
        split; [rewrite Forall_forall in *; intros y Hy; apply HK; now apply in_rev|]. split; [unfold ids; apply Permutation_map, Permutation_sym, Permutation_rev|].
        rewrite cntp_rev, cntp_app, Hc. cbn [Nat.add].
        apply is_lt_true in G. assert (Hz : forall y, In y (it :: rest) -> pendp cur y = false).
        { intros y Hy. unfold pendp. apply andb_false_iff. right. apply negb_false_iff, is_lt_true.
          destruct Hy as [<-|Hy]; [exact G|]. eapply le_lt_trans; [|exact G]. apply wle_le. eapply dsorted_after; eassumption. }
        unfold cntp. assert (Hn : filter (pendp cur) (it :: rest) = []); [|now rewrite Hn].
        revert Hz. generalize (it :: rest). induction l as [|y l IHl]; intros Hz; [reflexivity|]. cbn [filter]. rewrite (Hz y (or_introl eq_refl)).
        apply IHl. intros z Hz'. apply Hz. now right.
      * apply is_lt_false in G. destruct (kp_r _ _ Ki) as [p Hp].
        assert (Pend : pendp cur it = true).
        { unfold pendp. rewrite Enn. cbn. apply negb_true_iff. now apply is_lt_false. }
        destruct (move_prev F _ _ _ Hp) as [(s' & E & [p' Hp'] & L & B)|(s' & E & Hp' & Eg & B)]; rewrite E.
        -- (* moved *)
           set (it' := mkI (i_id it) s' false false). fold it'. exists (w_insert it' (rev (past ++ rest))), true. split; [reflexivity|].
           assert (Lc : lt (s_get s') cur).
           { destruct (lt_dec ty (s_get s') cur) as [H|H]; [exact H|]. exfalso. apply (kp_1 _ _ Ki (s_get s')); [eapply get_in; exact Hp'|exact L|exact H]. }
           assert (Ki' : KP cur it').
           { constructor; cbn.
             - now exists p'.
             - intros x Hx H1 H2. apply (lt_irrefl ty cur). eapply le_lt_trans; [exact H2|]. eapply lt_trans; [exact H1|exact Lc].
             - intros x Hx H1 H2. destruct (B x Hx) as [H|H].
               + apply (lt_irrefl ty cur). eapply le_lt_trans; [exact G|]. eapply le_lt_trans; [exact H|exact H1].
               + exact (le_not_lt _ _ _ H H2).
             - intros _ X; discriminate.
             - intros _ X; discriminate.
             - apply (kp_two _ _ Ki). }
           split; [apply w_insert_sorted, drev_sorted; eapply dsorted_mid; exact Hs|]. split.
           ++ rewrite Forall_forall in *. intros y Hy. apply w_insert_in in Hy as [->|Hy]; [exact Ki'|]. apply HK. apply in_rev in Hy.
              apply in_app_iff in Hy as [Hy|Hy]; apply in_app_iff; [now left|right; now right].
           ++ split.
              ** unfold ids. rewrite <- (Permutation_map i_id (w_insert_perm it' (rev (past ++ rest)))). cbn [map]. change (i_id it') with (i_id it).
                 rewrite <- (Permutation_map i_id (Permutation_rev (past ++ rest))). rewrite !map_app. cbn [map]. apply Permutation_middle.
              ** rewrite <- (cntp_perm cur _ _ (w_insert_perm it' (rev (past ++ rest)))). rewrite cntp_cons, cntp_rev, cntp_app, Hc, cntp_cons, Pend.
                 assert (P' : pendp cur it' = false).
                 { unfold pendp. cbn. apply negb_false_iff. now apply is_lt_true. }
                 rewrite P'. lia.
        -- (* exhausted *)
           set (it' := mkI (i_id it) s' true (i_nn it)). fold it'. assert (Er : i_rec it' = i_rec it) by exact Eg.
           assert (Ki' : KP cur it').
           { constructor.
             - now exists p.
             - rewrite Er. apply (kp_1 _ _ Ki).
             - rewrite Er. apply (kp_2 _ _ Ki).
             - rewrite Er. apply (kp_nn _ _ Ki).
             - intros _ _. rewrite Er. now split.
             - apply (kp_two _ _ Ki). }
           destruct (IH (past ++ [it'])) as (w & mv & E' & A1 & A2 & A3 & A4).
           { rewrite <- app_assoc. cbn [app]. eapply dsorted_swap; [exact Er|exact Hs]. }
           { rewrite <- app_assoc. cbn [app]. rewrite Forall_forall in *. intros y Hy. apply in_app_iff in Hy as [Hy|[<-|Hy]]; [apply HK, in_app_iff; now left|exact Ki'|].
             apply HK, in_app_iff. right. now right. }
           { rewrite cntp_app, Hc, cntp_cons. unfold pendp. cbn. reflexivity. }
           exists w, mv. split; [exact E'|]. split; [exact A1|]. split; [exact A2|]. split.
           ++ rewrite A3. unfold ids. rewrite <- app_assoc. cbn [app]. rewrite !map_app. cbn [map]. change (i_id it') with (i_id it). reflexivity.
           ++ destruct mv; [|exact A4]. rewrite cntp_cons, Pend. lia.
Qed.

Lemma adv_prev_spec : bwd = true -> forall cur f w, wsorted w -> Forall (KP cur) w -> (cntp cur w < f)%nat ->
  exists w', adv_prev S s_get s_prev ty f cur w = Some w' /\ wsorted w' /\ Forall (KP cur) w' /\ Permutation (ids w') (ids w) /\ cntp cur w' = 0%nat.
Proof.
  intros F cur f. induction f as [|f IH]; intros w Hs HK Hc; [lia|]. cbn [adv_prev].
  destruct (pass_prev_spec F cur (rev w) []) as (w1 & mv & E & A1 & A2 & A3 & A4).
  { cbn [app]. now apply rev_sorted. }
  { cbn [app]. rewrite Forall_forall in *. intros y Hy. apply HK. now apply in_rev. }
  { reflexivity. }
  rewrite E. cbn [app] in A3. rewrite cntp_rev in A4.
  assert (A3' : Permutation (ids w1) (ids w)) by (rewrite A3; unfold ids; apply Permutation_map, Permutation_sym, Permutation_rev). destruct mv.
  - destruct (IH w1 A1 A2) as (w' & E' & B1 & B2 & B3 & B4); [lia|]. exists w'. repeat (split; [assumption|]). split; [|exact B4]. now rewrite B3.
  - exists w1. repeat (split; [assumption|]). now split.
Qed.

Local Notation valid_prev := (valid_prev S s_get ty).
Local Notation choose_prev := (choose_prev S s_get ty).
Definition lvl (lv : option item) : list item := match lv with Some v => [v] | None => [] end.

Definition best (cur : rec) (l : list item) (it : item) : Prop :=
  In it l /\ valid_prev cur it = true /\
  forall y, In y l -> valid_prev cur y = true -> le (i_rec y) (i_rec it) /\ (le (i_rec it) (i_rec y) -> ty = ByKey -> r_seq (i_rec y) <= r_seq (i_rec it)).
Lemma choose_prev_spec : forall cur rw lv, dsorted (lvl lv ++ rw) -> (forall v, lv = Some v -> valid_prev cur v = true /\ ty = ByKey) ->
  match choose_prev cur lv rw with
  | None => lv = None /\ forall y, In y rw -> valid_prev cur y = false
  | Some it => best cur (lvl lv ++ rw) it
  end.
Proof.
  intros cur rw. induction rw as [|it rw IH]; intros lv Hs Hv.
  - cbn [IterModel.choose_prev]. destruct lv as [v|]; [|split; [reflexivity|intros y []]]. split; [now left|]. split; [now apply Hv|]. intros y [<-|[]] _. split; [apply le_refl|lia].
  - destruct (is_lt (cmpr ty (i_rec it) (i_rec it))) eqn:Tx; [apply is_lt_true in Tx; now apply lt_irrefl in Tx|clear Tx].
    assert (CT : ty = ByKey \/ ty = BySeq) by (destruct ty; auto). destruct CT as [T|T].
    + assert (E : choose_prev cur lv (it :: rw) = match lv with
          | Some v => if is_lt (cmpr ty (i_rec it) (i_rec v)) then lv else choose_prev cur (if valid_prev cur it then Some it else lv) rw
          | None => choose_prev cur (if valid_prev cur it then Some it else lv) rw end).
      { cbn [IterModel.choose_prev]. rewrite T at 1. reflexivity. }
      rewrite E. clear E. destruct lv as [v|].
      * destruct (Hv v eq_refl) as [Vv _]. cbn [lvl app] in *. inversion Hs as [|? ? H1 H2]; subst. inversion H1 as [|? ? H3 H4]; subst. rewrite Forall_forall in H2, H4.
        destruct (is_lt (cmpr ty (i_rec it) (i_rec v))) eqn:L.
        -- apply is_lt_true in L. split; [now left|]. split; [exact Vv|]. intros y [<-|Hy] _; [split; [apply le_refl|lia]|].
           assert (Ly : lt (i_rec y) (i_rec v)).
           { destruct Hy as [<-|Hy]; [exact L|]. eapply le_lt_trans; [apply wle_le, H4; exact Hy|exact L]. }
           split; [now apply lt_le|]. intros X. exfalso. exact (le_not_lt _ _ _ X Ly).
        -- apply is_lt_false in L. destruct (valid_prev cur it) eqn:V.
           ++ assert (Hs' : dsorted (lvl (Some it) ++ rw)) by exact H1.
              assert (Hv' : forall u, Some it = Some u -> valid_prev cur u = true /\ ty = ByKey) by (intros u [= <-]; now split).
              specialize (IH (Some it) Hs' Hv'). destruct (choose_prev cur (Some it) rw) as [z|]; [|destruct IH; discriminate].
              cbn [lvl app] in IH. destruct IH as (I1 & I2 & I3). split; [now right|]. split; [exact I2|]. intros y [<-|Hy] Vy; [|now apply I3].
              destruct (I3 it (or_introl eq_refl) V) as [X1 X2]. split; [eapply le_trans; eassumption|]. intros X _.
              specialize (X2 (le_trans _ _ _ _ X L) T). destruct (H2 it (or_introl eq_refl)) as [W|(_ & _ & W)]; [exfalso; exact (le_not_lt _ _ _ L W)|].
              specialize (W T). lia.
           ++ assert (Hs' : dsorted (lvl (Some v) ++ rw)).
              { cbn [lvl app]. constructor; [exact H3|]. rewrite Forall_forall. intros y Hy. apply H2. now right. }
              specialize (IH (Some v) Hs' Hv). destruct (choose_prev cur (Some v) rw) as [z|]; [|destruct IH; discriminate].
              cbn [lvl app] in IH. destruct IH as (I1 & I2 & I3). split; [destruct I1 as [I1|I1]; [now left|right; now right]|]. split; [exact I2|].
              intros y Hy Vy. apply I3; [|exact Vy]. destruct Hy as [Hy|[<-|Hy]]; [now left|congruence|now right].
      * cbn [lvl app] in Hs. inversion Hs as [|? ? H3 H4]; subst. destruct (valid_prev cur it) eqn:V.
        -- assert (Hv' : forall u, Some it = Some u -> valid_prev cur u = true /\ ty = ByKey) by (intros u [= <-]; now split).
           specialize (IH (Some it) Hs Hv'). destruct (choose_prev cur (Some it) rw) as [z|]; [exact IH|destruct IH; discriminate].
        -- specialize (IH None H3 Hv). destruct (choose_prev cur None rw) as [z|].
           ++ cbn [lvl app] in *. destruct IH as (I1 & I2 & I3). split; [now right|]. split; [exact I2|]. intros y [<-|Hy] Vy; [congruence|now apply I3].
           ++ split; [reflexivity|]. intros y [<-|Hy]; [exact V|now apply IH].
    + destruct lv as [v|]; [destruct (Hv v eq_refl); congruence|]. cbn [lvl app] in Hs. inversion Hs as [|? ? H3 H4]; subst. rewrite Forall_forall in H4.
      assert (E : choose_prev cur None (it :: rw) = if valid_prev cur it then Some it else choose_prev cur None rw).
      { cbn [IterModel.choose_prev]. rewrite T at 1. reflexivity. }
      rewrite E. clear E. destruct (valid_prev cur it) eqn:V.
      * split; [now left|]. split; [exact V|]. intros y Hy _. split; [|congruence]. destruct Hy as [<-|Hy]; [apply le_refl|now apply wle_le, H4].
      * specialize (IH None H3 Hv). destruct (choose_prev cur None rw) as [z|].
        ++ cbn [lvl app] in *. destruct IH as (I1 & I2 & I3). split; [now right|]. split; [exact I2|]. intros y [<-|Hy] Vy; [congruence|now apply I3].
        ++ split; [reflexivity|]. intros y [<-|Hy]; [exact V|now apply IH].
Qed.

Theorem m_prev_spec : bwd = true -> forall m M i, Inv m M i ->
  exists m', m_prev S s_get s_prev ty m = Some (m', Nat.ltb 0 i) /\ Inv m' M (pred i) /\ Permutation (ids (m_win S m')) (ids (m_win S m)).
Proof.
  intros F m M i HI. destruct (v_cur _ _ _ HI) as (ci & Ec & En & HJ). pose proof (cur_in _ _ Ec) as [Hci Eid].
  set (cur := i_rec ci) in *. unfold m_prev. rewrite Ec. fold cur.
  assert (HK : Forall (KP cur) (m_win S m)) by (rewrite Forall_forall in *; intros y Hy; now apply j_kp, HJ).
  destruct (adv_prev_spec F cur (Datatypes.S (length (m_win S m))) (m_win S m) (v_sorted _ _ _ HI) HK) as (w & E & Hs & HKw & P & Hc).
  { pose proof (cntp_le cur (m_win S m)). lia. }
  rewrite E. rewrite Forall_forall in HKw, HK, HJ.
  assert (Nd : NoDup (ids w)) by (eapply Permutation_NoDup; [symmetry; exact P|apply (v_nodup _ _ _ HI)]).
  pose proof (merge_perm _ _ _ (Permutation_sym P) (v_merge _ _ _ HI)) as HM. destruct HM as [HMs HMi].
  pose proof (same_perm _ _ (Permutation_sym P) (v_same _ _ _ HI)) as Hsame.
  assert (Hfin : forall y, In y w -> i_np y = true \/ lt (i_rec y) cur).
  { intros y Hy. destruct (i_np y) eqn:N; [now left|right]. destruct (is_lt (cmpr ty (i_rec y) cur)) eqn:G; [now apply is_lt_true in G|].
    exfalso. assert (Pd : In y (filter (pendp cur) w)) by (apply filter_In; split; [exact Hy|unfold pendp; now rewrite N, G]).
    unfold cntp in Hc. apply length_zero_iff_nil in Hc. rewrite Hc in Pd. destruct Pd. }
  assert (HcurM : In cur M) by (eapply nth_error_In; exact En).
  assert (Hval : forall y, In y w -> i_np y = false -> valid_prev cur y = true).
  { intros y Hy N. unfold IterModel.valid_prev. rewrite N. cbn [negb andb]. destruct (is_eq (cmpr ty (i_rec y) cur)) eqn:Q; [|reflexivity].
    apply is_eq_true in Q as [_ Q]. destruct (Hfin y Hy) as [X|X]; [congruence|]. exfalso. exact (le_not_lt _ _ _ Q X). }
  pose proof (choose_prev_spec cur (rev w) None (rev_sorted _ Hs)) as Ch. cbn [lvl app] in Ch.
  specialize (Ch ltac:(intros v X; discriminate)).
  destruct (choose_prev cur None (rev w)) as [it|].
  - destruct Ch as (Hit & Hv & Hmax). apply in_rev in Hit.
    assert (Nit : i_np it = false).
    { unfold IterModel.valid_prev in Hv. apply andb_prop in Hv as [Hv _]. now apply negb_true_iff in Hv. }
    assert (Lit : lt (i_rec it) cur) by (destruct (Hfin it Hit) as [N|L]; [congruence|exact L]).
    assert (Hle : forall y, In y w -> i_np y = false -> le (i_rec y) (i_rec it)).
    { intros y Hy N. apply (Hmax y); [now apply -> in_rev|now apply Hval]. }
    assert (Hgap : forall y x, In y w -> In x (li y) -> le cur x \/ le x (i_rec it)).
    { intros y x Hy Hx. destruct (lt_dec ty x cur) as [L|L]; [right|now left]. pose proof (HKw y Hy) as Ky. destruct (i_np y) eqn:N.
      - exfalso. destruct (kp_np _ _ Ky F N) as [A B]. apply (le_not_lt _ _ _ (le_trans _ _ _ _ B (A x Hx)) L).
      - eapply le_trans; [|apply Hle; eassumption]. apply not_lt_le. intros L2. exact (kp_2 _ _ Ky x Hx L L2). }
    assert (HitM : In (i_rec it) M).
    { apply HMi. split.
      - exists (i_id it). split; [apply in_ids; now exists it|]. apply (kp_get_in cur it). now apply HKw.
      - intros n x Hn Hx L1 L2 T. apply in_ids in Hn as (y & Hy & <-). pose proof (HKw y Hy) as Ky. destruct (i_np y) eqn:N.
        + exfalso. destruct (kp_np _ _ Ky F N) as [A B]. apply (lt_irrefl ty cur). eapply le_lt_trans; [exact B|]. eapply le_lt_trans; [apply A; exact Hx|].
          eapply le_lt_trans; [exact L1|exact Lit].
        + assert (Lx : lt x cur) by (eapply le_lt_trans; [exact L1|exact Lit]).
          assert (Eq : x = i_rec y).
          { apply (csorted_inj ty (li y)); [apply (kp_sorted cur y Ky)|exact Hx|apply (kp_get_in cur y Ky)| |].
            - apply not_lt_le. intros L3. exact (kp_2 _ _ Ky x Hx Lx L3).
            - eapply le_trans; [now apply Hle|exact L2]. }
          subst x. apply (Hmax y); [now apply -> in_rev|now apply Hval|exact L2|exact T]. }
    destruct (csorted_pre ty M i cur (i_rec it)) as [Hi0 Hprev]; auto.
    { intros z Hz. apply HMi in Hz as [(n & Hn & Hz) _]. apply in_ids in Hn as (y & Hy & <-). now apply (Hgap y). }
    assert (Lb : Nat.ltb 0 i = true) by now apply Nat.ltb_lt. rewrite Lb.
    exists (mkM S w (i_id it)). split; [reflexivity|]. split; [|exact P]. constructor; cbn [m_win]; auto.
    + now split.
    + exists it. unfold cur_item. cbn [m_win m_cur]. rewrite (find_id w it Nd Hit). split; [reflexivity|]. split; [exact Hprev|].
      rewrite Forall_forall. intros y Hy. pose proof (HKw y Hy) as Ky. constructor.
      * apply Ky.
      * intros x Hx L1 L2. apply (kp_2 _ _ Ky x Hx); [|exact L1]. eapply le_lt_trans; [exact L2|exact Lit].
      * intros x Hx L1 L2. destruct (i_np y) eqn:N.
        -- destruct (kp_np _ _ Ky F N) as [A _]. exact (le_not_lt _ _ _ (A x Hx) L2).
        -- apply (le_not_lt _ _ _ (le_trans _ _ _ _ (Hle y Hy N) L1) L2).
      * intros B0 N. destruct (kp_nn _ _ Ky B0 N) as [A B]. split; [exact A|]. apply Hle; [exact Hy|].
        destruct (i_np y) eqn:N2; [|reflexivity]. exfalso. exact (kp_both _ _ Ky B0 F N2 N).
      * intros _ N. destruct (kp_np _ _ Ky F N) as [A B]. split; [exact A|]. eapply le_trans; [apply lt_le; exact Lit|exact B].
      * apply Ky.
  - (* the beginning *)
    destruct Ch as [_ Ch]. assert (Hall : forall y, In y w -> i_np y = true).
    { intros y Hy. destruct (i_np y) eqn:N; [reflexivity|]. pose proof (Hval y Hy N) as V. rewrite (Ch y) in V; [discriminate|now apply -> in_rev]. }
    assert (Hle : forall y x, In y w -> In x (li y) -> le cur x).
    { intros y x Hy Hx. destruct (kp_np _ _ (HKw y Hy) F (Hall y Hy)) as [A B]. eapply le_trans; [exact B|apply A; exact Hx]. }
    destruct (same_item _ _ _ P Hci) as (c' & Hc' & Ic).
    assert (Ecur : i_rec c' = cur).
    { pose proof (HKw c' Hc') as Kc. assert (Hl : li c' = li ci) by (unfold li; now rewrite Ic).
      apply (csorted_inj ty (li c')); [apply (kp_sorted cur c' Kc)|apply (kp_get_in cur c' Kc)| | |now apply (Hle c'), (kp_get_in cur c' Kc)].
      - rewrite Hl. apply (kp_get_in cur ci). now apply HK.
      - apply (kp_np _ _ Kc F (Hall c' Hc')). rewrite Hl. apply (kp_get_in cur ci). now apply HK. }
    destruct w as [|it w0]; [destruct Hc'|]. set (w := it :: w0) in *.
    assert (Hit : In it w) by now left.
    assert (Wc : wle (i_rec it) (i_rec c') \/ it = c').
    { destruct Hc' as [->|Hc']; [now right|left]. inversion Hs as [|? ? _ H2]; subst. rewrite Forall_forall in H2. now apply H2. }
    assert (Li : In (i_rec it) (li it)) by (apply (kp_get_in cur it); now apply HKw).
    assert (M1 : le cur (i_rec it)) by (apply (Hle it); assumption).
    assert (Erec : i_rec it = cur).
    { destruct Wc as [Wc| ->]; [|exact Ecur]. rewrite Ecur in Wc.
      assert (Lc : In cur (li c')) by (rewrite <- Ecur; apply (kp_get_in cur c'); now apply HKw).
      destruct Wc as [Wc|(M3 & _ & Wc)]; [exfalso; exact (le_not_lt _ _ _ M1 Wc)|].
      apply (Hsame (i_id it) (i_id c')); [apply in_ids; now exists it|apply in_ids; now exists c'|exact Li|exact Lc|exact M3|exact M1|].
      apply HMi in HcurM as [_ HcM]. destruct ty eqn:T.
      + assert (r_seq (i_rec it) <= r_seq cur) by (apply (HcM (i_id it)); auto; apply in_ids; now exists it).
        specialize (Wc eq_refl). lia.
      + pose proof (proj2 (eq_le BySeq (i_rec it) cur) (conj M3 M1)) as Ee. apply (eq_same BySeq) in Ee. exact Ee. }
    assert (HMle : forall z, In z M -> le cur z).
    { intros z Hz. apply HMi in Hz as [(n & Hn & Hz) _]. apply in_ids in Hn as (y & Hy & <-). now apply (Hle y). }
    pose proof (csorted_first ty M i cur HMs En HMle) as ->. cbn [Nat.ltb Nat.leb pred].
    exists (mkM S w (i_id it)). split; [reflexivity|]. split; [|exact P]. constructor; cbn [m_win]; auto.
    + now split.
    + exists it. unfold cur_item. cbn [m_win m_cur]. rewrite (find_id w it Nd Hit). split; [reflexivity|]. rewrite Erec. split; [exact En|].
      rewrite Forall_forall. intros y Hy. pose proof (HKw y Hy) as Ky. pose proof (Hall y Hy) as N. destruct (kp_np _ _ Ky F N) as [A B]. constructor.
      * apply Ky.
      * intros x Hx G1 G2. apply (lt_irrefl ty x). eapply le_lt_trans; [|exact G1]. eapply le_trans; [exact G2|exact B].
      * intros x Hx G1 G2. apply (kp_1 _ _ Ky x Hx); assumption.
      * intros B0 N2. exfalso. exact (kp_both _ _ Ky B0 F N N2).
      * intros _ _. now split.
      * apply Ky.
Qed.

(** ** The merged list exists *)

Lemma merge_exists : forall ns, same_rec ns -> is_merge ns (newest_of ty (flat_map Ls ns)).
Proof.
  intros ns H. destruct (newest_of_spec ty (flat_map Ls ns)) as [A B].
  { intros x y Hx Hy. apply in_flat_map in Hx as (n & N1 & N2). apply in_flat_map in Hy as (n' & N3 & N4). now apply (H n n'). }
  split; [exact A|]. intros r. rewrite B, in_flat_map. split; intros [H1 H2]; (split; [exact H1|]).
  - intros n x Hn Hx. apply H2. apply in_flat_map. now exists n.
  - intros x Hx. apply in_flat_map in Hx as (n & N1 & N2). now apply (H2 n).
Qed.

(** ** Creation *)

Definition two (l : list rec) : Prop := fwd = true -> bwd = true -> exists x y, In x l /\ In y l /\ lt x y.

Lemma fold_insert : forall srcs w, wsorted w ->
  let w' := fold_left (fun w s => w_insert (mkI (fst s) (snd s) false false) w) srcs w in
  wsorted w' /\ Permutation (ids w') (ids w ++ map fst srcs) /\
  forall it, In it w' -> In it w \/ exists s, In s srcs /\ it = mkI (fst s) (snd s) false false.
Proof.
  induction srcs as [|s srcs IH]; intros w Hw; cbn [fold_left map].
  - split; [exact Hw|]. split; [now rewrite app_nil_r|]. intros it H. now left.
  - destruct (IH (w_insert (mkI (fst s) (snd s) false false) w) (w_insert_sorted _ _ Hw)) as (A & B & C). split; [exact A|]. split.
    + rewrite B. etransitivity; [|apply Permutation_middle]. change (fst s :: ids w ++ map fst srcs) with ((fst s :: ids w) ++ map fst srcs).
      apply Permutation_app_tail. symmetry. unfold ids. rewrite <- (Permutation_map i_id (w_insert_perm (mkI (fst s) (snd s) false false) w)). reflexivity.
    + intros it Hit. destruct (C it Hit) as [H|(x & H1 & H2)].
      * apply w_insert_in in H as [->|H]; [right; exists s; split; [now left|reflexivity]|now left].
      * right. exists x. split; [now right|exact H2].
Qed.

Theorem m_init_spec : forall srcs M, srcs <> [] -> NoDup (map fst srcs) -> same_rec (map fst srcs) -> is_merge (map fst srcs) M ->
  (forall n s, In (n, s) srcs -> R s (Ls n) 0 /\ two (Ls n)) ->
  exists m, m_init S s_get ty srcs = Some m /\ Inv m M 0 /\ Permutation (ids (m_win S m)) (map fst srcs).
Proof.
  intros srcs M Hne Hnd Hsame HM HR. destruct (fold_insert srcs [] ltac:(constructor)) as (A & B & C). unfold m_init.
  destruct (fold_left _ srcs []) as [|it w0] eqn:E.
  - exfalso. cbn in B. apply Permutation_nil in B. destruct srcs; [congruence|discriminate].
  - set (w := it :: w0) in *. cbn [ids map app] in B. exists (mkM S w (i_id it)). split; [reflexivity|]. split; [|exact B].
    assert (Hit : In it w) by now left.
    assert (P : Permutation (map fst srcs) (ids w)) by now symmetry.
    assert (Nd : NoDup (ids w)) by (eapply Permutation_NoDup; [exact P|exact Hnd]).
    pose proof (merge_perm _ _ _ P HM) as [HMs HMi]. pose proof (same_perm _ _ P Hsame) as Hsw.
    assert (HRw : forall y, In y w -> R (i_src y) (li y) 0 /\ i_np y = false /\ i_nn y = false /\ two (li y)).
    { intros y Hy. destruct (C y Hy) as [[]|([n s] & S1 & ->)]. destruct (HR n s S1) as [R1 R2]. repeat split; assumption. }
    assert (Hfirst : forall y x, In y w -> In x (li y) -> le (i_rec y) x).
    { intros y x Hy Hx. destruct (HRw y Hy) as (R1 & _). destruct (R_get _ _ _ R1) as [G1 G2]. apply In_nth_error in Hx as [j Hj].
      destruct j as [|j]; [unfold IterModel.i_rec; rewrite G1 in Hj; injection Hj as <-; apply le_refl|]. apply lt_le. apply (G2 0%nat (Datatypes.S j)); [lia|exact G1|exact Hj]. }
    assert (Hw : forall y, In y w -> wle (i_rec it) (i_rec y)).
    { intros y [<-|Hy]; [right; repeat split; try apply le_refl; lia|]. inversion A as [|? ? _ H2]; subst. rewrite Forall_forall in H2. now apply H2. }
    constructor; cbn [m_win]; auto.
    + now split.
    + exists it. unfold cur_item. cbn [m_win m_cur]. rewrite (find_id w it Nd Hit). split; [reflexivity|]. split.
      * assert (HitM : In (i_rec it) M).
        { apply HMi. split.
          - exists (i_id it). split; [apply in_ids; now exists it|]. destruct (HRw it Hit) as (R1 & _). eapply get_in; exact R1.
          - intros n x Hn Hx L1 L2 T. apply in_ids in Hn as (y & Hy & <-). destruct (HRw y Hy) as (R1 & _).
            assert (Eq : x = i_rec y).
            { apply (csorted_inj ty (li y)); [apply (R_get _ _ _ R1)|exact Hx|eapply get_in; exact R1| |now apply Hfirst].
              eapply le_trans; [exact L1|]. apply wle_le. now apply Hw. }
            subst x. destruct (Hw y Hy) as [W|(_ & _ & W)]; [exfalso; exact (le_not_lt _ _ _ L1 W)|now apply W]. }
        apply In_nth_error in HitM as [j Hj]. assert (j = 0%nat) as ->; [|exact Hj].
        apply (csorted_first ty M j (i_rec it) HMs Hj). intros z Hz. apply HMi in Hz as [(n & Hn & Hz) _]. apply in_ids in Hn as (y & Hy & <-).
        eapply le_trans; [apply wle_le, Hw; exact Hy|now apply Hfirst].
      * rewrite Forall_forall. intros y Hy. destruct (HRw y Hy) as (R1 & F1 & F2 & T2). constructor.
        -- now exists 0%nat.
        -- intros x Hx L1 L2. apply (le_not_lt _ _ _ (le_trans _ _ _ _ L2 (wle_le _ _ _ (Hw y Hy))) L1).
        -- intros x Hx L1 L2. exact (le_not_lt _ _ _ (Hfirst y x Hy Hx) L2).
        -- congruence.
        -- congruence.
        -- exact T2.
Qed.

(** ** Seeking *)

Record Bas (m : mit) (M : list rec) : Prop := {
  b_ne : m_win S m <> [];
  b_nodup : NoDup (ids (m_win S m));
  b_same : same_rec (ids (m_win S m));
  b_merge : is_merge (ids (m_win S m)) M;
  b_two : forall it, In it (m_win S m) -> two (li it) }.
Lemma inv_bas : forall m M i, Inv m M i -> Bas m M.
Proof.
  intros m M i H. destruct (v_cur _ _ _ H) as (ci & E & _ & HJ). constructor; try apply H.
  - intros X. unfold cur_item in E. rewrite X in E. discriminate.
  - intros it Hit. rewrite Forall_forall in HJ. exact (j_two _ _ (HJ it Hit)).
Qed.

Definition call (greater end_ : bool) (t : rec) (it : item) := if end_ then s_end (i_src it) else s_seek greater t (i_src it).
Definition flagged (greater end_ : bool) (t : rec) (it : item) (s' : S) : item :=
  mkI (i_id it) s' (negb greater && is_gt (if end_ then Lt else cmpr ty (s_get s') t)) (greater && is_lt (if end_ then Lt else cmpr ty (s_get s') t)).

Lemma seek_items_spec : forall greater end_ t its w, (forall it, In it its -> exists s', call greater end_ t it = Some (s', true)) -> wsorted w ->
  exists w', seek_items S s_get s_seek s_end ty greater end_ t its w = Some w' /\ wsorted w' /\ Permutation (ids w') (ids its ++ ids w) /\
    forall it', In it' w' -> In it' w \/ exists it s', In it its /\ call greater end_ t it = Some (s', true) /\ it' = flagged greater end_ t it s'.
Proof.
  intros greater end_ t its. induction its as [|it its IH]; intros w Hc Hw.
  - exists w. cbn. repeat split; auto.
  - cbn [seek_items]. destruct (Hc it (or_introl eq_refl)) as [s' E]. unfold call in E. rewrite E.
    fold (flagged greater end_ t it s'). destruct (IH (w_insert (flagged greater end_ t it s') w)) as (w' & E' & A & B & C).
    { intros x Hx. apply Hc. now right. }
    { now apply w_insert_sorted. }
    exists w'. split; [exact E'|]. split; [exact A|]. split.
    + rewrite B. cbn [ids map app]. etransitivity; [|symmetry; apply Permutation_middle]. apply Permutation_app_head.
      unfold ids. rewrite <- (Permutation_map i_id (w_insert_perm (flagged greater end_ t it s') w)). reflexivity.
    + intros x Hx. destruct (C x Hx) as [H|(y & s2 & H1 & H2 & H3)].
      * apply w_insert_in in H as [->|H]; [right; exists it, s'; split; [now left|]; split; [exact E|reflexivity]|now left].
      * right. exists y, s2. split; [now right|]. now split.
Qed.

Definition lands_greater (t : rec) (it : item) : Prop :=
  exists s' p, s_seek true t (i_src it) = Some (s', true) /\ R s' (li it) p /\
    ((le t (s_get s') /\ forall x, In x (li it) -> le t x -> le (s_get s') x) \/ (forall x, In x (li it) -> lt x t /\ le x (s_get s'))).
Definition lands_smaller (t : rec) (it : item) : Prop :=
  exists s' p, s_seek false t (i_src it) = Some (s', true) /\ R s' (li it) p /\ le (s_get s') t /\ forall x, In x (li it) -> le x t -> le x (s_get s').
Definition lands_end (it : item) : Prop :=
  exists s' p, s_end (i_src it) = Some (s', true) /\ R s' (li it) p /\ forall x, In x (li it) -> le x (s_get s').

(** What is known after the loop, in all cases. *)
Lemma seek_window : forall greater end_ t m M, Bas m M ->
  (forall it, In it (m_win S m) -> exists s', call greater end_ t it = Some (s', true)) ->
  exists w, seek_items S s_get s_seek s_end ty greater end_ t (m_win S m) [] = Some w /\ w <> [] /\ wsorted w /\ NoDup (ids w) /\ same_rec (ids w) /\ is_merge (ids w) M /\
    Permutation (ids w) (ids (m_win S m)) /\
    forall it', In it' w -> exists it s', In it (m_win S m) /\ call greater end_ t it = Some (s', true) /\ it' = flagged greater end_ t it s'.
Proof.
  intros greater end_ t m M HB Hc. destruct (seek_items_spec greater end_ t (m_win S m) [] Hc ltac:(constructor)) as (w & E & A & B & C).
  cbn [ids map] in B. rewrite app_nil_r in B. exists w. split; [exact E|]. split.
  { intros ->. cbn in B. apply Permutation_nil in B. apply (b_ne _ _ HB). unfold ids in B. now apply map_eq_nil in B. }
  split; [exact A|]. assert (P : Permutation (ids (m_win S m)) (ids w)) by now symmetry.
  split; [eapply Permutation_NoDup; [exact P|apply HB]|]. split; [eapply same_perm; [exact P|apply HB]|]. split; [eapply merge_perm; [exact P|apply HB]|].
  split; [exact B|]. intros it' H. destruct (C it' H) as [[]|H2]. exact H2.
Qed.

Theorem m_seek_greater : forall t m M, Bas m M -> (forall it, In it (m_win S m) -> lands_greater t it) -> (exists x, In x M /\ le t x) ->
  exists m' i r, m_seek S s_get s_seek s_end ty true false t m = Some (m', true) /\ Inv m' M i /\ Permutation (ids (m_win S m')) (ids (m_win S m)) /\
    nth_error M i = Some r /\ le t r /\ forall x, In x M -> le t x -> le r x.
Proof.
  intros t m M HB HL (x0 & Hx0 & Lx0).
  destruct (seek_window true false t m M HB) as (w & E & Wne & Ws & Nd & Hsame & [HMs HMi] & P & Hw).
  { intros it Hit. destruct (HL it Hit) as (s' & p & E & _). now exists s'. }
  assert (HLw : forall y, In y w -> (exists p, R (i_src y) (li y) p) /\ two (li y) /\ i_np y = false /\
     ((i_nn y = false /\ le t (i_rec y) /\ forall x, In x (li y) -> le t x -> le (i_rec y) x) \/ (i_nn y = true /\ forall x, In x (li y) -> lt x t /\ le x (i_rec y)))).
  { intros y Hy. destruct (Hw y Hy) as (it & s' & Hit & Ec & ->). destruct (HL it Hit) as (s2 & p & E2 & R2 & H2). cbn [call] in Ec. rewrite E2 in Ec. injection Ec as ->.
    split; [now exists p|]. split; [exact (b_two _ _ HB it Hit)|]. split; [reflexivity|].
    change (i_rec (flagged true false t it s')) with (s_get s'). change (li (flagged true false t it s')) with (li it).
    change (i_nn (flagged true false t it s')) with (is_lt (cmpr ty (s_get s') t)).
    destruct H2 as [[H2 H3]|H2]; [left|right].
    - split; [now apply is_lt_false|]. now split.
    - split; [|exact H2]. apply is_lt_true. apply (H2 (s_get s')). eapply get_in; exact R2. }
  unfold m_seek. rewrite E.
  destruct (find (fun it => negb (i_np it) && negb (i_nn it)) w) as [it|] eqn:Ef.
  2:{ exfalso. apply HMi in Hx0 as [(n & Hn & Hx) _]. apply in_ids in Hn as (y & Hy & <-). pose proof (find_none _ _ Ef y Hy) as V. cbn beta in V.
      destruct (HLw y Hy) as (_ & _ & F1 & [[F2 _]|[F2 H]]); rewrite F1, F2 in V; [discriminate|]. destruct (H x0 Hx) as [H1 _]. exact (le_not_lt _ _ _ Lx0 H1). }
  pose proof (find_some _ _ Ef) as [Hit Hv]. apply andb_prop in Hv as [_ Hv]. apply negb_true_iff in Hv.
  assert (Hit2 : le t (i_rec it) /\ forall x, In x (li it) -> le t x -> le (i_rec it) x).
  { destruct (HLw it Hit) as (_ & _ & _ & [[_ H]|[F2 _]]); [exact H|congruence]. }
  assert (Hmin : forall y, In y w -> i_nn y = false -> wle (i_rec it) (i_rec y)).
  { intros y Hy N. assert (Np : i_np y = false) by apply (HLw y Hy). clear - Ef Ws Hy N Np. induction w as [|x w IHw]; [destruct Hy|].
    cbn [find] in Ef. destruct (negb (i_np x) && negb (i_nn x)) eqn:V.
    - injection Ef as ->. destruct Hy as [->|Hy]; [right; repeat split; try apply le_refl; lia|]. inversion Ws as [|? ? _ H2]; subst. rewrite Forall_forall in H2. now apply H2.
    - inversion Ws as [|? ? H1 _]; subst. destruct Hy as [->|Hy]; [rewrite N, Np in V; discriminate|]. now apply IHw. }
  assert (Hge : forall y x, In y w -> In x (li y) -> le t x -> le (i_rec it) x).
  { intros y x Hy Hx L. destruct (HLw y Hy) as (_ & _ & _ & [(N & _ & H)|(_ & H)]).
    - eapply le_trans; [apply wle_le, Hmin; eassumption|now apply H].
    - exfalso. destruct (H x Hx) as [H1 _]. exact (le_not_lt _ _ _ L H1). }
  assert (HitM : In (i_rec it) M).
  { apply HMi. split.
    - exists (i_id it). split; [apply in_ids; now exists it|]. destruct (HLw it Hit) as ([p R1] & _). eapply get_in; exact R1.
    - intros n x Hn Hx L1 L2 T. apply in_ids in Hn as (y & Hy & <-). destruct (HLw y Hy) as ([p R1] & _ & _ & [(N & Ly & H)|(_ & H)]).
      + assert (Eq : x = i_rec y).
        { apply (csorted_inj ty (li y)); [apply (R_get _ _ _ R1)|exact Hx|eapply get_in; exact R1| |].
          - eapply le_trans; [exact L1|]. apply wle_le. now apply Hmin.
          - apply H; [exact Hx|]. eapply le_trans; [apply Hit2|exact L2]. }
        subst x. destruct (Hmin y Hy N) as [W|(_ & _ & W)]; [exfalso; exact (le_not_lt _ _ _ L1 W)|now apply W].
      + exfalso. destruct (H x Hx) as [H1 _]. apply (le_not_lt _ _ _ (le_trans _ _ _ _ (proj1 Hit2) L2) H1). }
  apply In_nth_error in HitM as [i Hi]. exists (mkM S w (i_id it)), i, (i_rec it). split; [reflexivity|]. split.
  - constructor; cbn [m_win]; auto; [now split|]. exists it. unfold cur_item. cbn [m_win m_cur]. rewrite (find_id w it Nd Hit). split; [reflexivity|]. split; [exact Hi|].
    rewrite Forall_forall. intros y Hy. destruct (HLw y Hy) as ([p R1] & T2 & F1 & Hd). constructor.
    + now exists p.
    + intros x Hx L1 L2. destruct Hd as [(N & _ & H)|(_ & H)].
      * apply (le_not_lt _ _ _ (le_trans _ _ _ _ L2 (wle_le _ _ _ (Hmin y Hy N))) L1).
      * destruct (H x Hx) as [_ H2]. exact (le_not_lt _ _ _ H2 L1).
    + intros x Hx L1 L2. assert (Lt : le t x) by (eapply le_trans; [apply Hit2|exact L1]). destruct Hd as [(N & _ & H)|(_ & H)].
      * exact (le_not_lt _ _ _ (H x Hx Lt) L2).
      * destruct (H x Hx) as [H2 _]. exact (le_not_lt _ _ _ Lt H2).
    + intros _ N. destruct Hd as [(N2 & _)|(_ & H)]; [congruence|]. split; [intros x Hx; now apply H|]. apply lt_le. eapply lt_le_trans; [|exact (proj1 Hit2)]. apply (proj1 (H (i_rec y) (get_in _ _ _ R1))).
    + congruence.
    + exact T2.
  - split; [exact P|]. split; [exact Hi|]. split; [apply Hit2|]. intros x Hx L. apply HMi in Hx as [(n & Hn & Hx) _]. apply in_ids in Hn as (y & Hy & <-). now apply (Hge y).
Qed.

(** The cursor at the greatest record of every source. *)
Lemma at_top : forall w M, w <> [] -> wsorted w -> NoDup (ids w) -> same_rec (ids w) -> is_merge (ids w) M ->
  forall bound : rec -> Prop,
  (forall x y, le x y -> bound y -> bound x) ->
  (forall y, In y w -> (exists p, R (i_src y) (li y) p) /\ two (li y) /\ i_np y = false /\ i_nn y = false /\ bound (i_rec y) /\
     forall x, In x (li y) -> bound x -> le x (i_rec y)) ->
  exists it i, last_valid S s_get ty (rev w) = Some it /\ Inv (mkM S w (i_id it)) M i /\ nth_error M i = Some (i_rec it) /\ bound (i_rec it) /\
    forall x, In x M -> bound x -> le x (i_rec it).
Proof.
  intros w M Wne Ws Nd Hsame [HMs HMi] bound Hbnd HLw.
  destruct (last_valid_spec (rev w)) as (it & L1 & L2 & L3).
  { intros X. apply (f_equal (@rev _)) in X. rewrite rev_involutive in X. now cbn in X. }
  { now apply rev_sorted. }
  apply in_rev in L2. assert (Hit := L2).
  assert (Hmax : forall y, In y w -> le (i_rec y) (i_rec it) /\ (le (i_rec it) (i_rec y) -> ty = ByKey -> r_seq (i_rec y) <= r_seq (i_rec it))) by (intros y Hy; apply L3; now apply -> in_rev).
  assert (Bit : bound (i_rec it)) by apply (HLw it Hit).
  assert (Hle : forall y x, In y w -> In x (li y) -> bound x -> le x (i_rec it)).
  { intros y x Hy Hx B. destruct (HLw y Hy) as (_ & _ & _ & _ & _ & H). eapply le_trans; [now apply H|now apply Hmax]. }
  assert (HitM : In (i_rec it) M).
  { apply HMi. split.
    - exists (i_id it). split; [apply in_ids; now exists it|]. destruct (HLw it Hit) as ([p R1] & _). eapply get_in; exact R1.
    - intros n x Hn Hx X1 X2 T. apply in_ids in Hn as (y & Hy & <-). destruct (HLw y Hy) as ([p R1] & _ & _ & _ & By & H).
      assert (Eq : x = i_rec y).
      { apply (csorted_inj ty (li y)); [apply (R_get _ _ _ R1)|exact Hx|eapply get_in; exact R1| |].
        - apply H; [exact Hx|]. exact (Hbnd _ _ X1 Bit).
        - eapply le_trans; [now apply Hmax|exact X2]. }
      subst x. apply (Hmax y Hy); assumption. }
  apply In_nth_error in HitM as [i Hi]. exists it, i. split; [exact L1|]. split.
  - constructor; cbn [m_win]; auto; [now split|]. exists it. unfold cur_item. cbn [m_win m_cur]. rewrite (find_id w it Nd Hit). split; [reflexivity|]. split; [exact Hi|].
    rewrite Forall_forall. intros y Hy. destruct (HLw y Hy) as ([p R1] & T2 & F1 & F2 & By & H). constructor.
    + now exists p.
    + intros x Hx X1 X2. apply (le_not_lt _ _ _ (H x Hx (Hbnd _ _ X2 Bit)) X1).
    + intros x Hx X1 X2. apply (le_not_lt _ _ _ (proj1 (Hmax y Hy))). eapply le_lt_trans; [exact X1|exact X2].
    + congruence.
    + congruence.
    + exact T2.
  - split; [exact Hi|]. split; [exact Bit|]. intros x Hx B. apply HMi in Hx as [(n & Hn & Hx) _]. apply in_ids in Hn as (y & Hy & <-). now apply (Hle y).
Qed.

Theorem m_seek_smaller : forall t m M, Bas m M -> (forall it, In it (m_win S m) -> lands_smaller t it) ->
  exists m' i r, m_seek S s_get s_seek s_end ty false false t m = Some (m', true) /\ Inv m' M i /\ Permutation (ids (m_win S m')) (ids (m_win S m)) /\
    nth_error M i = Some r /\ le r t /\ forall x, In x M -> le x t -> le x r.
Proof.
  intros t m M HB HL.
  destruct (seek_window false false t m M HB) as (w & E & Wne & Ws & Nd & Hsame & HM & P & Hw).
  { intros it Hit. destruct (HL it Hit) as (s' & p & E & _). now exists s'. }
  destruct (at_top w M Wne Ws Nd Hsame HM (fun x => le x t)) as (it & i & L & HI & Hi & B & H).
  - intros x y H1 H2. eapply le_trans; eassumption.
  - intros y Hy. destruct (Hw y Hy) as (it & s' & Hit & Ec & ->). destruct (HL it Hit) as (s2 & p & E2 & R2 & H2 & H3). cbn [call] in Ec. rewrite E2 in Ec. injection Ec as ->.
    split; [now exists p|]. split; [exact (b_two _ _ HB it Hit)|]. split; [|split; [reflexivity|split; [exact H2|exact H3]]].
    change (i_np (flagged false false t it s')) with (is_gt (cmpr ty (s_get s') t)). now apply is_gt_false.
  - unfold m_seek. rewrite E, L. exists (mkM S w (i_id it)), i, (i_rec it). split; [reflexivity|]. split; [exact HI|]. split; [exact P|]. split; [exact Hi|]. now split.
Qed.

Theorem m_seek_end : forall t m M, Bas m M -> (forall it, In it (m_win S m) -> lands_end it) ->
  exists m' i, m_seek S s_get s_seek s_end ty false true t m = Some (m', true) /\ Inv m' M i /\ Permutation (ids (m_win S m')) (ids (m_win S m)) /\
    Datatypes.S i = length M.
Proof.
  intros t m M HB HL.
  destruct (seek_window false true t m M HB) as (w & E & Wne & Ws & Nd & Hsame & HM & P & Hw).
  { intros it Hit. destruct (HL it Hit) as (s' & p & E & _). now exists s'. }
  destruct (at_top w M Wne Ws Nd Hsame HM (fun _ => True)) as (it & i & L & HI & Hi & B & H).
  - auto.
  - intros y Hy. destruct (Hw y Hy) as (it & s' & Hit & Ec & ->). destruct (HL it Hit) as (s2 & p & E2 & R2 & H2). cbn [call] in Ec. rewrite E2 in Ec. injection Ec as ->.
    split; [now exists p|]. split; [exact (b_two _ _ HB it Hit)|]. split; [reflexivity|]. split; [reflexivity|]. split; [exact I|]. intros x Hx _. now apply H2.
  - unfold m_seek. rewrite E, L. exists (mkM S w (i_id it)), i. split; [reflexivity|]. split; [exact HI|]. split; [exact P|].
    destruct HM as [HMs _]. apply (csorted_last ty M i (i_rec it) HMs Hi). intros z Hz. now apply H.
Qed.

(** Past the last key: right only if the last key is in one source ([C19_stale_refuted]). *)
Theorem m_seek_beyond : forall t m M, Bas m M -> (forall it, In it (m_win S m) -> lands_greater t it) -> (forall x, In x M -> lt x t) ->
  (forall n n' x y, In n (ids (m_win S m)) -> In n' (ids (m_win S m)) -> In x (Ls n) -> In y (Ls n') -> (forall z, In z M -> le z x) -> le y x -> le x y -> n = n') ->
  exists m' i, m_seek S s_get s_seek s_end ty true false t m = Some (m', true) /\ Inv m' M i /\ Permutation (ids (m_win S m')) (ids (m_win S m)) /\ Datatypes.S i = length M.
Proof.
  intros t m M HB HL Hall Huni.
  destruct (seek_window true false t m M HB) as (w & E & Wne & Ws & Nd & Hsame & [HMs HMi] & P & Hw).
  { intros it Hit. destruct (HL it Hit) as (s' & p & E & _). now exists s'. }
  assert (Hsub : forall y x, In y w -> In x (li y) -> exists z, In z M /\ le x z /\ le z x).
  { intros y x Hy Hx. assert (Hn : In (i_id y) (ids w)) by (apply in_ids; now exists y).
    pose proof (merge_exists (ids w) Hsame) as [Q1 Q2]. destruct (newest_of_cover ty (flat_map Ls (ids w)) x) as (z & Z1 & Z2 & Z3).
    - apply in_flat_map. now exists (i_id y).
    - exists z. split; [|now split]. apply HMi. now apply Q2. }
  assert (HLw : forall y, In y w -> (exists p, R (i_src y) (li y) p) /\ two (li y) /\ i_np y = false /\ i_nn y = true /\ forall x, In x (li y) -> le x (i_rec y)).
  { intros y Hy. pose proof (Hsub y) as Hs0. destruct (Hw y Hy) as (it & s' & Hit & Ec & ->). destruct (HL it Hit) as (s2 & p & E2 & R2 & H2). cbn [call] in Ec. rewrite E2 in Ec. injection Ec as ->.
    split; [now exists p|]. split; [exact (b_two _ _ HB it Hit)|]. split; [reflexivity|].
    change (i_rec (flagged true false t it s')) with (s_get s') in *. change (li (flagged true false t it s')) with (li it) in *.
    change (i_nn (flagged true false t it s')) with (is_lt (cmpr ty (s_get s') t)).
    destruct H2 as [[H2 H3]|H2].
    - exfalso. destruct (Hs0 (s_get s') Hy (get_in _ _ _ R2)) as (z & Z1 & Z2 & Z3). exact (le_not_lt _ _ _ (le_trans _ _ _ _ H2 Z2) (Hall z Z1)).
    - split; [|intros x Hx; now apply H2]. apply is_lt_true. apply (H2 (s_get s')). eapply get_in; exact R2. }
  unfold m_seek. rewrite E.
  destruct (find (fun it => negb (i_np it) && negb (i_nn it)) w) as [it|] eqn:Ef.
  { exfalso. apply find_some in Ef as [Hit Hv]. destruct (HLw it Hit) as (_ & _ & F1 & F2 & _). rewrite F1, F2 in Hv. discriminate. }
  destruct (rev w) as [|it rw] eqn:Er; [apply (f_equal (@rev _)) in Er; rewrite rev_involutive in Er; now cbn in Er|].
  assert (Ew : w = rev rw ++ [it]) by (rewrite <- (rev_involutive w), Er; reflexivity).
  assert (Hit : In it w) by (rewrite Ew; apply in_app_iff; right; now left).
  assert (Hmax : forall y, In y w -> le (i_rec y) (i_rec it)).
  { intros y Hy. rewrite Ew in Hy, Ws. apply in_app_iff in Hy as [Hy|[<-|[]]]; [|apply le_refl]. apply wle_le. revert Ws Hy. generalize (rev rw). intros l Ws Hy.
    induction l as [|a l IHl]; [destruct Hy|]. cbn [app] in Ws. inversion Ws as [|? ? W1 W2]; subst. destruct Hy as [<-|Hy]; [|now apply IHl].
    rewrite Forall_forall in W2. apply W2. apply in_app_iff. right. now left. }
  assert (Htop : forall y x, In y w -> In x (li y) -> le x (i_rec it)).
  { intros y x Hy Hx. destruct (HLw y Hy) as (_ & _ & _ & _ & H). eapply le_trans; [now apply H|now apply Hmax]. }
  assert (HtopM : forall x, In x M -> le x (i_rec it)).
  { intros x Hx. apply HMi in Hx as [(n & Hn & Hx) _]. apply in_ids in Hn as (y & Hy & <-). now apply (Htop y). }
  assert (Rit : exists p, R (i_src it) (li it) p) by apply (HLw it Hit). destruct Rit as [pit Rit].
  assert (HitM : In (i_rec it) M).
  { apply HMi. split; [exists (i_id it); split; [apply in_ids; now exists it|eapply get_in; exact Rit]|].
    intros n x Hn Hx X1 X2 _. assert (Ex : x = i_rec it); [|subst; lia].
    assert (En : i_id it = n).
    { apply (Huni (i_id it) n (i_rec it) x); auto.
      - eapply Permutation_in; [exact P|]. apply in_ids. now exists it.
      - eapply Permutation_in; [exact P|exact Hn].
      - eapply get_in; exact Rit. }
    subst n. apply (csorted_inj ty (li it)); [apply (R_get _ _ _ Rit)|exact Hx|eapply get_in; exact Rit|exact X1|exact X2]. }
  apply In_nth_error in HitM as [i Hi]. exists (mkM S w (i_id it)), i. split; [reflexivity|]. split.
  - constructor; cbn [m_win]; auto; [now split|]. exists it. unfold cur_item. cbn [m_win m_cur]. rewrite (find_id w it Nd Hit). split; [reflexivity|]. split; [exact Hi|].
    rewrite Forall_forall. intros y Hy. destruct (HLw y Hy) as ([p R1] & T2 & F1 & F2 & H). constructor.
    + now exists p.
    + intros x Hx X1 X2. exact (le_not_lt _ _ _ (H x Hx) X1).
    + intros x Hx X1 X2. apply (le_not_lt _ _ _ (Hmax y Hy)). eapply le_lt_trans; [exact X1|exact X2].
    + intros _ _. split; [exact H|now apply Hmax].
    + congruence.
    + exact T2.
  - split; [exact P|]. apply (csorted_last ty M i (i_rec it) HMs Hi). exact HtopM.
Qed.

Lemma inv_get : forall m M i, Inv m M i -> nth_error M i = Some (m_get S s_get m).
Proof. intros m M i H. destruct (v_cur _ _ _ H) as (ci & E & En & _). unfold m_get. now rewrite E. Qed.
End Merge.
