(** The counts behind the word of RwLockModel.v. *)
From Coq Require Import NArith Arith List Bool Lia.
From Verif Require Import Base RwLockModel.
Import ListNotations.
Local Open Scope N_scope.

Definition isr (p : pc) : bool := match p with R2 | R3 | Reading => true | _ => false end.
Definition isw (p : pc) : bool := match p with W2 | W3 | W4 | Writing => true | _ => false end.
(** Past the check that no other writer is there. *)
Definition won (p : pc) : bool := match p with W4 | Writing => true | _ => false end.

Definition cnt (f : pc -> bool) (l : list pc) : N := N.of_nat (length (filter f l)).

Lemma set_nth_len : forall l n p, length (set_nth n p l) = length l.
Proof. induction l as [|x l IH]; intros [|n] p; cbn; auto. Qed.

Lemma set_nth_over : forall l n p, (length l <= n)%nat -> set_nth n p l = l.
Proof. induction l as [|x l IH]; intros [|n] p L; cbn [set_nth length] in *; try reflexivity; [lia|]. f_equal. apply IH. lia. Qed.

Lemma cnt_set : forall f l n p, (n < length l)%nat -> cnt f (set_nth n p l) + N.b2n (f (nth n l Out)) = cnt f l + N.b2n (f p).
Proof.
  intros f l. unfold cnt. induction l as [|x l IH]; intros [|n] p H; cbn [length] in H; try lia.
  - cbn [set_nth nth filter]. destruct (f p), (f x); cbn [length N.b2n]; lia.
  - cbn [set_nth nth filter]. specialize (IH n p ltac:(lia)). destruct (f x); cbn [length]; lia.
Qed.

Lemma at_set : forall s n p v m, (n < length (th s))%nat -> at_ (go n p v s) m = if (m =? n)%nat then p else at_ s m.
Proof.
  intros s n p v m H. unfold at_, go. cbn [th]. revert n m H. induction (th s) as [|x l IH]; intros n m H; cbn [length] in H; [lia|].
  destruct n as [|n], m as [|m]; cbn [set_nth nth Nat.eqb]; try reflexivity. apply IH. lia.
Qed.

Lemma at_in : forall s n, at_ s n <> Out -> (n < length (th s))%nat.
Proof. intros s n H. destruct (Nat.lt_ge_cases n (length (th s))) as [L|L]; [exact L|]. exfalso. apply H. apply nth_overflow, L. Qed.

Lemma cnt_pos : forall f l n, f Out = false -> f (nth n l Out) = true -> 1 <= cnt f l.
Proof.
  intros f l n Fo. unfold cnt. revert n. induction l as [|x l IH]; intros n H.
  - destruct n; cbn in H; congruence.
  - destruct n as [|n]; cbn [nth filter] in *; [rewrite H; cbn [length]; lia|]. specialize (IH n H). destruct (f x); cbn [length]; lia.
Qed.

Lemma cnt_two : forall f l n m, f Out = false -> n <> m -> f (nth n l Out) = true -> f (nth m l Out) = true -> 2 <= cnt f l.
Proof.
  intros f l n m Fo. revert n m. induction l as [|x l IH]; intros n m N Hn Hm; [destruct n; cbn in Hn; congruence|].
  destruct n as [|n], m as [|m]; [congruence| | |].
  - cbn [nth] in *. assert (X := cnt_pos f l m Fo Hm). unfold cnt in *. cbn [filter]. rewrite Hn. cbn [length]. lia.
  - cbn [nth] in *. assert (X := cnt_pos f l n Fo Hn). unfold cnt in *. cbn [filter]. rewrite Hm. cbn [length]. lia.
  - cbn [nth] in *. assert (X := IH n m ltac:(congruence) Hn Hm). unfold cnt in *. cbn [filter]. destruct (f x); cbn [length]; lia.
Qed.

Lemma cnt_le : forall f l, cnt f l <= N.of_nat (length l).
Proof. intros f l. unfold cnt. induction l as [|x l IH]; cbn [filter length]; [lia|]. destruct (f x); cbn [length]; lia. Qed.

Lemma hi_val : forall a b, b < 0x100000 -> hi (WR * a + b) = WR * a.
Proof.
  intros a b H. unfold hi, WR. rewrite N.shiftr_div_pow2, N.shiftl_mul_pow2. change (2 ^ 20) with 0x100000. rewrite (N.mul_comm 0x100000 a), N.div_add_l by discriminate.
  rewrite N.div_small by exact H. lia.
Qed.

Lemma lo_val : forall a b, b < 0x100000 -> lo (WR * a + b) = b.
Proof.
  intros a b H. unfold lo, WR. change 0xfffff with (N.ones 20). rewrite N.land_ones. change (2 ^ 20) with 0x100000. rewrite (N.mul_comm 0x100000 a), N.add_comm, N.mod_add by discriminate.
  apply N.mod_small, H.
Qed.

Record Inv (k : nat) (s : st) : Prop := {
  iv_len : length (th s) = k;
  iv_val : word s = WR * cnt isw (th s) + cnt isr (th s);
  iv_won : cnt won (th s) <= 1;
  iv_rd : forall n m, at_ s n = Writing -> at_ s m <> Reading
}.

Lemma inv_step : forall k e s s', (N.of_nat k < 4096) -> Inv k s -> step e s = Some s' -> Inv k s'.
Proof.
  intros k e s s' K V H.
  assert (Bw := cnt_le isw (th s)). assert (Br := cnt_le isr (th s)). rewrite (iv_len _ _ V) in Bw, Br.
  assert (Hh : hi (word s) = WR * cnt isw (th s)) by (rewrite (iv_val _ _ V); apply hi_val; lia).
  assert (Hl : lo (word s) = cnt isr (th s)) by (rewrite (iv_val _ _ V); apply lo_val; lia).
  (* a step of thread n from a to b that changes the word by the right amount *)
  assert (G : forall n b v, at_ s n <> Out \/ (n < length (th s))%nat ->
    v + WR * N.b2n (isw (at_ s n)) + N.b2n (isr (at_ s n)) = word s + WR * N.b2n (isw b) + N.b2n (isr b) ->
    (won b = true -> won (at_ s n) = true \/ cnt won (th s) = 0) ->
    (b = Writing -> at_ s n <> Writing -> forall m, m <> n -> at_ s m <> Reading) ->
    (b = Reading -> forall m, m <> n -> at_ s m <> Writing) -> Inv k (go n b v s)).
  { intros n b v Hn Hv Hw Hr1 Hr2. assert (L : (n < length (th s))%nat) by (destruct Hn as [Hn|Hn]; [apply at_in, Hn|exact Hn]).
    assert (C1 := cnt_set isw (th s) n b L). assert (C2 := cnt_set isr (th s) n b L). assert (C3 := cnt_set won (th s) n b L). fold (at_ s n) in C1, C2, C3.
    assert (E := iv_val _ _ V). constructor.
    - unfold go. cbn [th]. rewrite set_nth_len. apply (iv_len _ _ V).
    - cbn [go word th]. unfold go in *. nia.
    - cbn [go th]. assert (Y := iv_won _ _ V). destruct (won b) eqn:Wb; cbn [N.b2n] in C3; [|lia]. destruct (Hw eq_refl) as [X|X]; [rewrite X in C3; cbn [N.b2n] in C3; lia|lia].
    - intros i j A B. rewrite at_set in A, B by exact L. destruct (Nat.eqb_spec i n) as [->|Ni], (Nat.eqb_spec j n) as [->|Nj].
      + congruence.
      + destruct (at_ s n) eqn:An; try (apply (Hr1 A ltac:(discriminate) j Nj B)). apply (iv_rd _ _ V n j An B).
      + apply (Hr2 B i Ni A).
      + apply (iv_rd _ _ V i j A B). }
  assert (QW : forall n, at_ s n = W2 -> cnt isw (th s) = 1 -> cnt won (th s) = 0).
  { intros n A E. destruct (N.eq_dec (cnt won (th s)) 0) as [Z|Z]; [exact Z|exfalso].
    assert (Q : forall l m, nth m l Out = W2 -> cnt won l <> 0 -> 2 <= cnt isw l).
    { unfold cnt. induction l as [|x l IH]; intros m M N0; [cbn in N0; lia|]. destruct m as [|m]; cbn [nth] in M.
      - subst x. cbn [filter won isw] in *. assert (X : forall l, (length (filter won l) <= length (filter isw l))%nat).
        { clear. induction l as [|x l IH]; cbn [filter]; [lia|]. destruct x; cbn [won isw length]; lia. }
        specialize (X l). cbn [length]. lia.
      - cbn [filter] in *. assert (Y : (1 <= length (filter isw l))%nat). { assert (Y := cnt_pos isw l m eq_refl ltac:(rewrite M; reflexivity)). unfold cnt in Y. lia. }
        destruct (won x) eqn:Wx.
        + assert (isw x = true) as -> by (destruct x; try discriminate; reflexivity). cbn [length]. lia.
        + specialize (IH m M N0). destruct (isw x); cbn [length]; lia. }
    specialize (Q (th s) n A Z). lia. }
  assert (Q1 : lo (word s) = 0 -> forall m, at_ s m <> Reading).
  { intros Z m B. rewrite Hl in Z. assert (X := cnt_pos isr (th s) m eq_refl). unfold at_ in B. rewrite B in X. specialize (X eq_refl). lia. }
  assert (Q2 : hi (word s) = 0 -> forall m, at_ s m <> Writing).
  { intros Z m B. rewrite Hh in Z. assert (X := cnt_pos isw (th s) m eq_refl). unfold at_ in B. rewrite B in X. specialize (X eq_refl). unfold WR in *. lia. }
  assert (Vr : forall n, isr (at_ s n) = true -> 1 <= word s).
  { intros n B. assert (X := cnt_pos isr (th s) n eq_refl B). rewrite (iv_val _ _ V). lia. }
  assert (Vw : forall n, isw (at_ s n) = true -> WR <= word s).
  { intros n B. assert (X := cnt_pos isw (th s) n eq_refl B). rewrite (iv_val _ _ V). unfold WR. lia. }
  assert (L0 : forall n p v, at_ s n = Out -> go n p v s = mkS v (th s) \/ (n < length (th s))%nat).
  { intros n p v _. destruct (Nat.lt_ge_cases n (length (th s))) as [L|L]; [right; exact L|left]. unfold go. rewrite set_nth_over by exact L. reflexivity. }
  assert (Vs : Inv k (mkS (word s) (th s))) by (destruct V; constructor; assumption).
  destruct e as [n|n|n|n|n]; cbn [step] in H; destruct (at_ s n) eqn:A; try discriminate H; injection H as <-.
  - destruct (L0 n R0 (word s) A) as [->|L]; [exact Vs|]. apply G; rewrite ?A; cbn; try (intros; discriminate); try reflexivity. right. exact L.
  - apply G; rewrite ?A; try (intros; discriminate); [left; discriminate|]. specialize (Vr n ltac:(rewrite A; reflexivity)). cbn [isr isw N.b2n]. lia.
  - destruct (L0 n W0 (word s) A) as [->|L]; [exact Vs|]. apply G; rewrite ?A; cbn; try (intros; discriminate); try reflexivity. right. exact L.
  - apply G; rewrite ?A; try (intros; discriminate); [left; discriminate|]. specialize (Vw n ltac:(rewrite A; reflexivity)). cbn [isr isw N.b2n]. lia.
  - apply G; rewrite ?A; [left; discriminate|..]; destruct (hi (word s) =? 0); try (intros; discriminate); cbn [isr isw N.b2n]; lia.
  - apply G; rewrite ?A; [left; discriminate|..]; try (intros; discriminate); cbn [isr isw N.b2n]; lia.
  - destruct (N.eqb_spec (hi (word s)) 0) as [Z|Z]; apply G; rewrite ?A; try (left; discriminate); try (intros; discriminate); try (cbn [isr isw N.b2n]; lia). intros _ m _. apply Q2, Z.
  - apply G; rewrite ?A; [left; discriminate|..]; try (intros; discriminate). specialize (Vr n ltac:(rewrite A; reflexivity)). cbn [isr isw N.b2n]; lia.
  - apply G; rewrite ?A; [left; discriminate|..]; destruct (hi (word s) =? 0); try (intros; discriminate); cbn [isr isw N.b2n]; lia.
  - apply G; rewrite ?A; [left; discriminate|..]; try (intros; discriminate); cbn [isr isw N.b2n]; lia.
  - destruct (N.eqb_spec (hi (word s)) WR) as [Z|Z].
    + assert (O : cnt won (th s) = 0) by (apply (QW n A); rewrite Hh in Z; unfold WR in Z; lia).
      destruct (N.eqb_spec (lo (word s)) 0) as [Y|Y]; apply G; rewrite ?A; try (left; discriminate); try (intros; discriminate); try (cbn [isr isw N.b2n]; lia); try (intros _; right; exact O).
      intros _ _ m _. apply Q1, Y.
    + apply G; rewrite ?A; [left; discriminate|..]; try (intros; discriminate); cbn [isr isw N.b2n]; lia.
  - apply G; rewrite ?A; [left; discriminate|..]; try (intros; discriminate). specialize (Vw n ltac:(rewrite A; reflexivity)). cbn [isr isw N.b2n]; lia.
  - destruct (N.eqb_spec (lo (word s)) 0) as [Y|Y]; apply G; rewrite ?A; try (left; discriminate); try (intros; discriminate); try (cbn [isr isw N.b2n]; lia); try (intros _; left; reflexivity).
    intros _ _ m _. apply Q1, Y.
Qed.

Lemma reach_inv : forall k s, N.of_nat k < 4096 -> reach k s -> Inv k s.
Proof.
  intros k s K H. induction H as [|e s s' H IH E]; [|apply (inv_step k e s s' K IH E)].
  assert (Z : forall f, f Out = false -> cnt f (repeat Out k) = 0) by (intros f F; unfold cnt; induction k as [|i IH]; [reflexivity|]; cbn [repeat filter]; rewrite F; apply IH; lia).
  assert (O : forall n, at_ (new k) n = Out). { unfold at_, new. cbn [th]. clear. induction k as [|k IH]; intros [|n]; cbn; try reflexivity. apply IH. }
  constructor; cbn [new th word].
  - apply repeat_length.
  - rewrite !Z by reflexivity. reflexivity.
  - rewrite Z by reflexivity. lia.
  - intros n m A. rewrite O in A. discriminate.
Qed.

