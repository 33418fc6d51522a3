(** The iterator of the database is a cursor over the shown records of the merge (proofs). *)
From Coq Require Import List NArith Bool Arith Lia Sorted Permutation.
From Verif Require Import Base LogFormatModel KeyModel KeyProofs MemTableModel IterModel IterSpec IterProofs LeafIterModel LeafIterProofs DbIterModel DbIterProofs.
Import ListNotations.
Local Open Scope nat_scope.

Section Count.
Variable ty : itype.
Notation shown := (shown ty).
(** The position in the list of shown records. *)
Definition cnt (M : list rec) (i : nat) : nat := length (filter shown (firstn i M)).
Definition here (M : list rec) (i : nat) (p : cpos) : Prop :=
  match p with
  | At j => (exists x, nth_error M i = Some x /\ shown x = true) /\ j = cnt M i
  | Before => forall k x, k <= i -> nth_error M k = Some x -> shown x = false
  | After => forall k x, i <= k -> nth_error M k = Some x -> shown x = false
  end.

Lemma cnt_at : forall M i x, nth_error M i = Some x -> shown x = true -> nth_error (filter shown M) (cnt M i) = Some x.
Proof.
  intros M i x N Sx. rewrite <- (firstn_skipn i M) at 1. rewrite filter_app. unfold cnt. rewrite nth_error_app2 by lia. rewrite Nat.sub_diag.
  rewrite (skipn_nth _ _ _ N). cbn [filter]. rewrite Sx. reflexivity.
Qed.
Lemma cnt_lt : forall M i x, nth_error M i = Some x -> shown x = true -> cnt M i < length (filter shown M).
Proof. intros M i x N Sx. apply nth_error_Some. rewrite (cnt_at M i x N Sx). discriminate. Qed.
Lemma firstn_split : forall (M : list rec) i k, firstn (i + k) M = firstn i M ++ firstn k (skipn i M).
Proof.
  induction M as [|y M IH]; intros i k; [now rewrite !firstn_nil, skipn_nil, firstn_nil|]. destruct i; [reflexivity|]. cbn [Nat.add firstn skipn app]. now rewrite IH.
Qed.
Lemma nth_firstn : forall (M : list rec) i k x, nth_error (firstn i M) k = Some x -> k < i /\ nth_error M k = Some x.
Proof.
  induction M as [|y M IH]; intros [|i] k x H; cbn [firstn] in H; try (destruct k; discriminate). destruct k; [split; [lia|exact H]|]. cbn in H. destruct (IH i k x H). split; [lia|assumption].
Qed.
(** Nothing shown strictly between two shown positions: they are neighbours. *)
Lemma cnt_next : forall M i j x, i < j -> nth_error M i = Some x -> shown x = true ->
  (forall k y, i < k -> k < j -> nth_error M k = Some y -> shown y = false) -> cnt M j = S (cnt M i).
Proof.
  intros M i j x Hij N Sx H. unfold cnt. replace j with (i + (j - i)) by lia. rewrite firstn_split, filter_app, app_length.
  rewrite (skipn_nth _ _ _ N). destruct (j - i) as [|q] eqn:E; [lia|]. cbn [firstn filter]. rewrite Sx. cbn [length].
  assert (filter shown (firstn q (skipn (S i) M)) = []) as ->; [|cbn; lia].
  apply filter_no. intros y Hy. apply In_nth_error in Hy as [k Hk]. apply nth_firstn in Hk as [Hk1 Hk2]. rewrite nth_skipn in Hk2. apply (H (S i + k) y); [lia|lia|exact Hk2].
Qed.
Lemma cnt_zero : forall M i, (forall k y, k < i -> nth_error M k = Some y -> shown y = false) -> cnt M i = 0.
Proof.
  intros M i H. unfold cnt. rewrite filter_no; [reflexivity|]. intros y Hy. apply In_nth_error in Hy as [k Hk]. apply nth_firstn in Hk as [Hk1 Hk2]. exact (H k y Hk1 Hk2).
Qed.
Lemma cnt_last : forall M i x, nth_error M i = Some x -> shown x = true -> (forall k y, i < k -> nth_error M k = Some y -> shown y = false) ->
  S (cnt M i) = length (filter shown M).
Proof.
  intros M i x N Sx H. rewrite <- (firstn_skipn i M) at 2. rewrite filter_app, app_length, (skipn_nth _ _ _ N). cbn [filter]. rewrite Sx. cbn [length].
  rewrite (filter_no _ (skipn (S i) M)); [unfold cnt; cbn; lia|]. intros y Hy. apply In_nth_error in Hy as [k Hk]. rewrite nth_skipn in Hk. apply (H (S i + k) y); [lia|exact Hk].
Qed.
Lemma none_shown : forall M, (forall k x, nth_error M k = Some x -> shown x = false) -> filter shown M = [].
Proof. intros M H. apply filter_no. intros x Hx. apply In_nth_error in Hx as [k Hk]. exact (H k x Hk). Qed.

Lemma here_bound : forall M i p, here M i p -> forall j, p = At j -> j < length (filter shown M).
Proof. intros M i p H j ->. destruct H as ((x & N & Sx) & ->). exact (cnt_lt M i x N Sx). Qed.
(** At the last position of M, or at the first. *)
Lemma here_last : forall M i x, S i = length M -> nth_error M i = Some x -> here M i (if shown x then At (cnt M i) else After).
Proof.
  intros M i x E N. destruct (shown x) eqn:Sx; cbn [here]; [split; [now exists x|reflexivity]|]. intros k y Hk Ny.
  assert (k < length M) by (apply nth_error_Some; rewrite Ny; discriminate). replace k with i in Ny by lia. congruence.
Qed.
Lemma here_first : forall M x, nth_error M 0 = Some x -> here M 0 (if shown x then At (cnt M 0) else Before).
Proof.
  intros M x N. destruct (shown x) eqn:Sx; cbn [here]; [split; [now exists x|reflexivity]|]. intros k y Hk Ny. replace k with 0 in Ny by lia. congruence.
Qed.

End Count.

Section Cursor.
Variable L : Type.
Variable l_get : L -> rec.
Variable l_next l_prev : L -> option (L * bool).
Variable l_seek : bool -> rec -> L -> option (L * bool).
Variable l_end : L -> option (L * bool).
Variable ty : itype.
Variable TG TS : rec -> Prop.
Variable RL : L -> list rec -> nat -> Prop.
Hypothesis RL_get : forall s l p, RL s l p -> nth_error l p = Some (l_get s) /\ csorted ty l.
Hypothesis RL_next : forall s l p, RL s l p -> exists s', l_next s = Some (s', Nat.ltb (S p) (length l)) /\ RL s' l (if Nat.ltb (S p) (length l) then S p else p).
Hypothesis RL_prev : forall s l p, RL s l p -> exists s', l_prev s = Some (s', Nat.ltb 0 p) /\ RL s' l (pred p).
Hypothesis RL_end : forall s l p, RL s l p -> exists s' q, l_end s = Some (s', true) /\ RL s' l q /\ S q = length l.
Hypothesis RL_greater : forall t s l p, TG t -> RL s l p -> exists s' q, l_seek true t s = Some (s', true) /\ RL s' l q /\ at_greater ty t l (l_get s').
Hypothesis RL_smaller : forall t s l p, TS t -> RL s l p -> exists s' q, l_seek false t s = Some (s', true) /\ RL s' l q /\ at_smaller ty t l (l_get s').

Notation shown := (shown ty).
Notation cnt := (cnt ty).
Notation here := (here ty).
Notation DInv := (DInv L l_get ty TG TS RL).
Notation DBas := (DBas L ty TG TS RL).
Notation d_cur := (d_cur L l_get).
Notation d_move := (d_move L l_get l_next l_prev l_seek l_end ty).
Notation d_moves := (d_moves L l_get l_next l_prev l_seek l_end ty).

Lemma here_get : forall fwd bwd d M i p, DInv fwd bwd d M i -> here M i p -> d_get L l_get ty d = at_pos (filter shown M) p.
Proof.
  intros fwd bwd d M i p HI H. pose proof (dinv_cur _ _ _ _ _ _ _ _ _ _ _ HI) as N. unfold d_get. destruct p as [|j|]; cbn [here at_pos] in *.
  - rewrite (H i _ (le_n _) N). reflexivity.
  - destruct H as ((x & N2 & Sx) & ->). rewrite N in N2. injection N2 as <-. rewrite Sx. symmetry. now apply cnt_at.
  - rewrite (H i _ (le_n _) N). reflexivity.
Qed.

Lemma next_here : forall bwd fuel d M i p, DInv true bwd d M i -> here M i p -> length M <= fuel ->
  exists d' b i' p', d_move fuel Next d = Some (d', b) /\ DInv true bwd d' M i' /\ here M i' p' /\ cstep ty (filter shown M) p Next b p'.
Proof.
  intros bwd fuel d M i p HI Hp Hf. pose proof (dinv_lt _ _ _ _ _ _ _ _ _ _ _ HI) as Hi.
  pose proof (d_next_spec L l_get l_next l_prev l_seek l_end ty TG TS RL RL_get RL_next RL_prev RL_end bwd fuel d M i HI ltac:(lia)) as D. pose proof (next_shown_spec ty M i) as F.
  cbn [DbIterModel.d_move]. destruct (next_shown shown M i) as [j|].
  - destruct F as (Fi & (x & Nx & Sx) & Fm). destruct D as (d' & -> & I'). exists d', true, j, (At (cnt M j)). split; [reflexivity|]. split; [exact I'|].
    assert (Hj : here M j (At (cnt M j))) by (split; [now exists x|reflexivity]). split; [exact Hj|]. pose proof (cnt_lt ty M j x Nx Sx) as Cl. destruct p as [|q|]; cbn [here] in Hp.
    + rewrite (cnt_zero ty M j); [|intros k y Hk Ny; destruct (Nat.le_gt_cases k i); [now apply (Hp k)|now apply (Fm k)]]. apply c_next_in. intros E. rewrite E in Cl. cbn in Cl. lia.
    + destruct Hp as ((y & Ny & Sy) & ->). pose proof (cnt_next ty M i j y Fi Ny Sy Fm) as E. rewrite E in *. apply c_next. exact Cl.
    + exfalso. rewrite (Hp j x ltac:(lia) Nx) in Sx. discriminate.
  - destruct D as (d' & -> & I'). pose proof (dinv_lt _ _ _ _ _ _ _ _ _ _ _ I') as Hl. pose proof (dinv_cur _ _ _ _ _ _ _ _ _ _ _ I') as Nl.
    set (e := pred (length M)) in *. assert (Ee : S e = length M) by (unfold e; lia). pose proof (here_last ty M e _ Ee Nl) as He. destruct p as [|q|]; cbn [here] in Hp.
    + exists d', false, e, After. split; [reflexivity|]. split; [exact I'|].
      assert (A : forall k x, nth_error M k = Some x -> shown x = false) by (intros k x N; destruct (Nat.le_gt_cases k i); [now apply (Hp k)|now apply (F k)]).
      split; [intros k x _; apply A|]. apply c_next_none. now apply none_shown.
    + destruct Hp as ((y & Ny & Sy) & ->). pose proof (cnt_last ty M i y Ny Sy F) as E. destruct (shown (d_cur d')) eqn:Sl.
      * assert (e = i) as Ei. { destruct (Nat.le_gt_cases e i); [assert (i < length M) by (apply nth_error_Some; rewrite Ny; discriminate); lia|]. rewrite (F e _ ltac:(lia) Nl) in Sl. discriminate. }
        exists d', false, e, (At (cnt M e)). split; [reflexivity|]. split; [exact I'|]. split; [exact He|]. rewrite Ei. now apply c_next_stay.
      * exists d', false, e, After. split; [reflexivity|]. split; [exact I'|]. split; [exact He|]. now apply c_next_off.
    + exists d', false, e, After. split; [reflexivity|]. split; [exact I'|]. split; [|apply c_next_after]. intros k x Hk. apply Hp. lia.
Qed.

Lemma prev_here : forall fwd fuel d M i p, DInv fwd true d M i -> here M i p -> length M <= fuel ->
  exists d' b i' p', d_move fuel Prev d = Some (d', b) /\ DInv fwd true d' M i' /\ here M i' p' /\ cstep ty (filter shown M) p Prev b p'.
Proof.
  intros fwd fuel d M i p HI Hp Hf. pose proof (dinv_lt _ _ _ _ _ _ _ _ _ _ _ HI) as Hi.
  pose proof (d_prev_spec L l_get l_next l_prev l_seek l_end ty TG TS RL RL_get RL_next RL_prev RL_end fwd fuel d M i HI ltac:(lia)) as D. pose proof (find_back_spec ty M i ltac:(lia)) as F.
  cbn [DbIterModel.d_move]. destruct (find_back shown M i) as [j|].
  - destruct F as (Fi & (x & Nx & Sx) & Fm). destruct D as (d' & -> & I'). exists d', true, j, (At (cnt M j)). split; [reflexivity|]. split; [exact I'|].
    assert (Hj : here M j (At (cnt M j))) by (split; [now exists x|reflexivity]). split; [exact Hj|]. pose proof (cnt_lt ty M j x Nx Sx) as Cl. destruct p as [|q|]; cbn [here] in Hp.
    + exfalso. rewrite (Hp j x ltac:(lia) Nx) in Sx. discriminate.
    + destruct Hp as ((y & Ny & Sy) & ->). pose proof (cnt_next ty M j i x Fi Nx Sx ltac:(intros k z K1 K2; now apply Fm)) as E. pose proof (cnt_lt ty M i y Ny Sy) as C2. rewrite E in *. now apply c_prev.
    + apply c_prev_in. apply (cnt_last ty M j x Nx Sx). intros k y Hk Ny. destruct (Nat.lt_ge_cases k i); [now apply (Fm k)|now apply (Hp k)].
  - destruct D as (d' & -> & I'). pose proof (dinv_cur _ _ _ _ _ _ _ _ _ _ _ I') as Nl. pose proof (here_first ty M _ Nl) as He. destruct p as [|q|]; cbn [here] in Hp.
    + exists d', false, 0, Before. split; [reflexivity|]. split; [exact I'|]. split; [|apply c_prev_before]. intros k x Hk. apply Hp. lia.
    + destruct Hp as ((y & Ny & Sy) & ->). pose proof (cnt_zero ty M i F) as E. rewrite E. destruct (shown (d_cur d')) eqn:Sl.
      * assert (i = 0) as ->. { destruct i as [|i]; [reflexivity|]. rewrite (F 0 _ ltac:(lia) Nl) in Sl. discriminate. }
        exists d', false, 0, (At (cnt M 0)). split; [reflexivity|]. split; [exact I'|]. split; [exact He|]. rewrite E. apply c_prev_stay.
      * exists d', false, 0, Before. split; [reflexivity|]. split; [exact I'|]. split; [exact He|]. apply c_prev_off.
    + exists d', false, 0, Before. split; [reflexivity|]. split; [exact I'|].
      assert (A : forall k x, nth_error M k = Some x -> shown x = false) by (intros k x N; destruct (Nat.lt_ge_cases k i); [now apply (F k)|now apply (Hp k)]).
      split; [intros k x _; apply A|]. apply c_prev_none. now apply none_shown.
Qed.

Lemma seek_g_here : forall bwd fuel d M p t, TG t -> DBas true bwd d M -> length M <= fuel ->
  exists d' b i' p', d_move fuel (SeekG t) d = Some (d', b) /\ DInv true bwd d' M i' /\ here M i' p' /\ cstep ty (filter shown M) p (SeekG t) b p'.
Proof.
  intros bwd fuel d M p t Ht HB Hf.
  destruct (d_seek_greater L l_get l_next l_prev l_seek l_end ty TG TS RL RL_get RL_next RL_prev RL_end RL_greater RL_smaller bwd fuel d M t Ht HB Hf) as (d' & i & E & I & H).
  cbn [DbIterModel.d_move]. rewrite E. destruct H as [(r & N & Sr & A & B)|(Ei & A)].
  - exists d', true, i, (At (cnt M i)). split; [reflexivity|]. split; [exact I|]. split; [split; [now exists r|reflexivity]|].
    apply c_seek_g with (r := r); [now apply cnt_at|exact A|]. intros x Hx. apply filter_In in Hx as [H1 H2]. now apply B.
  - assert (Hn : forall x, In x (filter shown M) -> ~ rle ty t x).
    { intros x Hx Lx. apply filter_In in Hx as [H1 H2]. exact (le_not_lt _ _ _ Lx (A x H1 H2)). }
    pose proof (dinv_cur _ _ _ _ _ _ _ _ _ _ _ I) as N. pose proof (here_last ty M i _ Ei N) as He. destruct (shown (d_cur d')) eqn:Sl.
    + exists d', true, i, (At (cnt M i)). repeat (split; [first [reflexivity|assumption]|]). apply c_seek_g_none; [exact Hn|]. apply (cnt_last ty M i _ N Sl). intros k y Hk Ny.
      assert (k < length M) by (apply nth_error_Some; rewrite Ny; discriminate). lia.
    + exists d', true, i, After. repeat (split; [first [reflexivity|assumption]|]). now apply c_seek_g_off.
Qed.
Lemma seek_s_here : forall fwd fuel d M p t, TS t -> DBas fwd true d M -> length M <= fuel ->
  exists d' b i' p', d_move fuel (SeekS t) d = Some (d', b) /\ DInv fwd true d' M i' /\ here M i' p' /\ cstep ty (filter shown M) p (SeekS t) b p'.
Proof.
  intros fwd fuel d M p t Ht HB Hf.
  destruct (d_seek_smaller L l_get l_next l_prev l_seek l_end ty TG TS RL RL_get RL_next RL_prev RL_end RL_greater RL_smaller fwd fuel d M t Ht HB Hf) as (d' & i & E & I & H).
  cbn [DbIterModel.d_move]. rewrite E. destruct H as [(r & N & Sr & A & B)|(-> & (x0 & N0 & S0) & A)].
  - exists d', true, i, (At (cnt M i)). split; [reflexivity|]. split; [exact I|]. split; [split; [now exists r|reflexivity]|].
    apply c_seek_s with (r := r); [now apply cnt_at|exact A|]. intros x Hx. apply filter_In in Hx as [H1 H2]. now apply B.
  - assert (Hn : forall x, In x (filter shown M) -> ~ rle ty x t).
    { intros x Hx Lx. apply filter_In in Hx as [H1 H2]. exact (le_not_lt _ _ _ Lx (A x H1 H2)). }
    exists d', true, 0, Before. split; [reflexivity|]. split; [exact I|]. split; [|now apply c_seek_s_off]. pose proof (here_first ty M x0 N0) as He. now rewrite S0 in He.
Qed.
Lemma end_here : forall fwd fuel d M p, DBas fwd true d M -> length M <= fuel ->
  exists d' b i' p', d_move fuel ToEnd d = Some (d', b) /\ DInv fwd true d' M i' /\ here M i' p' /\ cstep ty (filter shown M) p ToEnd b p'.
Proof.
  intros fwd fuel d M p HB Hf.
  destruct (d_end_spec L l_get l_next l_prev l_seek l_end ty TG TS RL RL_get RL_next RL_prev RL_end RL_greater RL_smaller fwd true d M HB) as (d1 & E & I). cbn [DbIterModel.d_move]. unfold d_seek. rewrite E.
  pose proof (dinv_cur _ _ _ _ _ _ _ _ _ _ _ I) as N. pose proof (dinv_lt _ _ _ _ _ _ _ _ _ _ _ I) as Hl.
  set (e := pred (length M)) in *. assert (Ee : S e = length M) by (unfold e; lia). destruct (shown (d_cur d1)) eqn:Sl.
  - exists d1, true, e, (At (cnt M e)). split; [reflexivity|]. split; [exact I|]. split; [split; [eexists; split; eassumption|reflexivity]|]. apply c_end. apply (cnt_last ty M e _ N Sl). intros k y Hk Ny.
    assert (k < length M) by (apply nth_error_Some; rewrite Ny; discriminate). lia.
  - pose proof (d_prev_spec L l_get l_next l_prev l_seek l_end ty TG TS RL RL_get RL_next RL_prev RL_end fwd fuel d1 M e I ltac:(lia)) as D. pose proof (find_back_spec ty M e ltac:(lia)) as F.
    assert (Last : forall k y, e <= k -> nth_error M k = Some y -> shown y = false).
    { intros k y Hk Ny. assert (k < length M) by (apply nth_error_Some; rewrite Ny; discriminate). replace k with e in Ny by lia. congruence. }
    destruct (find_back shown M e) as [j|].
    + destruct F as (Fi & (x & Nx & Sx) & Fm). destruct D as (d' & -> & I'). exists d', true, j, (At (cnt M j)). split; [reflexivity|]. split; [exact I'|]. split; [split; [now exists x|reflexivity]|].
      apply c_end. apply (cnt_last ty M j x Nx Sx). intros k y Hk Ny. destruct (Nat.lt_ge_cases k e); [now apply (Fm k)|now apply (Last k)].
    + destruct D as (d' & -> & I'). exists d', true, 0, Before. split; [reflexivity|]. split; [exact I'|].
      assert (A : forall k x, nth_error M k = Some x -> shown x = false) by (intros k x Nk; destruct (Nat.lt_ge_cases k e); [now apply (F k)|now apply (Last k)]).
      split; [intros k x _; apply A|]. apply c_end_none. now apply none_shown.
Qed.

(** Any calls, if the sources have two keys each; calls in one direction between two seeks
    otherwise. *)
Definition asked (m : move) : Prop := match m with SeekG t => TG t | SeekS t => TS t | _ => True end.
Theorem moves_both : forall fuel ms d M i p, DInv true true d M i -> here M i p -> length M <= fuel -> Forall asked ms ->
  exists out, d_moves fuel ms d = Some out /\ ctrace ty (filter shown M) p ms out.
Proof.
  intros fuel ms. induction ms as [|m ms IH]; intros d M i p HI Hp Hf Ha; [exists []; split; [reflexivity|constructor]|].
  inversion Ha as [|? ? Ha1 Ha2]; subst. cbn [DbIterModel.d_moves].
  assert (X : exists d' b i' p', d_move fuel m d = Some (d', b) /\ DInv true true d' M i' /\ here M i' p' /\ cstep ty (filter shown M) p m b p').
  { pose proof (dinv_bas _ _ _ _ _ _ _ _ _ _ _ HI) as HB. destruct m; cbn [asked] in Ha1; [eapply next_here|eapply prev_here|eapply seek_g_here|eapply seek_s_here|eapply end_here]; eassumption. }
  destruct X as (d' & b & i' & p' & -> & I' & Hp' & St). destruct (IH d' M i' p' I' Hp' Hf Ha2) as (out & -> & Ct). eexists. split; [reflexivity|].
  rewrite (here_get _ _ _ _ _ _ I' Hp'). apply ct_cons; [exact St|exact (here_bound ty M i' p' Hp')|exact Ct].
Qed.
Theorem moves_one : forall fuel ms f d M i p, DInv f (negb f) d M i -> here M i p -> length M <= fuel -> Forall asked ms -> one_direction f ms = true ->
  exists out, d_moves fuel ms d = Some out /\ ctrace ty (filter shown M) p ms out.
Proof.
  intros fuel ms. induction ms as [|m ms IH]; intros f d M i p HI Hp Hf Ha Ho; [exists []; split; [reflexivity|constructor]|].
  inversion Ha as [|? ? Ha1 Ha2]; subst. cbn [DbIterModel.d_moves].
  assert (X : exists f' d' b i' p', d_move fuel m d = Some (d', b) /\ DInv f' (negb f') d' M i' /\ here M i' p' /\ cstep ty (filter shown M) p m b p' /\ one_direction f' ms = true).
  { pose proof (dinv_bas _ _ _ _ _ _ _ _ _ _ _ HI) as HB.
    pose proof (dbas_one_way L ty TG TS RL f (negb f) true false d M eq_refl HB) as HF. pose proof (dbas_one_way L ty TG TS RL f (negb f) false true d M eq_refl HB) as HR.
    destruct m; cbn [asked one_direction] in *.
    - apply andb_prop in Ho as [-> Ho]. destruct (next_here _ fuel d M i p HI Hp Hf) as (d' & b & i' & p' & H1 & H2 & H3 & H4). exists true, d', b, i', p'. auto.
    - apply andb_prop in Ho as [Hff Ho]. destruct f; [discriminate|]. destruct (prev_here _ fuel d M i p HI Hp Hf) as (d' & b & i' & p' & H1 & H2 & H3 & H4). exists false, d', b, i', p'. auto.
    - destruct (seek_g_here false fuel d M p t Ha1 HF Hf) as (d' & b & i' & p' & H1 & H2 & H3 & H4). exists true, d', b, i', p'. auto.
    - destruct (seek_s_here false fuel d M p t Ha1 HR Hf) as (d' & b & i' & p' & H1 & H2 & H3 & H4). exists false, d', b, i', p'. auto.
    - destruct (end_here false fuel d M p HR Hf) as (d' & b & i' & p' & H1 & H2 & H3 & H4). exists false, d', b, i', p'. auto. }
  destruct X as (f' & d' & b & i' & p' & -> & I' & Hp' & St & Ho'). destruct (IH f' d' M i' p' I' Hp' Hf Ha2 Ho') as (out & -> & Ct). eexists. split; [reflexivity|].
  rewrite (here_get _ _ _ _ _ _ I' Hp'). apply ct_cons; [exact St|exact (here_bound ty M i' p' Hp')|exact Ct].
Qed.
End Cursor.
