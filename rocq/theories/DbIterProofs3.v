(** Opening the iterator (proofs). *)
From Coq Require Import List NArith Bool Arith Lia Sorted Permutation.
From Verif Require Import Base LogFormatModel KeyModel KeyProofs MemTableModel IterModel IterSpec IterProofs LeafIterModel LeafIterProofs DbIterModel DbIterProofs DbIterProofs2.
Import ListNotations.
Local Open Scope nat_scope.

(** ** The memtable leaf, with what is known of the keys sought *)
Section Keyed.
Variable TG TS : rec -> Prop.
Definition RXP (x : mki) (l : list rec) (p : nat) : Prop :=
  RX x l p /\
  (forall t, TG t -> (r_key t = [] \/ below_start x (r_key t) = false) /\
     ((exists r, In r l /\ le ByKey t r) \/ (forall n, In n (x_nodes x) -> klt (fst n) (r_key t)))) /\
  (forall t, TS t -> above_end x (r_key t) = false /\ exists r, In r l /\ le ByKey r t).

Lemma x_move_self : forall x, x_move x (x_cur x) = x.
Proof. now intros []. Qed.
Lemma x_next_move : forall x x' b, x_next x = Some (x', b) -> exists k, x' = x_move x k.
Proof. intros x x' b. unfold x_next. destruct (fwd_valid _ _) as [k|]; intros H; injection H as <- _; [now exists k|exists (x_cur x); now rewrite x_move_self]. Qed.
Lemma x_prev_move : forall x x' b, x_prev x = Some (x', b) -> exists k, x' = x_move x k.
Proof. intros x x' b. unfold x_prev. destruct (bwd_valid _ _) as [k|]; intros H; injection H as <- _; [now exists k|exists (x_cur x); now rewrite x_move_self]. Qed.
Lemma x_seek_move : forall g t x x' b, x_seek g t x = Some (x', b) -> exists k, x' = x_move x k.
Proof. intros g t x x' b. unfold x_seek. cbv zeta. destruct (if g then _ else _) as [k|]; intros H; injection H as <- _; [now exists k|exists (x_cur x); now rewrite x_move_self]. Qed.
Lemma x_end_move : forall x x' b, x_to_end x = Some (x', b) -> exists k, x' = x_move x k.
Proof. intros x x' b. unfold x_to_end. destruct (bwd_valid _ _) as [k|]; intros H; injection H as <- _; [now exists k|exists (x_cur x); now rewrite x_move_self]. Qed.
Lemma rxp_move : forall x l p k q, RXP x l p -> RX (x_move x k) l q -> RXP (x_move x k) l q.
Proof. intros x l p k q (_ & A & B) H. split; [exact H|]. split; [exact A|exact B]. Qed.

Lemma rxp_get : forall x l p, RXP x l p -> nth_error l p = Some (x_get x) /\ csorted ByKey l.
Proof. intros x l p [H _]. now apply rx_get. Qed.
Lemma rxp_next : forall x l p, RXP x l p -> exists x', x_next x = Some (x', Nat.ltb (S p) (length l)) /\ RXP x' l (if Nat.ltb (S p) (length l) then S p else p).
Proof. intros x l p H. destruct (rx_next x l p (proj1 H)) as (x' & E & R). exists x'. split; [exact E|]. destruct (x_next_move _ _ _ E) as [k ->]. now apply rxp_move with p. Qed.
Lemma rxp_prev : forall x l p, RXP x l p -> exists x', x_prev x = Some (x', Nat.ltb 0 p) /\ RXP x' l (pred p).
Proof. intros x l p H. destruct (rx_prev x l p (proj1 H)) as (x' & E & R). exists x'. split; [exact E|]. destruct (x_prev_move _ _ _ E) as [k ->]. now apply rxp_move with p. Qed.
Lemma rxp_end : forall x l p, RXP x l p -> exists x' q, x_to_end x = Some (x', true) /\ RXP x' l q /\ S q = length l.
Proof. intros x l p H. destruct (rx_end x l p (proj1 H)) as (x' & q & E & R & Eq). exists x', q. split; [exact E|]. split; [|exact Eq]. destruct (x_end_move _ _ _ E) as [k ->]. now apply rxp_move with p. Qed.
Lemma rxp_greater : forall t x l p, TG t -> RXP x l p -> exists x' q, x_seek true t x = Some (x', true) /\ RXP x' l q /\ at_greater ByKey t l (x_get x').
Proof.
  intros t x l p Ht H. destruct H as (R & A & B). destruct (A t Ht) as [A1 A2]. destruct (rx_seek_greater x l p t R A1 A2) as (x' & q & E & R' & Q). exists x', q. split; [exact E|]. split; [|exact Q].
  destruct (x_seek_move _ _ _ _ _ E) as [k ->]. apply rxp_move with p; [split; auto|exact R'].
Qed.
Lemma rxp_smaller : forall t x l p, TS t -> RXP x l p -> exists x' q, x_seek false t x = Some (x', true) /\ RXP x' l q /\ at_smaller ByKey t l (x_get x').
Proof.
  intros t x l p Ht H. destruct H as (R & A & B). destruct (B t Ht) as [B1 B2]. destruct (rx_seek_smaller x l p t R B1 B2) as (x' & q & E & R' & Q). exists x', q. split; [exact E|]. split; [|exact Q].
  destruct (x_seek_move _ _ _ _ _ E) as [k ->]. apply rxp_move with p; [split; auto|exact R'].
Qed.
End Keyed.

(** ** The inner iterators *)

Lemma number_fst : forall A (l : list A), map fst (number l) = seq 0 (length l).
Proof. intros A l. unfold number. generalize 0. induction l as [|x l IH]; intros n; [reflexivity|]. cbn [length seq combine map fst]. now rewrite IH. Qed.
Lemma number_in : forall A (l : list A) n s, In (n, s) (number l) <-> nth_error l n = Some s.
Proof.
  intros A l n s. unfold number. assert (G : forall k, In (n, s) (combine (seq k (length l)) l) <-> k <= n /\ nth_error l (n - k) = Some s).
  { induction l as [|x l IH]; intros k; cbn [length seq combine In].
    - split; [intros []|]. intros [_ H]. destruct (n - k); discriminate.
    - rewrite IH. split.
      + intros [H|[H1 H2]]; [injection H as -> ->; split; [lia|]; now rewrite Nat.sub_diag|]. split; [lia|]. replace (n - k) with (S (n - S k)) by lia. exact H2.
      + intros [H1 H2]. destruct (Nat.eq_dec n k) as [->|Hn]; [rewrite Nat.sub_diag in H2; injection H2 as ->; now left|]. right. split; [lia|]. replace (n - k) with (S (n - S k)) in H2 by lia. exact H2. }
  rewrite G. rewrite Nat.sub_0_r. split; [now intros [_ H]|intros H; split; [lia|exact H]].
Qed.
Definition nth_list {A} (lf : A -> list rec) (l : list A) (n : nat) : list rec := match nth_error l n with Some s => lf s | None => [] end.
Lemma flat_number : forall A (lf : A -> list rec) l, flat_map (nth_list lf l) (seq 0 (length l)) = flat_map lf l.
Proof.
  intros A lf l. induction l as [|x l IH]; [reflexivity|]. cbn [length seq flat_map]. cbn [nth_list nth_error]. unfold nth_list at 1. cbn [nth_error]. f_equal.
  rewrite <- IH. rewrite <- seq_shift. rewrite !flat_map_concat_map, map_map. f_equal.
Qed.
Lemma nth_list_in : forall A (lf : A -> list rec) l n x, In x (nth_list lf l n) -> exists s, nth_error l n = Some s /\ In s l /\ In x (lf s).
Proof. intros A lf l n x H. unfold nth_list in H. destruct (nth_error l n) as [s|] eqn:E; [|destruct H]. exists s. split; [reflexivity|]. split; [exact (nth_error_In _ _ E)|exact H]. Qed.

(** Two records with the same key and number are the same. *)
Definition uniq (ty : itype) (l : list rec) : Prop := forall x y, In x l -> In y l -> le ty x y -> le ty y x -> r_seq x = r_seq y -> x = y.
(** [M] is the sorted list of the newest records of [all]. *)
Definition merged (ty : itype) (all M : list rec) : Prop :=
  csorted ty M /\ forall r, In r M <-> In r all /\ forall x, In x all -> le ty x r -> le ty r x -> ty = ByKey -> (r_seq x <= r_seq r)%N.

Lemma newest_merged : forall ty all, uniq ty all -> merged ty all (newest_of ty all).
Proof. intros ty all H. exact (newest_of_spec ty all H). Qed.

Lemma inner_init : forall S0 (g : S0 -> rec) (sk : bool -> rec -> S0 -> option (S0 * bool)) ty fwd bwd (R : S0 -> list rec -> nat -> Prop) (R_get : forall s l p, R s l p -> nth_error l p = Some (g s) /\ csorted ty l) lf (l : list S0),
  l <> [] -> (forall s, In s l -> R s (lf s) 0 /\ two ty fwd bwd (lf s)) -> uniq ty (flat_map lf l) ->
  exists m, m_init S0 g ty (number l) = Some m /\ Inv S0 g ty fwd bwd R (nth_list lf l) m (newest_of ty (flat_map lf l)) 0.
Proof.
  intros S0 g sk ty fwd bwd R R_get lf l Hne HR Hu.
  assert (Hs : same_rec ty (nth_list lf l) (map fst (number l))).
  { intros n n' x y _ _ Hx Hy. apply nth_list_in in Hx as (s & _ & Hs & Hx). apply nth_list_in in Hy as (s' & _ & Hs' & Hy). apply Hu; apply in_flat_map; eauto. }
  destruct (m_init_spec S0 g sk ty fwd bwd R R_get (nth_list lf l) (number l) (newest_of ty (flat_map lf l))) as (m & E & I & _).
  - intros E. apply (f_equal (map fst)) in E. rewrite number_fst in E. destruct l; [congruence|discriminate].
  - rewrite number_fst. apply seq_NoDup.
  - exact Hs.
  - rewrite <- flat_number. rewrite number_fst in *. now apply merge_exists.
  - intros n s Hn. apply number_in in Hn. unfold nth_list. rewrite Hn. apply HR. exact (nth_error_In _ _ Hn).
  - exists m. now split.
Qed.

Lemma merged_twice : forall ty a b, uniq ty (a ++ b) -> merged ty (a ++ b) (newest_of ty (newest_of ty a ++ newest_of ty b)).
Proof.
  intros ty a b U.
  assert (Ua : uniq ty a) by (intros x y Hx Hy; apply U; apply in_or_app; now left).
  assert (Ub : uniq ty b) by (intros x y Hx Hy; apply U; apply in_or_app; now right).
  destruct (newest_of_spec ty a Ua) as [_ Na]. destruct (newest_of_spec ty b Ub) as [_ Nb].
  assert (Sub : forall x, In x (newest_of ty a ++ newest_of ty b) -> In x (a ++ b)).
  { intros x Hx. apply in_app_iff in Hx as [Hx|Hx]; apply in_or_app; [left; now apply Na|right; now apply Nb]. }
  assert (U' : uniq ty (newest_of ty a ++ newest_of ty b)) by (intros x y Hx Hy; apply U; now apply Sub).
  destruct (newest_of_spec ty _ U') as [C N]. split; [exact C|]. intros r. rewrite N. split.
  - intros [Hr Hm]. split; [now apply Sub|]. intros x Hx L1 L2 E.
    assert (X : exists y, In y (newest_of ty a ++ newest_of ty b) /\ le ty x y /\ le ty y x /\ (r_seq x <= r_seq y)%N).
    { apply in_app_iff in Hx as [Hx|Hx].
      - destruct (newest_of_cover ty a x Hx) as (y & Hy & A & B). exists y. split; [apply in_or_app; now left|]. split; [exact A|]. split; [exact B|]. apply Na in Hy as [_ Hy]. now apply Hy.
      - destruct (newest_of_cover ty b x Hx) as (y & Hy & A & B). exists y. split; [apply in_or_app; now right|]. split; [exact A|]. split; [exact B|]. apply Nb in Hy as [_ Hy]. now apply Hy. }
    destruct X as (y & Hy & A & B & D). specialize (Hm y Hy (le_trans _ _ _ _ B L1) (le_trans _ _ _ _ L2 A) E). lia.
  - intros [Hr Hm]. split; [|intros x Hx; apply Hm; now apply Sub]. apply in_or_app. apply in_app_iff in Hr as [Hr|Hr].
    + left. apply Na. split; [exact Hr|]. intros x Hx. apply Hm. apply in_or_app. now left.
    + right. apply Nb. split; [exact Hr|]. intros x Hx. apply Hm. apply in_or_app. now right.
Qed.
Lemma two_newest : forall ty fwd bwd a l, two ty fwd bwd l -> incl l a -> two ty fwd bwd (newest_of ty a).
Proof.
  intros ty fwd bwd a l H I F B. destruct (H F B) as (x & y & Hx & Hy & L). destruct (newest_of_cover ty a x (I x Hx)) as (x' & X1 & X2 & X3). destruct (newest_of_cover ty a y (I y Hy)) as (y' & Y1 & Y2 & Y3).
  exists x', y'. split; [exact X1|]. split; [exact Y1|]. exact (le_lt_trans _ _ _ _ X3 (lt_le_trans _ _ _ _ L Y2)).
Qed.

Lemma newest_of_len : forall ty l, length (newest_of ty l) <= length l.
Proof.
  intros ty l. assert (G : forall r m, length (minsert ty r m) <= S (length m)).
  { intros r m. induction m as [|x m IH]; cbn [minsert]; [cbn; lia|]. repeat (match goal with |- context [match ?c with _ => _ end] => destruct c end); cbn [length]; lia. }
  induction l as [|r l IH]; [cbn; lia|]. cbn [newest_of fold_right length]. fold (newest_of ty l). specialize (G r (newest_of ty l)). lia.
Qed.

Section Open.
Variable L : Type.
Variable l_get : L -> rec.
Variable l_next l_prev : L -> option (L * bool).
Variable l_seek : bool -> rec -> L -> option (L * bool).
Variable l_end : L -> option (L * bool).
Variable ty : itype.
Variable TG TS : rec -> Prop.
Variable RL : L -> list rec -> nat -> Prop.
Hypothesis RL_get : forall s l p, RL s l p -> nth_error l p = Some (l_get s) /\ csorted ty l.
Hypothesis RL_next : forall s l p, RL s l p -> exists s', l_next s = Some (s', Nat.ltb (S p) (length l)) /\ RL s' l (if Nat.ltb (S p) (length l) then S p else p).
Hypothesis RL_prev : forall s l p, RL s l p -> exists s', l_prev s = Some (s', Nat.ltb 0 p) /\ RL s' l (pred p).
Hypothesis RL_end : forall s l p, RL s l p -> exists s' q, l_end s = Some (s', true) /\ RL s' l q /\ S q = length l.
Notation DInv := (DInv L l_get ty TG TS RL).
Notation shown := (shown ty).

(** The lists of the two sources of the outer iterator. *)
Definition two_lists (a b : list rec) (n : nat) : list rec := match n with O => newest_of ty a | _ => newest_of ty b end.

Lemma open_core : forall bwd fuel a b srcs, srcs <> [] -> NoDup (map fst srcs) ->
  (forall n s, In (n, s) srcs -> RS L l_get ty TG TS RL true bwd s (two_lists a b n) 0 /\ two ty true bwd (two_lists a b n)) ->
  flat_map (two_lists a b) (map fst srcs) = newest_of ty a ++ newest_of ty b ->
  uniq ty (a ++ b) -> tops ty TG (two_lists a b) (newest_of ty (newest_of ty a ++ newest_of ty b)) -> length (a ++ b) <= fuel ->
  exists d d' M i, m_init (src L) (s_get L l_get) ty srcs = Some d /\
      (if shown (d_cur L l_get d) then Some (Some d) else match d_next L l_get l_next ty fuel d with Some (d', _) => Some (Some d') | None => None end) = Some (Some d') /\
      merged ty (a ++ b) M /\ length M <= length (a ++ b) /\ DInv true bwd d' M i /\
      here ty M i (match filter shown M with [] => After | _ => At 0 end).
Proof.
  intros bwd fuel a b srcs Hne Hnd HR Hf U HT Hfu. set (M := newest_of ty (newest_of ty a ++ newest_of ty b)) in *.
  assert (Ua : uniq ty a) by (intros x y Hx Hy; apply U; apply in_or_app; now left).
  assert (Ub : uniq ty b) by (intros x y Hx Hy; apply U; apply in_or_app; now right).
  assert (Hin : forall n x, In x (two_lists a b n) -> In x (a ++ b)).
  { intros [|n] x Hx; cbn [two_lists] in Hx; apply in_or_app; [left; now apply (proj2 (newest_of_spec ty a Ua))|right; now apply (proj2 (newest_of_spec ty b Ub))]. }
  assert (Hs : same_rec ty (two_lists a b) (map fst srcs)).
  { intros n n' x y _ _ Hx Hy. apply U; eapply Hin; eassumption. }
  assert (HM : is_merge ty (two_lists a b) (map fst srcs) M) by (unfold M; rewrite <- Hf; now apply merge_exists).
  destruct (m_init_spec (src L) (s_get L l_get) (s_seek L l_get l_seek l_end ty) ty true bwd (RS L l_get ty TG TS RL true bwd)
    (rs_get L l_get ty TG TS RL true bwd) (two_lists a b) srcs M Hne Hnd Hs HM HR) as (d & E & I & _).
  pose proof (merged_twice ty a b U) as Mg. fold M in Mg.
  assert (Hl : length M <= length (a ++ b)).
  { unfold M. pose proof (newest_of_len ty (newest_of ty a ++ newest_of ty b)) as A0. pose proof (newest_of_len ty a) as A1. pose proof (newest_of_len ty b) as A2. rewrite app_length in *. lia. }
  assert (D : DInv true bwd d M 0) by (exists (two_lists a b); now split). pose proof (dinv_cur _ _ _ _ _ _ _ _ _ _ _ D) as N. pose proof (dinv_lt _ _ _ _ _ _ _ _ _ _ _ D) as Hlt.
  assert (At0 : forall j x, nth_error M j = Some x -> shown x = true -> cnt ty M j = 0 -> here ty M j (match filter shown M with [] => After | _ => At 0 end)).
  { intros j x Nj Sx Cj. destruct (filter shown M) as [|z l] eqn:Ef; [|split; [now exists x|now symmetry]]. exfalso.
    assert (In x (filter shown M)) as Hx by (apply filter_In; split; [exact (nth_error_In _ _ Nj)|exact Sx]). rewrite Ef in Hx. destruct Hx. }
  destruct (shown (d_cur L l_get d)) eqn:Sd.
  - exists d, d, M, 0. rewrite Sd. repeat (split; [first [assumption|reflexivity]|]). apply (At0 0 _ N Sd). reflexivity.
  - pose proof (d_next_spec L l_get l_next l_prev l_seek l_end ty TG TS RL RL_get RL_next RL_prev RL_end bwd fuel d M 0 D ltac:(lia)) as Dn. pose proof (next_shown_spec ty M 0) as F.
    destruct (next_shown shown M 0) as [j|].
    + destruct F as (Fi & (x & Nx & Sx) & Fm). destruct Dn as (d' & En & D'). exists d, d', M, j. rewrite Sd, En. repeat (split; [first [assumption|reflexivity]|]). apply (At0 j x Nx Sx).
      apply cnt_zero. intros [|k] y Hk Ny; [rewrite N in Ny; injection Ny as <-; exact Sd|]. apply (Fm (S k) y); [lia|exact Hk|exact Ny].
    + destruct Dn as (d' & En & D'). exists d, d', M, (pred (length M)). rewrite Sd, En. repeat (split; [first [assumption|reflexivity]|]).
      assert (A : forall k y, nth_error M k = Some y -> shown y = false).
      { intros [|k] y Ny; [rewrite N in Ny; injection Ny as <-; exact Sd|]. apply (F (S k) y); [lia|exact Ny]. }
      rewrite (none_shown ty M A). intros k y _. apply A.
Qed.

Theorem d_open : forall bwd fuel lf (llog : list L) (ltab : list tfi),
  let a := flat_map lf llog in let b := flat_map t_docs ltab in
  (forall s, In s llog -> RL s (lf s) 0 /\ two ty true bwd (lf s)) ->
  (forall t, In t ltab -> RT ty TS t (t_docs t) 0 /\ two ty true bwd (t_docs t)) ->
  uniq ty (a ++ b) ->
  tops ty TG (nth_list lf llog) (newest_of ty a) -> tops ty TG (nth_list t_docs ltab) (newest_of ty b) ->
  tops ty TG (two_lists a b) (newest_of ty (newest_of ty a ++ newest_of ty b)) ->
  length (a ++ b) <= fuel ->
  match llog, ltab with
  | [], [] => d_init L l_get l_next ty fuel (m_init L l_get ty (number llog)) (m_init tfi t_get ty (number ltab)) = Some None
  | _, _ => exists d M i, d_init L l_get l_next ty fuel (m_init L l_get ty (number llog)) (m_init tfi t_get ty (number ltab)) = Some (Some d) /\
      merged ty (a ++ b) M /\ length M <= length (a ++ b) /\ DInv true bwd d M i /\
      here ty M i (match filter shown M with [] => After | _ => At 0 end)
  end.
Proof.
  intros bwd fuel lf llog ltab a b HL HTb U T1 T2 T3 Hfu.
  assert (Ua : uniq ty a) by (intros x y Hx Hy; apply U; apply in_or_app; now left).
  assert (Ub : uniq ty b) by (intros x y Hx Hy; apply U; apply in_or_app; now right).
  assert (X1 : llog <> [] -> exists m, m_init L l_get ty (number llog) = Some m /\ RS L l_get ty TG TS RL true bwd (LogS m) (newest_of ty a) 0 /\ two ty true bwd (newest_of ty a)).
  { intros Hn. destruct (inner_init L l_get l_seek ty true bwd RL RL_get lf llog Hn HL Ua) as (m & E & I). exists m. split; [exact E|]. split; [exists (nth_list lf llog); now split|].
    destruct llog as [|s l]; [congruence|]. apply two_newest with (l := lf s); [apply HL; now left|]. intros x Hx. apply in_flat_map. exists s. split; [now left|exact Hx]. }
  assert (X2 : ltab <> [] -> exists m, m_init tfi t_get ty (number ltab) = Some m /\ RS L l_get ty TG TS RL true bwd (TabS m) (newest_of ty b) 0 /\ two ty true bwd (newest_of ty b)).
  { intros Hn. destruct (inner_init tfi t_get (t_seek ty) ty true bwd (RT ty TS) (rt_get ty TS) t_docs ltab Hn HTb Ub) as (m & E & I). exists m. split; [exact E|]. split; [exists (nth_list t_docs ltab); now split|].
    destruct ltab as [|s l]; [congruence|]. apply two_newest with (l := t_docs s); [apply HTb; now left|]. intros x Hx. apply in_flat_map. exists s. split; [now left|exact Hx]. }
  assert (Core := open_core bwd fuel a b). unfold d_init.
  destruct llog as [|s1 l1]; destruct ltab as [|s2 l2]; [reflexivity| | |].
  - destruct X2 as (m & E & R1 & R2); [discriminate|]. destruct (Core [(1, TabS m)]) as (d & d' & M & i & E1 & E2 & Q); try assumption.
    + discriminate.
    + repeat constructor. intros [].
    + intros n s [H|[]]. injection H as <- <-. now split.
    + cbn [map fst flat_map two_lists]. now rewrite app_nil_r.
    + exists d', M, i. split; [|exact Q]. rewrite E. change (m_init L l_get ty (number [])) with (@None (mit L)). cbn [option_map sources app]. rewrite E1. exact E2.
  - destruct X1 as (m & E & R1 & R2); [discriminate|]. destruct (Core [(0, LogS m)]) as (d & d' & M & i & E1 & E2 & Q); try assumption.
    + discriminate.
    + repeat constructor. intros [].
    + intros n s [H|[]]. injection H as <- <-. now split.
    + cbn [map fst flat_map two_lists]. now rewrite !app_nil_r.
    + exists d', M, i. split; [|exact Q]. rewrite E. cbn [option_map sources app]. change (m_init tfi t_get ty (number [])) with (@None (mit tfi)). cbn [option_map sources app]. rewrite E1. exact E2.
  - destruct X1 as (m & E & R1 & R2); [discriminate|]. destruct X2 as (m' & E' & R1' & R2'); [discriminate|]. destruct (Core [(0, LogS m); (1, TabS m')]) as (d & d' & M & i & E1 & E2 & Q); try assumption.
    + discriminate.
    + repeat constructor; [intros [H|[]]; discriminate|intros []].
    + intros n s [H|[H|[]]]; injection H as <- <-; now split.
    + cbn [map fst flat_map two_lists]. now rewrite app_nil_r.
    + exists d', M, i. split; [|exact Q]. rewrite E, E'. cbn [option_map sources app]. rewrite E1. exact E2.
Qed.
End Open.
