(** Writes do not disturb open iterators (proofs; statements in LiveIterProps.v). *)
From Coq Require Import List NArith Bool Arith Lia Sorted Permutation.
From Verif Require Import Base LogFormatModel KeyModel KeyProofs BloomModel MemTableModel MemTableProofs LogMgrModel LogMgrProofs LogMgrProofs2 LogMgrProofs3 DbModel DbProofs
  LsmModel LsmProofs LsmProofs2 LsmProofs5 FullModel FullProofs IterModel IterSpec IterProofs LeafIterModel LeafIterProofs DbIterModel DbIterProofs DbIterProofs2 DbIterProofs3 DbIterProofs4 DbIterProofs5 LiveIterModel.
Import ListNotations.
Local Open Scope N_scope.

(** ** One memtable *)

Lemma latest_new : forall from upto rs r, valid_number upto = true -> upto < r_seq r -> latest_rec from upto (rs ++ [r]) = latest_rec from upto rs.
Proof.
  intros from upto rs r V L. unfold latest_rec. rewrite rev_app_distr. cbn [rev app find]. rewrite V. cbn [negb orb]. replace (r_seq r <=? upto) with false by lia. reflexivity.
Qed.
Lemma valid_new : forall from upto rs r, valid_number upto = true -> upto < r_seq r -> node_valid from upto (rs ++ [r]) = node_valid from upto rs.
Proof.
  intros from upto rs r V L. unfold node_valid. rewrite latest_new by assumption. destruct rs as [|y rs]; [|reflexivity]. cbn [app min_seq_of]. replace (upto <? r_seq r) with true by lia. cbn [negb andb]. now rewrite andb_false_r.
Qed.

Definition same_node (x : mki) (n m : node) : Prop := fst n = fst m /\ x_lat x n = x_lat x m.
Lemma push_same : forall x r l, valid_number (x_upto x) = true -> x_upto x < r_seq r -> Forall2 (same_node x) (filter (x_ok x) l) (filter (x_ok x) (fst (key_push r l))).
Proof.
  intros x r l V L. assert (Refl : forall l0, Forall2 (same_node x) l0 l0) by (intros l0; induction l0 as [|n l0 IH]; constructor; [split; reflexivity|exact IH]).
  assert (No : x_ok x (r_key r, [r]) = false) by (unfold x_ok; cbn [fst snd]; unfold node_valid; cbn [min_seq_of]; replace (x_upto x <? r_seq r) with true by lia; cbn [negb andb]; apply andb_false_r).
  induction l as [|[k rs] l IH]; cbn [key_push].
  - cbn [fst filter]. rewrite No. constructor.
  - destruct (kcmp (r_key r) k).
    + cbn [fst filter]. assert (E : x_ok x (k, rs ++ [r]) = x_ok x (k, rs)) by (unfold x_ok; cbn [fst snd]; now rewrite valid_new). rewrite E. destruct (x_ok x (k, rs)); [|apply Refl]. constructor; [|apply Refl].
      split; [reflexivity|]. unfold x_lat. cbn [snd]. now rewrite latest_new.
    + cbn [fst]. change (filter (x_ok x) ((r_key r, [r]) :: (k, rs) :: l)) with (if x_ok x (r_key r, [r]) then (r_key r, [r]) :: filter (x_ok x) ((k, rs) :: l) else filter (x_ok x) ((k, rs) :: l)). rewrite No. apply Refl.
    + destruct (key_push r l) as [t' b] eqn:E. cbn [fst filter] in *. destruct (x_ok x (k, rs)); [constructor; [split; reflexivity|exact IH]|exact IH].
Qed.
Lemma push_wf : forall r l, nwf l -> nwf (fst (key_push r l)).
Proof.
  intros r l. induction l as [|[k rs] l IH]; intros H; cbn [key_push].
  - intros n y [<-|[]] [<-|[]]. reflexivity.
  - destruct (kcmp (r_key r) k) eqn:E.
    + apply kcmp_eq in E. intros n y [<-|Hn] Hy; cbn [fst snd] in *; [|exact (H n y (or_intror Hn) Hy)]. apply in_app_iff in Hy as [Hy|[<-|[]]]; [exact (H (k, rs) y (or_introl eq_refl) Hy)|exact E].
    + intros n y [<-|Hn] Hy; [destruct Hy as [<-|[]]; reflexivity|exact (H n y Hn Hy)].
    + destruct (key_push r l) as [t' b] eqn:Ek. cbn [fst] in *. intros n y [<-|Hn] Hy; [exact (H (k, rs) y (or_introl eq_refl) Hy)|]. apply (IH (fun n0 y0 Hn0 Hy0 => H n0 y0 (or_intror Hn0) Hy0) n y Hn Hy).
Qed.
Lemma forall2_split : forall A (R : A -> A -> Prop) a n b l, Forall2 R (a ++ n :: b) l -> exists a' n' b', l = a' ++ n' :: b' /\ length a' = length a /\ R n n'.
Proof.
  intros A R a. induction a as [|y a IH]; intros n b l H; cbn [app] in H; inversion H as [|? z ? t H1 H2]; subst; [exists [], z, t; auto|].
  destruct (IH _ _ _ H2) as (a' & n' & b' & -> & E & Q). exists (z :: a'), n', b'. cbn [length app]. auto.
Qed.

Definition old_leaf (x : mki) (rs : list rec) : Prop := valid_number (x_upto x) = true /\ forall r, In r rs -> x_upto x < r_seq r.
Lemma rx_write : forall x l p r, valid_number (x_upto x) = true -> x_upto x < r_seq r -> RX x l p -> RX (x_write r x) l p.
Proof.
  intros x l p r V L (Hs & Hw & El & a & n & b & E & En & Ep). pose proof (push_same x r (x_nodes x) V L) as F. fold (x_vis x) in F.
  assert (Ev : x_vis (x_write r x) = filter (x_ok x) (fst (key_push r (x_nodes x)))) by reflexivity.
  split; [apply nsorted_keys, key_push_sorted, nsorted_keys, Hs|]. split; [now apply push_wf|]. split.
  - rewrite El, Ev. change (x_lat (x_write r x)) with (x_lat x). clear -F. induction F as [|u v ul vl [_ Q] F IH]; [reflexivity|]. cbn [map]. congruence.
  - rewrite E in F. destruct (forall2_split _ _ _ _ _ _ F) as (a' & n' & b' & E' & E2 & [Q _]). exists a', n', b'. rewrite Ev. split; [exact E'|]. split; [cbn [x_write x_cur]; congruence|congruence].
Qed.
Lemma rx_writes : forall rs x l p, old_leaf x rs -> RX x l p -> RX (x_writes rs x) l p /\ x_upto (x_writes rs x) = x_upto x.
Proof.
  induction rs as [|r rs IH]; intros x l p [V L] H; [split; [exact H|reflexivity]|]. cbn [x_writes fold_left]. apply (IH (x_write r x)); [|apply rx_write; [exact V|apply L; now left|exact H]].
  split; [exact V|]. intros y Hy. apply L. now right.
Qed.

(** ** The leaf with its writer *)
Definition RV (v : lvi) (l : list rec) (p : nat) : Prop := RX (v_it v) l p /\ forall rs, In rs (v_todo v) -> old_leaf (v_it v) rs.
Definition begin_key (t : rec) : Prop := r_key t = [].
Lemma rv_now : forall v l p, RV v l p -> RV (v_now v) l p.
Proof.
  intros v l p [H1 H2]. unfold v_now. destruct (v_todo v) as [|rs t] eqn:E; [split; [exact H1|]; rewrite E; intros rs []|]. destruct (rx_writes rs (v_it v) l p (H2 rs (or_introl eq_refl)) H1) as [A B].
  split; [exact A|]. intros rs' Hr. cbn [v_it v_todo] in *. destruct (H2 rs' (or_intror Hr)) as [V L]. split; rewrite B; [exact V|exact L].
Qed.
Lemma rv_do : forall call (P : mki -> bool -> Prop) v l p, (forall x x' b, call x = Some (x', b) -> exists k, x' = x_move x k) ->
  (forall x, RX x l p -> exists x' b, call x = Some (x', b) /\ P x' b) -> RV v l p ->
  exists x' b, v_do call v = Some (mkV x' (v_todo (v_now v)), b) /\ P x' b /\ forall rs, In rs (v_todo (v_now v)) -> old_leaf x' rs.
Proof.
  intros call P v l p Hm Hc H. apply rv_now in H. destruct H as [H1 H2]. destruct (Hc _ H1) as (x' & b & E & Q). exists x', b. unfold v_do. cbv zeta. rewrite E. split; [reflexivity|]. split; [exact Q|].
  destruct (Hm _ _ _ E) as [k ->]. exact H2.
Qed.
Lemma rv_same : forall x l q t, RX x l q -> (forall rs, In rs t -> old_leaf x rs) -> RV (mkV x t) l q.
Proof. intros x l q t A B. split; assumption. Qed.
Lemma rv_get : forall v l p, RV v l p -> nth_error l p = Some (v_get v) /\ csorted ByKey l.
Proof. intros v l p H. apply rv_now in H. unfold v_get. apply rx_get. exact (proj1 H). Qed.
Lemma rv_next : forall v l p, RV v l p -> exists v', v_next v = Some (v', Nat.ltb (S p) (length l)) /\ RV v' l (if Nat.ltb (S p) (length l) then S p else p).
Proof.
  intros v l p H. destruct (rv_do x_next (fun x' b => b = Nat.ltb (S p) (length l) /\ RX x' l (if Nat.ltb (S p) (length l) then S p else p)) v l p x_next_move) as (x' & b & E & [-> R] & O); [|exact H|].
  - intros x Hx. destruct (rx_next x l p Hx) as (x' & E & R). exists x', (Nat.ltb (S p) (length l)). auto.
  - eexists. split; [exact E|]. now apply rv_same.
Qed.
Lemma rv_prev : forall v l p, RV v l p -> exists v', v_prev v = Some (v', Nat.ltb 0 p) /\ RV v' l (pred p).
Proof.
  intros v l p H. destruct (rv_do x_prev (fun x' b => b = Nat.ltb 0 p /\ RX x' l (pred p)) v l p x_prev_move) as (x' & b & E & [-> R] & O); [|exact H|].
  - intros x Hx. destruct (rx_prev x l p Hx) as (x' & E & R). exists x', (Nat.ltb 0 p). auto.
  - eexists. split; [exact E|]. now apply rv_same.
Qed.
Lemma rv_end : forall v l p, RV v l p -> exists v' q, v_to_end v = Some (v', true) /\ RV v' l q /\ S q = length l.
Proof.
  intros v l p H. destruct (rv_do x_to_end (fun x' b => b = true /\ exists q, RX x' l q /\ S q = length l) v l p x_end_move) as (x' & b & E & [-> (q & R & Q)] & O); [|exact H|].
  - intros x Hx. destruct (rx_end x l p Hx) as (x' & q & E & R & Q). exists x', true. split; [exact E|]. split; [reflexivity|]. now exists q.
  - eexists. exists q. split; [exact E|]. split; [|exact Q]. now apply rv_same.
Qed.
Lemma rv_greater : forall t v l p, begin_key t -> RV v l p -> exists v' q, v_seek true t v = Some (v', true) /\ RV v' l q /\ at_greater ByKey t l (v_get v').
Proof.
  intros t v l p Ht H. destruct (rv_do (x_seek true t) (fun x' b => b = true /\ exists q, RX x' l q /\ at_greater ByKey t l (x_get x')) v l p (x_seek_move true t)) as (x' & b & E & [-> (q & R & Q)] & O); [|exact H|].
  - intros x Hx. destruct (rx_get x l p Hx) as [G _]. apply nth_error_In in G. destruct (rx_seek_greater x l p t Hx (or_introl Ht)) as (x' & q & E & R & Q).
    + left. exists (x_get x). split; [exact G|]. unfold le, cmpr. rewrite Ht. apply kle_nil.
    + exists x', true. split; [exact E|]. split; [reflexivity|]. exists q. now split.
  - eexists. exists q. split; [exact E|]. pose proof (rv_same x' l q _ R O) as RV'. split; [exact RV'|]. destruct (rv_get _ _ _ RV') as [G1 _]. destruct (rx_get _ _ _ R) as [G2 _]. replace (v_get (mkV x' (v_todo (v_now v)))) with (x_get x') by congruence. exact Q.
Qed.
Lemma rv_smaller : forall t v l p, False -> RV v l p -> exists v' q, v_seek false t v = Some (v', true) /\ RV v' l q /\ at_smaller ByKey t l (v_get v').
Proof. intros t v l p []. Qed.

Lemma x_init_upto : forall nodes start end_ a b x, x_init nodes start end_ a b = Some x -> x_upto x = b.
Proof. intros nodes start end_ a b x. unfold x_init. cbv zeta. destruct (fwd_valid _ _); [|discriminate]. intros H. injection H as <-. reflexivity. Qed.
Lemma log_leaves_upto : forall hash n0 pre h part F g start end_ ls, GI hash n0 pre (h ++ part) F g -> lastseq (h ++ part) + 1 < NIL ->
  (part = [] /\ g_bar g = 0) \/ (h <> [] /\ g_bar g = lastseq h) -> h <> [] -> log_leaves start end_ g = Some ls -> forall x, In x ls -> x_upto x <= lastseq h /\ valid_number (x_upto x) = true.
Proof.
  intros hash n0 pre h part F g start end_ ls H Hl HB Hne E x Hx. unfold log_leaves, itr_range in E. rewrite (avail_spec _ _ _ _ _ _ H Hl) in E. rewrite nil_invalid in E. cbv zeta in E. cbn [andb] in E.
  assert (Em : match h ++ part with [] => NIL | _ => lastseq (h ++ part) end = lastseq (h ++ part)) by (destruct h; [congruence|reflexivity]). rewrite Em in E.
  assert (Lh : lastseq h <= lastseq (h ++ part)).
  { destruct (exists_last Hne) as (u & z & ->). rewrite lastseq_snoc. apply lastseq_ge; [exact (gi_asc _ _ _ _ _ _ H)|]. apply in_or_app. left. apply in_or_app. right. now left. }
  assert (Lp : 1 <= lastseq h).
  { destruct (exists_last Hne) as (u & z & ->). rewrite lastseq_snoc. apply (gi_pos _ _ _ _ _ _ H). apply in_or_app. left. apply in_or_app. right. now left. }
  set (b := if negb (g_bar g =? 0) && (g_bar g <? lastseq (h ++ part)) then g_bar g else lastseq (h ++ part)) in E.
  assert (Eb : b = lastseq h).
  { unfold b. destruct HB as [[-> B]|[_ B]]; rewrite B; [rewrite app_nil_r; reflexivity|]. replace (lastseq h =? 0) with false by lia. cbn [negb andb]. destruct (N.ltb_spec (lastseq h) (lastseq (h ++ part))); lia. }
  clearbody b. subst b. destruct (lastseq h <? (if F =? 0 then 0 else F + 1)); [injection E as <-; destruct Hx|].
  destruct (itr_files _ _ g) as [[lo hi]|]; [|discriminate]. destruct (files_between _ lo (g_files g)) as [fs|]; [|discriminate]. injection E as <-. apply some_of_in, in_map_iff in Hx as (f & Ex & _).
  rewrite (x_init_upto _ _ _ _ _ _ Ex). split; [lia|]. unfold valid_number. apply negb_true_iff. lia.
Qed.

Lemma nth_number : forall A (l : list A) i x, In (i, x) (number l) -> nth_error l i = Some x.
Proof.
  intros A l i x H. unfold number in H. assert (G : forall k (l0 : list A), In (i, x) (combine (seq k (length l0)) l0) -> exists j, i = (k + j)%nat /\ nth_error l0 j = Some x).
  { intros k l0. revert k. induction l0 as [|y l0 IH]; intros k Q; [destruct Q|]. cbn [length seq combine] in Q. destruct Q as [Q|Q]; [injection Q as <- <-; exists O; split; [lia|reflexivity]|].
    destruct (IH (S k) Q) as (j & -> & Ej). exists (S j). split; [lia|exact Ej]. }
  destruct (G O l H) as (j & -> & Ej). exact Ej.
Qed.
Lemma number_fst : forall A (l : list A), map snd (number l) = l.
Proof.
  intros A l. unfold number. generalize O. induction l as [|x l IH]; intros k; [reflexivity|]. cbn [length seq combine map snd]. now rewrite IH.
Qed.

Theorem live_iter_spec : forall hash part c tc h f lo hi l todo both, cfg_ok c -> tcfg_ok part tc -> freach hash part c tc h f -> live h lo hi l ->
  (forall i rs r, In rs (todo i) -> In r rs -> lastseq h < r_seq r) -> (both = true -> each_leaf two_keys lo hi f) ->
  exists n, forall fuel, (n <= fuel)%nat -> exists it, db_itr_live fuel todo lo hi (d_log (fd_db f)) (fd_lsm f) = Some it /\
    match it with
    | None => l = []
    | Some d => d_get lvi v_get ByKey d = at_pos l (opened l) /\
        forall ms, (forall t, In (SeekG t) ms -> r_key t = []) -> (forall t, ~ In (SeekS t) ms) -> (both = false -> one_direction true ms = true) ->
          exists out, d_moves lvi v_get v_next v_prev v_seek v_to_end ByKey fuel ms d = Some out /\ ctrace ByKey l (opened l) ms out
    end.
Proof.
  intros hash part c tc h f lo hi l todo both Cok Tok H Hlive Htodo Htwo.
  destruct (freach_both _ _ _ _ _ _ H) as [H1 H2]. destruct (reach_inv hash c h (fd_db f) Cok H1) as [(n0 & pre & F & pt & GI0 & Et & Hl & HFn & HF & _ & HB)].
  destruct (lreach_inv hash part tc _ _ Tok H2) as [LI0 LV].
  assert (HB' : (pt = [] /\ g_bar (d_log (fd_db f)) = 0) \/ (h <> [] /\ g_bar (d_log (fd_db f)) = lastseq h)).
  { destruct (d_bat (fd_db f)) as [[todo0 done]|]; [right; destruct HB as [_ HB]; split; apply HB|left; exact HB]. }
  destruct (log_leaves_spec hash n0 pre h pt F (d_log (fd_db f)) lo hi GI0 Hl HF HB') as (ls0 & El & Q1 & Q2 & Q3).
  destruct (tab_leaves_spec hash part tc _ (fd_lsm f) lo hi LI0 LV (proj2 (proj2 Tok))) as (P1 & P2 & P3).
  set (lt := tab_leaves lo hi (fd_lsm f)) in *.
  set (ls := map (fun x => mkV (snd x) (todo (fst x))) (number ls0)). set (vl := fun v => x_list (v_it v)).
  assert (Ea : flat_map vl ls = flat_map x_list ls0).
  { unfold ls, vl. rewrite !flat_map_concat_map, map_map. cbn [v_it]. rewrite <- (map_map snd x_list), number_fst. reflexivity. }
  set (a := flat_map vl ls). set (b := flat_map t_docs lt).
  assert (Hs : sorted_seq h). { pose proof (gi_asc _ _ _ _ _ _ GI0) as S0. unfold sorted_seq in *. rewrite map_app in S0. apply SS_app_inv in S0. tauto. }
  assert (A1 : forall r, In r a -> In r h /\ is_cmd r = false /\ F < r_seq r /\ in_range lo hi (r_key r) = true).
  { intros r Hr. unfold a in Hr. rewrite Ea in Hr. apply in_flat_map in Hr as (x & Hx & Hr). exact (Q2 x r Hx Hr). }
  assert (A2 : forall r, last_write h (r_key r) = Some r -> F < r_seq r -> in_range lo hi (r_key r) = true -> In r a).
  { intros r R1 R2 R3. unfold a. rewrite Ea. apply in_flat_map. exact (Q3 r R1 R2 R3). }
  rewrite Et in P2, P3.
  assert (B1 : forall r, In r b -> In r (filter (fun r => r_seq r <=? F) h) /\ is_cmd r = false /\ in_range lo hi (r_key r) = true).
  { intros r Hr. apply in_flat_map in Hr as (x & Hx & Hr). exact (P2 x r Hx Hr). }
  assert (B2 : forall r, newest_write (filter (fun r => r_seq r <=? F) h) (r_key r) = Some r -> in_range lo hi (r_key r) = true -> In r b \/ (is_del r = true /\ forall x, In x b -> r_key x <> r_key r)).
  { intros r R1 R2. destruct (P3 r R1 R2) as [(t & T1 & T2)|(D & Hno)]; [left; apply in_flat_map; now exists t|right]. split; [exact D|]. intros x Hx. apply in_flat_map in Hx as (t & T1 & T2). exact (Hno t x T1 T2). }
  assert (U : uniq ByKey (a ++ b)).
  { intros x y Hx Hy _ _ E. apply (sorted_seq_inj h); [exact Hs| | |exact E].
    - apply in_app_iff in Hx as [Hx|Hx]; [apply (A1 x Hx)|destruct (B1 x Hx) as [Q _]; apply filter_In in Q; tauto].
    - apply in_app_iff in Hy as [Hy|Hy]; [apply (A1 y Hy)|destruct (B1 y Hy) as [Q _]; apply filter_In in Q; tauto]. }
  assert (Two : forall l0, (both = true -> two_keys l0) -> two ByKey true both l0).
  { intros l0 Hk _ Hb. destruct (Hk Hb) as (x & y & X1 & X2 & X3). exists x, y. auto. }
  assert (L0 : forall v, In v ls -> RV v (vl v) 0 /\ two ByKey true both (vl v)).
  { intros v Hv. apply in_map_iff in Hv as ([i x] & <- & Hx). cbn [fst snd vl v_it]. unfold vl. cbn [v_it]. assert (Hx' : In x ls0) by (apply nth_number in Hx; exact (nth_error_In _ _ Hx)).
    destruct (Q1 x Hx') as (R0 & _). split; [|apply Two; intros Hb; exact (proj1 (Htwo Hb) ls0 x El Hx')]. split; [exact R0|]. cbn [v_it v_todo]. intros rs Hrs.
    assert (Hne : h <> []). { intros E. destruct (rx_get _ _ _ R0) as [G _]. apply nth_error_In in G. destruct (Q2 x _ Hx' G) as (G1 & _). rewrite E in G1. destruct G1. }
    destruct (log_leaves_upto hash n0 pre h pt F _ lo hi ls0 GI0 Hl HB' Hne El x Hx') as [Up Vp]. split; [exact Vp|]. intros r Hr. specialize (Htodo i rs r Hrs Hr). lia. }
  assert (T0 : forall t, In t lt -> RT ByKey (fun _ => False) t (t_docs t) 0 /\ two ByKey true both (t_docs t)).
  { intros t Ht. destruct (P1 t Ht) as (E0 & Ne & Cs). split; [|apply Two; intros Hb; exact (proj2 (Htwo Hb) t Ht)]. split; [|intros q []].
    split; [reflexivity|]. split; [exact E0|]. split; [destruct (t_docs t); [congruence|cbn; lia]|exact Cs]. }
  assert (Rch : forall t l0, begin_key t -> l0 <> [] -> reaches ByKey t (newest_of ByKey l0)).
  { intros t l0 Ht Hne. destruct l0 as [|r l0]; [congruence|]. destruct (newest_of_cover ByKey (r :: l0) r (or_introl eq_refl)) as (z & Z1 & _). exists z. split; [exact Z1|]. unfold le, cmpr. unfold begin_key in Ht. rewrite Ht. apply kle_nil. }
  assert (Emp : forall (l0 : list rec) Ls, (l0 = [] -> forall n, Ls n = []) -> tops ByKey begin_key Ls (newest_of ByKey l0)).
  { intros l0 Ls HL t Ht. destruct l0 as [|r l0]; [right|left; apply Rch; [exact Ht|discriminate]]. intros n n' x y Hx. rewrite (HL eq_refl n) in Hx. destruct Hx. }
  assert (FN : forall A (lf : A -> list rec) (l0 : list A), flat_map lf l0 = [] -> forall n, nth_list lf l0 n = []).
  { intros A lf l0 E n. unfold nth_list. destruct (nth_error l0 n) as [x|] eqn:En; [|reflexivity]. apply nth_error_In in En. destruct (lf x) as [|r t] eqn:Ex; [reflexivity|].
    assert (In r (flat_map lf l0)) as Q by (apply in_flat_map; exists x; split; [exact En|rewrite Ex; now left]). rewrite E in Q. destruct Q. }
  assert (T1 : tops ByKey begin_key (nth_list vl ls) (newest_of ByKey a)) by (apply Emp, FN).
  assert (T2 : tops ByKey begin_key (nth_list t_docs lt) (newest_of ByKey b)) by (apply Emp, FN).
  assert (T3 : tops ByKey begin_key (two_lists ByKey a b) (newest_of ByKey (newest_of ByKey a ++ newest_of ByKey b))).
  { apply Emp. intros E n. apply app_eq_nil in E as [E1 E2]. unfold two_lists. destruct n; assumption. }
  exists (length (a ++ b)). intros fuel Hf.
  pose proof (d_open lvi v_get v_next v_prev v_seek v_to_end ByKey begin_key (fun _ => False) RV rv_get rv_next rv_prev rv_end both fuel vl ls lt L0 T0 U T1 T2 T3 Hf) as O.
  unfold db_itr_live. rewrite El. fold ls. unfold tab_itr. fold lt.
  assert (Fin : forall d M i, merged ByKey (a ++ b) M -> (length M <= length (a ++ b))%nat -> DInv lvi v_get ByKey begin_key (fun _ => False) RV true both d M i ->
    here ByKey M i (match filter (shown ByKey) M with [] => After | _ => At 0 end) ->
    d_get lvi v_get ByKey d = at_pos l (opened l) /\ forall ms, (forall t, In (SeekG t) ms -> r_key t = []) -> (forall t, ~ In (SeekS t) ms) -> (both = false -> one_direction true ms = true) ->
          exists out, d_moves lvi v_get v_next v_prev v_seek v_to_end ByKey fuel ms d = Some out /\ ctrace ByKey l (opened l) ms out).
  { intros d M i Mg Ml D Hh. pose proof (merged_live h lo hi F a b M l Hs A1 A2 B1 B2 Mg Hlive) as Ef. rewrite Ef in Hh. fold (opened l) in Hh. split.
    - pose proof (here_get lvi v_get ByKey begin_key (fun _ => False) RV true both d M i _ D Hh) as Q. rewrite Ef in Q. exact Q.
    - intros ms Ha Hb Ho. assert (As : Forall (asked begin_key (fun _ => False)) ms) by (apply Forall_asked; [exact Ha|exact Hb]). destruct both.
      + pose proof (moves_both lvi v_get v_next v_prev v_seek v_to_end ByKey begin_key (fun _ => False) RV rv_get rv_next rv_prev rv_end rv_greater rv_smaller fuel ms d M i _ D Hh ltac:(lia) As) as Q. rewrite Ef in Q. exact Q.
      + pose proof (moves_one lvi v_get v_next v_prev v_seek v_to_end ByKey begin_key (fun _ => False) RV rv_get rv_next rv_prev rv_end rv_greater rv_smaller fuel ms true d M i _ D Hh ltac:(lia) As (Ho eq_refl)) as Q. rewrite Ef in Q. exact Q. }
  destruct ls as [|x0 ls1] eqn:Els; destruct lt as [|t0 lt0] eqn:Elt.
  - exists None. split; [exact O|]. rewrite <- (merged_live h lo hi F a b [] l Hs A1 A2 B1 B2); [reflexivity| |exact Hlive]. split; [intros i j x y _ Hx; destruct i; discriminate|]. intros r. split; [intros []|intros [[] _]].
  - destruct O as (d & M & i & E & Mg & Ml & D & Hh). exists (Some d). split; [exact E|]. exact (Fin d M i Mg Ml D Hh).
  - destruct O as (d & M & i & E & Mg & Ml & D & Hh). exists (Some d). split; [exact E|]. exact (Fin d M i Mg Ml D Hh).
  - destruct O as (d & M & i & E & Mg & Ml & D & Hh). exists (Some d). split; [exact E|]. exact (Fin d M i Mg Ml D Hh).
Qed.
