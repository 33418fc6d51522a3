(** The iterator over a reachable database is a cursor over its live keys (proofs; statements in
    IterProps.v). *)
From Coq Require Import List NArith Bool Arith Lia Sorted Permutation.
From Verif Require Import Base LogFormatModel KeyModel KeyProofs BloomModel MemTableModel MemTableProofs LogMgrModel LogMgrProofs LogMgrProofs2 LogMgrProofs3 DbModel DbProofs
  LsmModel LsmProofs LsmProofs2 LsmProofs5 FullModel FullProofs IterModel IterSpec IterProofs LeafIterModel LeafIterProofs DbIterModel DbIterProofs DbIterProofs2 DbIterProofs3 DbIterProofs4.
Import ListNotations.
Local Open Scope N_scope.

(** ** Specification *)

(** The live keys from [lo] to [hi] (empty: no bound), in order, each with the record DB::get must
    return for it. *)
Definition live (h : list rec) (lo hi : key) (l : list rec) : Prop :=
  StronglySorted (fun a b => klt (r_key a) (r_key b)) l /\
  forall r, In r l <-> spec_get h (r_key r) = Ok r /\ kle lo (r_key r) /\ (hi = [] \/ kle (r_key r) hi).
(** The cursor of a new iterator. *)
Definition opened (l : list rec) : cpos := match l with [] => After | _ => At 0 end.

(** ** Proofs *)

Lemma sorted_same : forall A (R : A -> A -> Prop), (forall x, ~ R x x) -> (forall x y, R x y -> ~ R y x) ->
  forall a b, StronglySorted R a -> StronglySorted R b -> (forall x, In x a <-> In x b) -> a = b.
Proof.
  intros A R Irr Asym a. induction a as [|x a IH]; intros b Ha Hb H.
  - destruct b as [|y b]; [reflexivity|]. destruct (proj2 (H y) (or_introl eq_refl)).
  - destruct b as [|y b]; [destruct (proj1 (H x) (or_introl eq_refl))|].
    apply StronglySorted_inv in Ha as [Ha Fa]. apply StronglySorted_inv in Hb as [Hb Fb]. rewrite Forall_forall in Fa, Fb.
    assert (x = y) as ->.
    { destruct (proj1 (H x) (or_introl eq_refl)) as [E|Hx]; [now symmetry|]. destruct (proj2 (H y) (or_introl eq_refl)) as [E|Hy]; [exact E|]. destruct (Asym _ _ (Fa y Hy) (Fb x Hx)). }
    f_equal. apply IH; [exact Ha|exact Hb|]. intros z. split; intros Hz.
    + destruct (proj1 (H z) (or_intror Hz)) as [<-|Hz']; [destruct (Irr _ (Fa _ Hz))|exact Hz'].
    + destruct (proj2 (H z) (or_intror Hz)) as [<-|Hz']; [destruct (Irr _ (Fb _ Hz))|exact Hz'].
Qed.

Lemma in_range_spec : forall lo hi k, in_range lo hi k = true <-> kle lo k /\ (hi = [] \/ kle k hi).
Proof.
  intros lo hi k. unfold in_range. rewrite andb_true_iff, orb_true_iff, !kleb_true. unfold is_nil. destruct hi; [tauto|]. split; intros [A [B|B]]; try discriminate; tauto.
Qed.
Lemma spec_get_ok : forall h k r, spec_get h k = Ok r <-> last_write h k = Some r /\ is_ins r = true.
Proof.
  intros h k r. unfold spec_get. destruct (last_write h k) as [x|]; [|split; [discriminate|intros [H _]; discriminate]]. destruct (is_ins x) eqn:E.
  - split; [intros H; injection H as ->; now split|intros [H _]; now injection H as ->].
  - split; [discriminate|intros [H H2]; injection H as ->; congruence].
Qed.

(** From the leaves to the live keys. *)
Lemma merged_live : forall h lo hi F (a b M l : list rec), sorted_seq h ->
  (forall r, In r a -> In r h /\ is_cmd r = false /\ F < r_seq r /\ in_range lo hi (r_key r) = true) ->
  (forall r, last_write h (r_key r) = Some r -> F < r_seq r -> in_range lo hi (r_key r) = true -> In r a) ->
  (forall r, In r b -> In r (filter (fun r => r_seq r <=? F) h) /\ is_cmd r = false /\ in_range lo hi (r_key r) = true) ->
  (forall r, newest_write (filter (fun r => r_seq r <=? F) h) (r_key r) = Some r -> in_range lo hi (r_key r) = true ->
     In r b \/ (is_del r = true /\ forall x, In x b -> r_key x <> r_key r)) ->
  merged ByKey (a ++ b) M -> live h lo hi l -> filter (shown ByKey) M = l.
Proof.
  intros h lo hi F a b M l Hs A1 A2 B1 B2 [Mc Mm] [Ls Lm].
  assert (Hh : forall r, In r (a ++ b) -> In r h /\ is_cmd r = false /\ in_range lo hi (r_key r) = true).
  { intros r Hr. apply in_app_iff in Hr as [Hr|Hr]; [destruct (A1 r Hr) as (? & ? & ? & ?); auto|]. destruct (B1 r Hr) as (H1 & H2 & H3). apply filter_In in H1 as [H1 _]. auto. }
  assert (Same : forall x y, le ByKey x y -> le ByKey y x -> r_key x = r_key y) by (intros x y; apply kle_antisym).
  assert (SameL : forall x y, r_key x = r_key y -> le ByKey x y) by (intros x y E; unfold le, cmpr; rewrite E; apply kle_refl).
  assert (LW : forall x, In x h -> is_cmd x = false -> exists w, last_write h (r_key x) = Some w /\ r_key w = r_key x /\ is_cmd w = false /\ r_seq x <= r_seq w).
  { intros x Hx Hc. destruct (last_write h (r_key x)) as [w|] eqn:E.
    - exists w. split; [reflexivity|]. assert (Q := E). apply newest_write_in in Q as (Q1 & Q2 & Q3). split; [exact Q2|]. split; [exact Q3|].
      apply (newest_le (fun _ => (0, 0)) h NIL (r_key x) w); [exact Hs|now rewrite newest_last_write| |reflexivity]. apply filter_In. split; [exact Hx|]. now rewrite keqb_refl, Hc.
    - exfalso. unfold last_write in E. pose proof (find_none _ _ E x ltac:(now apply -> in_rev)) as Q. cbn beta in Q. rewrite keqb_refl, Hc in Q. discriminate. }
  (* the newest write below F *)
  assert (LF : forall w k, last_write h k = Some w -> r_seq w <= F -> newest_write (filter (fun r => r_seq r <=? F) h) k = Some w).
  { intros w k E Hw. unfold newest_write. unfold last_write in E. rewrite <- filter_rev. revert E. induction (rev h) as [|x t IH]; intros E; [discriminate|].
    cbn [find filter] in *. destruct (keqb (r_key x) k && negb (is_cmd x)) eqn:E3.
    - injection E as <-. replace (r_seq x <=? F) with true by lia. cbn [find]. rewrite E3. reflexivity.
    - destruct (r_seq x <=? F); cbn [find]; rewrite ?E3; apply IH; exact E. }
  apply (sorted_same _ (fun a b => klt (r_key a) (r_key b))).
  - intros x. apply klt_irrefl.
  - intros x y. apply klt_asym.
  - assert (StronglySorted (fun a b => klt (r_key a) (r_key b)) M) as Sm.
    { clear -Mc. induction M as [|x M IH]; [constructor|]. constructor.
      - apply IH. intros i j u v Hij Hu Hv. apply (Mc (S i) (S j)); [lia|exact Hu|exact Hv].
      - rewrite Forall_forall. intros y Hy. apply In_nth_error in Hy as [j Hj]. apply (Mc 0%nat (S j)); [lia|reflexivity|exact Hj]. }
    now apply SS_filter.
  - exact Ls.
  - intros r. rewrite filter_In, Lm, Mm, spec_get_ok. cbn [shown]. rewrite <- in_range_spec. split.
    + intros [[Hr Hmax] Hi]. destruct (Hh r Hr) as (Rh & Rc & Rin). split; [|exact Rin]. split; [|exact Hi].
      destruct (LW r Rh Rc) as (w & Ew & Kw & Cw & Sw). rewrite Ew. f_equal.
      assert (Wh : In w h) by exact (last_write_in _ _ _ Ew); apply (sorted_seq_inj h); [exact Hs|exact Wh|exact Rh|].
      assert (In w (a ++ b) -> r_seq w = r_seq r) as Fin by (intros Hw; specialize (Hmax w Hw (SameL _ _ Kw) (SameL _ _ (eq_sym Kw)) eq_refl); lia).
      rewrite <- Kw in Ew, Rin; destruct (N.lt_ge_cases F (r_seq w)) as [L|L]; [apply Fin, in_or_app; left; now apply A2|].
      destruct (B2 w (LF w _ Ew L) Rin) as [Hw|[_ Hno]]; [apply Fin, in_or_app; now right|].
      exfalso; apply in_app_iff in Hr as [Hr|Hr]; [destruct (A1 r Hr) as (_ & _ & HF & _); lia|exact (Hno r Hr (eq_sym Kw))].
    + intros [[Hw Hi] Hin]. split; [|exact Hi]. split.
      * apply in_or_app. destruct (N.lt_ge_cases F (r_seq r)) as [L|L]; [left; now apply A2|]. destruct (B2 r (LF r _ Hw L) Hin) as [Hb|[D _]]; [now right|]. unfold is_ins, is_del in *. apply N.eqb_eq in Hi, D. rewrite Hi in D. discriminate.
      * intros x Hx L1 L2 _. destruct (Hh x Hx) as (Xh & Xc & _). destruct (LW x Xh Xc) as (w & Ew & Kw & _ & Sw). rewrite (Same _ _ L1 L2) in Ew. rewrite Hw in Ew. injection Ew as <-. exact Sw.
Qed.

(** ** Conditions on the leaves *)

(** The iterator's leaves: one per log file and one per table with something to show. *)
Definition each_leaf (P : list rec -> Prop) (lo hi : key) (f : fdb) : Prop :=
  (forall ls x, log_leaves lo hi (d_log (fd_db f)) = Some ls -> In x ls -> P (x_list x)) /\
  (forall t, In t (tab_leaves lo hi (fd_lsm f)) -> P (t_docs t)).
Definition two_keys (l : list rec) : Prop := exists x y, In x l /\ In y l /\ klt (r_key x) (r_key y).

(** seek(t, GREATER) can be served: a log file of the iterator shows a key not below [t] or has no
    such key at all; and the log files together, and the tables together, show one. *)
Definition up_ok (lo hi : key) (f : fdb) (t : rec) : Prop :=
  (r_key t = [] \/ lo = [] \/ kle lo (r_key t)) /\
  (forall ls, log_leaves lo hi (d_log (fd_db f)) = Some ls ->
     (forall x, In x ls -> (exists r, In r (x_list x) /\ kle (r_key t) (r_key r)) \/ forall n, In n (x_nodes x) -> klt (fst n) (r_key t)) /\
     (ls = [] \/ exists x r, In x ls /\ In r (x_list x) /\ kle (r_key t) (r_key r))) /\
  (tab_leaves lo hi (fd_lsm f) = [] \/ exists u r, In u (tab_leaves lo hi (fd_lsm f)) /\ In r (t_docs u) /\ kle (r_key t) (r_key r)).
(** seek(t, SMALLER) can be served: every leaf shows a key not above [t]. *)
Definition down_ok (lo hi : key) (f : fdb) (t : rec) : Prop :=
  r_key t <> [] /\ (hi = [] \/ kle (r_key t) hi) /\ each_leaf (fun l => exists r, In r l /\ kle (r_key r) (r_key t)) lo hi f.

Lemma begin_ok : forall hash part c tc h f lo hi t, cfg_ok c -> tcfg_ok part tc -> freach hash part c tc h f -> r_key t = [] -> up_ok lo hi f t.
Proof.
  intros hash part c tc h f lo hi t Cok Tok H Hk.
  destruct (freach_both _ _ _ _ _ _ H) as [H1 H2]. destruct (reach_inv hash c h (fd_db f) Cok H1) as [(n0 & pre & F & pt & GI0 & Et & Hl & HFn & HF & _ & HB)].
  destruct (lreach_inv hash part tc _ _ Tok H2) as [LI0 LV].
  assert (HB' : (pt = [] /\ g_bar (d_log (fd_db f)) = 0) \/ (h <> [] /\ g_bar (d_log (fd_db f)) = lastseq h)).
  { destruct (d_bat (fd_db f)) as [[todo done]|]; [right; destruct HB as [_ HB]; split; apply HB|left; exact HB]. }
  destruct (log_leaves_spec hash n0 pre h pt F (d_log (fd_db f)) lo hi GI0 Hl HF HB') as (ls & El & Q1 & _).
  destruct (tab_leaves_spec hash part tc _ (fd_lsm f) lo hi LI0 LV (proj2 (proj2 Tok))) as (P1 & _).
  assert (K0 : forall r, kle (r_key t) (r_key r)) by (intros r; rewrite Hk; apply kle_nil).
  assert (A : forall x, In x ls -> exists r, In r (x_list x) /\ kle (r_key t) (r_key r)).
  { intros x Hx. destruct (Q1 x Hx) as (R0 & _). destruct (rx_get x _ _ R0) as [E _]. apply nth_error_In in E. exists (x_get x). split; [exact E|apply K0]. }
  split; [now left|]. split.
  - intros ls' E. rewrite El in E. injection E as <-. split; [intros x Hx; left; now apply A|]. destruct ls as [|x ls]; [now left|right]. destruct (A x (or_introl eq_refl)) as (r & R1 & R2). exists x, r. split; [now left|auto].
  - destruct (tab_leaves lo hi (fd_lsm f)) as [|u us]; [now left|right]. destruct (P1 u (or_introl eq_refl)) as (_ & Ne & _). destruct (t_docs u) as [|r ds] eqn:E; [congruence|]. exists u, r. rewrite E. split; [now left|]. split; [now left|apply K0].
Qed.

Theorem iter_spec : forall hash part c tc h f lo hi l (TG TS : rec -> Prop) both, cfg_ok c -> tcfg_ok part tc -> freach hash part c tc h f -> live h lo hi l ->
  (forall t, TG t -> up_ok lo hi f t) -> (forall t, TS t -> down_ok lo hi f t) -> (both = true -> each_leaf two_keys lo hi f) ->
  exists n, forall fuel, (n <= fuel)%nat -> exists it, db_itr fuel lo hi (d_log (fd_db f)) (fd_lsm f) = Some it /\
    match it with
    | None => l = []
    | Some d => d_get mki x_get ByKey d = at_pos l (opened l) /\
        forall ms, Forall (asked TG TS) ms -> (both = false -> one_direction true ms = true) ->
          exists out, d_moves mki x_get x_next x_prev x_seek x_to_end ByKey fuel ms d = Some out /\ ctrace ByKey l (opened l) ms out
    end.
Proof.
  intros hash part c tc h f lo hi l TG TS both Cok Tok H Hlive HG HS Htwo.
  destruct (freach_both _ _ _ _ _ _ H) as [H1 H2]. destruct (reach_inv hash c h (fd_db f) Cok H1) as [(n0 & pre & F & pt & GI0 & Et & Hl & HFn & HF & _ & HB)].
  destruct (lreach_inv hash part tc _ _ Tok H2) as [LI0 LV].
  assert (HB' : (pt = [] /\ g_bar (d_log (fd_db f)) = 0) \/ (h <> [] /\ g_bar (d_log (fd_db f)) = lastseq h)).
  { destruct (d_bat (fd_db f)) as [[todo done]|]; [right; destruct HB as [_ HB]; split; apply HB|left; exact HB]. }
  destruct (log_leaves_spec hash n0 pre h pt F (d_log (fd_db f)) lo hi GI0 Hl HF HB') as (ls & El & Q1 & Q2 & Q3).
  destruct (tab_leaves_spec hash part tc _ (fd_lsm f) lo hi LI0 LV (proj2 (proj2 Tok))) as (P1 & P2 & P3).
  set (lt := tab_leaves lo hi (fd_lsm f)) in *. set (a := flat_map x_list ls). set (b := flat_map t_docs lt).
  assert (Hs : sorted_seq h). { pose proof (gi_asc _ _ _ _ _ _ GI0) as S0. unfold sorted_seq in *. rewrite map_app in S0. apply SS_app_inv in S0. tauto. }
  assert (A1 : forall r, In r a -> In r h /\ is_cmd r = false /\ F < r_seq r /\ in_range lo hi (r_key r) = true).
  { intros r Hr. apply in_flat_map in Hr as (x & Hx & Hr). exact (Q2 x r Hx Hr). }
  assert (A2 : forall r, last_write h (r_key r) = Some r -> F < r_seq r -> in_range lo hi (r_key r) = true -> In r a).
  { intros r R1 R2 R3. apply in_flat_map. exact (Q3 r R1 R2 R3). }
  rewrite Et in P2, P3.
  assert (B1 : forall r, In r b -> In r (filter (fun r => r_seq r <=? F) h) /\ is_cmd r = false /\ in_range lo hi (r_key r) = true).
  { intros r Hr. apply in_flat_map in Hr as (x & Hx & Hr). exact (P2 x r Hx Hr). }
  assert (B2 : forall r, newest_write (filter (fun r => r_seq r <=? F) h) (r_key r) = Some r -> in_range lo hi (r_key r) = true -> In r b \/ (is_del r = true /\ forall x, In x b -> r_key x <> r_key r)).
  { intros r R1 R2. destruct (P3 r R1 R2) as [(t & T1 & T2)|(D & Hno)]; [left; apply in_flat_map; now exists t|right]. split; [exact D|]. intros x Hx. apply in_flat_map in Hx as (t & T1 & T2). exact (Hno t x T1 T2). }
  assert (U : uniq ByKey (a ++ b)).
  { intros x y Hx Hy _ _ E. apply (sorted_seq_inj h); [exact Hs| | |exact E].
    - apply in_app_iff in Hx as [Hx|Hx]; [apply (A1 x Hx)|destruct (B1 x Hx) as [Q _]; apply filter_In in Q; tauto].
    - apply in_app_iff in Hy as [Hy|Hy]; [apply (A1 y Hy)|destruct (B1 y Hy) as [Q _]; apply filter_In in Q; tauto]. }
  set (bwd := both).
  assert (Two : forall l0, (both = true -> two_keys l0) -> two ByKey true bwd l0).
  { intros l0 Hk _ Hb. destruct (Hk Hb) as (x & y & X1 & X2 & X3). exists x, y. auto. }
  assert (L0 : forall x, In x ls -> RXP TG TS x (x_list x) 0 /\ two ByKey true bwd (x_list x)).
  { intros x Hx. destruct (Q1 x Hx) as (R0 & Es & Ee & _). split; [|apply Two; intros Hb; exact (proj1 (Htwo Hb) ls x El Hx)]. split; [exact R0|]. split.
    - intros t Ht. destruct (HG t Ht) as (U1 & U2 & _). destruct (U2 ls El) as [U2a _]. specialize (U2a x Hx). split; [|destruct U2a as [(r & R1 & R2)|U2a]; [left; now exists r|now right]].
      destruct U1 as [U1|U1]; [now left|]. right. unfold below_start. rewrite Es. destruct U1 as [->|U1]; [reflexivity|]. replace (kltb (r_key t) lo) with false; [apply andb_false_r|]. symmetry. now apply kltb_false.
    - intros t Ht. destruct (HS t Ht) as (V1 & V2 & V3 & _). split; [|exact (V3 ls x El Hx)]. unfold above_end. rewrite Ee. destruct V2 as [->|V2]; [reflexivity|]. replace (kltb hi (r_key t)) with false; [apply andb_false_r|]. symmetry. now apply kltb_false. }
  assert (T0 : forall t, In t lt -> RT ByKey TS t (t_docs t) 0 /\ two ByKey true bwd (t_docs t)).
  { intros t Ht. destruct (P1 t Ht) as (E0 & Ne & Cs). split; [|apply Two; intros Hb; exact (proj2 (Htwo Hb) t Ht)]. split.
    - split; [reflexivity|]. split; [exact E0|]. split; [destruct (t_docs t); [congruence|cbn; lia]|exact Cs].
    - intros q Hq. destruct (HS q Hq) as (V1 & V2 & _ & V3). split; [now intros _|]. exact (V3 t Ht). }
  assert (Na : forall x, In x a -> exists z, In z (newest_of ByKey a) /\ le ByKey x z /\ le ByKey z x) by (intros x; apply newest_of_cover).
  assert (Nb : forall x, In x b -> exists z, In z (newest_of ByKey b) /\ le ByKey x z /\ le ByKey z x) by (intros x; apply newest_of_cover).
  assert (Ra : forall t, TG t -> ls = [] \/ reaches ByKey t (newest_of ByKey a)).
  { intros t Ht. destruct (HG t Ht) as (_ & U2 & _). destruct (U2 ls El) as [_ [U2b|(x & r & X1 & X2 & X3)]]; [now left|right]. destruct (Na r) as (z & Z1 & Z2 & _); [apply in_flat_map; now exists x|].
    exists z. split; [exact Z1|]. exact (le_trans ByKey t r z X3 Z2). }
  assert (Rb : forall t, TG t -> lt = [] \/ reaches ByKey t (newest_of ByKey b)).
  { intros t Ht. destruct (HG t Ht) as (_ & _ & U3). destruct U3 as [U3|(x & r & X1 & X2 & X3)]; [now left|right]. destruct (Nb r) as (z & Z1 & Z2 & _); [apply in_flat_map; now exists x|].
    exists z. split; [exact Z1|]. exact (le_trans ByKey t r z X3 Z2). }
  assert (T1 : tops ByKey TG (nth_list x_list ls) (newest_of ByKey a)).
  { intros t Ht. destruct (Ra t Ht) as [E|R0]; [right|now left]. rewrite E. intros n n' x y Hx. unfold nth_list in Hx. destruct n; destruct Hx. }
  assert (T2 : tops ByKey TG (nth_list t_docs lt) (newest_of ByKey b)).
  { intros t Ht. destruct (Rb t Ht) as [E|R0]; [right|now left]. rewrite E. intros n n' x y Hx. unfold nth_list in Hx. destruct n; destruct Hx. }
  assert (T3 : tops ByKey TG (two_lists ByKey a b) (newest_of ByKey (newest_of ByKey a ++ newest_of ByKey b))).
  { intros t Ht. assert (Lift : forall x, In x (newest_of ByKey a ++ newest_of ByKey b) -> le ByKey t x -> reaches ByKey t (newest_of ByKey (newest_of ByKey a ++ newest_of ByKey b))).
    { intros x Hx Lx. destruct (newest_of_cover ByKey _ x Hx) as (z & Z1 & Z2 & _). exists z. split; [exact Z1|exact (le_trans ByKey t x z Lx Z2)]. }
    destruct (Ra t Ht) as [Ea|(x & X1 & X2)]; [|left; apply (Lift x); [apply in_or_app; now left|exact X2]].
    destruct (Rb t Ht) as [Eb|(x & X1 & X2)]; [|left; apply (Lift x); [apply in_or_app; now right|exact X2]].
    right. unfold a, b. rewrite Ea, Eb. intros n n' x y Hx. destruct n; destruct Hx. }
  exists (length (a ++ b)). intros fuel Hf.
  pose proof (d_open mki x_get x_next x_prev x_seek x_to_end ByKey TG TS (RXP TG TS) (rxp_get TG TS) (rxp_next TG TS) (rxp_prev TG TS) (rxp_end TG TS) bwd fuel x_list ls lt L0 T0 U T1 T2 T3 Hf) as O.
  unfold db_itr, log_itr. rewrite El. unfold tab_itr. fold lt.
  assert (Fin : forall d M i, merged ByKey (a ++ b) M -> (length M <= length (a ++ b))%nat -> DInv mki x_get ByKey TG TS (RXP TG TS) true bwd d M i ->
    here ByKey M i (match filter (shown ByKey) M with [] => After | _ => At 0 end) ->
    d_get mki x_get ByKey d = at_pos l (opened l) /\ forall ms, Forall (asked TG TS) ms -> (both = false -> one_direction true ms = true) ->
          exists out, d_moves mki x_get x_next x_prev x_seek x_to_end ByKey fuel ms d = Some out /\ ctrace ByKey l (opened l) ms out).
  { intros d M i Mg Ml D Hh. pose proof (merged_live h lo hi F a b M l Hs A1 A2 B1 B2 Mg Hlive) as Ef. rewrite Ef in Hh. fold (opened l) in Hh. split.
    - pose proof (here_get mki x_get ByKey TG TS (RXP TG TS) true bwd d M i _ D Hh) as Q. rewrite Ef in Q. exact Q.
    - intros ms Ha Ho. unfold bwd in D. destruct both.
      + pose proof (moves_both mki x_get x_next x_prev x_seek x_to_end ByKey TG TS (RXP TG TS) (rxp_get TG TS) (rxp_next TG TS) (rxp_prev TG TS) (rxp_end TG TS) (rxp_greater TG TS) (rxp_smaller TG TS) fuel ms d M i _ D Hh ltac:(lia) Ha) as Q. rewrite Ef in Q. exact Q.
      + pose proof (moves_one mki x_get x_next x_prev x_seek x_to_end ByKey TG TS (RXP TG TS) (rxp_get TG TS) (rxp_next TG TS) (rxp_prev TG TS) (rxp_end TG TS) (rxp_greater TG TS) (rxp_smaller TG TS) fuel ms true d M i _ D Hh ltac:(lia) Ha (Ho eq_refl)) as Q. rewrite Ef in Q. exact Q. }
  destruct ls as [|x0 ls0] eqn:Els; destruct lt as [|t0 lt0] eqn:Elt.
  - exists None. split; [exact O|]. rewrite <- (merged_live h lo hi F a b [] l Hs A1 A2 B1 B2); [reflexivity| |exact Hlive]. split; [intros i j x y _ Hx; destruct i; discriminate|]. intros r. split; [intros []|intros [[] _]].
  - destruct O as (d & M & i & E & Mg & Ml & D & Hh). exists (Some d). split; [exact E|]. exact (Fin d M i Mg Ml D Hh).
  - destruct O as (d & M & i & E & Mg & Ml & D & Hh). exists (Some d). split; [exact E|]. exact (Fin d M i Mg Ml D Hh).
  - destruct O as (d & M & i & E & Mg & Ml & D & Hh). exists (Some d). split; [exact E|]. exact (Fin d M i Mg Ml D Hh).
Qed.

Lemma Forall_asked : forall (TG TS : rec -> Prop) ms, (forall t, In (SeekG t) ms -> TG t) -> (forall t, In (SeekS t) ms -> TS t) -> Forall (asked TG TS) ms.
Proof. intros TG TS ms A B. apply Forall_forall. intros m Hm. destruct m; cbn [asked]; auto. Qed.

Theorem iter_seek : forall hash part c tc h f lo hi l, cfg_ok c -> tcfg_ok part tc -> freach hash part c tc h f -> live h lo hi l ->
  exists n, forall fuel, (n <= fuel)%nat -> exists it, db_itr fuel lo hi (d_log (fd_db f)) (fd_lsm f) = Some it /\
    match it with
    | None => l = []
    | Some d => forall ms, (forall t, In (SeekG t) ms -> up_ok lo hi f t) -> (forall t, In (SeekS t) ms -> down_ok lo hi f t) -> one_direction true ms = true ->
          exists out, d_moves mki x_get x_next x_prev x_seek x_to_end ByKey fuel ms d = Some out /\ ctrace ByKey l (opened l) ms out
    end.
Proof.
  intros hash part c tc h f lo hi l A B C D.
  destruct (iter_spec hash part c tc h f lo hi l (up_ok lo hi f) (down_ok lo hi f) false A B C D (fun _ x => x) (fun _ x => x)) as [n Hn]; [discriminate|].
  exists n. intros fuel Hf. destruct (Hn fuel Hf) as (it & E & Q). exists it. split; [exact E|]. destruct it as [d|]; [|exact Q].
  intros ms M1 M2 M3. apply Q; [now apply Forall_asked|now intros _].
Qed.
Theorem iter_seek_both : forall hash part c tc h f lo hi l, cfg_ok c -> tcfg_ok part tc -> freach hash part c tc h f -> live h lo hi l ->
  each_leaf two_keys lo hi f ->
  exists n, forall fuel, (n <= fuel)%nat -> exists it, db_itr fuel lo hi (d_log (fd_db f)) (fd_lsm f) = Some it /\
    match it with
    | None => l = []
    | Some d => forall ms, (forall t, In (SeekG t) ms -> up_ok lo hi f t) -> (forall t, In (SeekS t) ms -> down_ok lo hi f t) ->
          exists out, d_moves mki x_get x_next x_prev x_seek x_to_end ByKey fuel ms d = Some out /\ ctrace ByKey l (opened l) ms out
    end.
Proof.
  intros hash part c tc h f lo hi l A B C D T.
  destruct (iter_spec hash part c tc h f lo hi l (up_ok lo hi f) (down_ok lo hi f) true A B C D (fun _ x => x) (fun _ x => x) (fun _ => T)) as [n Hn].
  exists n. intros fuel Hf. destruct (Hn fuel Hf) as (it & E & Q). exists it. split; [exact E|]. destruct it as [d|]; [|exact Q].
  intros ms M1 M2. apply Q; [now apply Forall_asked|discriminate].
Qed.
Theorem iter_one_direction : forall hash part c tc h f lo hi l, cfg_ok c -> tcfg_ok part tc -> freach hash part c tc h f -> live h lo hi l ->
  exists n, forall fuel, (n <= fuel)%nat -> exists it, db_itr fuel lo hi (d_log (fd_db f)) (fd_lsm f) = Some it /\
    match it with
    | None => l = []
    | Some d => d_get mki x_get ByKey d = at_pos l (opened l) /\
        forall ms, (forall t, In (SeekG t) ms -> r_key t = []) -> (forall t, ~ In (SeekS t) ms) -> one_direction true ms = true ->
          exists out, d_moves mki x_get x_next x_prev x_seek x_to_end ByKey fuel ms d = Some out /\ ctrace ByKey l (opened l) ms out
    end.
Proof.
  intros hash part c tc h f lo hi l A B C D.
  destruct (iter_spec hash part c tc h f lo hi l (fun t => r_key t = []) (fun _ => False) false A B C D) as [n Hn]; [intros t; now apply begin_ok with (3 := C)|intros _ []|discriminate|].
  exists n. intros fuel Hf. destruct (Hn fuel Hf) as (it & E & Q). exists it. split; [exact E|]. destruct it as [d|]; [|exact Q]. destruct Q as [Q1 Q2]. split; [exact Q1|].
  intros ms M1 M2 M3. apply Q2; [now apply Forall_asked|now intros _].
Qed.
Theorem iter_both_directions : forall hash part c tc h f lo hi l, cfg_ok c -> tcfg_ok part tc -> freach hash part c tc h f -> live h lo hi l ->
  each_leaf two_keys lo hi f ->
  exists n, forall fuel, (n <= fuel)%nat -> exists it, db_itr fuel lo hi (d_log (fd_db f)) (fd_lsm f) = Some it /\
    match it with
    | None => l = []
    | Some d => d_get mki x_get ByKey d = at_pos l (opened l) /\
        forall ms, (forall t, In (SeekG t) ms -> r_key t = []) -> (forall t, ~ In (SeekS t) ms) ->
          exists out, d_moves mki x_get x_next x_prev x_seek x_to_end ByKey fuel ms d = Some out /\ ctrace ByKey l (opened l) ms out
    end.
Proof.
  intros hash part c tc h f lo hi l A B C D T.
  destruct (iter_spec hash part c tc h f lo hi l (fun t => r_key t = []) (fun _ => False) true A B C D) as [n Hn]; [intros t; now apply begin_ok with (3 := C)|intros _ []|now intros _|].
  exists n. intros fuel Hf. destruct (Hn fuel Hf) as (it & E & Q). exists it. split; [exact E|]. destruct it as [d|]; [|exact Q]. destruct Q as [Q1 Q2]. split; [exact Q1|].
  intros ms M1 M2. apply Q2; [now apply Forall_asked|discriminate].
Qed.
