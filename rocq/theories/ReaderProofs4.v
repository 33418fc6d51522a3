(** Proofs about lookups among other operations: executions. *)
From Coq Require Import List NArith Bool Lia Arith Sorted Permutation.
From Verif Require Import Base LogFormatModel KeyModel KeyProofs BloomModel BloomProofs MemTableModel LsmModel LsmProofs LsmProofs2 LsmProofs3 LsmProofs4 LsmProofs5 ReaderModel ReaderSpec ReaderProofs ReaderProofs2 ReaderProofs3.
Import ListNotations.
Local Open Scope N_scope.

Lemma set_level_len : forall lv l z, length (l_up (set_level lv l z)) = length (l_up z).
Proof. intros [|i] l z; cbn [set_level l_up]; rewrite ?set_nth_len; reflexivity. Qed.

Section Hash.
Variable hash : key -> N * N.
Variable part : key -> N.
Variable c : tcfg.
Variable k : key.
Hypothesis Hc : tcfg_ok part c.
Hypothesis Hk : k <> [].

Local Notation good := (good hash).
Local Notation LI := (LI hash part).
Local Notation lreach := (lreach hash part c).
Local Notation rexec := (rexec hash part c k).

(** ** What grows *)

Lemma victim_levels : forall over mk fin sel lv num s s', compact_victim hash c over mk fin sel lv num s = Some s' -> (length (l_up s) <= length (l_up s'))%nat.
Proof.
  intros over mk fin sel lv num s s' H. unfold compact_victim in H. destruct (tbl_at num (level lv s)) as [v|]; [|discriminate].
  assert (E : (length (l_up s) <= length (l_up (if is_last lv s then extend s else s)))%nat).
  { destruct (is_last lv s); [|lia]. unfold extend. cbn [l_up]. rewrite app_length. lia. }
  set (s1 := if is_last lv s then extend s else s) in *. clearbody s1.
  destruct fin; [|apply some_inj in H; subst s'; now rewrite set_level_len].
  match type of H with Some (if ?b then _ else _) = _ => destruct b end; apply some_inj in H; subst s'; unfold with_next; cbn [l_up]; rewrite !set_level_len; exact E.
Qed.

Lemma step_grows : forall o s s', lstep hash part c o s = Some s' -> l_next s <= l_next s' /\ (num_levels s <= num_levels s')%nat.
Proof.
  intros o s s' H. unfold num_levels.
  destruct o as [bad rs|h|over mk fin sel h|over mk fin sel lv num|pr lv num|cut mk lv num|lv num|]; cbn [lstep] in H.
  - apply some_inj in H. subst s'. cbn [set_batch l_next l_up]. lia.
  - destruct (roll_from c h s s' H) as (-> & A & _). lia.
  - unfold compact_l0 in H. destruct (l0_roll c h s) as [s1|] eqn:Ro; [|discriminate]. destruct (src_of h (l_zero s1)) as [v|]; [|discriminate].
    unfold compact_level in H. cbn [Nat.ltb Nat.leb] in H. rewrite andb_false_r in H. destruct (roll_from c h s s1 Ro) as (<- & A & _).
    pose proof (victim_next _ _ _ _ _ _ _ _ _ _ H). pose proof (victim_levels _ _ _ _ _ _ _ _ H). lia.
  - destruct lv as [|i]; [discriminate|]. unfold compact_level in H. destruct (is_last (S i) s && Nat.ltb 0 (S i)).
    + unfold migrate in H. destruct (is_last (S i) s && negb (is_nil (level (S i) s))); [|discriminate]. apply some_inj in H. subst s'.
      rewrite !set_level_len. unfold extend, set_level. cbn [l_next l_up]. rewrite app_length. lia.
    + pose proof (victim_next _ _ _ _ _ _ _ _ _ _ H). pose proof (victim_levels _ _ _ _ _ _ _ _ H). lia.
  - unfold in_place in H. destruct lv as [|i]; [discriminate|]. destruct (tbl_at num (level (S i) s)) as [v|]; [|discriminate]. apply some_inj in H. subst s'.
    unfold with_next. cbn [l_next l_up]. rewrite set_level_len. lia.
  - unfold split in H. destruct lv as [|i]; [discriminate|]. destruct (tbl_at num (level (S i) s)) as [v|]; [|discriminate].
    destruct (Nat.ltb 1 (length (cuts cut 0 (b_docs v) (mkG (b_min v) None [])))); [|discriminate]. apply some_inj in H. subst s'.
    unfold with_next. cbn [l_next l_up]. rewrite set_level_len. lia.
  - unfold merge in H. destruct lv as [|i]; [discriminate|]. destruct (tbl_at num (level (S i) s)) as [v|]; [|discriminate].
    destruct (before num None (level (S i) s)); [|discriminate]. apply some_inj in H. subst s'. rewrite set_level_len. unfold set_level. cbn [l_next]. lia.
  - apply some_inj in H. subst s'. cbn [reload l_next l_up]. lia.
Qed.

Lemma level_nums : forall R s i, LI c R s -> nums_ok (l_next s) (level i s).
Proof.
  intros R s [|i] HI; cbn [level]; [exact (li_num0 _ _ _ _ _ HI)|]. destruct (nth_in_or_default i (l_up s) []) as [H| ->]; [exact (li_num _ _ _ _ _ HI _ H)|apply nums_ok_nil].
Qed.
Lemma level_good : forall R s i t, LI c R s -> In t (level i s) -> good c R t.
Proof.
  intros R s [|i] t HI H; cbn [level] in H; [exact (li_good0 _ _ _ _ _ HI t H)|]. destruct (nth_in_some _ _ _ H) as [_ Hu]. exact (li_good _ _ _ _ _ HI _ t Hu H).
Qed.
Lemma level_docs : forall R s i t, LI c R s -> In t (level i s) -> docs_ok (b_docs t).
Proof.
  intros R s [|i] t HI H; cbn [level] in H; [apply (z_mem _ _ _ (li_zero _ _ _ _ _ HI) t H)|]. destruct (nth_in_some _ _ _ H) as [_ Hu].
  exact (proj1 (proj2 (li_up _ _ _ _ _ HI _ Hu) t H)).
Qed.

(** ** The invariant *)

Definition fresh (P : list (list rec)) (x : rec) : Prop := exists R', In R' P /\ newest_write R' k = Some x.
Definition okv (P : list (list rec)) (v : option rec) : Prop := exists R', In R' P /\ vle v (newest_write R' k).

Lemma okv_some : forall P x, okv P (Some x) -> fresh P x.
Proof. intros P x (R' & H1 & [H2|[H2 _]]); [|discriminate]. exists R'. split; [exact H1|]. now symmetry. Qed.
Lemma fresh_okv : forall P v x, fresh P x -> vle v (Some x) -> okv P v.
Proof. intros P v x (R' & H1 & H2) H. exists R'. split; [exact H1|]. now rewrite H2. Qed.
Lemma fresh_more : forall P R x, fresh P x -> fresh (R :: P) x.
Proof. intros P R x (R' & H1 & H2). exists R'. split; [now right|exact H2]. Qed.
Lemma okv_more : forall P R v, okv P v -> okv (R :: P) v.
Proof. intros P R x (R' & H1 & H2). exists R'. split; [now right|exact H2]. Qed.
Lemma okv_le : forall P v w, okv P w -> vle v w -> okv P v.
Proof. intros P v w (R' & H1 & H2) H. exists R'. split; [exact H1|]. eapply vle_trans; eauto. Qed.

(** The levels before [i] hold only records that were the newest at some moment. *)
Definition clean (P : list (list rec)) (s : lsm) (i : nat) : Prop := forall lv x, (lv < i)%nat -> held k lv s x -> fresh P x.
Definition passed (P : list (list rec)) (s : lsm) (i : nat) : Prop := clean P s i /\ match i with O => True | S j => okv P (below k j s) end.
(** The tables a lookup holds. *)
Definition grabbed (R : list rec) (s : lsm) (i : nat) (ts : list tbl) : Prop := forall t, In t ts ->
  good c R t /\ b_num t < l_next s /\ (In t (level i s) \/ forall u, In u (level i s) -> b_num u <> b_num t).

Definition listed0 (P : list (list rec)) (s : lsm) (ts : list tbl) : Prop :=
  NoDup (map b_num ts) /\ (exists tn, filter (fun t => negb (b_src t)) ts = [tn] /\
    (forall x, fd_get k (b_docs tn) = Some x -> fresh P x) /\
    (fd_get k (b_docs tn) = None -> forall tv x, In tv ts -> fd_get k (b_docs tv) = Some x -> fresh P x)) /\
  (filter b_src ts = [] \/ exists tv, filter b_src ts = [tv]) /\
  ((forall t, In t ts -> fd_get k (b_docs t) = None) -> passed P s 1).
Definition listedS (P : list (list rec)) (s : lsm) (j : nat) (ts : list tbl) : Prop :=
  (ts = [] \/ exists t, ts = [t]) /\ clean P s (S (S j)) /\
  (forall t x, In t ts -> fd_get k (b_docs t) = Some x -> fresh P x) /\
  ((forall t, In t ts -> fd_get k (b_docs t) = None) -> okv P (below k (S j) s)).

Definition rinv (n0 : nat) (b : conf) : Prop :=
  lreach (f_recs b) (f_tabs b) /\ In (f_recs b) (f_past b) /\
  match f_rd b with
  | RStart => True
  | RLevel n i => n = n0 /\ (i <= n)%nat /\ passed (f_past b) (f_tabs b) i
  | RListed n i ts => n = n0 /\ (i < n)%nat /\ grabbed (f_recs b) (f_tabs b) i ts /\
      match i with O => listed0 (f_past b) (f_tabs b) ts | S j => listedS (f_past b) (f_tabs b) j ts end
  | RDone g => exists R', In R' (f_past b) /\ table_answer (newest_write R' k) g
  end.

(** ** A step of another thread *)

Section Other.
Variables (b : conf) (o : lop) (s' : lsm).
Let R := f_recs b.
Let s := f_tabs b.
Let P := f_past b.
Let R' := R ++ lflushed o.
Hypothesis HR : lreach R s.
Hypothesis HP : In R P.
Hypothesis Ho : lop_ok o.
Hypothesis Hnr : o <> LReload.
Hypothesis Hs : lstep hash part c o s = Some s'.
Hypothesis Hnil : l_next s' <= NIL.
Hypothesis Hnum : num_levels s' = num_levels s.

Lemma o_LI : LI c R s.
Proof. exact (proj1 (lreach_inv hash part c R s Hc HR)). Qed.
Lemma o_reach : lreach R' s'.
Proof. unfold R'. now apply lr_step with (s := s). Qed.
Lemma o_LI' : LI c R' s'.
Proof. exact (proj1 (lreach_inv hash part c R' s' Hc o_reach)). Qed.

Lemma o_flushed : forall x, newest_write (lflushed o) k = Some x -> fresh (R' :: P) x.
Proof. intros x H. exists R'. split; [now left|]. unfold R'. now rewrite newest_write_app, H. Qed.

Lemma o_clean : forall i, clean P s i -> clean (R' :: P) s' i.
Proof.
  intros i H lv x Hl Hx. destruct (step_facts hash part c R s o s' k Hc o_LI Ho Hnr Hs Hnil Hnum) as [F1 _].
  destruct (F1 lv x Hx) as [X|[[_ X]|(j & -> & X)]].
  - apply fresh_more. exact (H lv x Hl X).
  - now apply o_flushed.
  - apply fresh_more. apply (H j x); [lia|exact X].
Qed.
Lemma o_below : forall j, clean P s (S j) -> okv P (below k j s) -> okv (R' :: P) (below k j s').
Proof.
  intros j H1 H2. destruct (step_facts hash part c R s o s' k Hc o_LI Ho Hnr Hs Hnil Hnum) as [_ F2].
  destruct (F2 j) as [X|(x & X1 & X2)]; apply okv_more.
  - eapply okv_le; eauto.
  - eapply fresh_okv; [exact (H1 j x ltac:(lia) X1)|exact X2].
Qed.
Lemma o_passed : forall i, passed P s i -> passed (R' :: P) s' i.
Proof.
  intros i [H1 H2]. split; [now apply o_clean|]. destruct i as [|j]; [exact I|]. now apply o_below.
Qed.

(** A grabbed table. *)
Lemma o_table : forall i t, good c R t -> b_num t < l_next s -> (In t (level i s) \/ forall u, In u (level i s) -> b_num u <> b_num t) ->
  let t' := refresh i s' t in
  b_num t' = b_num t /\ good c R' t' /\ b_num t' < l_next s' /\ (In t' (level i s') \/ forall u, In u (level i s') -> b_num u <> b_num t') /\
  (fd_get k (b_docs t') = fd_get k (b_docs t) \/
   (i = O /\ exists y, newest_write (lflushed o) k = Some y /\ fd_get k (b_docs t') = Some y) \/
   (exists j y, i = S j /\ (held k j s y \/ held k (S j) s y) /\
      (fd_get k (b_docs t') = Some y \/ (fd_get k (b_docs t') = None /\ i = length (l_up s) /\ is_del y = true)))).
Proof.
  intros i t Hg Hn Hw t'. unfold t', refresh. destruct (tbl_at (b_num t) (level i s')) as [u|] eqn:T.
  - apply tbl_at_in in T as [T1 T2]. split; [exact T2|]. split; [exact (level_good R' s' i u o_LI' T1)|].
    split; [exact (proj2 (level_nums R' s' i o_LI') u T1)|]. split; [now left|].
    destruct (step_tables hash part c R s o s' k Hc o_LI Ho Hnr Hs Hnil Hnum i u T1) as [X|(w & W1 & W2 & W3)]; [lia|].
    destruct Hw as [Hw|Hw]; [|destruct (Hw w W1); congruence].
    assert (w = t) by (apply (num_inj (level i s)); [exact (proj1 (level_nums R s i o_LI))|exact W1|exact Hw|congruence]). subst w. exact W3.
  - split; [reflexivity|]. split; [apply (good_mono hash c R); [exact Hg|]; intros r Hr; unfold R'; apply in_app_iff; now left|].
    split; [destruct (step_grows o s s' Hs) as [G _]; lia|]. split; [|now left]. right. intros u Hu E.
    unfold tbl_at in T. pose proof (find_none _ _ T u Hu) as X. cbn beta in X. apply N.eqb_neq in X. congruence.
Qed.

Lemma o_grabbed : forall i ts, grabbed R s i ts -> grabbed R' s' i (map (refresh i s') ts).
Proof.
  intros i ts H t' Ht. apply in_map_iff in Ht as (t & <- & Ht). destruct (H t Ht) as (H1 & H2 & H3).
  destruct (o_table i t H1 H2 H3) as (_ & A1 & A2 & A3 & _). auto.
Qed.

Lemma o_listed0 : forall ts, grabbed R s 0 ts -> (forall t, In t ts -> b_src (refresh 0 s' t) = b_src t) ->
  listed0 P s ts -> listed0 (R' :: P) s' (map (refresh 0 s') ts).
Proof.
  intros ts Hgr Hsrc (L1 & (tn & L2 & L3 & L4) & L5 & L6).
  assert (Hcont : forall t, In t ts -> fd_get k (b_docs (refresh 0 s' t)) = fd_get k (b_docs t) \/ exists y, fd_get k (b_docs (refresh 0 s' t)) = Some y /\ fresh (R' :: P) y).
  { intros t Ht. destruct (Hgr t Ht) as (H1 & H2 & H3). destruct (o_table 0 t H1 H2 H3) as (_ & _ & _ & _ & [X|[(_ & y & Y1 & Y2)|(j & y & Y & _)]]).
    - now left.
    - right. exists y. split; [exact Y2|now apply o_flushed].
    - discriminate. }
  assert (Hnone : forall t, In t ts -> fd_get k (b_docs (refresh 0 s' t)) = None -> fd_get k (b_docs t) = None).
  { intros t Ht E. destruct (Hcont t Ht) as [X|(y & X & _)]; congruence. }
  assert (Hfil : forall f, filter (fun t => f (b_src t)) (map (refresh 0 s') ts) = map (refresh 0 s') (filter (fun t => f (b_src t)) ts)).
  { intros f. rewrite filter_map. f_equal. apply filter_ext_in. intros t Ht. now rewrite (Hsrc t Ht). }
  assert (Itn : In tn ts) by (assert (X : In tn (filter (fun t => negb (b_src t)) ts)) by (rewrite L2; now left); apply filter_In in X; tauto).
  split; [|split; [|split]].
  - rewrite map_map. erewrite map_ext_in; [exact L1|]. intros t Ht. destruct (Hgr t Ht) as (H1 & H2 & H3). now destruct (o_table 0 t H1 H2 H3).
  - exists (refresh 0 s' tn). split; [rewrite (Hfil negb), L2; reflexivity|]. split.
    + intros x Hx. destruct (Hcont tn Itn) as [X|(y & X & Y)]; [|congruence]. apply fresh_more, L3. congruence.
    + intros E tv x Htv Hx. apply in_map_iff in Htv as (t & <- & Ht). destruct (Hcont t Ht) as [X|(y & X & Y)]; [|congruence].
      apply fresh_more. apply (L4 (Hnone tn Itn E) t x Ht). congruence.
  - assert (E0 : filter b_src (map (refresh 0 s') ts) = map (refresh 0 s') (filter b_src ts)) by exact (Hfil (fun x => x)). rewrite E0.
    destruct L5 as [E|(tv & E)]; rewrite E; [now left|right; now exists (refresh 0 s' tv)].
  - intros Hall. apply o_passed, L6. intros t Ht. apply (Hnone t Ht). apply Hall. apply in_map_iff. exists t. now split.
Qed.

Lemma o_listedS : forall j ts, grabbed R s (S j) ts -> listedS P s j ts -> listedS (R' :: P) s' j (map (refresh (S j) s') ts).
Proof.
  intros j ts Hgr (L1 & L2 & L3 & L4).
  assert (Hcont : forall t, In t ts -> fd_get k (b_docs (refresh (S j) s' t)) = fd_get k (b_docs t) \/ exists y, fresh P y /\
     (fd_get k (b_docs (refresh (S j) s' t)) = Some y \/ (fd_get k (b_docs (refresh (S j) s' t)) = None /\ S j = length (l_up s) /\ is_del y = true))).
  { intros t Ht. destruct (Hgr t Ht) as (H1 & H2 & H3). destruct (o_table (S j) t H1 H2 H3) as (_ & _ & _ & _ & [X|[(E & _)|(j' & y & E & Y1 & Y2)]]).
    - now left.
    - discriminate.
    - injection E as <-. right. exists y. split; [|exact Y2]. destruct Y1 as [Y1|Y1]; [apply (L2 j)|apply (L2 (S j))]; auto. }
  split; [|split; [|split]].
  - destruct L1 as [-> |(t & ->)]; [now left|right]. now exists (refresh (S j) s' t).
  - now apply o_clean.
  - intros t' x Ht Hx. apply in_map_iff in Ht as (t & <- & Ht). destruct (Hcont t Ht) as [X|(y & Y1 & [Y2|(Y2 & _)])]; [|apply fresh_more; congruence|congruence].
    apply fresh_more. apply (L3 t x Ht). congruence.
  - intros Hall. destruct L1 as [-> |(t & ->)].
    + apply o_below; [exact L2|]. apply L4. intros t [].
    + specialize (Hall _ (or_introl eq_refl)). destruct (Hcont t (or_introl eq_refl)) as [X|(y & Y1 & [Y2|(_ & Y3 & Y4)])]; [|congruence|].
      * apply o_below; [exact L2|]. apply L4. intros u [<-|[]]. congruence.
      * apply okv_more. apply (fresh_okv P _ y Y1). unfold below. rewrite skipn_all2; [right; split; [reflexivity|exists y; now split]|].
        rewrite !num_levels_up in Hnum. lia.
Qed.

Lemma other_inv : forall n0, rinv n0 b -> no_source b s' -> rinv n0 (other b o s').
Proof.
  intros n0 (_ & _ & H) Hq. unfold rinv, other. cbn [f_recs f_tabs f_rd f_past]. fold R s P R'. split; [exact o_reach|]. split; [now left|].
  unfold no_source in Hq. fold R s P in H. destruct (f_rd b) as [|n i|n i ts|g]; cbn [rrefresh].
  - exact I.
  - destruct H as (A1 & A2 & A3). split; [exact A1|]. split; [exact A2|now apply o_passed].
  - destruct H as (A1 & A2 & A3 & A4). split; [exact A1|]. split; [exact A2|]. split; [now apply o_grabbed|]. destruct i as [|j]; [now apply o_listed0|now apply o_listedS].
  - destruct H as (R0 & A1 & A2). exists R0. split; [now right|exact A2].
Qed.
End Other.

(** ** A step of the lookup *)

Lemma read0 : forall R s P ts, grabbed R s 0 ts -> l_next s <= NIL -> bf_safe c R -> listed0 P s ts ->
  match level_read hash c k 0 ts with
  | inl (Some r) => rec_empty (Some r) = false /\ fresh P r
  | inl None => passed P s 1
  | inr _ => False
  end.
Proof.
  intros R s P ts Hgr Hnil S (L1 & (tn & L2 & L3 & L4) & L5 & L6).
  assert (Itn : In tn ts /\ b_src tn = false).
  { assert (X : In tn (filter (fun t => negb (b_src t)) ts)) by (rewrite L2; now left). apply filter_In in X as [X Y]. now apply negb_true_iff in Y. }
  destruct Itn as [Itn Sn]. destruct (Hgr tn Itn) as (G1 & G2 & _).
  unfold level_read. unfold smallest_normal. rewrite smallest_filter, L2. cbn [smallest]. rewrite Sn. cbn [negb andb].
  assert (Lt : b_num tn < NIL) by lia. apply N.ltb_lt in Lt. rewrite Lt.
  rewrite (good_get hash c R k tn G1 S). destruct (fd_get k (b_docs tn)) as [r|] eqn:E.
  - split; [|now apply L3]. apply fd_get_in in E as [_ E]. now apply (key_not_empty k).
  - specialize (L4 eq_refl). rewrite search_skip.
    assert (Hf : filter (fun t => negb (b_num t =? b_num tn)) ts = filter b_src ts).
    { apply filter_ext_in. intros t Ht. destruct (N.eqb_spec (b_num t) (b_num tn)) as [En|En]; cbn [negb].
      - assert (t = tn) by (apply (num_inj ts); auto). subst t. now rewrite Sn.
      - destruct (b_src t) eqn:Et; [reflexivity|]. assert (X : In t (filter (fun t => negb (b_src t)) ts)) by (apply filter_In; rewrite Et; now split).
        rewrite L2 in X. destruct X as [<-|[]]. congruence. }
    rewrite Hf. assert (Hall : forall t, In t ts -> In t (filter b_src ts) \/ t = tn).
    { intros t Ht. destruct (b_src t) eqn:Et; [left; apply filter_In; now split|right].
      assert (X : In t (filter (fun t => negb (b_src t)) ts)) by (apply filter_In; rewrite Et; now split). rewrite L2 in X. destruct X as [<-|[]]. reflexivity. }
    destruct L5 as [E5|(tv & E5)]; rewrite E5 in *; cbn [search].
    + apply L6. intros t Ht. destruct (Hall t Ht) as [[]| ->]. exact E.
    + assert (Iv : In tv ts) by (assert (X : In tv (filter b_src ts)) by (rewrite E5; now left); apply filter_In in X; tauto).
      destruct (Hgr tv Iv) as (V1 & _). rewrite (good_get hash c R k tv V1 S). destruct (fd_get k (b_docs tv)) as [r|] eqn:Ev.
      * change (rec_empty None) with true. cbn [orb]. pose proof (proj2 (fd_get_in _ _ _ Ev)) as Er.
        rewrite !(key_not_empty k r Hk Er). split; [reflexivity|]. exact (L4 tv r Iv Ev).
      * change (rec_empty None) with true. cbn iota. apply L6. intros t Ht. destruct (Hall t Ht) as [[<-|[]]| ->]; [exact Ev|exact E].
Qed.

Lemma readS : forall R s P j ts, grabbed R s (S j) ts -> bf_safe c R -> listedS P s j ts ->
  match level_read hash c k (S j) ts with
  | inl (Some r) => rec_empty (Some r) = false /\ fresh P r
  | inl None => passed P s (S (S j))
  | inr _ => False
  end.
Proof.
  intros R s P j ts Hgr S0 (L1 & L2 & L3 & L4). unfold level_read. destruct L1 as [-> |(t & ->)].
  - cbn [search]. change (rec_empty None) with true. cbn iota. split; [exact L2|]. apply L4. intros t [].
  - cbn [search]. destruct (Hgr t (or_introl eq_refl)) as (V1 & _). rewrite (good_get hash c R k t V1 S0). destruct (fd_get k (b_docs t)) as [r|] eqn:Ev.
    + change (rec_empty None) with true. cbn [orb]. pose proof (proj2 (fd_get_in _ _ _ Ev)) as Er.
      rewrite !(key_not_empty k r Hk Er). split; [reflexivity|]. exact (L3 t r (or_introl eq_refl) Ev).
    + change (rec_empty None) with true. cbn iota. split; [exact L2|]. apply L4. intros u [<-|[]]. exact Ev.
Qed.

Lemma list0 : forall R s P, lreach R s -> In R P -> grabbed R s 0 (tables_point part 0 k s) /\ listed0 P s (tables_point part 0 k s).
Proof.
  intros R s P HR HP. destruct (lreach_inv hash part c R s Hc HR) as [HI V]. specialize (V k). pose proof (li_zero _ _ _ _ _ HI) as Hz.
  destruct (li_num0 _ _ _ _ _ HI) as [N1 N2]. unfold tables_point.
  assert (Hin : forall t, In t (by_hash (part k) (l_zero s)) -> In t (l_zero s)) by (intros t H; unfold by_hash in H; apply filter_In in H; tauto).
  assert (Fn : filter (fun t => negb (b_src t)) (by_hash (part k) (l_zero s)) = filter (nf (part k)) (l_zero s)) by (unfold by_hash; now rewrite filter_filter).
  assert (Fs : filter b_src (by_hash (part k) (l_zero s)) = filter (sf (part k)) (l_zero s)) by (unfold by_hash; now rewrite filter_filter).
  destruct (z_norm _ _ _ Hz (part k)) as (tn & En); [apply Hc|]. pose proof (z_src _ _ _ Hz (part k)) as Es.
  assert (Hv : view part s k = orr (orr (fd_get k (b_docs tn)) (zget (sf (part k)) k (l_zero s))) (ups k (l_up s))).
  { unfold LsmProofs2.view, LsmProofs2.zview. unfold zget at 1. now rewrite En. }
  assert (Hall : forall t, In t (by_hash (part k) (l_zero s)) -> t = tn \/ In t (filter (sf (part k)) (l_zero s))).
  { intros t Ht. rewrite <- Fs. destruct (b_src t) eqn:Et; [right; apply filter_In; now split|left].
    assert (X : In t (filter (fun t => negb (b_src t)) (by_hash (part k) (l_zero s)))) by (apply filter_In; rewrite Et; now split).
    rewrite Fn, En in X. now destruct X as [<-|[]]. }
  split.
  - intros t Ht. split; [exact (li_good0 _ _ _ _ _ HI t (Hin t Ht))|]. split; [now apply N2, Hin|]. left. now apply Hin.
  - split; [|split; [|split]].
    + unfold by_hash. apply (nums_filter (l_next s)). now split.
    + exists tn. rewrite Fn. split; [exact En|]. split.
      * intros x Hx. rewrite Hv, Hx in V. cbn [orr] in V. apply okv_some. now exists R.
      * intros E tv x Htv Hx. destruct (Hall tv Htv) as [-> |I1]; [congruence|]. destruct Es as [Es|(w & Es)]; rewrite Es in I1; [destruct I1|].
        destruct I1 as [<-|[]]. rewrite Hv, E in V. unfold zget in V. rewrite Es, Hx in V. cbn [orr] in V. apply okv_some. now exists R.
    + rewrite Fs. exact Es.
    + intros Hno. assert (Itn : In tn (by_hash (part k) (l_zero s))).
      { assert (X : In tn (filter (fun t => negb (b_src t)) (by_hash (part k) (l_zero s)))) by (rewrite Fn, En; now left). apply filter_In in X. tauto. }
      split.
      * intros lv x Hl Hx. assert (lv = O) by lia. subst lv. destruct Hx as (t & T1 & T2). exfalso.
        assert (I1 : In t (by_hash (part k) (l_zero s))).
        { unfold by_hash. apply filter_In. split; [exact T1|]. apply N.eqb_eq. pose proof (proj1 (fd_get_in _ _ _ T2)) as T3. pose proof (proj2 (fd_get_in _ _ _ T2)) as T4.
          destruct (z_mem _ _ _ Hz t T1) as (_ & _ & _ & M). rewrite <- T4. symmetry. exact (M x T3). }
        rewrite (Hno t I1) in T2. discriminate.
      * exists R. split; [exact HP|]. unfold below. cbn [skipn]. rewrite Hv in V. rewrite (Hno tn Itn) in V. unfold zget in V.
        destruct Es as [Es|(w & Es)]; rewrite Es in V; [exact V|].
        assert (Iw : In w (by_hash (part k) (l_zero s))) by (assert (X : In w (filter b_src (by_hash (part k) (l_zero s)))) by (rewrite Fs, Es; now left); apply filter_In in X; tauto).
        rewrite (Hno w Iw) in V. exact V.
Qed.

Lemma listS : forall R s P j, lreach R s -> In R P -> (j < length (l_up s))%nat -> passed P s (S j) ->
  grabbed R s (S j) (tables_point part (S j) k s) /\ listedS P s j (tables_point part (S j) k s).
Proof.
  intros R s P j HR HP Hj [A B]. destruct (lreach_inv hash part c R s Hc HR) as [HI _].
  assert (Hu : In (nth j (l_up s) []) (l_up s)) by (now apply nth_In). pose proof (li_up _ _ _ _ _ HI _ Hu) as Hok.
  unfold below in B. rewrite (skipn_at (l_up s) j Hj) in B. cbn [ups] in B.
  assert (A2 : clean P s (S (S j))).
  { intros lv x Hl Hx. destruct (Nat.eq_dec lv (S j)) as [->|N]; [|apply (A lv x); [lia|exact Hx]]. cbn [held] in Hx. rewrite Hx in B. cbn [orr] in B. now apply okv_some. }
  unfold tables_point. split.
  - intros t Ht. destruct (floor k (nth j (l_up s) [])) as [u|] eqn:F; [|destruct Ht]. destruct Ht as [<-|[]].
    assert (I1 : In u (nth j (l_up s) [])) by (apply floor_spec in F; [tauto|apply Hok]).
    split; [exact (li_good _ _ _ _ _ HI _ u Hu I1)|]. split; [exact (proj2 (li_num _ _ _ _ _ HI _ Hu) u I1)|]. left. exact I1.
  - split; [|split; [exact A2|split]].
    + destruct (floor k (nth j (l_up s) [])) as [u|]; [right; now exists u|now left].
    + intros t x Ht Hx. apply (A2 (S j) x); [lia|]. cbn [held]. unfold lv_get. destruct (floor k (nth j (l_up s) [])) as [u|]; [|destruct Ht].
      destruct Ht as [<-|[]]. exact Hx.
    + intros Hno. unfold below. assert (E : lv_get k (nth j (l_up s) []) = None).
      { unfold lv_get. destruct (floor k (nth j (l_up s) [])) as [u|]; [|reflexivity]. apply Hno. now left. }
      rewrite E in B. exact B.
Qed.

Lemma own_inv : forall n0 b, rinv n0 b -> num_levels (f_tabs b) = n0 -> bf_safe c (f_recs b) -> rinv n0 (own hash part c k b).
Proof.
  intros n0 b (HR & HP & H) Hn S0. unfold rinv, own. cbn [f_recs f_tabs f_rd f_past]. split; [exact HR|]. split; [exact HP|].
  destruct (lreach_inv hash part c _ _ Hc HR) as [HI _].
  destruct (f_rd b) as [|n i|n i ts|g]; cbn [rstep].
  - split; [exact Hn|]. split; [lia|]. split; [intros lv x Hl; lia|exact I].
  - destruct H as (A1 & A2 & A3). subst n. rewrite num_levels_up in Hn. destruct (Nat.ltb_spec i n0) as [L|L].
    + split; [reflexivity|]. split; [exact L|]. destruct i as [|j].
      * now apply list0.
      * apply listS; auto. lia.
    + assert (i = n0) by lia. subst i. destruct n0 as [|j]; [discriminate|]. injection Hn as Hn. destruct A3 as [_ (R' & B1 & B2)].
      exists R'. split; [exact B1|]. unfold below in B2. rewrite skipn_all2 in B2 by lia. cbn [ups] in B2.
      destruct B2 as [<-|(_ & r & -> & D)]; [reflexivity|]. right. now split.
  - destruct H as (A1 & A2 & A3 & A4). subst n.
    assert (X : match level_read hash c k i ts with inl (Some r) => rec_empty (Some r) = false /\ fresh (f_past b) r | inl None => passed (f_past b) (f_tabs b) (S i) | inr _ => False end).
    { destruct i as [|j]; [eapply read0; eauto; apply (li_nil _ _ _ _ _ HI)|eapply readS; eauto]. }
    destruct (level_read hash c k i ts) as [[r|]|[e|]]; try destruct X.
    + rewrite H. destruct H0 as (R' & B1 & B2). exists R'. split; [exact B1|]. rewrite B2. now left.
    + split; [reflexivity|]. split; [lia|]. now split.
  - exact H.
Qed.

(** ** Executions *)

Lemma bf_safe_less : forall R l, bf_safe c (R ++ l) -> bf_safe c R.
Proof. intros R l [H|[H|H]]; [now left|right; now left|right; right]. intros r Hr. apply H. apply in_app_iff. now left. Qed.

Lemma rexec_inv : forall calm a b, calm = true -> rexec calm a b -> forall R s, a = called R s -> lreach R s ->
  (num_levels s <= num_levels (f_tabs b))%nat /\ (num_levels (f_tabs b) = num_levels s -> bf_safe c (f_recs b) -> rinv (num_levels s) b).
Proof.
  intros calm a b Hcalm H. induction H as [a|a b o s' H IH Ho Hnr Hs Hnil Hq|a b H IH]; intros R s Ea HR.
  - subst a. cbn [called f_tabs]. split; [lia|]. intros _ _. unfold rinv, called. cbn [f_recs f_tabs f_rd f_past]. split; [exact HR|]. split; [now left|exact I].
  - destruct (IH R s Ea HR) as [I1 I2]. destruct (step_grows o (f_tabs b) s' Hs) as [_ G]. cbn [other f_tabs f_recs]. split; [lia|].
    intros En Sf. assert (Eb : num_levels (f_tabs b) = num_levels s) by lia. specialize (I2 Eb (bf_safe_less _ _ Sf)).
    destruct I2 as (J1 & J2 & J3). apply other_inv; auto; [lia|]. split; [exact J1|]. now split.
  - destruct (IH R s Ea HR) as [I1 I2]. cbn [own f_tabs f_recs]. split; [exact I1|]. intros En Sf. apply own_inv; auto.
Qed.

Lemma rexec_answer : forall R s b g, lreach R s -> rexec true (called R s) b -> f_rd b = RDone g ->
  num_levels (f_tabs b) = num_levels s -> bf_safe c (f_recs b) ->
  exists R', In R' (f_past b) /\ table_answer (newest_write R' k) g.
Proof.
  intros R s b g HR H Eg En Sf. destruct (rexec_inv true _ b eq_refl H R s eq_refl HR) as [_ X]. destruct (X En Sf) as (_ & _ & Y). now rewrite Eg in Y.
Qed.

End Hash.
