(** Proofs about lookups among other operations: the tables of a level after an operation. *)
From Coq Require Import List NArith Bool Lia Arith Sorted Permutation.
From Verif Require Import Base LogFormatModel KeyModel KeyProofs BloomModel BloomProofs MemTableModel LsmModel LsmProofs LsmProofs2 LsmProofs3 LsmProofs4 LsmProofs5 ReaderModel ReaderSpec ReaderProofs ReaderProofs2.
Import ListNotations.
Local Open Scope N_scope.

(** A table [t'] of level [i] after an operation: a new one, or one that was there with, for key
    [k], the same record, or a record that was in this level or the one before, or without it
    because of a tombstone from there that is not kept in the last level. *)
Definition from_table (k : key) (i : nat) (s : lsm) (fl : list rec) (t' : tbl) : Prop :=
  l_next s <= b_num t' \/
  exists t, In t (level i s) /\ b_num t' = b_num t /\
    (fd_get k (b_docs t') = fd_get k (b_docs t) \/
     (i = O /\ exists y, newest_write fl k = Some y /\ fd_get k (b_docs t') = Some y) \/
     (exists j y, i = S j /\ (held k j s y \/ held k (S j) s y) /\
        (fd_get k (b_docs t') = Some y \/ (fd_get k (b_docs t') = None /\ i = length (l_up s) /\ is_del y = true)))).

Section Hash.
Variable hash : key -> N * N.
Variable part : key -> N.

Local Notation installed := (installed hash).
Local Notation good := (good hash).
Local Notation LI := (LI hash part).
Local Notation zero_ok := (zero_ok part).
Local Notation tcfg_ok := (tcfg_ok part).
Local Notation tf_sets := (tf_sets hash).

Lemma from_same : forall k i s fl t', In t' (level i s) -> from_table k i s fl t'.
Proof. intros k i s fl t' H. right. exists t'. split; [exact H|]. split; [reflexivity|now left]. Qed.

Lemma level_set_in : forall i lv l z t, In t (level i (set_level lv l z)) -> (i = lv /\ In t l) \/ In t (level i z).
Proof.
  intros i lv l z t H. destruct lv as [|j], i as [|i]; unfold set_level, level in *; cbn [l_zero l_up] in H; auto.
  destruct (Nat.eq_dec i j) as [E|N]; [|rewrite set_nth_other in H by exact N; now right]. subst i.
  destruct (Nat.lt_ge_cases j (length (l_up z))) as [L|L]; [rewrite set_nth_same in H by exact L; left; now split|].
  rewrite nth_overflow in H by (rewrite set_nth_len; exact L). destruct H.
Qed.

(** Records of [rs] written to a table. *)
Lemma sets_get : forall raw purge rs t k, docs_ok rs -> docs_ok (b_docs t) ->
  fd_get k (b_docs (tf_sets raw purge rs t)) = fd_get k (b_docs t) \/
  exists y, In y rs /\ r_key y = k /\ (fd_get k (b_docs (tf_sets raw purge rs t)) = Some y \/
    (fd_get k (b_docs (tf_sets raw purge rs t)) = None /\ purge = true /\ is_del y = true)).
Proof.
  intros raw purge rs t k Hr Ht. destruct (tf_sets_docs hash raw purge rs t Hr Ht) as [D1 D2].
  destruct (fd_get k rs) as [y|] eqn:E.
  - right. apply fd_get_in in E as [E1 E2]. exists y. split; [exact E1|]. split; [exact E2|]. destruct (purge && is_del y) eqn:P.
    + right. apply andb_true_iff in P as [P1 P2]. split; [|now split]. apply fd_get_none. intros x Hx Ex. apply D2 in Hx as [[Hx Hp]|[Hx Hno]].
      * assert (x = y) by (apply (docs_key_inj rs); auto; congruence). subst x. rewrite P1, P2 in Hp. discriminate.
      * apply (Hno y E1). congruence.
    + left. apply fd_get_some; [exact D1|]. split; [|exact E2]. apply D2. left. now split.
  - left. assert (N : forall y, In y rs -> r_key y <> k) by (now apply fd_get_none).
    destruct (fd_get k (b_docs t)) as [x|] eqn:G.
    + apply fd_get_in in G as [G1 G2]. apply fd_get_some; [exact D1|]. split; [|exact G2]. apply D2. right. split; [exact G1|].
      intros y Hy Ey. apply (N y Hy). congruence.
    + apply fd_get_none. intros x Hx Ex. apply D2 in Hx as [[Hx _]|[Hx _]]; [exact (N x Hx Ex)|]. exact (proj1 (fd_get_none _ _) G x Hx Ex).
Qed.

(** The tables of the level that receives the records of [v]. *)
Lemma dst_from : forall c over v dst n purge sel full k t', lvl_ok dst -> docs_ok (b_docs v) -> (forall d, In d (b_docs v) -> kle (b_min v) (r_key d)) ->
  In t' (installed c true purge sel n (victim_groups over v dst) dst full) ->
  n <= b_num t' \/ exists t, In t dst /\ b_num t' = b_num t /\
    (fd_get k (b_docs t') = fd_get k (b_docs t) \/
     exists y, fd_get k (b_docs v) = Some y /\ (fd_get k (b_docs t') = Some y \/ (fd_get k (b_docs t') = None /\ purge = true /\ is_del y = true))).
Proof.
  intros c over v dst n purge sel full k t' Hok Vd Vm H.
  destruct (groups_fit hash part over (b_min v) (b_docs v) dst Hok Vd Vm) as [F E].
  change (groups over (b_min v) (b_docs v) (tables_range (b_min v) (last_key (b_docs v)) dst)) with (victim_groups over v dst) in F, E.
  set (gs := victim_groups over v dst) in *.
  apply installed_in in H as [(u & Hu & ->)|(_ & g & m & G1 & G2 & Hm & ->)].
  - right. exists u. split; [exact Hu|]. split; [apply fnum|].
    destruct (sets_get true purge (to_tab sel (b_num u) gs) u k) as [X|(y & Y1 & Y2 & Y3)]; [apply to_tab_sorted, (fit_srt _ _ F)|now destruct (proj2 Hok u Hu)|now left|].
    right. exists y. split; [|exact Y3]. apply fd_get_some; [exact Vd|]. split; [|exact Y2]. rewrite <- E.
    apply to_tab_in in Y1 as (g & t & A1 & _ & _ & A4 & _). apply in_concat_grp. exists g. now split.
  - left. rewrite fnum. cbn [new_tbl b_num]. exact Hm.
Qed.

Lemma victim_from : forall c R over mk fin sel lv num s s' k fl, LI c R s -> (forall j, mk j = true) -> is_last lv s = false ->
  compact_victim hash c over mk fin sel lv num s = Some s' -> forall i t', In t' (level i s') -> from_table k i s fl t'.
Proof.
  intros c R over mk fin sel lv num s s' k fl HI Hmk Hlast H. unfold compact_victim in H.
  destruct (tbl_at num (level lv s)) as [v|] eqn:T; [|discriminate]. rewrite Hlast in H. apply tbl_at_in in T as [Hv <-].
  set (dst := level (S lv) s) in *.
  change (groups over (b_min v) (b_docs v) (tables_range (b_min v) (max_key v) dst)) with (victim_groups over v dst) in H.
  set (gs := victim_groups over v dst) in *. set (purge := tc_purge c && is_last (S lv) s) in *.
  assert (Hlen : (lv < length (l_up s))%nat).
  { unfold is_last, num_levels in Hlast. apply Nat.eqb_neq in Hlast. destruct lv as [|i]; [lia|].
    cbn [level] in Hv. destruct (nth_in_some _ _ _ Hv) as [Hi _]. lia. }
  assert (Hdst : In dst (l_up s)) by (apply nth_In; exact Hlen).
  assert (Hpl : purge = true -> S lv = length (l_up s)).
  { unfold purge. intros P. apply andb_true_iff in P as [_ P]. unfold is_last, num_levels in P. apply Nat.eqb_eq in P. lia. }
  assert (Vdk : (docs_ok (b_docs v) /\ forall d, In d (b_docs v) -> kle (b_min v) (r_key d)) /\ forall y, fd_get k (b_docs v) = Some y -> held k lv s y).
  { destruct lv as [|i]; cbn [level] in Hv.
    - destruct (z_mem _ _ _ (li_zero _ _ _ _ _ HI) v Hv) as (M1 & M2 & M3 & M4). split; [split; [exact M3|intros d Hd; rewrite M2; apply kle_nil]|].
      intros y Hy. exists v. now split.
    - destruct (nth_in_some _ _ _ Hv) as [Hi Hu]. destruct (proj2 (li_up _ _ _ _ _ HI _ Hu) v Hv) as [V1 V2]. split; [split; [exact V1|intros d Hd; apply (V2 d Hd)]|].
      intros y Hy. cbn [held]. apply (rm_get (b_num v) _ v k (li_up _ _ _ _ _ HI _ Hu) (proj1 (li_num _ _ _ _ _ HI _ Hu)) Hv eq_refl). exact Hy. }
  destruct Vdk as [[Vd Vm] Vh].
  assert (DF : forall sl full t', In t' (installed c true purge sl (l_next s) gs dst full) -> from_table k (S lv) s fl t').
  { intros sl full t' Ht. destruct (dst_from c over v dst (l_next s) purge sl full k t' (li_up _ _ _ _ _ HI dst Hdst) Vd Vm Ht) as [X|(t & T1 & T2 & T3)]; [now left|].
    right. exists t. split; [exact T1|]. split; [exact T2|]. destruct T3 as [T3|(y & Y1 & Y2)]; [now left|right; right]. exists lv, y. split; [reflexivity|].
    split; [left; exact (Vh y Y1)|]. destruct Y2 as [Y2|(Y2 & Y3 & Y4)]; [now left|right]. split; [exact Y2|]. split; [now apply Hpl|exact Y4]. }
  clearbody gs. destruct fin.
  - rewrite (new_tbls_mk hash c mk) in H by exact Hmk.
    change (add_all (new_tbls hash c all_true 0 (l_next s) gs) (write_old hash true purge (fun _ => true) gs dst))
      with (installed c true purge (fun _ => true) (l_next s) gs dst true) in H.
    set (d' := installed c true purge (fun _ => true) (l_next s) gs dst true) in *.
    assert (Hd' : forall t', In t' d' -> from_table k (S lv) s fl t') by (apply DF). clearbody d'. clear DF.
    set (s1 := set_level (S lv) d' s) in *. set (s2 := set_level lv (rm_tbl (b_num v) (level lv s1)) s1) in *.
    assert (L2 : forall i t', In t' (level i s2) -> from_table k i s fl t').
    { intros i t' Ht. unfold s2, s1 in Ht. destruct lv as [|j].
      - destruct i as [|i]; cbn [set_level level l_zero l_up] in Ht.
        + apply rm_tbl_in in Ht as [Ht _]. now apply from_same.
        + change (match l_up s with [] => [] | _ :: t => d' :: t end) with (set_nth 0 d' (l_up s)) in Ht. destruct (Nat.eq_dec i 0) as [E|N].
          * subst i. rewrite set_nth_same in Ht by exact Hlen. now apply Hd'.
          * rewrite set_nth_other in Ht by exact N. now apply from_same.
      - unfold set_level, level in Ht. cbn [l_zero l_up] in Ht. destruct i as [|i]; [now apply from_same|].
        change (match l_up s with [] => [] | y :: t => y :: set_nth j d' t end) with (set_nth (S j) d' (l_up s)) in Ht.
        destruct (Nat.eq_dec i j) as [E|N].
        + subst i. rewrite set_nth_same in Ht by (rewrite set_nth_len; lia). apply rm_tbl_in in Ht as [Ht _].
          rewrite set_nth_other in Ht by lia. now apply from_same.
        + rewrite set_nth_other in Ht by exact N. destruct (Nat.eq_dec i (S j)) as [E|N2].
          * subst i. rewrite set_nth_same in Ht by exact Hlen. now apply Hd'.
          * rewrite set_nth_other in Ht by exact N2. now apply from_same. }
    match type of H with Some (if ?b then _ else _) = _ => destruct b eqn:Fill end; apply some_inj in H; subst s'.
    + intros i t' Ht. unfold with_next in Ht. destruct lv as [|j]; [discriminate|].
      assert (X : In t' (level i s2) \/ (i = S j /\ In t' (add_tbl (new_tbl c (l_next s + N.of_nat (length (filter (fun g => match g_tab g with Some _ => false | None => true end) gs))) 0 (b_min v)) (level (S j) s2)))).
      { apply level_set_in in Ht. tauto. }
      destruct X as [X|[-> X]]; [now apply L2|]. apply add_tbl_in in X as [-> |X]; [left; cbn [new_tbl b_num]; lia|now apply L2].
    + exact L2.
  - change (write_old hash true purge sel gs dst) with (installed c true purge sel (l_next s) gs dst false) in H.
    apply some_inj in H. subst s'. intros i t' Ht. unfold set_level, level in Ht. cbn [l_zero l_up] in Ht. destruct i as [|i]; [now apply from_same|].
    destruct (Nat.eq_dec i lv) as [E|N].
    + subst i. rewrite set_nth_same in Ht by exact Hlen. now apply (DF sel false).
    + rewrite set_nth_other in Ht by exact N. now apply from_same.
Qed.

Lemma batch_from : forall c R bad rs n m h l k, zero_ok c l -> nums_ok n l -> n <= NIL -> (forall t, In t l -> good c R t) ->
  (forall r, In r rs -> bad r = false) -> (forall r, In r rs -> In r R) -> h + N.of_nat m <= tc_parts c ->
  forall t', In t' (batch_parts hash part bad rs m h l) -> exists t, In t l /\ b_num t' = b_num t /\
    (fd_get k (b_docs t') = fd_get k (b_docs t) \/ exists y, newest_write rs k = Some y /\ fd_get k (b_docs t') = Some y).
Proof.
  intros c R bad rs n m. induction m as [|m IH]; intros h l k Hz Hn Hnil Hg Hb HR Hh t' Ht; cbn [batch_parts] in Ht.
  - exists t'. split; [exact Ht|]. split; [reflexivity|now left].
  - destruct (batch_part_spec hash part c R bad rs h n l Hz Hn Hnil Hg Hb HR) as (A1 & A2 & A3 & _); [lia|].
    destruct (IH (h + 1) (batch_part hash part bad rs h l) k A1 A2 Hnil A3 Hb HR ltac:(lia) t' Ht) as (t & Hin & En' & Ec).
    assert (X : exists u, In u l /\ b_num t = b_num u /\ (fd_get k (b_docs t) = fd_get k (b_docs u) \/ exists y, newest_write rs k = Some y /\ fd_get k (b_docs t) = Some y)).
    { unfold batch_part in Hin. destruct (smallest_normal (by_hash h l)) as [sm|] eqn:Sm; [|exists t; split; [exact Hin|split; [reflexivity|now left]]].
      apply upd_tbl_in in Hin as (u & Hu & ->). destruct (b_num u =? b_num sm) eqn:En; [|exists u; split; [exact Hu|split; [reflexivity|now left]]].
      assert (Lh : h < tc_parts c) by lia. destruct (z_norm _ _ _ Hz h Lh) as (w & Hw). destruct (filter_one_in _ _ _ Hw) as [Iw Nw].
      assert (Lw : b_num w < n) by (apply (proj2 Hn); exact Iw). rewrite (smallest_one h _ w Hw) in Sm by lia. apply some_inj in Sm. subst sm.
      apply N.eqb_eq in En. assert (u = w) by (apply (num_inj l); auto; apply Hn). subst u.
      destruct (z_mem _ _ _ Hz w Iw) as (M1 & M2 & M3 & M4). assert (Eh : b_hash w = h).
      { unfold nf in Nw. apply andb_true_iff in Nw as [B _]. now apply N.eqb_eq in B. }
      rewrite Eh in M4. destruct (tf_batch_spec hash part c R bad h rs w Hb M3 (Hg w Iw) M4 HR) as (E1 & _ & _ & _ & _ & _ & E7 & E8).
      exists w. split; [exact Iw|]. split; [exact E1|]. destruct (N.eq_dec (part k) h) as [Pk|Pk].
      - rewrite (E8 k Pk). destruct (newest_write rs k) as [r|]; [right; exists r; now split|now left].
      - left. assert (N1 : fd_get k (b_docs (tf_batch hash part bad h rs w)) = None) by (apply fd_get_none; intros r Hr Er; apply Pk; rewrite <- Er; exact (E7 r Hr)).
        assert (N2 : fd_get k (b_docs w) = None) by (apply fd_get_none; intros r Hr Er; apply Pk; rewrite <- Er; exact (M4 r Hr)). congruence. }
    destruct X as (u & U1 & U2 & U3). exists u. split; [exact U1|]. split; [congruence|].
    destruct Ec as [Ec|Ec]; [|now right]. rewrite Ec. exact U3.
Qed.

Lemma roll_from : forall c h s s', l0_roll c h s = Some s' -> l_up s' = l_up s /\ l_next s <= l_next s' /\
  forall t, In t (l_zero s') -> b_num t = l_next s \/ exists u, In u (l_zero s) /\ b_num t = b_num u /\ b_docs t = b_docs u.
Proof.
  intros c h s s' H. unfold l0_roll in H. destruct (src_of h (l_zero s)).
  { apply some_inj in H. subst s'. split; [reflexivity|]. split; [lia|]. intros u Hu. right. exists u. now split. }
  destruct (smallest_normal (by_hash h (l_zero s))) as [o|]; [|discriminate].
  destruct (smallest_normal (rm_tbl (b_num o) (by_hash h (l_zero s)))) as [m|]; apply some_inj in H; subst s'; cbn [l_up l_zero l_next]; (split; [reflexivity|]); (split; [lia|]);
    intros t Ht; apply upd_tbl_in in Ht as (u & Hu & ->).
  - right. exists u. split; [exact Hu|]. now destruct (b_num u =? b_num m).
  - apply add_tbl_in in Hu as [-> |Hu].
    + left. destruct (b_num _ =? b_num o); reflexivity.
    + right. exists u. split; [exact Hu|]. now destruct (b_num u =? b_num o).
Qed.

(** The tables of a level after an operation. *)
Lemma step_tables : forall c R s o s' k, tcfg_ok c -> LI c R s -> lop_ok o -> o <> LReload -> lstep hash part c o s = Some s' -> l_next s' <= NIL ->
  num_levels s' = num_levels s -> forall i t', In t' (level i s') -> from_table k i s (lflushed o) t'.
Proof.
  intros c R s o s' k Hc HI Ho Hnr H Hnil Hnum.
  assert (Hlev : forall i l', (i < length (l_up s))%nat -> (forall t', In t' l' -> from_table k (S i) s (lflushed o) t') -> forall n0,
    forall i' t', In t' (level i' (mkL n0 (l_zero s) (set_nth i l' (l_up s)))) -> from_table k i' s (lflushed o) t').
  { intros i l' Hi Hl n0 i' t' Ht. destruct i' as [|i']; cbn [level l_zero l_up] in Ht; [now apply from_same|].
    destruct (Nat.eq_dec i' i) as [E|N]; [subst i'; rewrite set_nth_same in Ht by exact Hi; now apply Hl|].
    rewrite set_nth_other in Ht by exact N. now apply from_same. }
  destruct o as [bad rs|h|over mk fin sel h|over mk fin sel lv num|pr lv num|cut mk lv num|lv num|]; cbn [lstep lop_ok lflushed] in *.
  - apply some_inj in H. subst s'. intros [|i] t' Ht; unfold set_batch in Ht; cbn [level l_zero l_up] in Ht; [|now apply from_same]. right.
    destruct (batch_from c (R ++ rs) bad rs (l_next s) (N.to_nat (tc_parts c)) 0 (l_zero s) k) with (t' := t') as (t & T1 & T2 & T3); auto.
    + apply (li_zero _ _ _ _ _ HI).
    + apply (li_num0 _ _ _ _ _ HI).
    + intros u Hu. eapply good_mono; [exact (li_good0 _ _ _ _ _ HI u Hu)|]. intros r Hr. apply in_app_iff. now left.
    + intros r Hr. apply in_app_iff. now right.
    + lia.
    + exists t. split; [exact T1|]. split; [exact T2|]. destruct T3 as [T3|T3]; [now left|right; left; now split].
  - destruct (roll_from c h s s' H) as (A1 & A2 & A3). intros [|i] t' Ht; cbn [level] in Ht; [|rewrite A1 in Ht; now apply from_same].
    destruct (A3 t' Ht) as [E|(u & U1 & U2 & U3)]; [left; lia|]. right. exists u. split; [exact U1|]. split; [exact U2|]. left. now rewrite U3.
  - unfold compact_l0 in H. destruct (l0_roll c h s) as [s1|] eqn:Ro; [|discriminate].
    destruct (src_of h (l_zero s1)) as [v|]; [|discriminate]. unfold compact_level in H. cbn [Nat.ltb Nat.leb] in H. rewrite andb_false_r in H.
    destruct (roll_from c h s s1 Ro) as (A1 & A2 & A3).
    destruct (roll_keeps hash part c R s h s1 HI Ro) as (HI1 & _ & _); [apply victim_next in H; lia|].
    assert (L : is_last 0 s1 = false).
    { destruct (is_last 0 s1) eqn:L; [|reflexivity]. exfalso. unfold compact_victim in H. destruct (tbl_at (b_num v) (level 0 s1)) as [w|]; [|discriminate].
      rewrite L in H. rewrite !num_levels_up in Hnum. rewrite <- A1 in Hnum.
      assert (X : forall lv l z, length (l_up (set_level lv l z)) = length (l_up z)) by (intros [|i] l z; cbn [set_level l_up]; rewrite ?set_nth_len; reflexivity).
      destruct fin.
      - change (Nat.ltb 0 0) with false in H. cbn [andb] in H. apply some_inj in H. subst s'. unfold with_next in Hnum. cbn [l_up] in Hnum.
        rewrite !X in Hnum. unfold extend in Hnum. cbn [l_up] in Hnum. rewrite app_length in Hnum. cbn [length] in Hnum. lia.
      - apply some_inj in H. subst s'. rewrite !X in Hnum. unfold extend in Hnum. cbn [l_up] in Hnum. rewrite app_length in Hnum. cbn [length] in Hnum. lia. }
    intros i t' Ht. destruct (victim_from c R over mk fin sel 0 (b_num v) s1 s' k [] HI1 Ho L H i t' Ht) as [E|(t & T1 & T2 & T3)]; [left; lia|].
    assert (Hold : forall t, In t (level i s1) -> b_num t = l_next s \/ exists u, In u (level i s) /\ b_num t = b_num u /\ b_docs t = b_docs u).
    { destruct i as [|i]; cbn [level]; [exact A3|]. intros u Hu. rewrite A1 in Hu. right. exists u. now split. }
    assert (Hheld : forall j y, held k j s1 y -> held k j s y).
    { intros [|j] y Hy; cbn [held] in *; [|now rewrite A1 in Hy]. destruct Hy as (u & U1 & U2).
      destruct (roll_held c h s s1 Ro) as [_ A4]. destruct (A4 u U1) as [E|(w & W1 & W2)]; [rewrite E in U2; discriminate|]. exists w. split; [exact W1|]. now rewrite <- W2. }
    destruct (Hold t T1) as [E|(u & U1 & U2 & U3)]; [left; lia|]. right. exists u. split; [exact U1|]. split; [congruence|].
    destruct T3 as [T3|[(_ & y & Y & _)|(j & y & Y0 & Y1 & Y2)]].
    + left. now rewrite T3, U3.
    + discriminate.
    + right. right. exists j, y. split; [exact Y0|]. rewrite <- A1. split; [|exact Y2]. destruct Y1 as [Y1|Y1]; [left|right]; now apply Hheld.
  - destruct lv as [|i]; [discriminate|]. unfold compact_level in H. destruct (is_last (S i) s) eqn:L; cbn [andb Nat.ltb Nat.leb] in H.
    + exfalso. unfold migrate in H. destruct (is_last (S i) s && negb (is_nil (level (S i) s))); [|discriminate]. apply some_inj in H. subst s'.
      unfold num_levels, set_level, extend in Hnum. cbn [l_up] in Hnum. rewrite !set_nth_len, app_length in Hnum. cbn [length] in Hnum. lia.
    + exact (victim_from c R over mk fin sel (S i) num s s' k [] HI Ho L H).
  - unfold in_place in H. destruct lv as [|i]; [discriminate|]. destruct (tbl_at num (level (S i) s)) as [v|] eqn:T; [|discriminate]. apply some_inj in H. subst s'.
    apply tbl_at_in in T as [Hv _]. cbn [level] in Hv. destruct (nth_in_some _ _ _ Hv) as [Hi _].
    unfold with_next, set_level. cbn [l_zero l_up]. apply Hlev; [exact Hi|]. intros t' Ht. apply rm_tbl_in in Ht as [Ht _]. apply add_tbl_in in Ht as [-> |Ht].
    + left. unfold copy_live. rewrite fnum. cbn [new_tbl b_num]. lia.
    + now apply from_same.
  - unfold split in H. destruct lv as [|i]; [discriminate|]. destruct (tbl_at num (level (S i) s)) as [v|] eqn:T; [|discriminate].
    set (gs := cuts cut 0 (b_docs v) (mkG (b_min v) None [])) in *. destruct (Nat.ltb 1 (length gs)); [|discriminate]. apply some_inj in H. subst s'.
    apply tbl_at_in in T as [Hv _]. cbn [level] in Hv. destruct (nth_in_some _ _ _ Hv) as [Hi _].
    rewrite (new_tbls_mk hash c mk) by exact Ho.
    unfold with_next, set_level. cbn [l_zero l_up]. apply Hlev; [exact Hi|]. intros t' Ht. apply rm_tbl_in in Ht as [Ht _]. apply add_all_in in Ht as [Ht|Ht].
    + left. destruct (new_tbls_nums hash c 0 (l_next s) gs) as [_ X]. apply X in Ht. lia.
    + now apply from_same.
  - unfold merge in H. destruct lv as [|i]; [discriminate|]. destruct (tbl_at num (level (S i) s)) as [v|] eqn:T; [|discriminate].
    destruct (before num None (level (S i) s)) as [d|]; [|discriminate]. apply some_inj in H. subst s'.
    apply tbl_at_in in T as [Hv En]. cbn [level] in Hv. destruct (nth_in_some _ _ _ Hv) as [Hi Hu]. pose proof (li_up _ _ _ _ _ HI _ Hu) as Hok.
    unfold set_level. cbn [l_zero l_up]. apply Hlev; [exact Hi|]. intros t' Ht. apply rm_tbl_in in Ht as [Ht _]. apply upd_tbl_in in Ht as (u & U1 & ->).
    destruct (b_num u =? b_num d); [|now apply from_same]. right. exists u. split; [exact U1|]. split; [apply fnum|].
    destruct (sets_get false (tc_purge c && is_last (S i) s) (b_docs v) u k) as [X|(y & Y1 & Y2 & Y3)]; [now destruct (proj2 Hok v Hv)|now destruct (proj2 Hok u U1)|now left|].
    right. right. exists i, y. split; [reflexivity|]. split.
    + right. cbn [held]. apply (rm_get (b_num v) _ v k Hok (proj1 (li_num _ _ _ _ _ HI _ Hu)) Hv eq_refl).
      apply fd_get_some; [now destruct (proj2 Hok v Hv)|now split].
    + destruct Y3 as [Y3|(Y3 & Y4 & Y5)]; [now left|right]. split; [exact Y3|]. split; [|exact Y5].
      apply andb_true_iff in Y4 as [_ Y4]. unfold is_last, num_levels in Y4. apply Nat.eqb_eq in Y4. lia.
  - now destruct Hnr.
Qed.

End Hash.
