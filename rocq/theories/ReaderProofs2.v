(** Proofs about lookups among other operations: one operation, then executions. *)
From Coq Require Import List NArith Bool Lia Arith Sorted Permutation.
From Verif Require Import Base LogFormatModel KeyModel KeyProofs BloomModel BloomProofs MemTableModel LsmModel LsmProofs LsmProofs2 LsmProofs3 LsmProofs4 LsmProofs5 ReaderModel ReaderSpec ReaderProofs.
Import ListNotations.
Local Open Scope N_scope.

Lemma skipn_set : forall A (l : list A) i j x, (i < j)%nat -> skipn j (set_nth i x l) = skipn j l.
Proof.
  intros A l. induction l as [|a l IH]; intros [|i] [|j] x H; cbn [set_nth skipn]; try reflexivity; try lia. apply IH. lia.
Qed.
Lemma skipn_set_at : forall A (l : list A) i x, (i < length l)%nat -> skipn i (set_nth i x l) = x :: skipn (S i) l.
Proof.
  intros A l. induction l as [|a l IH]; intros [|i] x H; cbn [length] in H; try lia; [reflexivity|]. cbn [set_nth]. cbn [skipn].
  rewrite (IH i x) by lia. reflexivity.
Qed.
Lemma skipn_at : forall (l : list (list tbl)) i, (i < length l)%nat -> skipn i l = nth i l [] :: skipn (S i) l.
Proof.
  intros l. induction l as [|a l IH]; intros [|i] H; cbn [length] in H; try lia; [reflexivity|]. cbn [skipn nth]. rewrite (IH i) by lia. reflexivity.
Qed.

(** A record of the key is in level [lv]. *)
Definition held (k : key) (lv : nat) (s : lsm) (x : rec) : Prop :=
  match lv with
  | O => exists t, In t (l_zero s) /\ fd_get k (b_docs t) = Some x
  | S j => lv_get k (nth j (l_up s) []) = Some x
  end.
(** The first record in the levels above [j]. *)
Definition below (k : key) (j : nat) (s : lsm) : option rec := ups k (skipn j (l_up s)).

Section Hash.
Variable hash : key -> N * N.
Variable part : key -> N.

Local Notation installed := (installed hash).
Local Notation good := (good hash).
Local Notation LI := (LI hash part).
Local Notation view := (view part).
Local Notation zview := (zview part).
Local Notation zero_ok := (zero_ok part).
Local Notation tcfg_ok := (tcfg_ok part).

Lemma victim_form : forall c R over mk fin sel lv num s s', LI c R s -> (forall j, mk j = true) -> is_last lv s = false ->
  compact_victim hash c over mk fin sel lv num s = Some s' ->
  exists v d', In v (level lv s) /\ (lv < length (l_up s))%nat /\
  (forall k, lv_get k d' = lv_get k (nth lv (l_up s) []) \/
     exists r, fd_get k (b_docs v) = Some r /\ (lv_get k d' = Some r \/ (lv_get k d' = None /\ S lv = length (l_up s) /\ is_del r = true))) /\
  ((lv = O /\ l_up s' = set_nth 0 d' (l_up s) /\ forall t, In t (l_zero s') -> In t (l_zero s)) \/
   (exists i u', lv = S i /\ l_zero s' = l_zero s /\ l_up s' = set_nth i u' (set_nth (S i) d' (l_up s)) /\
      forall k x, lv_get k u' = Some x -> lv_get k (nth i (l_up s) []) = Some x)).
Proof.
  intros c R over mk fin sel lv num s s' HI Hmk Hlast H. unfold compact_victim in H.
  destruct (tbl_at num (level lv s)) as [v|] eqn:T; [|discriminate]. rewrite Hlast in H. apply tbl_at_in in T as [Hv <-].
  set (dst := level (S lv) s) in *.
  change (groups over (b_min v) (b_docs v) (tables_range (b_min v) (max_key v) dst)) with (victim_groups over v dst) in H.
  set (gs := victim_groups over v dst) in *. set (purge := tc_purge c && is_last (S lv) s) in *.
  assert (Hlen : (lv < length (l_up s))%nat).
  { unfold is_last, num_levels in Hlast. apply Nat.eqb_neq in Hlast. destruct lv as [|i]; [lia|].
    cbn [level] in Hv. destruct (nth_in_some _ _ _ Hv) as [Hi _]. lia. }
  assert (Hdst : In dst (l_up s)) by (apply nth_In; exact Hlen).
  assert (Hpl : purge = true -> S lv = length (l_up s)).
  { unfold purge. intros P. apply andb_true_iff in P as [_ P]. unfold is_last, num_levels in P. apply Nat.eqb_eq in P. lia. }
  assert (Vdk : docs_ok (b_docs v) /\ forall d, In d (b_docs v) -> kle (b_min v) (r_key d)).
  { destruct lv as [|i]; cbn [level] in Hv.
    - destruct (z_mem _ _ _ (li_zero _ _ _ _ _ HI) v Hv) as (M1 & M2 & M3 & M4). split; [exact M3|]. intros d Hd. rewrite M2. apply kle_nil.
    - destruct (nth_in_some _ _ _ Hv) as [Hi Hu]. destruct (proj2 (li_up _ _ _ _ _ HI _ Hu) v Hv) as [V1 V2]. split; [exact V1|].
      intros d Hd. apply (V2 d Hd). }
  destruct Vdk as [Vd Vm].
  assert (DG : forall sl full, (full = true -> sl = fun _ => true) -> forall k, let d' := installed c true purge sl (l_next s) gs dst full in
     lv_get k d' = lv_get k dst \/
     exists r, fd_get k (b_docs v) = Some r /\ (lv_get k d' = Some r \/ (lv_get k d' = None /\ S lv = length (l_up s) /\ is_del r = true))).
  { intros sl full Hf k d'.
    destruct (dst_get hash part c over v dst (l_next s) purge (li_up _ _ _ _ _ HI dst Hdst) (li_num _ _ _ _ _ HI dst Hdst) Vd Vm sl full Hf k) as [X|(r & X & Y)]; [now left|].
    right. exists r. split; [exact X|]. destruct Y as [Y|(Y1 & Y2 & Y3)]; [now left|right]. split; [exact Y1|]. split; [now apply Hpl|exact Y3]. }
  destruct fin.
  - rewrite (new_tbls_mk hash c mk) in H by exact Hmk.
    change (add_all (new_tbls hash c all_true 0 (l_next s) gs) (write_old hash true purge (fun _ => true) gs dst))
      with (installed c true purge (fun _ => true) (l_next s) gs dst true) in H.
    set (d' := installed c true purge (fun _ => true) (l_next s) gs dst true) in *.
    exists v, d'. split; [exact Hv|]. split; [exact Hlen|]. split; [exact (DG (fun _ => true) true (fun _ => eq_refl))|].
    destruct lv as [|i].
    + left. split; [reflexivity|]. change (Nat.ltb 0 0) with false in H. cbn [andb] in H. apply some_inj in H. subst s'.
      unfold set_level, with_next, level. cbn [l_next l_zero l_up]. split; [reflexivity|]. intros t Ht. apply rm_tbl_in in Ht. tauto.
    + right. cbn [level] in Hv. destruct (nth_in_some _ _ _ Hv) as [Hi Hu]. set (u := nth i (l_up s) []) in *.
      pose proof (li_up _ _ _ _ _ HI u Hu) as Hoku. pose proof (li_num _ _ _ _ _ HI u Hu) as Hnumu.
      unfold set_level, with_next, level in H. cbn [l_next l_zero l_up] in H.
      change (match l_up s with [] => [] | y :: t => y :: set_nth i d' t end) with (set_nth (S i) d' (l_up s)) in H.
      assert (Ex : nth i (set_nth (S i) d' (l_up s)) [] = u) by (apply set_nth_other; lia). rewrite !Ex in H.
      rewrite set_nth_same in H by (rewrite set_nth_len; exact Hi). rewrite set_nth_twice in H.
      assert (RM : forall k x, lv_get k (rm_tbl (b_num v) u) = Some x -> lv_get k u = Some x).
      { intros k x Hx. destruct (rm_get (b_num v) u v k Hoku (proj1 Hnumu) Hv eq_refl) as [RM1 RM2].
        destruct (fd_get k (b_docs v)) as [r|] eqn:G; [destruct (RM1 r eq_refl); congruence|]. now rewrite (RM2 eq_refl) in Hx. }
      match type of H with Some (if ?b then _ else _) = _ => destruct b end; apply some_inj in H; subst s'; cbn [l_zero l_up].
      * eexists i, _. split; [reflexivity|]. split; [reflexivity|]. split; [reflexivity|].
        intros k x. set (n' := l_next s + _). set (gf := [mkG (b_min v) None []]).
        change (add_tbl (new_tbl c n' 0 (b_min v)) (rm_tbl (b_num v) u)) with (installed c true false (fun _ => true) n' gf (rm_tbl (b_num v) u) true).
        rewrite (install_other hash); [apply RM|now apply rm_ok| | |reflexivity].
        -- apply (nums_filter (l_next s)). exact Hnumu.
        -- destruct (proj2 Hoku v Hv) as [V1 V2]. apply parts_fit; auto; unfold gf.
           ++ apply Hnumu.
           ++ intros g [<-|[]]. reflexivity.
           ++ repeat constructor.
           ++ constructor.
           ++ intros g r [<-|[]] [].
           ++ intros g [<-|[]]. now left.
      * eexists i, _. split; [reflexivity|]. split; [reflexivity|]. split; [reflexivity|]. exact RM.
  - change (write_old hash true purge sel gs dst) with (installed c true purge sel (l_next s) gs dst false) in H.
    set (d' := installed c true purge sel (l_next s) gs dst false) in *. apply some_inj in H. subst s'.
    exists v, d'. split; [exact Hv|]. split; [exact Hlen|]. split; [exact (DG sel false ltac:(discriminate))|].
    unfold set_level. cbn [l_zero l_up]. destruct lv as [|i].
    + left. split; [reflexivity|]. split; [reflexivity|]. intros t Ht. exact Ht.
    + right. exists i, (nth i (l_up s) []). split; [reflexivity|]. split; [reflexivity|]. split; [|auto].
      rewrite <- (set_nth_id _ i (set_nth (S i) d' (l_up s)) []) at 1. f_equal. apply set_nth_other. lia.
Qed.

Lemma roll_held : forall c h s s', l0_roll c h s = Some s' -> l_up s' = l_up s /\
  forall t, In t (l_zero s') -> b_docs t = [] \/ exists u, In u (l_zero s) /\ b_docs t = b_docs u.
Proof.
  intros c h s s' H. unfold l0_roll in H. destruct (src_of h (l_zero s)).
  { apply some_inj in H. subst s'. split; [reflexivity|]. intros u Hu. right. exists u. now split. }
  destruct (smallest_normal (by_hash h (l_zero s))) as [o|]; [|discriminate].
  destruct (smallest_normal (rm_tbl (b_num o) (by_hash h (l_zero s)))) as [m|]; apply some_inj in H; subst s'; cbn [l_up l_zero]; (split; [reflexivity|]);
    intros t Ht; apply upd_tbl_in in Ht as (u & Hu & ->).
  - right. exists u. split; [exact Hu|]. now destruct (b_num u =? b_num m).
  - apply add_tbl_in in Hu as [-> |Hu].
    + left. now destruct (_ =? b_num o).
    + right. exists u. split; [exact Hu|]. now destruct (b_num u =? b_num o).
Qed.

Lemma batch_held : forall c R bad rs n m h l k, zero_ok c l -> nums_ok n l -> n <= NIL -> (forall t, In t l -> good c R t) ->
  (forall r, In r rs -> bad r = false) -> (forall r, In r rs -> In r R) -> h + N.of_nat m <= tc_parts c ->
  forall t' x, In t' (batch_parts hash part bad rs m h l) -> fd_get k (b_docs t') = Some x ->
  newest_write rs k = Some x \/ exists t, In t l /\ fd_get k (b_docs t) = Some x.
Proof.
  intros c R bad rs n m. induction m as [|m IH]; intros h l k Hz Hn Hnil Hg Hb HR Hh t' x Ht Hx; cbn [batch_parts] in Ht.
  - right. exists t'. now split.
  - destruct (batch_part_spec hash part c R bad rs h n l Hz Hn Hnil Hg Hb HR) as (A1 & A2 & A3 & _); [lia|].
    destruct (IH (h + 1) (batch_part hash part bad rs h l) k A1 A2 Hnil A3 Hb HR ltac:(lia) t' x Ht Hx) as [E|(t & Hin & E)]; [now left|].
    unfold batch_part in Hin. destruct (smallest_normal (by_hash h l)) as [sm|] eqn:Sm; [|right; exists t; now split].
    apply upd_tbl_in in Hin as (u & Hu & ->). destruct (b_num u =? b_num sm) eqn:En; [|right; exists u; now split].
    assert (Lh : h < tc_parts c) by lia. destruct (z_norm _ _ _ Hz h Lh) as (w & Hw). destruct (filter_one_in _ _ _ Hw) as [Iw Nw].
    assert (Lw : b_num w < n) by (apply (proj2 Hn); exact Iw). rewrite (smallest_one h _ w Hw) in Sm by lia. apply some_inj in Sm. subst sm.
    apply N.eqb_eq in En. assert (u = w) by (apply (num_inj l); auto; apply Hn). subst u.
    destruct (z_mem _ _ _ Hz w Iw) as (M1 & M2 & M3 & M4). assert (Eh : b_hash w = h).
    { unfold nf in Nw. apply andb_true_iff in Nw as [B _]. now apply N.eqb_eq in B. }
    rewrite Eh in M4. destruct (tf_batch_spec hash part c R bad h rs w Hb M3 (Hg w Iw) M4 HR) as (_ & _ & _ & _ & _ & _ & E7 & E8).
    assert (Pk : part k = h) by (apply fd_get_in in E as [E1 E2]; rewrite <- E2; exact (E7 x E1)).
    rewrite (E8 k Pk) in E. destruct (newest_write rs k) as [r|]; [left; exact E|right]. exists w. now split.
Qed.

Lemma num_levels_up : forall s, num_levels s = S (length (l_up s)).
Proof. reflexivity. Qed.

(** What one operation does to the levels. *)
Lemma step_facts : forall c R s o s' k, tcfg_ok c -> LI c R s -> lop_ok o -> o <> LReload -> lstep hash part c o s = Some s' -> l_next s' <= NIL ->
  num_levels s' = num_levels s ->
  (forall lv x, held k lv s' x -> held k lv s x \/ (lv = O /\ newest_write (lflushed o) k = Some x) \/ exists j, lv = S j /\ held k j s x) /\
  (forall j, vle (below k j s') (below k j s) \/ exists x, held k j s x /\ vle (below k j s') (Some x)).
Proof.
  intros c R s o s' k Hc HI Ho Hnr H Hnil Hnum.
  assert (Hzero : l_up s' = l_up s -> (forall t x, In t (l_zero s') -> fd_get k (b_docs t) = Some x ->
     newest_write (lflushed o) k = Some x \/ exists u, In u (l_zero s) /\ fd_get k (b_docs u) = Some x) ->
    (forall lv x, held k lv s' x -> held k lv s x \/ (lv = O /\ newest_write (lflushed o) k = Some x) \/ exists j, lv = S j /\ held k j s x) /\
    (forall j, vle (below k j s') (below k j s) \/ exists x, held k j s x /\ vle (below k j s') (Some x))).
  { intros Eu Hz. split.
    - intros [|j] x Hx; cbn [held] in *; [|rewrite Eu in Hx; now left]. destruct Hx as (t & Ht & Hx). destruct (Hz t x Ht Hx) as [X|X]; [right; left; now split|now left].
    - intros j. left. unfold below. rewrite Eu. apply vle_refl. }
  assert (Hvict : forall s1 over mk fin sel lv num, LI c R s1 -> l_up s1 = l_up s -> (forall j, mk j = true) ->
     (forall t, In t (l_zero s1) -> b_docs t = [] \/ exists u, In u (l_zero s) /\ b_docs t = b_docs u) ->
     (lv <> O -> s1 = s /\ o = LDown over mk fin sel lv num) ->
     is_last lv s1 = false -> compact_victim hash c over mk fin sel lv num s1 = Some s' ->
    (forall lv x, held k lv s' x -> held k lv s x \/ (lv = O /\ newest_write (lflushed o) k = Some x) \/ exists j, lv = S j /\ held k j s x) /\
    (forall j, vle (below k j s') (below k j s) \/ exists x, held k j s x /\ vle (below k j s') (Some x))).
  { intros s1 over mk fin sel lv num HI1 Eu Hmk Hdocs Hdown L Hv.
    destruct (victim_form c R over mk fin sel lv num s1 s' HI1 Hmk L Hv) as (v & d' & Iv & Hlen & HT & HF). rewrite Eu in *.
    assert (HT2 : lv_get k d' = lv_get k (nth lv (l_up s) []) \/
       exists r, held k lv s r /\ (lv_get k d' = Some r \/ (lv_get k d' = None /\ S lv = length (l_up s) /\ is_del r = true))).
    { destruct (HT k) as [X|(r & X1 & X2)]; [now left|right]. exists r. split; [|exact X2]. destruct lv as [|i]; cbn [level held] in *.
      - destruct (Hdocs v Iv) as [E|(u & U1 & U2)]; [rewrite E in X1; discriminate|]. exists u. split; [exact U1|]. now rewrite <- U2.
      - destruct (Hdown ltac:(discriminate)) as [-> _]. destruct (nth_in_some _ _ _ Iv) as [Hi Hu].
        apply (rm_get (b_num v) _ v k (li_up _ _ _ _ _ HI _ Hu) (proj1 (li_num _ _ _ _ _ HI _ Hu)) Iv eq_refl). exact X1. }
    assert (Hat : forall u, (forall j, (lv < j)%nat -> skipn j u = skipn j (l_up s)) -> skipn lv u = d' :: skipn (S lv) (l_up s) ->
        forall j, (lv <= j)%nat -> vle (ups k (skipn j u)) (below k j s) \/ exists x, held k j s x /\ vle (ups k (skipn j u)) (Some x)).
    { intros u U1 U2 j Hj. unfold below. destruct (Nat.eq_dec j lv) as [E|N]; [|rewrite U1 by lia; left; apply vle_refl]. subst j.
      rewrite U2, (skipn_at (l_up s) lv Hlen). cbn [ups]. destruct HT2 as [-> |(r & R1 & [-> |(-> & R2 & R3)])].
      - left. apply vle_refl.
      - right. exists r. split; [exact R1|]. cbn [orr]. apply vle_refl.
      - right. exists r. split; [exact R1|]. rewrite (skipn_all2 (n := S lv) (l_up s)) by lia. cbn [orr ups]. right. split; [reflexivity|exists r; now split]. }
    assert (Hdst : forall x, lv_get k d' = Some x -> lv_get k (nth lv (l_up s) []) = Some x \/ held k lv s x).
    { intros x Hx. destruct HT2 as [X|(r & R1 & [X|(X & _)])]; [left; congruence|right; congruence|congruence]. }
    destruct HF as [(-> & F1 & F2)|(i & u' & -> & F0 & F1 & F2)].
    - split.
      + intros [|j] x Hx; cbn [held] in Hx.
        * destruct Hx as (t & Ht & Hx). left. destruct (Hdocs t (F2 t Ht)) as [E|(u & U1 & U2)]; [rewrite E in Hx; discriminate|].
          exists u. split; [exact U1|]. now rewrite <- U2.
        * rewrite F1 in Hx. destruct (Nat.eq_dec j 0) as [E|N].
          -- subst j. rewrite set_nth_same in Hx by exact Hlen. destruct (Hdst x Hx) as [Y|Y]; [now left|right; right; exists O; now split].
          -- rewrite set_nth_other in Hx by lia. now left.
      + intros j. unfold below at 1 3. rewrite F1. apply Hat; [|apply skipn_set_at; exact Hlen|lia]. intros j' Hj. apply skipn_set. lia.
    - destruct (Hdown ltac:(discriminate)) as [-> Eo]. split.
      + intros [|j] x Hx; cbn [held] in Hx; [rewrite F0 in Hx; now left|]. rewrite F1 in Hx. destruct (Nat.eq_dec j i) as [E|N].
        * subst j. rewrite set_nth_same in Hx by (rewrite set_nth_len; lia). left. exact (F2 k x Hx).
        * rewrite set_nth_other in Hx by lia. destruct (Nat.eq_dec j (S i)) as [E|N2].
          -- subst j. rewrite set_nth_same in Hx by exact Hlen. destruct (Hdst x Hx) as [Y|Y]; [now left|right; right; exists (S i); now split].
          -- rewrite set_nth_other in Hx by lia. now left.
      + intros j. destruct (Nat.le_gt_cases (S i) j) as [Hj|Hj].
        * unfold below at 1 3. rewrite F1. apply Hat; [| |exact Hj].
          -- intros j' Hj'. rewrite !skipn_set by lia. reflexivity.
          -- rewrite skipn_set by lia. apply skipn_set_at. exact Hlen.
        * left. pose proof (op_mask hash part c o i (Nat.leb j) s s') as OM. rewrite Eo in OM. cbn [op_level] in OM.
          specialize (OM eq_refl (proj2 (Nat.leb_le j i) ltac:(lia)) (or_introl (proj2 (Nat.leb_le j (S i)) ltac:(lia)))). rewrite <- Eo in OM. specialize (OM H Hnum).
          destruct (lstep_keeps hash part c R (mask (Nat.leb j) s) o _ Hc (mask_LI hash part c R _ s HI) Ho OM Hnil) as [_ V].
          specialize (V k). rewrite !mask_view, !msk_from in V. rewrite Eo in V. cbn [lflushed] in V. exact V. }
  assert (Hin : forall i, op_level o = Some i -> (forall a b d e l n, o <> LDown a b d e l n) -> l_zero s' = l_zero s -> (exists u', l_up s' = set_nth i u' (l_up s)) -> (i < length (l_up s))%nat ->
    lflushed o = [] ->
    (forall lv x, held k lv s' x -> held k lv s x \/ (lv = O /\ newest_write (lflushed o) k = Some x) \/ exists j, lv = S j /\ held k j s x) /\
    (forall j, vle (below k j s') (below k j s) \/ exists x, held k j s x /\ vle (below k j s') (Some x))).
  { intros i Ei Nd Ez (u' & Eu) Hi Ef.
    assert (V : forall p, p i = true -> vle (ups k (msk p (l_up s'))) (ups k (msk p (l_up s)))).
    { intros p Pi. pose proof (op_mask hash part c o i p s s' Ei Pi (or_intror Nd) H Hnum) as OM.
      destruct (lstep_keeps hash part c R (mask p s) o _ Hc (mask_LI hash part c R p s HI) Ho OM Hnil) as [_ V].
      specialize (V k). rewrite !mask_view, Ef in V. exact V. }
    split.
    - intros [|j] x Hx; cbn [held] in *; [rewrite Ez in Hx; now left|]. left. destruct (Nat.eq_dec j i) as [E|N].
      + subst j. specialize (V (Nat.eqb i) (Nat.eqb_refl i)). rewrite !msk_one in V by (rewrite ?Eu, ?set_nth_len; exact Hi). rewrite Hx in V.
        destruct V as [V|[V _]]; [now symmetry|discriminate].
      + rewrite Eu, set_nth_other in Hx by lia. exact Hx.
    - intros j. left. unfold below. destruct (Nat.le_gt_cases j i) as [Hj|Hj].
      + specialize (V (Nat.leb j) (proj2 (Nat.leb_le j i) Hj)). now rewrite !msk_from in V.
      + rewrite Eu, skipn_set by lia. apply vle_refl. }
  destruct o as [bad rs|h|over mk fin sel h|over mk fin sel lv num|pr lv num|cut mk lv num|lv num|]; cbn [lstep lop_ok lflushed op_level] in *.
  - clear Hvict Hin. apply some_inj in H. subst s'. apply Hzero; [reflexivity|]. intros t x Ht Hx. unfold set_batch in Ht. cbn [l_zero] in Ht.
    apply (batch_held c (R ++ rs) bad rs (l_next s) (N.to_nat (tc_parts c)) 0 (l_zero s) k) with (t' := t); auto.
    + apply (li_zero _ _ _ _ _ HI).
    + apply (li_num0 _ _ _ _ _ HI).
    + intros u Hu. eapply good_mono; [exact (li_good0 _ _ _ _ _ HI u Hu)|]. intros r Hr. apply in_app_iff. now left.
    + intros r Hr. apply in_app_iff. now right.
    + lia.
  - clear Hvict Hin. destruct (roll_held c h s s' H) as [A1 A2]. apply Hzero; [exact A1|]. intros t x Ht Hx. right.
    destruct (A2 t Ht) as [E|(u & U1 & U2)]; [rewrite E in Hx; discriminate|]. exists u. split; [exact U1|]. now rewrite <- U2.
  - clear Hzero Hin. unfold compact_l0 in H. destruct (l0_roll c h s) as [s1|] eqn:Ro; [|discriminate].
    destruct (src_of h (l_zero s1)) as [v|]; [|discriminate]. unfold compact_level in H. cbn [Nat.ltb Nat.leb] in H. rewrite andb_false_r in H.
    destruct (roll_held c h s s1 Ro) as [A1 A2].
    destruct (roll_keeps hash part c R s h s1 HI Ro) as (HI1 & _ & _); [apply victim_next in H; lia|].
    assert (L : is_last 0 s1 = false).
    { destruct (is_last 0 s1) eqn:L; [|reflexivity]. exfalso. unfold compact_victim in H. destruct (tbl_at (b_num v) (level 0 s1)) as [w|]; [|discriminate].
      rewrite L in H. rewrite !num_levels_up in Hnum. rewrite <- A1 in Hnum.
      assert (X : forall lv l z, length (l_up (set_level lv l z)) = length (l_up z)) by (intros [|i] l z; cbn [set_level l_up]; rewrite ?set_nth_len; reflexivity).
      destruct fin.
      - change (Nat.ltb 0 0) with false in H. cbn [andb] in H. apply some_inj in H. subst s'. unfold with_next in Hnum. cbn [l_up] in Hnum.
        rewrite !X in Hnum. unfold extend in Hnum. cbn [l_up] in Hnum. rewrite app_length in Hnum. cbn [length] in Hnum. lia.
      - apply some_inj in H. subst s'. rewrite !X in Hnum. unfold extend in Hnum. cbn [l_up] in Hnum. rewrite app_length in Hnum. cbn [length] in Hnum. lia. }
    apply (Hvict s1 over mk fin sel O (b_num v)); auto. intros X. now destruct X.
  - clear Hzero Hin. destruct lv as [|i]; [discriminate|]. pose proof H as H0. unfold compact_level in H. destruct (is_last (S i) s) eqn:L; cbn [andb Nat.ltb Nat.leb] in H.
    + exfalso. unfold migrate in H. destruct (is_last (S i) s && negb (is_nil (level (S i) s))); [|discriminate]. apply some_inj in H. subst s'.
      unfold num_levels, set_level, extend in Hnum. cbn [l_up] in Hnum. rewrite !set_nth_len, app_length in Hnum. cbn [length] in Hnum. lia.
    + apply (Hvict s over mk fin sel (S i) num); auto. intros t Ht. right. exists t. now split.
  - destruct lv as [|i]; [discriminate|]. apply (Hin i); auto; try discriminate; clear Hin Hvict Hzero;
      unfold in_place in H; destruct (tbl_at num (level (S i) s)) as [v|] eqn:T; try discriminate; apply some_inj in H; subst s'.
    + reflexivity.
    + eexists. reflexivity.
    + apply tbl_at_in in T as [T _]. cbn [level] in T. now destruct (nth_in_some _ _ _ T).
  - destruct lv as [|i]; [discriminate|]. apply (Hin i); auto; try discriminate; clear Hin Hvict Hzero;
      unfold split in H; destruct (tbl_at num (level (S i) s)) as [v|] eqn:T; try discriminate;
      destruct (Nat.ltb 1 (length (cuts cut 0 (b_docs v) (mkG (b_min v) None [])))); try discriminate; apply some_inj in H; subst s'.
    + reflexivity.
    + eexists. reflexivity.
    + apply tbl_at_in in T as [T _]. cbn [level] in T. now destruct (nth_in_some _ _ _ T).
  - destruct lv as [|i]; [discriminate|]. apply (Hin i); auto; try discriminate; clear Hin Hvict Hzero;
      unfold merge in H; destruct (tbl_at num (level (S i) s)) as [v|] eqn:T; try discriminate;
      destruct (before num None (level (S i) s)) as [d|]; try discriminate; apply some_inj in H; subst s'.
    + reflexivity.
    + eexists. reflexivity.
    + apply tbl_at_in in T as [T _]. cbn [level] in T. now destruct (nth_in_some _ _ _ T).
  - now destruct Hnr.
Qed.

End Hash.
