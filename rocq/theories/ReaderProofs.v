(** Proofs about lookups among other operations: what an operation does to each level. *)
From Coq Require Import List NArith Bool Lia Arith Sorted Permutation.
From Verif Require Import Base LogFormatModel KeyModel KeyProofs BloomModel BloomProofs MemTableModel LsmModel LsmProofs LsmProofs2 LsmProofs3 LsmProofs4 LsmProofs5.
Import ListNotations.
Local Open Scope N_scope.

Lemma some_inj : forall A (x y : A), Some x = Some y -> x = y.
Proof. intros A x y H. now injection H. Qed.

(** ** States with some levels emptied *)

Fixpoint msk (p : nat -> bool) (l : list (list tbl)) : list (list tbl) :=
  match l with [] => [] | a :: t => (if p O then a else []) :: msk (fun i => p (S i)) t end.

Lemma msk_len : forall l p, length (msk p l) = length l.
Proof. induction l as [|a l IH]; intros p; cbn [msk length]; [reflexivity|]. now rewrite IH. Qed.
Lemma msk_nth : forall l p i, p i = true -> nth i (msk p l) [] = nth i l [].
Proof.
  induction l as [|a l IH]; intros p [|i] H; cbn [msk nth]; try reflexivity; [now rewrite H|now apply IH].
Qed.
Lemma msk_set : forall l p i x, p i = true -> set_nth i x (msk p l) = msk p (set_nth i x l).
Proof.
  induction l as [|a l IH]; intros p [|i] x H; cbn [msk set_nth]; try reflexivity; [now rewrite H|]. f_equal. now apply IH.
Qed.
Lemma msk_in : forall l p ts, In ts (msk p l) -> ts = [] \/ In ts l.
Proof.
  induction l as [|a l IH]; intros p ts H; cbn [msk] in H; [destruct H|]. destruct H as [<-|H].
  - destruct (p O); [right; now left|now left].
  - apply IH in H as [H|H]; [now left|right; now right].
Qed.
Lemma msk_from : forall k l j, ups k (msk (Nat.leb j) l) = ups k (skipn j l).
Proof.
  intros k l. induction l as [|a l IH]; intros j; [now destruct j|]. destruct j as [|j].
  - cbn [msk skipn ups Nat.leb]. f_equal. change (fun i => true) with (Nat.leb 0). rewrite (IH 0%nat). reflexivity.
  - cbn [msk skipn ups Nat.leb]. cbn [lv_get floor orr]. exact (IH j).
Qed.
Lemma msk_none : forall k l p, (forall i, p i = false) -> ups k (msk p l) = None.
Proof.
  intros k l. induction l as [|a l IH]; intros p H; cbn [msk ups]; [reflexivity|]. rewrite (H O). cbn [lv_get floor orr]. apply IH. intros i. apply H.
Qed.
Lemma msk_one : forall k l j, (j < length l)%nat -> ups k (msk (Nat.eqb j) l) = lv_get k (nth j l []).
Proof.
  intros k l. induction l as [|a l IH]; intros j H; [cbn in H; lia|]. destruct j as [|j].
  - cbn [msk ups nth Nat.eqb]. rewrite msk_none by reflexivity. now destruct (lv_get k a).
  - cbn [msk ups nth Nat.eqb]. cbn [lv_get floor orr]. apply (IH j). cbn in H. lia.
Qed.

Definition clr (t : tbl) : tbl := mkT (b_num t) (b_src t) (b_hash t) (b_min t) [] (b_bf t).
Definition mask (p : nat -> bool) (s : lsm) : lsm := mkL (l_next s) (map clr (l_zero s)) (msk p (l_up s)).

Section Hash.
Variable hash : key -> N * N.
Variable part : key -> N.

Local Notation installed := (installed hash).
Local Notation good := (good hash).
Local Notation LI := (LI hash part).
Local Notation view := (view part).
Local Notation zview := (zview part).
Local Notation zero_ok := (zero_ok part).
Local Notation tcfg_ok := (tcfg_ok part).

Lemma mask_last : forall p lv s, is_last lv (mask p s) = is_last lv s.
Proof. intros p lv s. unfold is_last, num_levels, mask. cbn [l_up]. now rewrite msk_len. Qed.

Lemma mask_LI : forall c R p s, LI c R s -> LI c R (mask p s).
Proof.
  intros c R p s HI. pose proof (li_zero _ _ _ _ _ HI) as Hz. constructor; unfold mask; cbn [l_next l_zero l_up].
  - constructor.
    + intros t Ht. apply in_map_iff in Ht as (u & <- & Hu). destruct (z_mem _ _ _ Hz u Hu) as (A1 & A2 & _). cbn [clr b_hash b_min b_docs].
      split; [exact A1|]. split; [exact A2|]. split; [constructor|intros d []].
    + intros h L. destruct (z_norm _ _ _ Hz h L) as (t & E). exists (clr t). rewrite filter_map. change (fun x => nf h (clr x)) with (nf h). now rewrite E.
    + intros h. rewrite filter_map. change (fun x => sf h (clr x)) with (sf h). destruct (z_src _ _ _ Hz h) as [-> |(t & ->)]; [now left|right; now exists (clr t)].
  - intros ts H. apply msk_in in H as [-> |H]; [apply lvl_ok_nil|exact (li_up _ _ _ _ _ HI ts H)].
  - apply nums_map; [reflexivity|exact (li_num0 _ _ _ _ _ HI)].
  - intros ts H. apply msk_in in H as [-> |H]; [apply nums_ok_nil|exact (li_num _ _ _ _ _ HI ts H)].
  - intros t Ht. apply in_map_iff in Ht as (u & <- & Hu). destruct (li_good0 _ _ _ _ _ HI u Hu) as [G1 G2 G3]. constructor; cbn [clr b_docs b_bf].
    + intros d [].
    + exact G2.
    + intros f Hf. destruct (G3 f Hf) as [W _]. split; [exact W|intros _ d []].
  - intros ts t H Ht. apply msk_in in H as [-> |H]; [destruct Ht|exact (li_good _ _ _ _ _ HI ts t H Ht)].
  - exact (li_nil _ _ _ _ _ HI).
Qed.

Lemma mask_view : forall p s k, view (mask p s) k = ups k (msk p (l_up s)).
Proof.
  intros p s k. unfold LsmProofs2.view, LsmProofs2.zview, zget, mask. cbn [l_zero l_up]. rewrite !filter_map.
  destruct (filter (fun x => nf (part k) (clr x)) (l_zero s)) as [|a la]; destruct (filter (fun x => sf (part k) (clr x)) (l_zero s)) as [|b lb]; reflexivity.
Qed.

(** ** Operations on levels above 0 commute with emptying other levels *)

Definition op_level (o : lop) : option nat :=
  match o with
  | LDown _ _ _ _ (S i) _ | LPlace _ (S i) _ | LSplit _ _ (S i) _ | LMerge (S i) _ => Some i
  | _ => None
  end.

Lemma victim_mask : forall c over mk fin sel i num p s s', p i = true -> p (S i) = true -> is_last (S i) s = false ->
  compact_victim hash c over mk fin sel (S i) num s = Some s' ->
  compact_victim hash c over mk fin sel (S i) num (mask p s) = Some (mask p s').
Proof.
  intros c over mk fin sel i num p s s' P1 P2 L H. unfold compact_victim in *. rewrite mask_last, L in *.
  assert (E1 : level (S i) (mask p s) = level (S i) s) by (unfold level, mask; cbn [l_up]; now apply msk_nth).
  assert (E2 : level (S (S i)) (mask p s) = level (S (S i)) s) by (unfold level, mask; cbn [l_up]; now apply msk_nth).
  rewrite E1, E2. rewrite mask_last. destruct (tbl_at num (level (S i) s)) as [v|]; [|discriminate].
  change (l_next (mask p s)) with (l_next s).
  set (gs := groups over (b_min v) (b_docs v) (tables_range (b_min v) (max_key v) (level (S (S i)) s))) in *.
  set (purge := tc_purge c && is_last (S (S i)) s) in *.
  destruct fin.
  - set (d' := add_all _ _) in *. set (n' := l_next s + _) in *.
    unfold set_level, with_next, level, mask in *. cbn [l_next l_zero l_up] in *.
    repeat first [rewrite msk_set by assumption|rewrite msk_nth by assumption].
    match type of H with Some (if ?b then _ else _) = _ => destruct b end; injection H as <-; cbn [l_next l_zero l_up]; [|reflexivity].
    now rewrite ?msk_set by assumption.
  - injection H as <-. unfold set_level, mask. cbn [l_next l_zero l_up]. now rewrite msk_set by assumption.
Qed.

Lemma op_mask : forall c o i p s s', op_level o = Some i -> p i = true -> p (S i) = true \/ (forall a b d e l n, o <> LDown a b d e l n) ->
  lstep hash part c o s = Some s' -> num_levels s' = num_levels s -> lstep hash part c o (mask p s) = Some (mask p s').
Proof.
  intros c o i p s s' Ho P1 P2 H Hn.
  destruct o as [bad rs|h|over mk fin sel h|over mk fin sel lv num|pr lv num|cut mk lv num|lv num|]; cbn [op_level] in Ho; try discriminate;
    destruct lv as [|j]; try discriminate; injection Ho as ->; cbn [lstep] in *.
  - destruct P2 as [P2|P2]; [|destruct (P2 over mk fin sel (S i) num eq_refl)]. unfold compact_level in *. rewrite mask_last.
    destruct (is_last (S i) s) eqn:L; cbn [andb Nat.ltb Nat.leb] in *; [|now apply victim_mask].
    unfold migrate in H. destruct (is_last (S i) s && negb (is_nil (level (S i) s))); [|discriminate]. apply some_inj in H. subst s'.
    unfold num_levels, set_level, extend in Hn. cbn [l_up] in Hn. rewrite !set_nth_len, app_length in Hn. cbn [length] in Hn. lia.
  - unfold in_place in *. assert (E1 : level (S i) (mask p s) = level (S i) s) by (unfold level, mask; cbn [l_up]; now apply msk_nth).
    rewrite E1, mask_last. destruct (tbl_at num (level (S i) s)) as [v|]; [|discriminate]. injection H as <-.
    unfold with_next, set_level, mask. cbn [l_next l_zero l_up]. now rewrite msk_set by assumption.
  - unfold split in *. assert (E1 : level (S i) (mask p s) = level (S i) s) by (unfold level, mask; cbn [l_up]; now apply msk_nth).
    rewrite E1. destruct (tbl_at num (level (S i) s)) as [v|]; [|discriminate]. destruct (Nat.ltb 1 (length (cuts cut 0 (b_docs v) (mkG (b_min v) None [])))); [|discriminate].
    injection H as <-. unfold with_next, set_level, mask. cbn [l_next l_zero l_up]. now rewrite msk_set by assumption.
  - unfold merge in *. assert (E1 : level (S i) (mask p s) = level (S i) s) by (unfold level, mask; cbn [l_up]; now apply msk_nth).
    rewrite E1, mask_last. destruct (tbl_at num (level (S i) s)) as [v|]; [|discriminate]. destruct (before num None (level (S i) s)) as [d|]; [|discriminate].
    injection H as <-. unfold set_level, mask. cbn [l_next l_zero l_up]. now rewrite msk_set by assumption.
Qed.

(** ** A cancelled compaction *)

Lemma install_part : forall c raw purge sel n gs dst k r, lvl_ok dst -> NoDup (map b_num dst) -> fits gs dst ->
  fd_get k (concat (map g_recs gs)) = Some r ->
  let l := installed c raw purge sel n gs dst false in
  lv_get k l = lv_get k dst \/ lv_get k l = Some r \/ (lv_get k l = None /\ purge = true /\ is_del r = true).
Proof.
  intros c raw purge sel n gs dst k r Hok Hn F Hk l. apply fd_get_in in Hk as [Hin Ek]. apply in_concat_grp in Hin as (g & G1 & G2).
  assert (Hl : lvl_ok l) by (now apply install_ok). pose proof Hok as [Hs Hd].
  assert (Huniq : forall n' x, In x (to_tab sel n' gs) -> r_key x = k -> x = r /\ sel r = true /\ exists t, g_tab g = Some t /\ b_num t = n').
  { intros n' x Hx Ex. apply to_tab_in in Hx as (g' & t' & A1 & A2 & A3 & A4 & A5).
    assert (x = r).
    { apply (docs_key_inj (concat (map g_recs gs))); [exact (fit_srt _ _ F)| | |congruence];
        apply in_concat_grp; [exists g'; now split|exists g; now split]. }
    subst x. assert (g = g') by exact (fits_one gs dst g g' r F G1 A1 G2 A4). subst g'. split; [reflexivity|]. split; [exact A5|]. exists t'. now split. }
  assert (Hdocs : forall u x, In u dst -> (In x (b_docs (LsmModel.tf_sets hash raw purge (to_tab sel (b_num u) gs) u)) <->
     (In x (to_tab sel (b_num u) gs) /\ purge && is_del x = false) \/ (In x (b_docs u) /\ forall y, In y (to_tab sel (b_num u) gs) -> r_key y <> r_key x))).
  { intros u x Hu. apply (tf_sets_docs hash); [apply to_tab_sorted, (fit_srt _ _ F)|]. now destruct (Hd u Hu). }
  assert (Hsame : (forall t, g_tab g = Some t -> sel r = false) -> lv_get k l = lv_get k dst).
  { intros Hno. apply lv_get_ext; [exact Hl|exact Hok|]. intros x Ex. split.
    - intros (w & Hw & Hx). unfold l in Hw. apply installed_in in Hw as [(u & Hu & ->)|(Hf & _)]; [|discriminate].
      apply (Hdocs u x Hu) in Hx as [[Hx _]|[Hx _]]; [|exists u; now split].
      destruct (Huniq _ x Hx Ex) as (_ & S1 & t & T & _). rewrite (Hno t T) in S1. discriminate.
    - intros (u & Hu & Hx). exists (LsmModel.tf_sets hash raw purge (to_tab sel (b_num u) gs) u). split.
      + unfold l, LsmProofs.installed. apply add_all_in. right. rewrite write_old_map. apply in_map_iff. exists u. now split.
      + apply (Hdocs u x Hu). right. split; [exact Hx|]. intros y Hy Ey. destruct (Huniq _ y Hy (eq_trans Ey Ex)) as (_ & S1 & t & T & _).
        rewrite (Hno t T) in S1. discriminate. }
  destruct (g_tab g) as [t|] eqn:T; [|left; apply Hsame; discriminate].
  destruct (sel r) eqn:S1; [|left; apply Hsame; reflexivity]. right. clear Hsame.
  assert (Ht : In t dst) by exact (fit_tab _ _ F g t G1 T). destruct (Hd t Ht) as [D1 D2].
  assert (Hto : In r (to_tab sel (b_num t) gs)) by (apply to_tab_in; exists g, t; auto).
  destruct (purge && is_del r) eqn:P.
  - right. apply andb_true_iff in P as [P1 P2]. split; [|now split]. apply lv_get_none; [exact Hl|].
    intros x (w & Hw & Hx) Ex. unfold l in Hw. apply installed_in in Hw as [(u & Hu & ->)|(Hf & _)]; [|discriminate].
    apply (Hdocs u x Hu) in Hx as [[Hx Hp]|[Hx Hno]].
    + destruct (Huniq _ x Hx Ex) as (-> & _). rewrite P1, P2 in Hp. discriminate.
    + destruct (Hd u Hu) as [U1 U2]. assert (Eu : u = t).
      { apply (floor_range dst u t r Hs Hu Ht).
        - pose proof (U2 x Hx) as Q. unfold in_range in *. now rewrite Ek, <- Ex.
        - pose proof (fit_rng _ _ F g r G1 G2) as Q. unfold glo in Q. now rewrite T in Q. }
      subst u. apply (Hno r Hto). congruence.
  - left. apply lv_get_some; [exact Hl|]. split; [|exact Ek].
    exists (LsmModel.tf_sets hash raw purge (to_tab sel (b_num t) gs) t). split.
    + unfold l, LsmProofs.installed. apply add_all_in. right. rewrite write_old_map. apply in_map_iff. exists t. now split.
    + apply (Hdocs t r Ht). left. now split.
Qed.

(** What the destination of a compaction holds afterwards. *)
Lemma dst_get : forall c over v dst n purge, lvl_ok dst -> nums_ok n dst -> docs_ok (b_docs v) -> (forall d, In d (b_docs v) -> kle (b_min v) (r_key d)) ->
  let gs := victim_groups over v dst in
  forall sel full, (full = true -> sel = fun _ => true) -> forall k,
  let d' := installed c true purge sel n gs dst full in
  lv_get k d' = lv_get k dst \/
  exists r, fd_get k (b_docs v) = Some r /\ (lv_get k d' = Some r \/ (lv_get k d' = None /\ purge = true /\ is_del r = true)).
Proof.
  intros c over v dst n purge Hok Hnum Vd Vm gs sel full Hf k d'.
  destruct (groups_fit hash part over (b_min v) (b_docs v) dst Hok Vd Vm) as [F E].
  change (groups over (b_min v) (b_docs v) (tables_range (b_min v) (last_key (b_docs v)) dst)) with gs in F, E.
  destruct (fd_get k (b_docs v)) as [r|] eqn:G.
  - rewrite <- E in G. destruct full.
    + specialize (Hf eq_refl). subst sel. right. exists r. split; [reflexivity|]. apply install_these; auto. apply Hnum.
    + destruct (install_part c true purge sel n gs dst k r Hok (proj1 Hnum) F G) as [X|X]; [now left|right; exists r; now split].
  - left. apply install_other; auto; [apply Hnum|now rewrite E].
Qed.

End Hash.
