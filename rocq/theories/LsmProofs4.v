(** Proofs about the table section: compactions between levels, flush, executions. *)
From Coq Require Import List NArith Bool Lia Arith Sorted Permutation.
From Verif Require Import Base LogFormatModel KeyModel KeyProofs BloomModel BloomProofs MemTableModel LsmModel LsmProofs LsmProofs2 LsmProofs3.
Import ListNotations.
Local Open Scope N_scope.

Section Hash.
Variable hash : key -> N * N.
Variable part : key -> N.

Local Notation tf_set := (tf_set hash).
Local Notation tf_sets := (tf_sets hash).
Local Notation tf_get := (tf_get hash).
Local Notation installed := (installed hash).
Local Notation good := (good hash).
Local Notation LI := (LI hash part).
Local Notation view := (view part).
Local Notation zview := (zview part).
Local Notation zero_ok := (zero_ok part).

(** ** The level that receives the records *)

Definition victim_groups (over : nat -> bool) (v : tbl) (dst : list tbl) : list grp :=
  groups over (b_min v) (b_docs v) (tables_range (b_min v) (max_key v) dst).

Lemma dst_facts : forall c R over v dst n purge, lvl_ok dst -> nums_ok n dst -> (forall t, In t dst -> good c R t) ->
  docs_ok (b_docs v) -> (forall d, In d (b_docs v) -> kle (b_min v) (r_key d)) -> good c R v ->
  let gs := victim_groups over v dst in
  (let d' := installed c true purge (fun _ => true) n gs dst true in
   lvl_ok d' /\ nums_ok (n + cnt_new gs) d' /\ (forall t, In t d' -> good c R t) /\
   forall k, (fd_get k (b_docs v) = None -> lv_get k d' = lv_get k dst) /\
             (forall r, fd_get k (b_docs v) = Some r -> lv_get k d' = Some r \/ (lv_get k d' = None /\ purge = true /\ is_del r = true))) /\
  (forall sel, let d' := installed c true purge sel n gs dst false in
   lvl_ok d' /\ nums_ok n d' /\ (forall t, In t d' -> good c R t) /\
   forall k, fd_get k (b_docs v) = None -> lv_get k d' = lv_get k dst).
Proof.
  intros c R over v dst n purge Hok Hnum Hg Vd Vm Vg gs.
  destruct (groups_fit hash part over (b_min v) (b_docs v) dst Hok Vd Vm) as [F E].
  change (groups over (b_min v) (b_docs v) (tables_range (b_min v) (last_key (b_docs v)) dst)) with gs in F, E.
  assert (Hr : forall g r, In g gs -> In r (g_recs g) -> In r R /\ is_cmd r = false).
  { intros g r G1 G2. apply (gd_docs _ _ _ _ Vg). rewrite <- E. apply in_concat_grp. exists g. now split. }
  split.
  - split; [apply install_ok; auto; apply Hnum|]. split; [now apply nums_installed|]. split.
    + apply (good_installed hash part); [now apply (lvl_docs hash)|exact Hr].
    + intros k. split.
      * intros H. apply install_other; auto; [apply Hnum|now rewrite E].
      * intros r H. apply install_these; auto; [apply Hnum|now rewrite E].
  - intros sel. split; [apply install_ok; auto; apply Hnum|]. split; [|split].
    + unfold LsmProofs.installed. cbn [add_all fold_right]. rewrite write_old_map. apply nums_map; [intros t; apply fnum|exact Hnum].
    + apply (good_installed hash part); [now apply (lvl_docs hash)|exact Hr].
    + intros k H. apply install_other; auto; [apply Hnum|now rewrite E].
Qed.

(** ** From one level above 0 to the next *)

Lemma set_nth_id : forall A i (l : list A) d, set_nth i (nth i l d) l = l.
Proof. intros A i l d. revert i. induction l as [|a l IH]; intros [|i]; cbn [set_nth nth]; auto. now rewrite IH. Qed.

Lemma level_nth : forall i (s : lsm), level (S i) s = nth i (l_up s) [].
Proof. reflexivity. Qed.

Lemma down_keeps : forall c R over mk fin sel i num s s', LI c R s -> (forall j, mk j = true) -> is_last (S i) s = false ->
  compact_victim hash c over mk fin sel (S i) num s = Some s' -> l_next s' <= NIL ->
  LI c R s' /\ forall k, vle (view s' k) (view s k).
Proof.
  intros c R over mk fin sel i num s s' HI Hmk Hlast H Hnil. unfold compact_victim in H.
  destruct (tbl_at num (level (S i) s)) as [v|] eqn:T; [|discriminate]. rewrite Hlast in H.
  apply tbl_at_in in T as [Hv <-]. rewrite level_nth in Hv. rewrite (level_nth (S i)) in H.
  set (u := nth i (l_up s) []) in *. set (dst := nth (S i) (l_up s) []) in *.
  change (groups over (b_min v) (b_docs v) (tables_range (b_min v) (max_key v) dst)) with (victim_groups over v dst) in H.
  set (gs := victim_groups over v dst) in *. set (purge := tc_purge c && is_last (S (S i)) s) in *.
  destruct (nth_in_some _ _ _ Hv) as [Hi Hu]. fold u in Hu.
  assert (Hi2 : (S i < length (l_up s))%nat) by (unfold is_last, num_levels in Hlast; apply Nat.eqb_neq in Hlast; lia).
  assert (Hdst : In dst (l_up s)) by (apply nth_In; exact Hi2).
  assert (Hoku : lvl_ok u) by exact (li_up _ _ _ _ _ HI u Hu).
  assert (Hnumu : nums_ok (l_next s) u) by exact (li_num _ _ _ _ _ HI u Hu).
  destruct (proj2 Hoku v Hv) as [V1 V2].
  destruct (dst_facts c R over v dst (l_next s) purge) as [DF DC].
  { exact (li_up _ _ _ _ _ HI dst Hdst). } { exact (li_num _ _ _ _ _ HI dst Hdst). }
  { intros t Ht. exact (li_good _ _ _ _ _ HI dst t Hdst Ht). } { exact V1. } { intros d Hd. apply (V2 d Hd). }
  { exact (li_good _ _ _ _ _ HI u v Hu Hv). }
  fold gs in DF, DC. destruct fin.
  - clear DC. rewrite (new_tbls_mk hash c mk) in H by exact Hmk.
    change (add_all (new_tbls hash c all_true 0 (l_next s) gs) (write_old hash true purge (fun _ => true) gs dst))
      with (installed c true purge (fun _ => true) (l_next s) gs dst true) in H.
    fold (cnt_new gs) in H. set (d' := installed c true purge (fun _ => true) (l_next s) gs dst true) in *.
    destruct DF as (D1 & D2 & D3 & D4). set (n' := l_next s + cnt_new gs) in *.
    unfold set_level, with_next, level in H. cbn [l_next l_zero l_up] in H.
    assert (Ex : nth i (set_nth (S i) d' (l_up s)) [] = u) by (apply set_nth_other; lia). rewrite !Ex in H. rewrite set_nth_same in H by (rewrite set_nth_len; exact Hi).
    rewrite set_nth_twice in H.
    assert (Hstep : forall u2 n2, n' <= n2 -> n2 <= NIL -> lvl_ok u2 -> nums_ok n2 u2 -> (forall t, In t u2 -> good c R t) ->
      (forall k, lv_get k u2 = lv_get k (rm_tbl (b_num v) u)) ->
      let s2 := mkL n2 (l_zero s) (set_nth i u2 (set_nth (S i) d' (l_up s))) in
      LI c R s2 /\ forall k, vle (view s2 k) (view s k)).
    { intros u2 n2 L1 L2 U1 U2 U3 U4 s2. split.
      - assert (HI1 : LI c R (mkL n' (l_zero s) (set_nth (S i) d' (l_up s)))).
        { apply level_repl; auto; unfold n'; lia. }
        apply (level_repl hash part c R _ i u2 n2) in HI1; cbn [l_next l_up] in *; auto. rewrite set_nth_len. exact Hi.
      - intros k. unfold s2, LsmProofs2.view. cbn [l_zero l_up]. apply vle_orr. apply ups_two; [exact Hi2|]. fold u dst.
        rewrite U4. destruct (rm_get (b_num v) u v k Hoku (proj1 Hnumu) Hv eq_refl) as [RM1 RM2]. destruct (D4 k) as [E1 E2].
        destruct (fd_get k (b_docs v)) as [r|] eqn:G.
        + destruct (RM1 r eq_refl) as [A1 A2]. rewrite A1, A2. cbn [orr]. destruct (E2 r eq_refl) as [-> |(-> & P & D)]; [now left|].
          right. unfold purge in P. apply andb_true_iff in P as [_ P]. unfold is_last, num_levels in P. apply Nat.eqb_eq in P.
          split; [lia|]. right. split; [reflexivity|exists r; now split].
        + left. now rewrite (RM2 eq_refl), (E1 eq_refl). }
    destruct (Nat.ltb 0 (S i) && negb false && _) eqn:Fill; injection H as <-.
    + cbn [l_next] in Hnil. set (gf := [mkG (b_min v) None []]).
      assert (Ef : add_tbl (new_tbl c n' 0 (b_min v)) (rm_tbl (b_num v) u) = installed c true false (fun _ => true) n' gf (rm_tbl (b_num v) u) true) by reflexivity.
      rewrite Ef. assert (Ff : fits gf (rm_tbl (b_num v) u)).
      { apply parts_fit; auto; unfold gf.
        - apply Hnumu.
        - intros g [<-|[]]. reflexivity.
        - repeat constructor.
        - constructor.
        - intros g r [<-|[]] [].
        - intros g [<-|[]]. now left. }
      assert (Hnrm : nums_ok n' (rm_tbl (b_num v) u)) by (apply nums_filter; eapply nums_le; [exact Hnumu|unfold n'; lia]).
      apply Hstep.
      * lia.
      * exact Hnil.
      * apply install_ok; [now apply rm_ok|apply Hnrm|exact Ff].
      * change (n' + 1) with (n' + cnt_new gf). now apply nums_installed.
      * apply (good_installed hash part).
        -- apply (lvl_docs hash); [now apply rm_ok|]. intros t Ht. apply rm_tbl_in in Ht as [Ht _]. exact (li_good _ _ _ _ _ HI u t Hu Ht).
        -- intros g r [<-|[]] [].
      * intros k. apply install_other; [now apply rm_ok|apply Hnrm|exact Ff|reflexivity].
    + cbn [l_next] in Hnil. apply Hstep; auto; try lia.
      * now apply rm_ok.
      * apply nums_filter. eapply nums_le; [exact Hnumu|unfold n'; lia].
      * intros t Ht. apply rm_tbl_in in Ht as [Ht _]. exact (li_good _ _ _ _ _ HI u t Hu Ht).
  - clear DF. specialize (DC sel). change (write_old hash true purge sel gs dst) with (installed c true purge sel (l_next s) gs dst false) in H.
    set (d' := installed c true purge sel (l_next s) gs dst false) in *. injection H as <-. destruct DC as (D1 & D2 & D3 & D4).
    change (set_level (S (S i)) d' s) with (mkL (l_next s) (l_zero s) (set_nth (S i) d' (l_up s))) in *. cbn [l_next] in Hnil. split.
    + exact (level_repl hash part c R s (S i) d' (l_next s) HI Hi2 (N.le_refl _) Hnil D1 D2 D3).
    + intros k. unfold LsmProofs2.view. cbn [l_zero l_up]. apply vle_orr.
      assert (Eu : set_nth (S i) d' (l_up s) = set_nth i u (set_nth (S i) d' (l_up s))).
      { rewrite <- (set_nth_id _ i (set_nth (S i) d' (l_up s)) []) at 1. f_equal. apply set_nth_other. lia. }
      match goal with |- vle (ups k ?x) _ => change x with (set_nth (S i) d' (l_up s)) end. rewrite Eu. apply ups_two; [exact Hi2|]. fold u dst. left.
      destruct (rm_get (b_num v) u v k Hoku (proj1 Hnumu) Hv eq_refl) as [RM1 _].
      destruct (fd_get k (b_docs v)) as [r|] eqn:G; [destruct (RM1 r eq_refl) as [-> _]; reflexivity|]. now rewrite (D4 k G).
Qed.

(** ** Migration *)

Lemma floor_map : forall f k l, (forall t, b_min (f t) = b_min t) -> floor k (map f l) = option_map f (floor k l).
Proof.
  intros f k l Hf. induction l as [|t l IH]; [reflexivity|]. cbn [map floor]. rewrite Hf, IH.
  destruct (kleb (b_min t) k); [|reflexivity]. now destruct (floor k l).
Qed.

Lemma migrated_ok : forall l, lvl_ok l -> add_all (map migrated l) [] = map migrated l /\ lvl_ok (map migrated l) /\
  forall k, lv_get k (map migrated l) = lv_get k l.
Proof.
  intros l [Hs Hd]. split; [|split; [split|]].
  - clear Hd. induction l as [|t l IH]; [reflexivity|]. cbn [map add_all fold_right]. fold (add_all (map migrated l) []).
    rewrite (IH (ss_tail _ _ _ _ Hs)). apply add_tbl_front. intros u Hu. apply in_map_iff in Hu as (w & <- & Hw).
    unfold min_le. cbn [migrated b_min]. apply klt_kle. exact (ss_in _ _ _ _ Hs w Hw).
  - apply ss_map_min; [reflexivity|exact Hs].
  - intros t Ht. apply in_map_iff in Ht as (w & <- & Hw). cbn [migrated b_docs b_min]. destruct (Hd w Hw) as [D1 D2].
    split; [exact D1|]. intros d Hdd. destruct (D2 d Hdd) as [E1 E2]. split; [exact E1|]. intros u Hu. apply in_map_iff in Hu as (x & <- & Hx).
    cbn [migrated b_min]. exact (E2 x Hx).
  - intros k. unfold lv_get. rewrite (floor_map migrated k l) by reflexivity. now destruct (floor k l).
Qed.

Lemma extend_keeps : forall c R s, LI c R s -> LI c R (extend s) /\ forall k, view (extend s) k = view s k.
Proof.
  intros c R s HI. unfold extend. split.
  - constructor; cbn [l_next l_zero l_up]; try apply HI.
    + intros ts Hts. apply in_app_iff in Hts as [Hts|[<-|[]]]; [exact (li_up _ _ _ _ _ HI ts Hts)|apply lvl_ok_nil].
    + intros ts Hts. apply in_app_iff in Hts as [Hts|[<-|[]]]; [exact (li_num _ _ _ _ _ HI ts Hts)|apply nums_ok_nil].
    + intros ts t Hts Ht. apply in_app_iff in Hts as [Hts|[<-|[]]]; [exact (li_good _ _ _ _ _ HI ts t Hts Ht)|destruct Ht].
  - intros k. unfold LsmProofs2.view. cbn [l_zero l_up]. rewrite ups_app. cbn [ups]. rewrite lv_get_nil. cbn [orr].
    now destruct (zview k (l_zero s)), (ups k (l_up s)).
Qed.

Lemma migrate_keeps : forall c R s i s', LI c R s -> migrate (S i) s = Some s' -> LI c R s' /\ forall k, vle (view s' k) (view s k).
Proof.
  intros c R s i s' HI H. unfold migrate in H. destruct (is_last (S i) s) eqn:L; [|discriminate]. cbn [andb] in H.
  set (u := nth i (l_up s) []). change (level (S i) s) with u in H.
  destruct (is_nil u) eqn:E0; [discriminate|]. injection H as <-.
  assert (Hlen : length (l_up s) = S i) by (unfold is_last, num_levels in L; apply Nat.eqb_eq in L; lia).
  assert (Hu : In u (l_up s)) by (apply nth_In; lia).
  pose proof (li_up _ _ _ _ _ HI u Hu) as Hok. destruct (migrated_ok u Hok) as (E1 & M1 & M2). rewrite E1.
  destruct (extend_keeps c R s HI) as [HX VX]. unfold extend, set_level in *. cbn [l_next l_zero l_up] in *.
  assert (Hlx : length (l_up s ++ [[]]) = S (S i)) by (rewrite app_length; cbn; lia).
  split.
  - apply (level_repl hash part c R _ (S i) (map migrated u) (l_next s)) in HX; cbn [l_next l_zero l_up] in *; auto; try lia.
    + apply (level_repl hash part c R _ i [] (l_next s)) in HX; cbn [l_next l_zero l_up] in *; auto; try lia.
      * rewrite set_nth_len, Hlx. lia.
      * apply (li_nil _ _ _ _ _ HI).
      * apply lvl_ok_nil.
      * apply nums_ok_nil.
      * intros t [].
    + apply (li_nil _ _ _ _ _ HI).
    + apply nums_map; [reflexivity|]. exact (li_num _ _ _ _ _ HI u Hu).
    + intros t Ht. apply in_map_iff in Ht as (w & <- & Hw). eapply good_same; [exact (li_good _ _ _ _ _ HI u w Hu Hw)|reflexivity|reflexivity].
  - intros k. rewrite <- VX. unfold LsmProofs2.view. cbn [l_zero l_up]. apply vle_orr. apply ups_two; [lia|]. left.
    assert (Ea : nth (S i) (l_up s ++ [[]]) [] = []) by (rewrite app_nth2 by lia; rewrite Hlen, Nat.sub_diag; reflexivity).
    assert (Eb : nth i (l_up s ++ [[]]) [] = u) by (apply app_nth1; lia). rewrite Ea, Eb. rewrite lv_get_nil, M2. cbn [orr]. now destruct (lv_get k u).
Qed.

(** ** Level 0 *)

Lemma zero_repl : forall c R R' s n z, LI c R s -> (forall r, In r R -> In r R') -> l_next s <= n -> n <= NIL -> zero_ok c z -> nums_ok n z ->
  (forall t, In t z -> good c R' t) -> LI c R' (mkL n z (l_up s)).
Proof.
  intros c R R' s n z HI Hinc Hn Hnil Hz Hnum Hg. constructor; cbn [l_next l_zero l_up]; auto.
  - apply (li_up _ _ _ _ _ HI).
  - intros ts Hts. eapply nums_le; [exact (li_num _ _ _ _ _ HI ts Hts)|exact Hn].
  - intros ts t Hts Ht. eapply good_mono; [exact (li_good _ _ _ _ _ HI ts t Hts Ht)|exact Hinc].
Qed.

Lemma filter_map : forall A B (f : A -> B) p l, filter p (map f l) = map f (filter (fun x => p (f x)) l).
Proof. intros A B f p l. induction l as [|a l IH]; [reflexivity|]. cbn [map filter]. destruct (p (f a)); cbn [map]; now rewrite IH. Qed.

Lemma filter_none : forall A (f : A -> bool) l, (forall x, In x l -> f x = false) -> filter f l = [].
Proof.
  intros A f l. induction l as [|a l IH]; intros H; [reflexivity|]. cbn [filter]. rewrite (H a (or_introl eq_refl)).
  apply IH. intros x Hx. apply H. now right.
Qed.

Lemma filter_one_in : forall (f : tbl -> bool) l t, filter f l = [t] -> In t l /\ f t = true.
Proof. intros f l t H. apply filter_In. rewrite H. now left. Qed.

Lemma src_of_spec : forall c l h v, zero_ok c l -> (src_of h l = Some v <-> filter (sf h) l = [v]).
Proof.
  intros c l h v Hz. unfold src_of, by_hash. destruct (z_src _ _ _ Hz h) as [E|(t & E)].
  - rewrite E. split; [|discriminate]. intros H. apply find_some in H as [H1 H2]. apply filter_In in H1 as [H1 H3].
    assert (I : In v (filter (sf h) l)) by (apply filter_In; split; [exact H1|]; unfold sf; now rewrite H3, H2). rewrite E in I. destruct I.
  - rewrite E. destruct (find (fun t0 => b_src t0) (filter (fun t0 => b_hash t0 =? h) l)) as [w|] eqn:F.
    + apply find_some in F as [H1 H2]. apply filter_In in H1 as [H1 H3].
      assert (I : In w (filter (sf h) l)) by (apply filter_In; split; [exact H1|]; unfold sf; now rewrite H3, H2). rewrite E in I.
      destruct I as [<-|[]]. split; intros X; [injection X as ->; reflexivity|injection X as ->; reflexivity].
    + destruct (filter_one_in _ _ _ E) as [I1 I2]. unfold sf in I2. apply andb_true_iff in I2 as [I2 I3].
      pose proof (find_none _ _ F t) as X. rewrite X in I3; [discriminate|]. apply filter_In. now split.
Qed.

Lemma src_of_none : forall c l h, zero_ok c l -> src_of h l = None -> filter (sf h) l = [].
Proof.
  intros c l h Hz H. destruct (z_src _ _ _ Hz h) as [E|(t & E)]; [exact E|]. apply (src_of_spec c l h t Hz) in E. congruence.
Qed.

Lemma roll_keeps : forall c R s h s', LI c R s -> l0_roll c h s = Some s' -> l_next s' <= NIL ->
  LI c R s' /\ (forall k, view s' k = view s k) /\ exists v, src_of h (l_zero s') = Some v.
Proof.
  intros c R s h s' HI H Hnil. unfold l0_roll in H. pose proof (li_zero _ _ _ _ _ HI) as Hz.
  destruct (src_of h (l_zero s)) as [v|] eqn:So; [injection H as <-; split; [exact HI|split; [reflexivity|now exists v]]|].
  pose proof (src_of_none _ _ _ Hz So) as Hsrc.
  destruct (smallest_normal (by_hash h (l_zero s))) as [o|] eqn:Sm; [|discriminate].
  assert (Hh : h < tc_parts c).
  { destruct (N.ltb_spec h (tc_parts c)) as [L|L]; [exact L|]. exfalso.
    assert (E : by_hash h (l_zero s) = []).
    { destruct (by_hash h (l_zero s)) as [|t q] eqn:E; [reflexivity|]. assert (I : In t (by_hash h (l_zero s))) by (rewrite E; now left).
      unfold by_hash in I. apply filter_In in I as [I1 I2]. apply N.eqb_eq in I2. destruct (z_mem _ _ _ Hz t I1) as [B _]. lia. }
    rewrite E in Sm. discriminate. }
  destruct (z_norm _ _ _ Hz h Hh) as (t & Ht). destruct (filter_one_in _ _ _ Ht) as [It Nt].
  assert (Lt : b_num t < l_next s) by (apply (proj2 (li_num0 _ _ _ _ _ HI)); exact It).
  rewrite (smallest_one h _ t Ht) in Sm by (pose proof (li_nil _ _ _ _ _ HI); lia). injection Sm as <-.
  assert (Nh : b_hash t = h /\ b_src t = false).
  { unfold nf in Nt. apply andb_true_iff in Nt as [A B]. apply N.eqb_eq in A. apply negb_true_iff in B. now split. }
  destruct Nh as [Eh Es].
  assert (E2 : smallest_normal (rm_tbl (b_num t) (by_hash h (l_zero s))) = None).
  { unfold smallest_normal. rewrite smallest_filter. unfold rm_tbl, by_hash. rewrite !filter_filter.
    assert (Ef : filter (fun x => (b_hash x =? h) && (negb (b_num x =? b_num t) && negb (b_src x))) (l_zero s) = []).
    { apply filter_none. intros x I1. destruct ((b_hash x =? h) && (negb (b_num x =? b_num t) && negb (b_src x))) eqn:I2; [|reflexivity].
      apply andb_true_iff in I2 as [I2 I3]. apply andb_true_iff in I3 as [I3 I4].
      assert (J : In x (filter (nf h) (l_zero s))) by (apply filter_In; split; [exact I1|]; unfold nf; now rewrite I2, I4).
      rewrite Ht in J. destruct J as [<-|[]]. rewrite N.eqb_refl in I3. discriminate. }
    now rewrite Ef. }
  rewrite E2 in H. injection H as <-. cbn [l_next] in Hnil. set (z := l_zero s) in *. set (t' := new_tbl c (l_next s) h []).
  assert (Ea : add_tbl t' z = t' :: z).
  { apply add_tbl_front. intros u Hu. unfold min_le. cbn [t' new_tbl b_min]. apply kle_nil. }
  rewrite Ea. set (g := fun x => if b_num x =? b_num t then set_src x else x).
  assert (Ez : upd_tbl (b_num t) set_src (t' :: z) = t' :: map g z).
  { unfold upd_tbl. cbn [map]. cbn [t' new_tbl b_num]. destruct (N.eqb_spec (l_next s) (b_num t)); [lia|reflexivity]. }
  rewrite Ez. clear Ez Ea.
  assert (Hg : forall x, In x z -> (x = t /\ g x = set_src t) \/ (x <> t /\ g x = x)).
  { intros x Hx. unfold g. destruct (N.eqb_spec (b_num x) (b_num t)) as [E|E].
    - left. assert (x = t) by (apply (num_inj z); auto; apply (li_num0 _ _ _ _ _ HI)). subst x. now split.
    - right. split; [congruence|reflexivity]. }
  assert (Fo : forall h', h' <> h -> forall p, (p = nf h' \/ p = sf h') -> filter p (t' :: map g z) = filter p z).
  { intros h' Nh' p Hp. cbn [filter]. assert (X : p t' = false).
    { destruct Hp as [-> | ->]; unfold nf, sf, t'; cbn [new_tbl b_hash]; destruct (N.eqb_spec h h'); [congruence|reflexivity|congruence|reflexivity]. }
    rewrite X, filter_map.
    assert (Y : filter (fun x => p (g x)) z = filter p z).
    { apply filter_ext_in. intros x Hx. destruct (Hg x Hx) as [[-> ->]|[_ ->]]; [|reflexivity].
      destruct Hp as [-> | ->]; unfold nf, sf; cbn [set_src b_hash b_src]; destruct (N.eqb_spec (b_hash t) h'); [congruence|reflexivity|congruence|reflexivity]. }
    rewrite Y. rewrite <- (map_id (filter p z)) at 2. apply map_ext_in. intros x Hx. apply filter_In in Hx as [Hx Hpx].
    destruct (Hg x Hx) as [[-> _]|[_ ->]]; [|reflexivity]. exfalso.
    destruct Hp as [-> | ->]; unfold nf, sf in Hpx; destruct (N.eqb_spec (b_hash t) h'); try congruence; discriminate. }
  assert (Fn : filter (nf h) (t' :: map g z) = [t']).
  { cbn [filter]. assert (X : nf h t' = true) by (unfold nf, t'; cbn [new_tbl b_hash b_src]; now rewrite N.eqb_refl). rewrite X. f_equal.
    destruct (filter (nf h) (map g z)) as [|y q] eqn:E; [reflexivity|]. assert (I : In y (filter (nf h) (map g z))) by (rewrite E; now left).
    apply filter_In in I as [I1 I2]. apply in_map_iff in I1 as (x & <- & Hx). destruct (Hg x Hx) as [[-> Q]|[Nx Q]]; rewrite Q in I2.
    - unfold nf in I2. cbn [set_src b_src] in I2. rewrite andb_false_r in I2. discriminate.
    - assert (J : In x (filter (nf h) z)) by (apply filter_In; now split). rewrite Ht in J. destruct J as [<-|[]]. congruence. }
  assert (Fs : filter (sf h) (t' :: map g z) = [set_src t]).
  { cbn [filter]. assert (X : sf h t' = false) by (unfold sf, t'; cbn [new_tbl b_src]; apply andb_false_r). rewrite X, filter_map.
    assert (Y : filter (fun x => sf h (g x)) z = filter (nf h) z).
    { apply filter_ext_in. intros x Hx. destruct (Hg x Hx) as [[-> ->]|[Nx ->]].
      - unfold sf, nf. cbn [set_src b_hash b_src]. now rewrite Es.
      - destruct (sf h x) eqn:A.
        + assert (J : In x (filter (sf h) z)) by (apply filter_In; now split). rewrite Hsrc in J. destruct J.
        + destruct (nf h x) eqn:B; [|reflexivity]. assert (J : In x (filter (nf h) z)) by (apply filter_In; now split).
          rewrite Ht in J. destruct J as [<-|[]]. congruence. }
    rewrite Y, Ht. cbn [map]. unfold g. now rewrite N.eqb_refl. }
  assert (Hz' : zero_ok c (t' :: map g z)).
  { constructor.
    - intros x [<-|Hx].
      + unfold t'. cbn [new_tbl b_hash b_min b_docs]. repeat split; auto; [constructor|intros d []].
      + apply in_map_iff in Hx as (y & <- & Hy). destruct (Hg y Hy) as [[-> ->]|[_ ->]]; [|exact (z_mem _ _ _ Hz y Hy)].
        cbn [set_src b_hash b_min b_docs]. exact (z_mem _ _ _ Hz t It).
    - intros h' L. destruct (N.eq_dec h' h) as [->|N]; [exists t'; exact Fn|]. rewrite (Fo h' N (nf h')) by auto. exact (z_norm _ _ _ Hz h' L).
    - intros h'. destruct (N.eq_dec h' h) as [->|N]; [right; exists (set_src t); exact Fs|]. rewrite (Fo h' N (sf h')) by auto. exact (z_src _ _ _ Hz h'). }
  split; [|split].
  - apply (zero_repl c R R s); auto; try lia.
    + split.
      * cbn [map]. constructor.
        -- intros I. rewrite map_map in I. apply in_map_iff in I as (x & E & Hx). cbn [t' new_tbl b_num] in E.
           assert (b_num (g x) = b_num x) by (unfold g; now destruct (b_num x =? b_num t)).
           pose proof (proj2 (li_num0 _ _ _ _ _ HI) x Hx). lia.
        -- apply (proj1 (nums_map (l_next s) g z (fun x => ltac:(unfold g; now destruct (b_num x =? b_num t))) (li_num0 _ _ _ _ _ HI))).
      * intros x [<-|Hx]; [cbn [t' new_tbl b_num]; lia|]. apply in_map_iff in Hx as (y & <- & Hy).
        assert (b_num (g y) = b_num y) by (unfold g; now destruct (b_num y =? b_num t)). pose proof (proj2 (li_num0 _ _ _ _ _ HI) y Hy). lia.
    + intros x [<-|Hx]; [apply (good_new hash part)|]. apply in_map_iff in Hx as (y & <- & Hy).
      eapply good_same; [exact (li_good0 _ _ _ _ _ HI y Hy)| |]; unfold g; now destruct (b_num y =? b_num t).
  - intros k. unfold LsmProofs2.view. cbn [l_zero l_up]. fold z. f_equal. unfold LsmProofs2.zview, zget.
    destruct (N.eq_dec (part k) h) as [E|N].
    + rewrite E, Fn, Fs, Ht, Hsrc. cbn [t' new_tbl b_docs set_src]. cbn [fd_get find orr]. now destruct (fd_get k (b_docs t)).
    + rewrite (Fo _ N (nf (part k))), (Fo _ N (sf (part k))) by auto. reflexivity.
  - exists (set_src t). apply (src_of_spec c _ h _ Hz'). exact Fs.
Qed.

Lemma zero_keeps : forall c R over mk fin sel h s s', LI c R s -> (forall j, mk j = true) ->
  compact_l0 hash c over mk fin sel h s = Some s' -> (forall s1, l0_roll c h s = Some s1 -> l_next s1 <= NIL) -> l_next s' <= NIL ->
  LI c R s' /\ forall k, vle (view s' k) (view s k).
Proof.
  intros c R over mk fin sel h s0 s' HI0 Hmk H Hroll Hnil. unfold compact_l0 in H.
  destruct (l0_roll c h s0) as [s|] eqn:Ro; [|discriminate]. specialize (Hroll s eq_refl).
  destruct (roll_keeps c R s0 h s HI0 Ro Hroll) as (HI & Vs & v & So). rewrite So in H. clear Ro Hroll.
  assert (X : LI c R s' /\ forall k, vle (view s' k) (view s k)); [|destruct X as [X1 X2]; split; [exact X1|intros k; rewrite <- Vs; apply X2]].
  clear HI0 Vs s0. unfold compact_level in H. cbn [Nat.ltb Nat.leb] in H. rewrite andb_false_r in H. unfold compact_victim in H.
  pose proof (li_zero _ _ _ _ _ HI) as Hz. apply (src_of_spec c _ h v Hz) in So.
  destruct (filter_one_in _ _ _ So) as [Iv Fv]. unfold sf in Fv. apply andb_true_iff in Fv as [Eh Es]. apply N.eqb_eq in Eh.
  destruct (tbl_at (b_num v) (level 0 s)) as [w|] eqn:T; [|discriminate].
  assert (w = v).
  { apply tbl_at_in in T as [T1 T2]. apply (num_inj (l_zero s)); auto; apply (li_num0 _ _ _ _ _ HI). }
  subst w. clear T. set (s1 := if is_last 0 s then extend s else s) in *.
  assert (H1 : LI c R s1 /\ (forall k, view s1 k = view s k) /\ l_zero s1 = l_zero s /\ l_next s1 = l_next s /\ (0 < length (l_up s1))%nat).
  { unfold s1. destruct (is_last 0 s) eqn:L.
    - destruct (extend_keeps c R s HI) as [A B]. split; [exact A|]. split; [exact B|]. repeat split. cbn [extend l_up]. rewrite app_length. cbn. lia.
    - split; [exact HI|]. repeat split. unfold is_last, num_levels in L. apply Nat.eqb_neq in L. lia. }
  destruct H1 as (HI1 & V1 & Z1 & N1 & L1). clearbody s1.
  assert (Y : LI c R s' /\ forall k, vle (view s' k) (view s1 k)); [|destruct Y as [Y1 Y2]; split; [exact Y1|intros k; rewrite <- V1; apply Y2]].
  cbv beta zeta in H. change (Nat.ltb 0 0) with false in H. cbn [andb] in H. rewrite <- Z1 in Iv, So, Hz. clear HI V1 N1. clear s Z1. rename s1 into s, HI1 into HI, L1 into Hi.
  rewrite (level_nth 0) in H. set (dst := nth 0 (l_up s) []) in *.
  change (groups over (b_min v) (b_docs v) (tables_range (b_min v) (max_key v) dst)) with (victim_groups over v dst) in H.
  set (gs := victim_groups over v dst) in *. set (purge := tc_purge c && is_last 1 s) in *.
  assert (Hdst : In dst (l_up s)) by (apply nth_In; exact Hi).
  destruct (z_mem _ _ _ Hz v Iv) as (M1 & M2 & M3 & M4).
  destruct (dst_facts c R over v dst (l_next s) purge) as [DF DC].
  { exact (li_up _ _ _ _ _ HI dst Hdst). } { exact (li_num _ _ _ _ _ HI dst Hdst). }
  { intros t Ht. exact (li_good _ _ _ _ _ HI dst t Hdst Ht). } { exact M3. } { intros d Hd. rewrite M2. apply kle_nil. }
  { exact (li_good0 _ _ _ _ _ HI v Iv). }
  fold gs in DF, DC.
  assert (Hnv : forall k, part k <> h -> fd_get k (b_docs v) = None).
  { intros k Nk. apply fd_get_none. intros r Hr Er. rewrite <- Eh, <- Er in Nk. apply Nk. exact (M4 r Hr). }
  assert (Hhead : forall k l', ups k (set_nth 0 l' (l_up s)) = orr (lv_get k l') (ups k (skipn 1 (l_up s)))).
  { intros k l'. destruct (l_up s) as [|a l]; [cbn in Hi; lia|]. reflexivity. }
  assert (Hhead0 : forall k, ups k (l_up s) = orr (lv_get k dst) (ups k (skipn 1 (l_up s)))).
  { intros k. unfold dst. destruct (l_up s) as [|a l]; [cbn in Hi; lia|]. reflexivity. }
  destruct fin.
  - clear DC. rewrite (new_tbls_mk hash c mk) in H by exact Hmk.
    change (add_all (new_tbls hash c all_true 0 (l_next s) gs) (write_old hash true purge (fun _ => true) gs dst))
      with (installed c true purge (fun _ => true) (l_next s) gs dst true) in H.
    fold (cnt_new gs) in H. set (d' := installed c true purge (fun _ => true) (l_next s) gs dst true) in *.
    destruct DF as (D1 & D2 & D3 & D4). injection H as <-.
    unfold set_level, with_next, level in *. cbn [l_next l_zero l_up] in *. set (n' := l_next s + cnt_new gs) in *.
    assert (Frm : forall p, (p v = false) -> filter p (rm_tbl (b_num v) (l_zero s)) = filter p (l_zero s)).
    { intros p Hp. unfold rm_tbl. rewrite filter_filter. apply filter_ext_in. intros x Hx. destruct (N.eqb_spec (b_num x) (b_num v)) as [E|E]; [|reflexivity].
      assert (x = v) by (apply (num_inj (l_zero s)); auto; apply (li_num0 _ _ _ _ _ HI)). subst x. now rewrite Hp. }
    assert (Fn : forall h', filter (nf h') (rm_tbl (b_num v) (l_zero s)) = filter (nf h') (l_zero s)).
    { intros h'. apply Frm. unfold nf. now rewrite Es, andb_false_r. }
    assert (Fs : filter (sf h) (rm_tbl (b_num v) (l_zero s)) = []).
    { unfold rm_tbl. rewrite filter_filter. apply filter_none. intros x I1.
      destruct (negb (b_num x =? b_num v) && sf h x) eqn:I2; [|reflexivity]. apply andb_true_iff in I2 as [I2 I3].
      assert (J : In x (filter (sf h) (l_zero s))) by (apply filter_In; now split). rewrite So in J. destruct J as [<-|[]].
      rewrite N.eqb_refl in I2. discriminate. }
    assert (Fo : forall h', h' <> h -> filter (sf h') (rm_tbl (b_num v) (l_zero s)) = filter (sf h') (l_zero s)).
    { intros h' Nh. apply Frm. unfold sf. destruct (N.eqb_spec (b_hash v) h'); [congruence|reflexivity]. }
    split.
    + assert (HI1 : LI c R (mkL n' (l_zero s) (set_nth 0 d' (l_up s)))) by (apply level_repl; auto; unfold n'; lia).
      apply (zero_repl c R R _ n' (rm_tbl (b_num v) (l_zero s))) in HI1; cbn [l_next l_zero l_up] in *; auto; try lia.
      * constructor.
        -- intros t Ht. apply rm_tbl_in in Ht as [Ht _]. exact (z_mem _ _ _ Hz t Ht).
        -- intros h' L. rewrite Fn. exact (z_norm _ _ _ Hz h' L).
        -- intros h'. destruct (N.eq_dec h' h) as [->|N]; [now left|]. rewrite (Fo h' N). exact (z_src _ _ _ Hz h').
      * apply nums_filter. eapply nums_le; [exact (li_num0 _ _ _ _ _ HI)|unfold n'; lia].
      * intros t Ht. apply rm_tbl_in in Ht as [Ht _]. exact (li_good0 _ _ _ _ _ HI t Ht).
    + intros k. unfold LsmProofs2.view, LsmProofs2.zview. cbn [l_zero l_up]. unfold zget. rewrite Fn.
      assert (A : forall x y z : option rec, orr (orr x y) z = orr x (orr y z)) by (intros [x|] y z; reflexivity).
      rewrite !A. apply vle_orr. pose proof (Hhead k d') as Hh. cbn [set_nth] in Hh. try rewrite Hhead. try rewrite Hh. rewrite Hhead0. destruct (D4 k) as [E1 E2].
      destruct (N.eq_dec (part k) h) as [E|N].
      * rewrite E, Fs, So. cbn [orr]. destruct (fd_get k (b_docs v)) as [r|] eqn:G.
        -- cbn [orr]. destruct (E2 r eq_refl) as [-> |(-> & P & D)]; [apply vle_refl|]. cbn [orr].
           unfold purge in P. apply andb_true_iff in P as [_ P]. unfold is_last, num_levels in P. apply Nat.eqb_eq in P.
           assert (El : skipn 1 (l_up s) = []) by (apply skipn_all2; lia). rewrite El. cbn [ups]. right. split; [reflexivity|exists r; now split].
        -- rewrite (E1 eq_refl). apply vle_refl.
      * rewrite (Fo _ N). rewrite (E1 (Hnv k N)). apply vle_refl.
  - clear DF. specialize (DC sel). change (write_old hash true purge sel gs dst) with (installed c true purge sel (l_next s) gs dst false) in H.
    set (d' := installed c true purge sel (l_next s) gs dst false) in *. injection H as <-. destruct DC as (D1 & D2 & D3 & D4).
    change (set_level 1 d' s) with (mkL (l_next s) (l_zero s) (set_nth 0 d' (l_up s))) in *. cbn [l_next] in Hnil. split.
    + exact (level_repl hash part c R s 0 d' (l_next s) HI Hi (N.le_refl _) Hnil D1 D2 D3).
    + intros k. unfold LsmProofs2.view, LsmProofs2.zview. cbn [l_zero l_up]. pose proof (Hhead k d') as Hh. cbn [set_nth] in Hh. try rewrite Hhead. try rewrite Hh. rewrite Hhead0.
      destruct (N.eq_dec (part k) h) as [E|N].
      * unfold zget at 2 4. rewrite E, So. destruct (fd_get k (b_docs v)) as [r|] eqn:G.
        -- destruct (zget (nf h) k (l_zero s)); apply vle_refl.
        -- rewrite (D4 k G). apply vle_refl.
      * rewrite (D4 k (Hnv k N)). apply vle_refl.
Qed.
End Hash.
