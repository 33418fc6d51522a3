(** Proofs about the change of the number of level-0 partitions. *)
From Coq Require Import List NArith Bool Lia Arith Sorted Permutation.
From Verif Require Import Base LogFormatModel KeyModel KeyProofs BloomModel BloomProofs MemTableModel LsmModel LsmProofs LsmProofs2 LsmProofs3 LsmProofs4 LsmProofs5 AdjustModel AdjustSpec.
Import ListNotations.
Local Open Scope N_scope.

(** ** One compaction that keeps its table *)

Section Keep.
Variable hash : key -> N * N.
Variable part : key -> N.
Local Notation LI := (LI hash part).
Local Notation view := (view part).
Local Notation zview := (zview part).

Local Notation installed := (installed hash).

Lemma zget_in : forall c l v k r, zero_ok part c l -> In v l -> fd_get k (b_docs v) = Some r -> zview k l <> None.
Proof.
  intros c l v k r Hz Iv G. destruct (z_mem _ _ _ Hz v Iv) as (M1 & _ & M3 & M4). destruct (fd_get_in _ _ _ G) as [G1 G2].
  pose proof (M4 r G1) as E. rewrite G2 in E. unfold LsmProofs2.zview, zget. destruct (b_src v) eqn:S.
  - assert (I : In v (filter (sf (part k)) l)) by (apply filter_In; split; [exact Iv|]; unfold sf; now rewrite E, N.eqb_refl, S).
    destruct (z_src _ _ _ Hz (part k)) as [F|(t & F)]; rewrite F in I; [destruct I|]. destruct I as [->|[]].
    rewrite F, G. destruct (match filter (nf (part k)) l with [] => None | t :: _ => fd_get k (b_docs t) end); discriminate.
  - rewrite <- E in M1. destruct (z_norm _ _ _ Hz _ M1) as [t F].
    assert (I : In v (filter (nf (part k)) l)) by (apply filter_In; split; [exact Iv|]; unfold nf; now rewrite E, N.eqb_refl, S).
    rewrite F in I. destruct I as [->|[]]. rewrite F, G. discriminate.
Qed.

Lemma keep_step : forall c R over mk fin sel num s s', LI c R s -> (forall j, mk j = true) ->
  compact_keep hash c over mk fin sel num s = Some s' -> l_next s' <= NIL ->
  LI c R s' /\ (forall k, view s' k = view s k) /\ l_zero s' = l_zero s /\ l_next s <= l_next s' /\
  exists v, In v (l_zero s) /\ b_num v = num /\
    (fin = true -> forall k, vle (ups k (l_up s')) (orr (fd_get k (b_docs v)) (ups k (l_up s)))).
Proof.
  intros c R over mk fin sel num s0 s' HI0 Hmk H Hnil. unfold compact_keep in H.
  destruct (tbl_at num (level 0 s0)) as [v|] eqn:T; [|discriminate]. apply tbl_at_in in T as [Iv En]. cbn [level] in Iv.
  set (s := if is_last 0 s0 then extend s0 else s0) in *.
  assert (H1 : LI c R s /\ (forall k, view s k = view s0 k) /\ l_zero s = l_zero s0 /\ l_next s = l_next s0 /\ (0 < length (l_up s))%nat /\
               forall k, ups k (l_up s) = ups k (l_up s0)).
  { unfold s. destruct (is_last 0 s0) eqn:L.
    - destruct (extend_keeps hash part c R s0 HI0) as [A B]. split; [exact A|]. split; [exact B|]. split; [reflexivity|]. split; [reflexivity|].
      split; [cbn [extend l_up]; rewrite app_length; cbn; lia|]. intros k. unfold is_last, num_levels in L. apply Nat.eqb_eq in L.
      cbn [extend l_up]. destruct (l_up s0); [reflexivity|cbn in L; lia].
    - split; [exact HI0|]. split; [reflexivity|]. split; [reflexivity|]. split; [reflexivity|].
      split; [unfold is_last, num_levels in L; apply Nat.eqb_neq in L; lia|reflexivity]. }
  destruct H1 as (HI & V1 & Z1 & N1 & Hi & U1). clearbody s.
  assert (Y : LI c R s' /\ (forall k, view s' k = view s k) /\ l_zero s' = l_zero s /\ l_next s <= l_next s' /\
    (fin = true -> forall k, vle (ups k (l_up s')) (orr (fd_get k (b_docs v)) (ups k (l_up s))))).
  2:{ destruct Y as (Y1 & Y2 & Y3 & Y4 & Y5). split; [exact Y1|]. split; [intros k; now rewrite Y2, V1|]. split; [congruence|]. split; [lia|].
      exists v. split; [exact Iv|]. split; [exact En|]. intros F k. rewrite <- U1. now apply Y5. }
  rewrite <- Z1 in Iv. clear HI0 V1 N1 U1 Z1 s0 En num. cbv beta zeta in H. rewrite (level_nth 0) in H.
  set (dst := nth 0 (l_up s) []) in *.
  change (groups over (b_min v) (b_docs v) (tables_range (b_min v) (max_key v) dst)) with (victim_groups over v dst) in H.
  set (gs := victim_groups over v dst) in *. set (purge := tc_purge c && is_last 1 s) in *.
  assert (Hdst : In dst (l_up s)) by (apply nth_In; exact Hi).
  pose proof (li_zero _ _ _ _ _ HI) as Hz. destruct (z_mem _ _ _ Hz v Iv) as (M1 & M2 & M3 & M4).
  destruct (dst_facts hash part c R over v dst (l_next s) purge) as [DF DC].
  { exact (li_up _ _ _ _ _ HI dst Hdst). } { exact (li_num _ _ _ _ _ HI dst Hdst). }
  { intros t Ht. exact (li_good _ _ _ _ _ HI dst t Hdst Ht). } { exact M3. } { intros d Hd. rewrite M2. apply kle_nil. }
  { exact (li_good0 _ _ _ _ _ HI v Iv). }
  fold gs in DF, DC.
  assert (Hhead : forall k l', ups k (set_nth 0 l' (l_up s)) = orr (lv_get k l') (ups k (skipn 1 (l_up s)))).
  { intros k l'. destruct (l_up s) as [|a l]; [cbn in Hi; lia|]. reflexivity. }
  assert (Hhead0 : forall k, ups k (l_up s) = orr (lv_get k dst) (ups k (skipn 1 (l_up s)))).
  { intros k. unfold dst. destruct (l_up s) as [|a l]; [cbn in Hi; lia|]. reflexivity. }
  assert (Hview : forall n' d', (forall k, fd_get k (b_docs v) = None -> lv_get k d' = lv_get k dst) ->
    forall k, view (mkL n' (l_zero s) (set_nth 0 d' (l_up s))) k = view s k).
  { intros n' d' Hd k. unfold LsmProofs2.view. cbn [l_zero l_up]. destruct (fd_get k (b_docs v)) as [r|] eqn:G.
    - pose proof (zget_in c (l_zero s) v k r Hz Iv G) as Zn. destruct (zview k (l_zero s)); [reflexivity|congruence].
    - now rewrite Hhead, Hhead0, (Hd k G). }
  destruct fin.
  - clear DC. rewrite (new_tbls_mk hash c mk) in H by exact Hmk.
    change (add_all (new_tbls hash c all_true 0 (l_next s) gs) (write_old hash true purge (fun _ => true) gs dst))
      with (installed c true purge (fun _ => true) (l_next s) gs dst true) in H.
    fold (cnt_new gs) in H. set (d' := installed c true purge (fun _ => true) (l_next s) gs dst true) in *.
    destruct DF as (D1 & D2 & D3 & D4). injection H as <-.
    unfold set_level, with_next, level in *. cbn [l_next l_zero l_up] in *. set (n' := l_next s + cnt_new gs) in *.
    change (match l_up s with [] => [] | _ :: t => d' :: t end) with (set_nth 0 d' (l_up s)).
    split; [apply (level_repl hash part); auto; unfold n'; lia|]. split; [apply Hview; intros k; apply D4|]. split; [reflexivity|].
    split; [unfold n'; lia|]. intros _ k. rewrite Hhead, Hhead0.
    destruct (D4 k) as [E1 E2]. destruct (fd_get k (b_docs v)) as [r|] eqn:G.
    + cbn [orr]. destruct (E2 r eq_refl) as [-> |(-> & P & D)]; [apply vle_refl|]. cbn [orr].
      unfold purge in P. apply andb_true_iff in P as [_ P]. unfold is_last, num_levels in P. apply Nat.eqb_eq in P.
      assert (El : skipn 1 (l_up s) = []) by (apply skipn_all2; lia). rewrite El. cbn [ups]. right. split; [reflexivity|exists r; now split].
    + rewrite (E1 eq_refl). apply vle_refl.
  - clear DF. destruct (DC sel) as (D1 & D2 & D3 & D4). injection H as <-.
    change (installed c true purge sel (l_next s) gs dst false) with (write_old hash true purge sel gs dst) in *.
    unfold set_level in *. set (d' := write_old hash true purge sel gs dst) in *.
    change (match l_up s with [] => [] | _ :: t => d' :: t end) with (set_nth 0 d' (l_up s)) in *. split; [apply (level_repl hash part); auto; lia|].
    split; [apply Hview; exact D4|]. split; [reflexivity|]. split; [cbn; lia|]. discriminate.
Qed.

(** ** All tables of level 0 *)

(** The record of the last table of the list that has one. *)
Fixpoint last_rec (k : key) (ts : list tbl) : option rec :=
  match ts with [] => None | t :: ts' => orr (last_rec k ts') (fd_get k (b_docs t)) end.

Lemma orr_assoc : forall x y z : option rec, orr (orr x y) z = orr x (orr y z).
Proof. intros [x|] y z; reflexivity. Qed.

Lemma adj_tables_next : forall c ov mk ts s s', adj_tables hash c ov mk ts s = Some s' -> l_next s <= l_next s'.
Proof.
  intros c ov mk ts. induction ts as [|t ts IH]; intros s s' H; cbn [adj_tables] in H; [injection H as <-; lia|].
  destruct (compact_keep _ _ _ _ _ _ _ _) as [s1|] eqn:K; [|discriminate]. apply IH in H. unfold compact_keep in K.
  destruct (tbl_at _ _); [|discriminate]. injection K as <-. cbn [with_next l_next] in H. destruct (is_last 0 s); cbn [extend l_next] in H; lia.
Qed.

Lemma adj_tables_keeps : forall c R ov mk ts s s', LI c R s -> (forall n j, mk n j = true) -> (forall t, In t ts -> In t (l_zero s)) ->
  adj_tables hash c ov mk ts s = Some s' -> l_next s' <= NIL ->
  LI c R s' /\ l_zero s' = l_zero s /\ forall k, vle (ups k (l_up s')) (orr (last_rec k ts) (ups k (l_up s))).
Proof.
  intros c R ov mk ts. induction ts as [|t ts IH]; intros s s' HI Hmk Hin H Hn; cbn [adj_tables] in H.
  - injection H as <-. split; [exact HI|]. split; [reflexivity|]. intros k. apply vle_refl.
  - destruct (compact_keep _ _ _ _ _ _ _ _) as [s1|] eqn:K; [|discriminate]. pose proof (adj_tables_next _ _ _ _ _ _ H) as Hle.
    destruct (keep_step c R _ _ _ _ _ s s1 HI (Hmk _) K ltac:(lia)) as (HI1 & _ & Z1 & _ & v & Iv & En & U).
    assert (v = t) by (apply (num_inj (l_zero s)); auto; [apply (li_num0 _ _ _ _ _ HI)|apply Hin; now left]). subst v.
    destruct (IH s1 s' HI1 Hmk) as (HI' & Z' & U'); auto. { intros x Hx. rewrite Z1. apply Hin. now right. }
    split; [exact HI'|]. split; [congruence|]. intros k. cbn [last_rec]. rewrite orr_assoc. eapply vle_trans; [apply U'|]. apply vle_orr. now apply U.
Qed.

Lemma adj_list_in : forall n h l t, In t (adj_list n h l) <-> In t l /\ h <= b_hash t < h + N.of_nat n.
Proof.
  induction n as [|n IH]; intros h l t; cbn [adj_list]; [split; [intros []|lia]|].
  rewrite in_app_iff, IH. unfold by_hash. rewrite filter_In, N.eqb_eq. split; [intros [[A B]|[A B]]; split; auto; lia|].
  intros [A B]. destruct (N.eq_dec (b_hash t) h); [left; now split|right; split; [exact A|lia]].
Qed.

Lemma last_rec_none : forall k ts, (forall t, In t ts -> fd_get k (b_docs t) = None) -> last_rec k ts = None.
Proof.
  intros k ts. induction ts as [|t ts IH]; intros H; cbn [last_rec]; [reflexivity|]. rewrite IH by (intros x Hx; apply H; now right).
  cbn [orr]. apply H. now left.
Qed.
Lemma last_rec_app : forall k a b, last_rec k (a ++ b) = orr (last_rec k b) (last_rec k a).
Proof.
  intros k a b. induction a as [|t a IH]; cbn [last_rec app]; [now destruct (last_rec k b)|]. rewrite IH. apply orr_assoc.
Qed.

Lemma last_rec_list : forall k l n h, (forall t, In t l -> fd_get k (b_docs t) <> None -> b_hash t = part k) ->
  last_rec k (adj_list n h l) = if (h <=? part k) && (part k <? h + N.of_nat n) then last_rec k (by_hash (part k) l) else None.
Proof.
  intros k l n. induction n as [|n IH]; intros h H; cbn [adj_list].
  - cbn [last_rec]. destruct (N.leb_spec h (part k)), (N.ltb_spec (part k) (h + N.of_nat 0)); try reflexivity. lia.
  - rewrite last_rec_app, (IH _ H). destruct (N.eq_dec (part k) h) as [E|E].
    + subst h. destruct (N.leb_spec (part k + 1) (part k)); [lia|]. cbn [andb orr]. destruct (N.leb_spec (part k) (part k)); [|lia].
      destruct (N.ltb_spec (part k) (part k + N.of_nat (S n))); [reflexivity|lia].
    + rewrite (last_rec_none k (by_hash h l)).
      2:{ intros t Ht. apply filter_In in Ht as [I1 I2]. apply N.eqb_eq in I2. destruct (fd_get k (b_docs t)) eqn:G; [|reflexivity].
          exfalso. apply E. rewrite <- I2. symmetry. apply (H t I1). congruence. }
      destruct (N.leb_spec (h + 1) (part k)), (N.leb_spec h (part k)), (N.ltb_spec (part k) (h + 1 + N.of_nat n)), (N.ltb_spec (part k) (h + N.of_nat (S n)));
        cbn [andb]; try lia; try reflexivity; now destruct (last_rec k (by_hash (part k) l)).
Qed.

Lemma last_rec_view : forall c l k, zero_ok part c l -> part k < tc_parts c -> older_first l ->
  last_rec k (adj_list (N.to_nat (tc_parts c)) 0 l) = zview k l.
Proof.
  intros c l k Hz Hk Ho. rewrite last_rec_list.
  - destruct (N.leb_spec 0 (part k)); [|lia]. destruct (N.ltb_spec (part k) (0 + N.of_nat (N.to_nat (tc_parts c)))); [|lia]. cbn [andb].
    rewrite (Ho (part k)). unfold LsmProofs2.zview, zget.
    assert (E1 : filter b_src (by_hash (part k) l) = filter (sf (part k)) l) by (unfold by_hash; now rewrite filter_filter).
    assert (E2 : filter (fun t => negb (b_src t)) (by_hash (part k) l) = filter (nf (part k)) l) by (unfold by_hash; now rewrite filter_filter).
    rewrite E1, E2, last_rec_app. destruct (z_norm _ _ _ Hz _ Hk) as [t ->]. cbn [last_rec].
    change (orr None (fd_get k (b_docs t))) with (fd_get k (b_docs t)). f_equal.
    destruct (z_src _ _ _ Hz (part k)) as [-> |(u & ->)]; reflexivity.
  - intros t It G. destruct (fd_get k (b_docs t)) as [r|] eqn:E; [|congruence]. apply fd_get_in in E as [E1 E2].
    destruct (z_mem _ _ _ Hz t It) as (_ & _ & _ & M). rewrite <- (M r E1). now rewrite E2.
Qed.

End Keep.

(** ** The new tables *)

Lemma adj_new_spec : forall c n num h l,
  (forall t, In t l -> b_min t = []) ->
  exists news, adj_new c n num h l = news ++ l /\
    (forall t, In t news -> exists j, j < N.of_nat n /\ t = new_tbl c (num + j) (h + j) []) /\ NoDup (map b_num news) /\
    forall x, filter (nf x) news = if (h <=? x) && (x <? h + N.of_nat n) then [new_tbl c (num + (x - h)) x []] else [].
Proof.
  intros c n. induction n as [|n IH]; intros num h l Hl; cbn [adj_new].
  - exists []. split; [reflexivity|]. split; [intros t []|]. split; [constructor|]. intros x. cbn [filter].
    destruct (N.leb_spec h x), (N.ltb_spec x (h + N.of_nat 0)); try reflexivity. lia.
  - rewrite add_tbl_front by (intros u _; apply kle_nil).
    destruct (IH (num + 1) (h + 1) (new_tbl c num h [] :: l)) as (news & E & N1 & N2 & N3).
    { intros t [<-|Ht]; [reflexivity|auto]. }
    exists (news ++ [new_tbl c num h []]). split; [rewrite E, <- app_assoc; reflexivity|]. split; [|split].
    + intros t Ht. apply in_app_iff in Ht as [Ht|[<-|[]]].
      * destruct (N1 t Ht) as (j & J & ->). exists (j + 1). split; [lia|]. f_equal; lia.
      * exists 0. split; [lia|]. f_equal; lia.
    + rewrite map_app. cbn [map new_tbl b_num]. eapply Permutation_NoDup; [apply Permutation_cons_append|]. constructor; [|exact N2]. intros I. apply in_map_iff in I as (t & T1 & T2).
      destruct (N1 t T2) as (j & J & ->). cbn [new_tbl b_num] in T1. lia.
    + intros x. rewrite filter_app, N3. cbn [filter]. unfold nf at 1. cbn [new_tbl b_hash b_src negb]. rewrite andb_true_r.
      destruct (N.eqb_spec h x) as [E2|E2].
      * subst x. destruct (N.leb_spec (h + 1) h); [lia|]. cbn [andb app]. destruct (N.leb_spec h h); [|lia].
        destruct (N.ltb_spec h (h + N.of_nat (S n))); [|lia]. cbn [andb]. now rewrite N.sub_diag, N.add_0_r.
      * rewrite app_nil_r. destruct (N.leb_spec (h + 1) x), (N.leb_spec h x), (N.ltb_spec x (h + 1 + N.of_nat n)), (N.ltb_spec x (h + N.of_nat (S n)));
          cbn [andb]; try lia; try reflexivity. f_equal. f_equal. lia.
Qed.

Lemma rm_all_in : forall old z t, In t (fold_left (fun z t => rm_tbl (b_num t) z) old z) <-> In t z /\ ~ In (b_num t) (map b_num old).
Proof.
  induction old as [|o old IH]; intros z t; cbn [fold_left map In]; [tauto|]. rewrite IH, rm_tbl_in.
  split; [intros [[A B] C]; split; [exact A|]; intros [D|D]; [congruence|tauto]|]. intros [A B]. split; [split; [exact A|]|tauto]. intros E. apply B. now left.
Qed.
Lemma rm_all_app : forall old a b, fold_left (fun z t => rm_tbl (b_num t) z) old (a ++ b) =
  fold_left (fun z t => rm_tbl (b_num t) z) old a ++ fold_left (fun z t => rm_tbl (b_num t) z) old b.
Proof. induction old as [|o old IH]; intros a b; cbn [fold_left]; [reflexivity|]. unfold rm_tbl. rewrite filter_app. apply IH. Qed.
Lemma rm_all_id : forall old a, (forall t, In t a -> ~ In (b_num t) (map b_num old)) -> fold_left (fun z t => rm_tbl (b_num t) z) old a = a.
Proof.
  induction old as [|o old IH]; intros a H; cbn [fold_left]; [reflexivity|].
  assert (E : rm_tbl (b_num o) a = a).
  { unfold rm_tbl. clear -H. induction a as [|t a IHa]; [reflexivity|]. cbn [filter]. destruct (N.eqb_spec (b_num t) (b_num o)) as [E|E].
    - exfalso. apply (H t (or_introl eq_refl)). left. now symmetry.
    - cbn [negb]. f_equal. apply IHa. intros x Hx. apply H. now right. }
  rewrite E. apply IH. intros t Ht I. apply (H t Ht). now right.
Qed.
Lemma rm_all_nil : forall old a, (forall t, In t a -> In (b_num t) (map b_num old)) -> fold_left (fun z t => rm_tbl (b_num t) z) old a = [].
Proof.
  intros old a H. destruct (fold_left _ old a) as [|t l] eqn:E; [reflexivity|].
  assert (I : In t (fold_left (fun z t => rm_tbl (b_num t) z) old a)) by (rewrite E; now left).
  apply rm_all_in in I as [I1 I2]. destruct I2. auto.
Qed.

(** ** A complete change *)

Section Change.
Variable hash : key -> N * N.
Variable hp : N -> key -> N.
Hypothesis hp_lt : forall n k, 0 < n -> hp n k < n.

Lemma good_parts : forall c R p t, good hash c R t -> good hash (with_parts p c) R t.
Proof. intros c R p t [A B C]. constructor; [exact A|exact B|exact C]. Qed.

Lemma adjust_keeps : forall c R p ov mk s s', 0 < tc_parts c -> LI hash (hp (tc_parts c)) c R s -> (forall n j, mk n j = true) -> 0 < p ->
  older_first (l_zero s) -> adjust hash c p ov mk s = Some s' -> l_next s' <= NIL ->
  LI hash (hp p) (with_parts p c) R s' /\ (forall k, vle (view (hp p) s' k) (view (hp (tc_parts c)) s k)) /\
  forall t, In t (l_zero s') -> b_docs t = [] /\ b_src t = false.
Proof.
  intros c R p ov mk s s' Hc HI Hmk Hp Ho H Hn. unfold adjust in H.
  set (old := adj_list (N.to_nat (tc_parts c)) 0 (l_zero s)) in *.
  destruct (adj_tables hash c ov mk old s) as [s1|] eqn:A; [|discriminate]. injection H as <-. cbn [l_next] in Hn.
  destruct (adj_tables_keeps hash (hp (tc_parts c)) c R ov mk old s s1 HI Hmk) as (HI1 & Z1 & U1); auto; [|lia|].
  { intros t Ht. apply adj_list_in in Ht. apply Ht. }
  pose proof (li_zero _ _ _ _ _ HI) as Hz. pose proof (li_zero _ _ _ _ _ HI1) as Hz1.
  destruct (adj_new_spec (with_parts p c) (N.to_nat p) (l_next s1) 0 (l_zero s1)) as (news & E & N1 & N2 & N3).
  { intros t Ht. apply (z_mem _ _ _ Hz1 t Ht). }
  rewrite N2Nat.id in *. rewrite E, rm_all_app, (rm_all_id old news), (rm_all_nil old (l_zero s1)), app_nil_r.
  2:{ intros t Ht. rewrite Z1 in Ht. apply in_map. apply adj_list_in. split; [exact Ht|]. rewrite N2Nat.id.
      destruct (z_mem _ _ _ Hz t Ht) as [L _]. lia. }
  2:{ intros t Ht I. destruct (N1 t Ht) as (j & J & ->). cbn [new_tbl b_num] in I. apply in_map_iff in I as (u & U2 & U3).
      apply adj_list_in in U3 as [U3 _]. rewrite <- Z1 in U3. pose proof (proj2 (li_num0 _ _ _ _ _ HI1) u U3). lia. }
  assert (Fs : forall h, filter (sf h) news = []).
  { intros h. apply filter_none. intros t Ht. destruct (N1 t Ht) as (j & _ & ->). unfold sf. cbn [new_tbl b_src]. apply andb_false_r. }
  split; [|split].
  - constructor; cbn [l_next l_zero l_up].
    + constructor.
      * intros t Ht. destruct (N1 t Ht) as (j & J & ->). cbn [new_tbl b_hash b_min b_docs with_parts tc_parts]. split; [lia|].
        split; [reflexivity|]. split; [constructor|intros d []].
      * intros h L. cbn [with_parts tc_parts] in L. rewrite N3. destruct (N.leb_spec 0 h); [|lia]. destruct (N.ltb_spec h (0 + p)); [|lia]. eexists. reflexivity.
      * intros h. left. apply Fs.
    + exact (li_up _ _ _ _ _ HI1).
    + split; [exact N2|]. intros t Ht. destruct (N1 t Ht) as (j & J & ->). cbn [new_tbl b_num]. lia.
    + intros ts Hts. eapply nums_le; [exact (li_num _ _ _ _ _ HI1 ts Hts)|lia].
    + intros t Ht. destruct (N1 t Ht) as (j & J & ->). apply (good_new hash (hp p)).
    + intros ts t Hts Ht. apply good_parts. exact (li_good _ _ _ _ _ HI1 ts t Hts Ht).
    + exact Hn.
  - intros k. unfold view at 1. unfold zview, zget. cbn [l_zero l_up]. rewrite N3, Fs.
    destruct (N.leb_spec 0 (hp p k)); [|lia]. destruct (N.ltb_spec (hp p k) (0 + p)) as [L|L]; [|pose proof (hp_lt p k Hp); lia].
    cbn [andb new_tbl b_docs]. change (fd_get k []) with (@None rec). cbn [orr]. eapply vle_trans; [apply U1|].
    unfold view. unfold old. rewrite (last_rec_view hash (hp (tc_parts c)) c (l_zero s) k Hz (hp_lt _ k Hc) Ho). apply vle_refl.
  - intros t Ht. cbn [l_zero] in Ht. destruct (N1 t Ht) as (j & J & ->). split; reflexivity.
Qed.

Lemma areach_inv : forall c R s, areach hash hp c R s -> tcfg_ok (hp (tc_parts c)) c /\ LI hash (hp (tc_parts c)) c R s /\
  forall k, vle (view (hp (tc_parts c)) s k) (newest_write R k).
Proof.
  intros c R s H. induction H as [c Hx [Hp Hn]|c R s o s' H (IC & IH1 & IH2) Ho Hs Hn|c R s over mk fin sel num s' H (IC & IH1 & IH2) Hmk Hs Hn|c R s p ov mk s' H (IC & IH1 & IH2) Hmk Hp Ho Hs Hn].
  - assert (IC : tcfg_ok (hp (tc_parts c)) c) by (split; [exact Hx|split; [exact Hn|intros k; now apply hp_lt]]). split; [exact IC|].
    apply (lreach_inv hash); [exact IC|constructor].
  - split; [exact IC|]. destruct (lstep_keeps hash _ c R s o s' IC IH1 Ho Hs Hn) as [A1 A2]. split; [exact A1|]. intros k.
    eapply vle_trans; [apply A2|]. rewrite newest_write_app. specialize (IH2 k). destruct (newest_write (lflushed o) k); cbn [orr]; [apply vle_refl|exact IH2].
  - split; [exact IC|]. destruct (keep_step hash _ c R over mk fin sel num s s' IH1 Hmk Hs Hn) as (A1 & A2 & _). split; [exact A1|].
    intros k. rewrite A2. apply IH2.
  - destruct Hp as [Hp Hq]. split.
    { split; [apply IC|]. cbn [with_parts tc_parts]. split; [exact Hq|]. intros k. now apply hp_lt. }
    assert (Hc : 0 < tc_parts c) by (pose proof (proj2 (proj2 IC) []); lia).
    destruct (adjust_keeps c R p ov mk s s' Hc IH1 Hmk Hp Ho Hs Hn) as (A1 & A2 & _). cbn [with_parts tc_parts]. split; [exact A1|]. intros k.
    eapply vle_trans; [apply A2|apply IH2].
Qed.

Lemma areach_answer : forall c R s k, areach hash hp c R s -> bf_safe c R -> k <> [] ->
  table_answer (newest_write R k) (tm_get hash (hp (tc_parts c)) c k s).
Proof.
  intros c R s k H S Hk. destruct (areach_inv c R s H) as (IC & HI & V). specialize (V k).
  rewrite (get_view hash _ c R s k HI S); [|apply IC|exact Hk].
  destruct V as [-> |(-> & r & -> & D)]; cbn [table_answer]; [destruct (newest_write R k); [now left|reflexivity]|right; now split].
Qed.

(** ** The order of the tables of a partition *)

Definition late (x y : tbl) : Prop := b_src x = true -> b_hash x = b_hash y -> b_src y = true.

Lemma fop_map : forall A (P Q : A -> A -> Prop) (f : A -> A) l, (forall x y, In x l -> In y l -> P x y -> Q (f x) (f y)) ->
  ForallOrdPairs P l -> ForallOrdPairs Q (map f l).
Proof.
  intros A P Q f l H F. induction F as [|a l Fa F IH]; cbn [map]; [constructor|]. constructor.
  - apply Forall_map. rewrite Forall_forall in *. intros y Hy. apply H; [now left|now right|auto].
  - apply IH. intros x y Hx Hy. apply H; now right.
Qed.
Lemma fop_filter : forall A (P : A -> A -> Prop) g l, ForallOrdPairs P l -> ForallOrdPairs P (filter g l).
Proof.
  intros A P g l F. induction F as [|a l Fa F IH]; cbn [filter]; [constructor|]. destruct (g a); [|exact IH]. constructor; [|exact IH].
  rewrite Forall_forall in *. intros y Hy. apply filter_In in Hy as [Hy _]. auto.
Qed.

Lemma tf_batch_shape : forall part bad h rs t, b_src (tf_batch hash part bad h rs t) = b_src t /\ b_hash (tf_batch hash part bad h rs t) = b_hash t.
Proof.
  intros part bad h rs. induction rs as [|r rs IH]; intros t; cbn [tf_batch]; [now split|].
  destruct (negb _ || is_cmd r); [apply IH|]. destruct (bad r); [now split|]. destruct (IH (tf_set hash false false r t)) as [-> ->]. now split.
Qed.
Lemma late_batch : forall part bad rs n h l, ForallOrdPairs late l -> ForallOrdPairs late (batch_parts hash part bad rs n h l).
Proof.
  intros part bad rs n. induction n as [|n IH]; intros h l F; cbn [batch_parts]; [exact F|]. apply IH. unfold batch_part.
  destruct (smallest_normal _) as [t|]; [|exact F]. unfold upd_tbl. eapply fop_map; [|exact F]. intros x y _ _ P. unfold late in *.
  assert (Sh : forall x, b_src (if b_num x =? b_num t then tf_batch hash part bad h rs x else x) = b_src x /\
                         b_hash (if b_num x =? b_num t then tf_batch hash part bad h rs x else x) = b_hash x).
  { intros z. destruct (b_num z =? b_num t); [apply tf_batch_shape|now split]. }
  destruct (Sh x) as [-> ->], (Sh y) as [-> ->]. exact P.
Qed.

Lemma late_roll : forall part c R h s s', LI hash part c R s -> l0_roll c h s = Some s' -> ForallOrdPairs late (l_zero s) -> ForallOrdPairs late (l_zero s').
Proof.
  intros part c R h s s' HI H F. unfold l0_roll in H. pose proof (li_zero _ _ _ _ _ HI) as Hz.
  destruct (src_of h (l_zero s)) as [v|] eqn:So; [injection H as <-; exact F|].
  pose proof (src_of_none part c _ _ Hz So) as Hsrc.
  destruct (smallest_normal (by_hash h (l_zero s))) as [o|] eqn:Sm; [|discriminate].
  assert (G : forall m (l : list tbl), (forall x, In x l -> b_num x = b_num m -> b_hash x = h /\ forall y, In y l -> b_hash y = h -> b_src y = false -> b_num y = b_num m) ->
    (forall x, In x l -> b_hash x = h -> b_src x = true -> False) -> ForallOrdPairs late l -> ForallOrdPairs late (upd_tbl (b_num m) set_src l)).
  { intros m l G1 G2 Fl. unfold upd_tbl. eapply fop_map; [|exact Fl]. intros x y Ix Iy P. unfold late in *.
    destruct (N.eqb_spec (b_num x) (b_num m)) as [E|E].
    - intros _ Eh. destruct (G1 x Ix E) as [E1 E2]. destruct (N.eqb_spec (b_num y) (b_num m)) as [E3|E3]; [reflexivity|]. cbn [set_src b_hash] in Eh.
      destruct (b_src y) eqn:Sy; [reflexivity|]. destruct E3. apply E2; auto. congruence.
    - intros Sx Eh. destruct (N.eqb_spec (b_num y) (b_num m)) as [E3|E3]; [reflexivity|auto]. }
  assert (Hsome : In o (by_hash h (l_zero s)) /\ b_src o = false).
  { clear -Sm. unfold smallest_normal in Sm. revert Sm. generalize (by_hash h (l_zero s)). intros l.
    assert (X : forall l (best : option tbl) o, smallest l best = Some o -> best = Some o \/ (In o l /\ b_src o = false)).
    { clear. induction l as [|t l IH]; intros best o H; cbn [smallest] in H; [now left|].
      destruct (b_src t) eqn:S; cbn [negb andb] in H; [destruct (IH _ _ H) as [A|[A B]]; [now left|right; split; [now right|exact B]]|].
      match type of H with smallest l ?b = _ => destruct (IH b o H) as [A|[A B]] end; [|right; split; [now right|exact B]].
      match type of A with (if ?q then _ else _) = _ => destruct q end; [|now left]. injection A as <-. right. split; [now left|exact S]. }
    intros H. destruct (X l _ o H) as [A|A]; [discriminate|exact A]. }
  destruct Hsome as [Io Eo]. apply filter_In in Io as [Io Ho]. apply N.eqb_eq in Ho.
  assert (Hh : h < tc_parts c) by (rewrite <- Ho; apply (z_mem _ _ _ Hz o Io)).
  destruct (z_norm _ _ _ Hz h Hh) as [t Ht].
  assert (Uniq : forall y, In y (l_zero s) -> b_hash y = h -> b_src y = false -> y = t).
  { intros y Iy Hy Sy. assert (I : In y (filter (nf h) (l_zero s))) by (apply filter_In; split; [exact Iy|]; unfold nf; now rewrite Hy, N.eqb_refl, Sy).
    rewrite Ht in I. destruct I as [->|[]]. reflexivity. }
  pose proof (Uniq o Io Ho Eo) as ->. clear Eo.
  assert (NoS : forall x, In x (l_zero s) -> b_hash x = h -> b_src x = true -> False).
  { intros x Ix Hx Sx. assert (I : In x (filter (sf h) (l_zero s))) by (apply filter_In; split; [exact Ix|]; unfold sf; now rewrite Hx, N.eqb_refl, Sx).
    rewrite Hsrc in I. destruct I. }
  destruct (smallest_normal (rm_tbl (b_num t) (by_hash h (l_zero s)))) as [m|] eqn:Sm2; injection H as <-; cbn [l_zero].
  - exfalso. unfold smallest_normal in Sm2. rewrite smallest_filter in Sm2.
    assert (E : filter (fun x => negb (b_src x)) (rm_tbl (b_num t) (by_hash h (l_zero s))) = []).
    { apply filter_none. intros x Ix. apply rm_tbl_in in Ix as [Ix Nx]. apply filter_In in Ix as [Ix Hx]. apply N.eqb_eq in Hx.
      destruct (b_src x) eqn:Sx; [reflexivity|]. destruct Nx. f_equal. now apply Uniq. }
    rewrite E in Sm2. discriminate.
  - rewrite add_tbl_front by (intros u _; apply kle_nil). unfold upd_tbl. cbn [map]. pose proof (proj2 (li_num0 _ _ _ _ _ HI) t Io) as Lt.
    cbn [new_tbl b_num]. destruct (N.eqb_spec (l_next s) (b_num t)); [lia|]. constructor.
    + apply Forall_forall. intros y _. unfold late. cbn [new_tbl b_src]. discriminate.
    + change (map (fun t0 => if b_num t0 =? b_num t then set_src t0 else t0) (l_zero s)) with (upd_tbl (b_num t) set_src (l_zero s)).
      apply G; auto. intros x Ix Ex. assert (x = t) by (apply (num_inj (l_zero s)); auto; apply (li_num0 _ _ _ _ _ HI)). subst x.
      split; [exact Ho|]. intros y Iy Hy Sy. f_equal. now apply Uniq.
Qed.

Lemma some_inj : forall A (x y : A), Some x = Some y -> x = y.
Proof. intros A x y H. now injection H. Qed.

Lemma victim_zero : forall c over mk fin sel lv num s s', compact_victim hash c over mk fin sel lv num s = Some s' ->
  l_zero s' = match lv with O => if fin then rm_tbl num (l_zero s) else l_zero s | _ => l_zero s end.
Proof.
  intros c over mk fin sel lv num s s' H. unfold compact_victim in H. destruct (tbl_at num (level lv s)) as [v|]; [|discriminate].
  destruct fin.
  - apply some_inj in H. subst s'. destruct lv as [|lv]; cbn [Nat.ltb Nat.leb andb].
    + destruct (is_last 0 s); reflexivity.
    + match goal with |- context [if ?b then _ else _] => destruct b end; destruct (is_last (S lv) s); reflexivity.
  - apply some_inj in H. subst s'. destruct lv as [|lv]; destruct (is_last _ s); reflexivity.
Qed.

Lemma late_step : forall part c R o s s', tcfg_ok part c -> LI hash part c R s -> o <> LReload -> lstep hash part c o s = Some s' ->
  l_next s' <= NIL -> ForallOrdPairs late (l_zero s) -> ForallOrdPairs late (l_zero s').
Proof.
  intros part c R o s s' Hc HI Ho H Hn F. destruct o as [bad rs|h|over mk fin sel h|over mk fin sel lv num|p lv num|cut mk lv num|lv num|]; cbn [lstep] in H.
  - injection H as <-. apply late_batch. exact F.
  - eapply late_roll; eauto.
  - unfold compact_l0 in H. destruct (l0_roll c h s) as [s1|] eqn:E1; [|discriminate]. destruct (src_of h (l_zero s1)) as [v|]; [|discriminate].
    unfold compact_level in H. cbn [Nat.ltb Nat.leb] in H. rewrite andb_false_r in H. apply victim_zero in H. rewrite H.
    pose proof (late_roll part c R h s s1 HI E1 F) as F1. destruct fin; [apply fop_filter; exact F1|exact F1].
  - destruct lv as [|lv]; [discriminate|]. unfold compact_level in H. destruct (is_last (S lv) s && Nat.ltb 0 (S lv)).
    + unfold migrate in H. destruct (is_last (S lv) s && negb (is_nil (level (S lv) s))); [|discriminate]. apply some_inj in H. subst s'. exact F.
    + apply victim_zero in H. rewrite H. exact F.
  - unfold in_place in H. destruct lv; [discriminate|]. destruct (tbl_at num (level (S lv) s)); [|discriminate]. apply some_inj in H. subst s'. exact F.
  - unfold split in H. destruct lv; [discriminate|]. destruct (tbl_at num (level (S lv) s)); [|discriminate].
    match type of H with (if ?b then _ else _) = _ => destruct b end; [|discriminate]. apply some_inj in H. subst s'. exact F.
  - unfold merge in H. destruct lv; [discriminate|]. destruct (tbl_at num (level (S lv) s)); [|discriminate].
    destruct (before num None (level (S lv) s)); [|discriminate]. apply some_inj in H. subst s'. exact F.
  - congruence.
Qed.

Lemma late_reload : forall l, ForallOrdPairs late l -> older_first (rev l).
Proof.
  intros l F h. unfold by_hash. rewrite !filter_rev'. apply (fop_filter _ _ (fun t => b_hash t =? h)) in F.
  assert (Hh : forall t, In t (filter (fun t => b_hash t =? h) l) -> b_hash t = h).
  { intros t Ht. apply filter_In in Ht as [_ E]. now apply N.eqb_eq in E. }
  revert F Hh. generalize (filter (fun t => b_hash t =? h) l). clear l. intros l F Hh.
  rewrite <- rev_app_distr. f_equal.
  induction F as [|a l Fa F IH]; [reflexivity|]. cbn [filter]. destruct (b_src a) eqn:S; cbn [negb app].
  - assert (A : forall x, In x l -> b_src x = true).
    { intros x Hx. rewrite Forall_forall in Fa. apply (Fa x Hx S). rewrite (Hh a (or_introl eq_refl)), (Hh x (or_intror Hx)). reflexivity. }
    rewrite (filter_none _ (fun t => negb (b_src t)) l) by (intros x Hx; now rewrite (A x Hx)). cbn [app]. f_equal.
    clear -A. induction l as [|x l IH]; [reflexivity|]. cbn [filter]. rewrite (A x (or_introl eq_refl)). f_equal. apply IH. intros y Hy. apply A. now right.
  - f_equal. apply IH. intros t Ht. apply Hh. now right.
Qed.

Lemma quiet_order : forall c R s R' s', areach hash hp c R s -> (forall t, In t (l_zero s) -> b_src t = false) ->
  quiet hash hp c R s R' s' -> areach hash hp c R' s' /\ older_first (l_zero (reload s')).
Proof.
  intros c R s R' s' H Hs Q.
  assert (X : areach hash hp c R' s' /\ ForallOrdPairs late (l_zero s')).
  { induction Q as [R s|R s R1 s1 o s2 Q IH No Ho Hst Hn].
    - split; [exact H|]. clear -Hs. induction (l_zero s) as [|a l IH]; [constructor|]. constructor.
      + apply Forall_forall. intros y _. unfold late. rewrite (Hs a (or_introl eq_refl)). discriminate.
      + apply IH. intros t Ht. apply Hs. now right.
    - destruct (IH H Hs) as [A B]. split; [eapply ar_step; eauto|].
      destruct (areach_inv _ _ _ A) as (IC & HI & _). eapply late_step; eauto. }
  destruct X as [A B]. split; [exact A|]. now apply late_reload.
Qed.

(** ** A change comes to an end *)

Lemma keep_some : forall c over mk fin sel t s, In t (l_zero s) -> exists s', compact_keep hash c over mk fin sel (b_num t) s = Some s' /\ l_zero s' = l_zero s.
Proof.
  intros c over mk fin sel t s It. unfold compact_keep. cbn [level]. unfold tbl_at. destruct (find _ (l_zero s)) as [v|] eqn:E.
  - destruct fin; eexists; (split; [reflexivity|]); destruct (is_last 0 s); reflexivity.
  - pose proof (find_none _ _ E t It) as X. cbn beta in X. rewrite N.eqb_refl in X. discriminate.
Qed.
Lemma adj_tables_some : forall c ov mk ts s, (forall t, In t ts -> In t (l_zero s)) -> exists s', adj_tables hash c ov mk ts s = Some s'.
Proof.
  intros c ov mk ts. induction ts as [|t ts IH]; intros s H; cbn [adj_tables]; [now exists s|].
  destruct (keep_some c (ov (b_num t)) (mk (b_num t)) true (fun _ => true) t s (H t (or_introl eq_refl))) as (s1 & -> & Z).
  apply IH. intros x Hx. rewrite Z. apply H. now right.
Qed.
Lemma adjust_done : forall c R p ov mk s, areach hash hp c R s -> (forall n j, mk n j = true) -> 0 < p <= NIL -> older_first (l_zero s) ->
  exists s', adjust hash c p ov mk s = Some s' /\
    (l_next s' <= NIL -> forall h, if h <? p then exists t, by_hash h (l_zero s') = [t] /\ b_docs t = [] else by_hash h (l_zero s') = []).
Proof.
  intros c R p ov mk s H Hmk Hp Ho. destruct (areach_inv c R s H) as (IC & HI & _).
  assert (Hc : 0 < tc_parts c) by (pose proof (proj2 (proj2 IC) []); lia).
  destruct (adjust hash c p ov mk s) as [s'|] eqn:A.
  - exists s'. split; [reflexivity|]. intros Hn h. destruct (adjust_keeps c R p ov mk s s' Hc HI Hmk ltac:(lia) Ho A Hn) as (HI' & _ & E).
    pose proof (li_zero _ _ _ _ _ HI') as Hz.
    assert (F : by_hash h (l_zero s') = filter (nf h) (l_zero s')).
    { unfold by_hash. apply filter_ext_in. intros t Ht. unfold nf. rewrite (proj2 (E t Ht)). cbn [negb]. now rewrite andb_true_r. }
    rewrite F. destruct (N.ltb_spec h p) as [L|L].
    + destruct (z_norm _ _ _ Hz h L) as [t Ht]. exists t. split; [exact Ht|]. apply E. apply (filter_one_in _ _ _ Ht).
    + apply filter_none. intros t Ht. unfold nf. destruct (z_mem _ _ _ Hz t Ht) as [B _]. cbn [with_parts tc_parts] in B.
      destruct (N.eqb_spec (b_hash t) h); [lia|reflexivity].
  - exfalso. unfold adjust in A. destruct (adj_tables_some c ov mk (adj_list (N.to_nat (tc_parts c)) 0 (l_zero s)) s) as [s1 E1].
    { intros t Ht. apply adj_list_in in Ht. apply Ht. }
    rewrite E1 in A. discriminate.
Qed.

End Change.
