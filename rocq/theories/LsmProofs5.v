(** Proofs about the table section: flush, reload, executions. *)
From Coq Require Import List NArith Bool Lia Arith Sorted Permutation.
From Verif Require Import Base LogFormatModel KeyModel KeyProofs BloomModel BloomProofs MemTableModel LsmModel LsmProofs LsmProofs2 LsmProofs3 LsmProofs4.
Import ListNotations.
Local Open Scope N_scope.

Section Hash.
Variable hash : key -> N * N.
Variable part : key -> N.

Local Notation tf_set := (tf_set hash).
Local Notation tf_sets := (tf_sets hash).
Local Notation tf_get := (tf_get hash).
Local Notation tf_batch := (tf_batch hash part).
Local Notation batch_part := (batch_part hash part).
Local Notation batch_parts := (batch_parts hash part).
Local Notation good := (good hash).
Local Notation LI := (LI hash part).
Local Notation view := (view part).
Local Notation zview := (zview part).
Local Notation zero_ok := (zero_ok part).

(** ** Flush *)

Lemma fd_get_set : forall r l k, docs_ok l -> fd_get k (fd_set r l) = if keqb (r_key r) k then Some r else fd_get k l.
Proof.
  intros r l k Hd. destruct (fd_set_spec r l Hd) as [S1 S2]. destruct (keqb (r_key r) k) eqn:E.
  - apply keqb_true in E. apply fd_get_some; [exact S1|]. split; [|exact E]. apply S2. now left.
  - apply keqb_false in E. destruct (fd_get k l) as [x|] eqn:G.
    + apply fd_get_in in G as [G1 G2]. apply fd_get_some; [exact S1|]. split; [|exact G2]. apply S2. right. split; [exact G1|congruence].
    + apply fd_get_none. intros x Hx. apply S2 in Hx as [-> |[Hx _]]; [exact E|]. now apply (proj1 (fd_get_none _ _) G).
Qed.

Lemma newest_cons : forall r h k, newest_write (r :: h) k =
  match newest_write h k with Some x => Some x | None => if keqb (r_key r) k && negb (is_cmd r) then Some r else None end.
Proof.
  intros r h k. change (r :: h) with ([r] ++ h). rewrite newest_write_app. destruct (newest_write h k); [reflexivity|].
  unfold newest_write. cbn [rev app find]. now destruct (keqb (r_key r) k && negb (is_cmd r)).
Qed.

Lemma tf_batch_spec : forall c R bad h rs t, (forall r, In r rs -> bad r = false) -> docs_ok (b_docs t) -> good c R t ->
  (forall d, In d (b_docs t) -> part (r_key d) = h) -> (forall r, In r rs -> In r R) ->
  let t' := tf_batch bad h rs t in
  b_num t' = b_num t /\ b_src t' = b_src t /\ b_hash t' = b_hash t /\ b_min t' = b_min t /\ docs_ok (b_docs t') /\ good c R t' /\
  (forall d, In d (b_docs t') -> part (r_key d) = h) /\
  forall k, part k = h -> fd_get k (b_docs t') = orr (newest_write rs k) (fd_get k (b_docs t)).
Proof.
  intros c R bad h rs. induction rs as [|r rs IH]; intros t Hb Hd Hg Hp HR.
  - cbn [LsmModel.tf_batch]. repeat split; auto; apply Hg; auto.
  - assert (Hb' : forall x, In x rs -> bad x = false) by (intros x Hx; apply Hb; now right).
    assert (HR' : forall x, In x rs -> In x R) by (intros x Hx; apply HR; now right).
    cbn [LsmModel.tf_batch]. destruct (negb (part (r_key r) =? h) || is_cmd r) eqn:E.
    + destruct (IH t Hb' Hd Hg Hp HR') as (E1 & E2 & E3 & E4 & E5 & E6 & E7 & E8).
      repeat (split; [assumption|]). intros k Hk. rewrite (E8 k Hk), newest_cons. destruct (newest_write rs k); [reflexivity|].
      destruct (keqb (r_key r) k && negb (is_cmd r)) eqn:X; [|reflexivity]. apply andb_true_iff in X as [X Y]. apply keqb_true in X.
      rewrite X, Hk, N.eqb_refl in E. cbn [negb orb] in E. rewrite E in Y. discriminate.
    + apply orb_false_iff in E as [Ep Ec]. apply negb_false_iff, N.eqb_eq in Ep. rewrite (Hb r (or_introl eq_refl)).
      assert (Edocs : b_docs (tf_set false false r t) = fd_set r (b_docs t)) by reflexivity.
      destruct (fd_set_spec r (b_docs t) Hd) as [S1 S2].
      destruct (IH (tf_set false false r t) Hb') as (E1 & E2 & E3 & E4 & E5 & E6 & E7 & E8).
      * rewrite Edocs. exact S1.
      * apply good_set; auto. apply HR. now left.
      * rewrite Edocs. intros d Hx. apply S2 in Hx as [-> |[Hx _]]; auto.
      * exact HR'.
      * repeat (split; [assumption|]). intros k Hk. rewrite (E8 k Hk), newest_cons, Edocs, fd_get_set by exact Hd.
        rewrite Ec. cbn [negb]. rewrite andb_true_r. destruct (newest_write rs k); [reflexivity|]. cbn [orr].
        destruct (keqb (r_key r) k); reflexivity.
Qed.

Lemma batch_part_spec : forall c R bad rs h n l, zero_ok c l -> nums_ok n l -> n <= NIL -> (forall t, In t l -> good c R t) ->
  (forall r, In r rs -> bad r = false) -> (forall r, In r rs -> In r R) -> h < tc_parts c ->
  let l' := batch_part bad rs h l in
  zero_ok c l' /\ nums_ok n l' /\ (forall t, In t l' -> good c R t) /\
  forall k, zview k l' = if part k =? h then orr (newest_write rs k) (zview k l) else zview k l.
Proof.
  intros c R bad rs h n l Hz Hn Hnil Hg Hb HR Hh l'. unfold l', LsmModel.batch_part. clear l'.
  destruct (z_norm _ _ _ Hz h Hh) as (t & Ht). destruct (filter_one_in _ _ _ Ht) as [It Nt].
  pose proof (proj2 Hn t It) as Lt. rewrite (smallest_one h l t Ht) by lia.
  unfold nf in Nt. apply andb_true_iff in Nt as [Eh Es]. apply N.eqb_eq in Eh. apply negb_true_iff in Es.
  destruct (z_mem _ _ _ Hz t It) as (M1 & M2 & M3 & M4).
  destruct (tf_batch_spec c R bad h rs t Hb M3 (Hg t It)) as (E1 & E2 & E3 & E4 & E5 & E6 & E7 & E8).
  { intros d Hd. rewrite <- Eh. auto. } { exact HR. }
  set (t1 := tf_batch bad h rs t) in *. unfold upd_tbl.
  set (g := fun x => if b_num x =? b_num t then tf_batch bad h rs x else x).
  assert (Hgx : forall x, In x l -> (x = t /\ g x = t1) \/ (x <> t /\ g x = x)).
  { intros x Hx. unfold g. destruct (N.eqb_spec (b_num x) (b_num t)) as [E|E].
    - left. assert (x = t) by (apply (num_inj l); auto; apply Hn). subst x. now split.
    - right. split; [congruence|reflexivity]. }
  assert (Hf : forall p, (forall x y, b_hash x = b_hash y -> b_src x = b_src y -> p x = p y) -> filter p (map g l) = map g (filter p l)).
  { intros p Hp. rewrite filter_map. f_equal. apply filter_ext_in. intros x Hx. destruct (Hgx x Hx) as [[-> ->]|[_ ->]]; [|reflexivity]. now apply Hp. }
  assert (Hid : forall p, p t = false -> map g (filter p l) = filter p l).
  { intros p Hp. rewrite <- (map_id (filter p l)) at 2. apply map_ext_in. intros x Hx. apply filter_In in Hx as [Hx Px].
    destruct (Hgx x Hx) as [[-> _]|[_ ->]]; [congruence|reflexivity]. }
  assert (Fn : filter (nf h) (map g l) = [t1]).
  { rewrite Hf by (intros x y A B; unfold nf; now rewrite A, B). rewrite Ht. cbn [map]. f_equal.
    destruct (Hgx t It) as [[_ ->]|[X _]]; congruence. }
  assert (Fo : forall h', h' <> h -> filter (nf h') (map g l) = filter (nf h') l).
  { intros h' N. rewrite Hf by (intros x y A B; unfold nf; now rewrite A, B). apply Hid. unfold nf. rewrite Eh.
    destruct (N.eqb_spec h h'); [congruence|reflexivity]. }
  assert (Fs : forall h', filter (sf h') (map g l) = filter (sf h') l).
  { intros h'. rewrite Hf by (intros x y A B; unfold sf; now rewrite A, B). apply Hid. unfold sf. now rewrite Es, andb_false_r. }
  split; [|split; [|split]].
  - constructor.
    + intros x Hx. apply in_map_iff in Hx as (y & <- & Hy). destruct (Hgx y Hy) as [[-> ->]|[_ ->]]; [|exact (z_mem _ _ _ Hz y Hy)].
      rewrite E3, E4. split; [exact M1|]. split; [exact M2|]. split; [exact E5|]. rewrite Eh. exact E7.
    + intros h' L. destruct (N.eq_dec h' h) as [->|N]; [now exists t1|]. rewrite (Fo h' N). exact (z_norm _ _ _ Hz h' L).
    + intros h'. rewrite Fs. exact (z_src _ _ _ Hz h').
  - split.
    + rewrite map_map. rewrite (map_ext_in _ b_num); [apply Hn|]. intros x Hx. destruct (Hgx x Hx) as [[-> ->]|[_ ->]]; [exact E1|reflexivity].
    + intros x Hx. apply in_map_iff in Hx as (y & <- & Hy). destruct (Hgx y Hy) as [[-> ->]|[_ ->]]; [rewrite E1; exact Lt|now apply Hn].
  - intros x Hx. apply in_map_iff in Hx as (y & <- & Hy). destruct (Hgx y Hy) as [[-> ->]|[_ ->]]; [exact E6|now apply Hg].
  - intros k. unfold LsmProofs2.zview, zget. rewrite Fs. destruct (N.eqb_spec (part k) h) as [E|N].
    + rewrite E, Fn, Ht, (E8 k E). now destruct (newest_write rs k).
    + now rewrite (Fo _ N).
Qed.

Lemma batch_parts_spec : forall c R bad rs n m h l, zero_ok c l -> nums_ok n l -> n <= NIL -> (forall t, In t l -> good c R t) ->
  (forall r, In r rs -> bad r = false) -> (forall r, In r rs -> In r R) -> h + N.of_nat m <= tc_parts c ->
  let l' := batch_parts bad rs m h l in
  zero_ok c l' /\ nums_ok n l' /\ (forall t, In t l' -> good c R t) /\
  forall k, zview k l' = if (h <=? part k) && (part k <? h + N.of_nat m) then orr (newest_write rs k) (zview k l) else zview k l.
Proof.
  intros c R bad rs n m. induction m as [|m IH]; intros h l Hz Hn Hnil Hg Hb HR Hh.
  - cbn [LsmModel.batch_parts]. repeat (split; [assumption|]). intros k. destruct (N.leb_spec h (part k)); [|reflexivity].
    destruct (N.ltb_spec (part k) (h + N.of_nat 0)); [lia|reflexivity].
  - cbn [LsmModel.batch_parts]. destruct (batch_part_spec c R bad rs h n l Hz Hn Hnil Hg Hb HR) as (A1 & A2 & A3 & A4); [lia|].
    destruct (IH (h + 1) (batch_part bad rs h l) A1 A2 Hnil A3 Hb HR) as (B1 & B2 & B3 & B4); [lia|].
    repeat (split; [assumption|]). intros k. rewrite B4, A4.
    destruct (N.eqb_spec (part k) h) as [E|E].
    + destruct (N.leb_spec (h + 1) (part k)); [lia|]. cbn [andb]. destruct (N.leb_spec h (part k)); [|lia].
      destruct (N.ltb_spec (part k) (h + N.of_nat (S m))); [reflexivity|lia].
    + destruct (N.leb_spec (h + 1) (part k)); destruct (N.leb_spec h (part k)); try lia; cbn [andb]; [|reflexivity].
      destruct (N.ltb_spec (part k) (h + 1 + N.of_nat m)); destruct (N.ltb_spec (part k) (h + N.of_nat (S m))); try lia; reflexivity.
Qed.

Lemma flush_keeps : forall c R bad rs s, LI c R s -> (forall r, In r rs -> bad r = false) -> (forall k, part k < tc_parts c) ->
  let s' := set_batch hash part c bad rs s in
  LI c (R ++ rs) s' /\ forall k, view s' k = orr (newest_write rs k) (view s k).
Proof.
  intros c R bad rs s HI Hb Hp. unfold set_batch. cbn zeta.
  destruct (batch_parts_spec c (R ++ rs) bad rs (l_next s) (N.to_nat (tc_parts c)) 0 (l_zero s)) as (A1 & A2 & A3 & A4).
  { apply (li_zero _ _ _ _ _ HI). } { apply (li_num0 _ _ _ _ _ HI). } { apply (li_nil _ _ _ _ _ HI). }
  { intros t Ht. eapply good_mono; [exact (li_good0 _ _ _ _ _ HI t Ht)|]. intros r Hr. apply in_app_iff. now left. }
  { exact Hb. } { intros r Hr. apply in_app_iff. now right. } { lia. }
  split.
  - eapply (zero_repl hash part c R (R ++ rs) s); eauto; try lia.
    + intros r Hr. apply in_app_iff. now left.
    + apply (li_nil _ _ _ _ _ HI).
  - intros k. unfold LsmProofs2.view. cbn [l_zero l_up]. rewrite A4. specialize (Hp k).
    destruct (N.leb_spec 0 (part k)); [|lia]. destruct (N.ltb_spec (part k) (0 + N.of_nat (N.to_nat (tc_parts c)))); [|lia].
    cbn [andb]. now destruct (newest_write rs k).
Qed.

(** ** Reload *)

Lemma filter_rev' : forall A (f : A -> bool) l, filter f (rev l) = rev (filter f l).
Proof.
  intros A f l. induction l as [|a l IH]; [reflexivity|]. cbn [rev filter]. rewrite filter_app, IH. cbn [filter].
  destruct (f a); cbn [rev]; [reflexivity|apply app_nil_r].
Qed.

Lemma zget_rev : forall f k l, (filter f l = [] \/ exists t, filter f l = [t]) -> zget f k (rev l) = zget f k l.
Proof. intros f k l H. unfold zget. rewrite filter_rev'. destruct H as [-> |(t & ->)]; reflexivity. Qed.

Lemma reload_keeps : forall c R s, LI c R s -> (forall k, part k < tc_parts c) -> LI c R (reload s) /\ forall k, view (reload s) k = view s k.
Proof.
  intros c R s HI Hp. pose proof (li_zero _ _ _ _ _ HI) as Hz. split.
  - unfold reload. apply (zero_repl hash part c R R s); auto; try lia; try apply (li_nil _ _ _ _ _ HI).
    + constructor.
      * intros t Ht. apply in_rev in Ht. exact (z_mem _ _ _ Hz t Ht).
      * intros h L. destruct (z_norm _ _ _ Hz h L) as (t & E). exists t. now rewrite filter_rev', E.
      * intros h. rewrite filter_rev'. destruct (z_src _ _ _ Hz h) as [-> |(t & ->)]; [now left|right; now exists t].
    + destruct (li_num0 _ _ _ _ _ HI) as [N1 N2]. split; [rewrite map_rev; now apply NoDup_rev|]. intros t Ht. apply in_rev in Ht. auto.
    + intros t Ht. apply in_rev in Ht. exact (li_good0 _ _ _ _ _ HI t Ht).
  - intros k. unfold LsmProofs2.view, LsmProofs2.zview, reload. cbn [l_zero l_up]. rewrite !zget_rev; [reflexivity| |].
    + exact (z_src _ _ _ Hz (part k)).
    + right. exact (z_norm _ _ _ Hz _ (Hp k)).
Qed.

(** ** A new table section *)

Lemma init_tbls_spec : forall c m h l,
  (forall t, In t l -> exists j, j < h /\ t = new_tbl c j j []) -> NoDup (map b_num l) ->
  (forall j, filter (nf j) l = if j <? h then [new_tbl c j j []] else []) ->
  let l' := init_tbls c m h l in
  (forall t, In t l' -> exists j, j < h + N.of_nat m /\ t = new_tbl c j j []) /\ NoDup (map b_num l') /\
  (forall j, filter (nf j) l' = if j <? h + N.of_nat m then [new_tbl c j j []] else []).
Proof.
  intros c m. induction m as [|m IH]; intros h l H1 H2 H3.
  - cbn [init_tbls]. rewrite N.add_0_r. now split.
  - cbn [init_tbls]. assert (E : add_tbl (new_tbl c h h []) l = new_tbl c h h [] :: l) by (apply add_tbl_front; intros u _; apply kle_nil).
    rewrite E. replace (h + N.of_nat (S m)) with (h + 1 + N.of_nat m) by lia. apply IH.
    + intros t [<-|Ht]; [exists h; split; [lia|reflexivity]|]. destruct (H1 t Ht) as (j & J & ->). exists j. split; [lia|reflexivity].
    + cbn [map new_tbl b_num]. constructor; [|exact H2]. intros I. apply in_map_iff in I as (t & T1 & T2).
      destruct (H1 t T2) as (j & J & ->). cbn [new_tbl b_num] in T1. lia.
    + intros j. cbn [filter]. rewrite H3. unfold nf at 1. cbn [new_tbl b_hash b_src negb]. rewrite andb_true_r.
      destruct (N.eqb_spec h j) as [->|N].
      * destruct (N.ltb_spec j j); [lia|]. destruct (N.ltb_spec j (j + 1)); [reflexivity|lia].
      * destruct (N.ltb_spec j h); destruct (N.ltb_spec j (h + 1)); try lia; reflexivity.
Qed.

Lemma new_ok : forall c, tc_parts c <= NIL -> LI c [] (lsm_new c) /\ forall k, view (lsm_new c) k = None.
Proof.
  intros c Hn. unfold lsm_new.
  destruct (init_tbls_spec c (N.to_nat (tc_parts c)) 0 []) as (I1 & I2 & I3).
  { intros t []. } { constructor. } { intros j. cbn [filter]. destruct (N.ltb_spec j 0); [lia|reflexivity]. }
  set (l := init_tbls c (N.to_nat (tc_parts c)) 0 []) in *.
  replace (0 + N.of_nat (N.to_nat (tc_parts c))) with (tc_parts c) in * by lia.
  assert (Fs : forall h, filter (sf h) l = []).
  { intros h. apply filter_none. intros t Ht. destruct (I1 t Ht) as (j & _ & ->). unfold sf. cbn [new_tbl b_src]. apply andb_false_r. }
  split.
  - constructor; cbn [l_next l_zero l_up]; auto; try (intros ts []); try (intros ts t []).
    + constructor.
      * intros t Ht. destruct (I1 t Ht) as (j & J & ->). cbn [new_tbl b_hash b_min b_docs]. repeat split; auto; [constructor|intros d []].
      * intros h L. rewrite I3. destruct (N.ltb_spec h (tc_parts c)); [|lia]. eexists. reflexivity.
      * intros h. left. apply Fs.
    + split; [exact I2|]. intros t Ht. destruct (I1 t Ht) as (j & J & ->). exact J.
    + intros t Ht. destruct (I1 t Ht) as (j & J & ->). apply (good_new hash part).
    + intros [].
  - intros k. unfold LsmProofs2.view, LsmProofs2.zview, zget. cbn [l_zero l_up ups]. rewrite I3, Fs. destruct (part k <? tc_parts c); reflexivity.
Qed.

(** ** Executions *)

Definition lflushed (o : lop) : list rec := match o with LFlush _ rs => rs | _ => [] end.
Definition lop_ok (o : lop) : Prop :=
  match o with
  | LFlush bad rs => forall r, In r rs -> bad r = false
  | LZero _ mk _ _ _ | LDown _ mk _ _ _ _ | LSplit _ mk _ _ => forall j, mk j = true
  | _ => True
  end.
Definition tcfg_ok (c : tcfg) : Prop := tc_ext c = true /\ tc_parts c <= NIL /\ forall k, part k < tc_parts c.

Inductive lreach (c : tcfg) : list rec -> lsm -> Prop :=
| lr_new : lreach c [] (lsm_new c)
| lr_step : forall R s o s', lreach c R s -> lop_ok o -> lstep hash part c o s = Some s' -> l_next s' <= NIL ->
    lreach c (R ++ lflushed o) s'.

Lemma victim_next : forall c over mk fin sel lv num s s', compact_victim hash c over mk fin sel lv num s = Some s' -> l_next s <= l_next s'.
Proof.
  intros c over mk fin sel lv num s s' H. unfold compact_victim in H. destruct (tbl_at num (level lv s)) as [v|]; [|discriminate].
  assert (E : l_next (if is_last lv s then extend s else s) = l_next s) by (now destruct (is_last lv s)).
  set (s1 := if is_last lv s then extend s else s) in *. rewrite <- E. clearbody s1. clear E.
  destruct fin; [|injection H as <-; cbn [set_level l_next]; lia].
  match type of H with Some (if ?b then _ else _) = _ => destruct b end; injection H as <-; cbn [with_next l_next]; lia.
Qed.

Lemma lstep_keeps : forall c R s o s', tcfg_ok c -> LI c R s -> lop_ok o -> lstep hash part c o s = Some s' -> l_next s' <= NIL ->
  LI c (R ++ lflushed o) s' /\ forall k, vle (view s' k) (orr (newest_write (lflushed o) k) (view s k)).
Proof.
  intros c R s o s' (Hx & Hpn & Hp) HI Ho H Hnil.
  assert (Hsame : forall A, LI c R A /\ (forall k, vle (view A k) (view s k)) -> lflushed o = [] ->
    LI c (R ++ lflushed o) A /\ forall k, vle (view A k) (orr (newest_write (lflushed o) k) (view s k))).
  { intros A [A1 A2] E. rewrite E, app_nil_r. split; [exact A1|exact A2]. }
  destruct o as [bad rs|h|over mk fin sel h|over mk fin sel lv num|p lv num|cut mk lv num|lv num|]; cbn [lstep lop_ok] in *.
  - injection H as <-. destruct (flush_keeps c R bad rs s HI Ho Hp) as [A1 A2]. split; [exact A1|]. intros k. rewrite A2. apply vle_refl.
  - apply Hsame; [|reflexivity]. destruct (roll_keeps hash part c R s h s' HI H Hnil) as (A1 & A2 & _). split; [exact A1|].
    intros k. rewrite A2. apply vle_refl.
  - apply Hsame; [|reflexivity]. eapply (zero_keeps hash part); eauto. intros s1 E1. unfold compact_l0 in H. rewrite E1 in H.
    destruct (src_of h (l_zero s1)) as [v|]; [|discriminate]. unfold compact_level in H. cbn [Nat.ltb Nat.leb] in H. rewrite andb_false_r in H.
    apply victim_next in H. lia.
  - apply Hsame; [|reflexivity]. destruct lv as [|i]; [discriminate|]. unfold compact_level in H.
    destruct (is_last (S i) s) eqn:L; cbn [andb Nat.ltb Nat.leb] in H.
    + eapply (migrate_keeps hash part); eauto.
    + eapply (down_keeps hash part); eauto.
  - apply Hsame; [|reflexivity]. eapply (in_place_keeps hash part); eauto.
  - apply Hsame; [|reflexivity]. eapply (split_keeps hash part); eauto.
  - apply Hsame; [|reflexivity]. eapply (merge_keeps hash part); eauto.
  - apply Hsame; [|reflexivity]. injection H as <-. destruct (reload_keeps c R s HI Hp) as [A1 A2]. split; [exact A1|].
    intros k. rewrite A2. apply vle_refl.
Qed.

Lemma vle_orr2 : forall a b b', vle b b' -> vle (orr a b) (orr a b').
Proof. exact vle_orr. Qed.

Lemma lreach_inv : forall c R s, tcfg_ok c -> lreach c R s -> LI c R s /\ forall k, vle (view s k) (newest_write R k).
Proof.
  intros c R s Hc H. induction H as [|R s o s' H [IH1 IH2] Ho Hs Hn].
  - destruct Hc as (_ & Hpn & _). destruct (new_ok c Hpn) as [A1 A2]. split; [exact A1|]. intros k. rewrite A2. now left.
  - destruct (lstep_keeps c R s o s' Hc IH1 Ho Hs Hn) as [A1 A2]. split; [exact A1|]. intros k.
    eapply vle_trans; [apply A2|]. rewrite newest_write_app. specialize (IH2 k). destruct (newest_write (lflushed o) k); cbn [orr]; [apply vle_refl|exact IH2].
Qed.

(** The value a lookup in the tables may deliver, given the newest record written for the key. *)
Definition table_answer (w : option rec) (g : got) : Prop :=
  match w with
  | None => g = GotErr KEY_NOT_FOUND
  | Some r => g = Got r \/ (is_del r = true /\ g = GotErr KEY_NOT_FOUND)
  end.

Lemma tables_answer : forall c R s k, tcfg_ok c -> lreach c R s -> bf_safe c R -> k <> [] ->
  table_answer (newest_write R k) (tm_get hash part c k s).
Proof.
  intros c R s k Hc H S Hk. destruct (lreach_inv c R s Hc H) as [HI V]. specialize (V k).
  rewrite (get_view hash part c R s k HI S); [|apply Hc|exact Hk].
  destruct V as [-> |(-> & r & -> & D)]; cbn [table_answer].
  - destruct (newest_write R k); [now left|reflexivity].
  - right. now split.
Qed.

(** ** Splitting in detail *)

Lemma docs_eq : forall a b, docs_ok a -> docs_ok b -> (forall x, In x a <-> In x b) -> a = b.
Proof.
  induction a as [|x a IH]; intros b Ha Hb H.
  - destruct b as [|y b]; [reflexivity|]. destruct (proj2 (H y) (or_introl eq_refl)).
  - destruct b as [|y b]; [destruct (proj1 (H x) (or_introl eq_refl))|].
    pose proof (ss_in _ _ _ _ Ha) as Hx. pose proof (ss_in _ _ _ _ Hb) as Hy.
    assert (x = y).
    { destruct (proj1 (H x) (or_introl eq_refl)) as [E|E]; [now symmetry|]. destruct (proj2 (H y) (or_introl eq_refl)) as [E2|E2]; [exact E2|].
      destruct (klt_asym _ _ (Hx y E2) (Hy x E)). }
    subst y. f_equal. apply IH; [exact (ss_tail _ _ _ _ Ha)|exact (ss_tail _ _ _ _ Hb)|]. intros z. specialize (H z). cbn [In] in H. split; intros Hz.
    + destruct (proj1 H (or_intror Hz)) as [<-|E]; [|exact E]. destruct (klt_irrefl _ (Hx x Hz)).
    + destruct (proj2 H (or_intror Hz)) as [<-|E]; [|exact E]. destruct (klt_irrefl _ (Hy x Hz)).
Qed.

Lemma new_docs_eq : forall c m g, docs_ok (g_recs g) -> b_docs (tf_sets true false (g_recs g) (new_tbl c m 0 (g_min g))) = g_recs g.
Proof. intros c m g H. destruct (new_docs hash c m g H) as [A B]. now apply docs_eq. Qed.

Lemma new_tbls_docs : forall c j n gs, (forall g, In g gs -> g_tab g = None /\ docs_ok (g_recs g)) ->
  map b_docs (new_tbls hash c all_true j n gs) = map g_recs gs.
Proof.
  intros c j n gs. revert j n. induction gs as [|g gs IH]; intros j n H; [reflexivity|]. cbn [new_tbls map].
  destruct (H g (or_introl eq_refl)) as [-> D]. unfold all_true at 1. cbn [map]. rewrite new_docs_eq by exact D. f_equal. apply IH.
  intros x Hx. apply H. now right.
Qed.

Lemma ups_same : forall k l i u', lv_get k u' = lv_get k (nth i l []) -> ups k (set_nth i u' l) = ups k l.
Proof.
  intros k l. induction l as [|a l IH]; intros [|i] u' H; cbn [set_nth nth ups] in *; auto; [now rewrite H|]. f_equal. now apply IH.
Qed.

Lemma split_exact : forall c R s cut mk lv num s', LI c R s -> (forall j, mk j = true) ->
  split hash c cut mk lv num s = Some s' -> l_next s' <= NIL ->
  exists v outs, In v (level lv s) /\ b_num v = num /\ (1 < length outs)%nat /\ concat (map b_docs outs) = b_docs v /\
    (forall t, In t (level lv s') <-> (In t (level lv s) /\ b_num t <> num) \/ In t outs) /\
    (forall t d, In t (level lv s') -> In d (b_docs t) -> in_range (level lv s') (b_min t) d) /\
    (forall k, view s' k = view s k).
Proof.
  intros c R s cut mk lv num s' HI Hmk H Hnil.
  destruct (split_keeps hash part c R s cut mk lv num s' HI Hmk H Hnil) as [HI' _].
  unfold split in H. destruct lv as [|i]; [discriminate|].
  destruct (tbl_at num (level (S i) s)) as [v|] eqn:T; [|discriminate]. apply tbl_at_in in T as [Hv <-].
  set (gs := cuts cut 0 (b_docs v) (mkG (b_min v) None [])) in *.
  destruct (Nat.ltb 1 (length gs)) eqn:Hlen; [|discriminate]. apply Nat.ltb_lt in Hlen. cbn [level] in Hv.
  destruct (nth_in_some _ _ _ Hv) as [Hi Hl]. set (l := nth i (l_up s) []) in *.
  assert (Hok : lvl_ok l) by exact (li_up _ _ _ _ _ HI _ Hl).
  destruct (proj2 Hok v Hv) as [V1 V2].
  destruct (cuts_spec cut (b_docs v) 0 (mkG (b_min v) None [])) as (C1 & C2 & C3 & C4 & C5 & C6); cbn [g_recs g_min app] in *; auto.
  { intros r Hr. apply (V2 r Hr). }
  fold gs in C1, C2, C3, C4, C5, C6. rewrite (new_tbls_mk hash c mk) in H by exact Hmk.
  set (outs := new_tbls hash c all_true 0 (l_next s) gs) in *.
  set (l' := rm_tbl (b_num v) (add_all outs (level (S i) s))) in *. change (level (S i) s) with l in l'.
  assert (Hl' : level (S i) s' = l').
  { injection H as <-. unfold with_next, set_level, level. cbn [l_up]. now apply set_nth_same. }
  assert (Eup : l_up s' = set_nth i l' (l_up s) /\ l_zero s' = l_zero s) by (injection H as <-; split; reflexivity).
  destruct Eup as [Eup Ezero].
  assert (Hdocs : map b_docs outs = map g_recs gs).
  { apply new_tbls_docs. intros g Hg. split; [now apply C2|]. clear -C1 V1 Hg. rewrite <- C1 in V1. clear C1.
    induction gs as [|a gs IH]; [destruct Hg|]. cbn [map concat] in V1. apply ss_app in V1 as (A & B & _). destruct Hg as [<-|Hg]; auto. }
  assert (Hconc : concat (map b_docs outs) = b_docs v) by (now rewrite Hdocs).
  assert (Hnew : forall t, In t outs -> b_num t <> b_num v).
  { intros t Ht. apply (proj2 (new_tbls_nums hash c 0 (l_next s) gs)) in Ht. pose proof (proj2 (li_num _ _ _ _ _ HI l Hl) v Hv). lia. }
  assert (Hmem : forall t, In t l' <-> (In t l /\ b_num t <> b_num v) \/ In t outs).
  { intros t. unfold l'. rewrite rm_tbl_in, add_all_in. split; [intros [[A|A] B]; auto|]. intros [[A B]|A]; [auto|]. split; [now left|auto]. }
  assert (Hin' : In l' (l_up s')).
  { rewrite Eup. rewrite <- (set_nth_same _ i l' (l_up s) []) at 1 by exact Hi. apply nth_In. now rewrite set_nth_len. }
  pose proof (li_up _ _ _ _ _ HI' l' Hin') as Hok'.
  exists v, outs. rewrite Hl'. change (level (S i) s) with l. repeat split; auto.
  - rewrite <- (map_length b_docs), Hdocs, map_length. exact Hlen.
  - intros Ht. now apply Hmem.
  - intros Ht. now apply Hmem.
  - apply (proj2 Hok' t H0). exact H1.
  - apply (proj2 Hok' t H0). exact H1.
  - intros k. unfold LsmProofs2.view. rewrite Eup, Ezero. f_equal. apply ups_same. fold l.
    apply lv_get_ext; [exact Hok'|exact Hok|]. intros r Er. split.
    + intros (t & Ht & Hr). apply Hmem in Ht as [[Ht _]|Ht]; [exists t; now split|]. exists v. split; [exact Hv|].
      rewrite <- Hconc. apply in_concat. exists (b_docs t). split; [now apply in_map|exact Hr].
    + intros (t & Ht & Hr). destruct (N.eq_dec (b_num t) (b_num v)) as [E|E].
      * assert (t = v) by (apply (num_inj l); auto; apply (li_num _ _ _ _ _ HI l Hl)). subst t.
        rewrite <- Hconc in Hr. apply in_concat in Hr as (ds & A & B). apply in_map_iff in A as (t & <- & A). exists t. split; [apply Hmem; now right|exact B].
      * exists t. split; [apply Hmem; left; now split|exact Hr].
Qed.

(** ** A lookup in the tables never reports success without a record *)

Lemma search_one : forall c k skip t,
  match search hash c k skip [t] None with inl None => True | inl (Some r) => fd_get k (b_docs t) = Some r | inr (Some e) => False | inr None => False end.
Proof.
  intros c k skip t. cbn [search]. destruct (match skip with Some n => b_num t =? n | None => false end); [exact I|].
  unfold LsmModel.tf_get. destruct (match b_bf t with Some f => _ | None => false end); [exact I|].
  destruct (fd_get k (b_docs t)) as [r|]; [|exact I]. change (rec_empty None) with true. cbn [orb]. reflexivity.
Qed.

Lemma search_skips : forall c k n ts, (forall t, In t ts -> b_num t = n) -> search hash c k (Some n) ts None = inl None.
Proof.
  intros c k n ts. induction ts as [|t ts IH]; intros H; [reflexivity|]. cbn [search]. rewrite (H t (or_introl eq_refl)), N.eqb_refl.
  apply IH. intros x Hx. apply H. now right.
Qed.

Lemma level_get_some : forall c R s k lv, LI c R s -> part k < tc_parts c ->
  match level_get hash part c k lv s with
  | inl None => True
  | inl (Some r) => r_key r = k /\ In r R
  | inr _ => False
  end.
Proof.
  intros c R s k lv HI Hp. destruct lv as [|i].
  - pose proof (li_zero _ _ _ _ _ HI) as Hz. destruct (z_norm _ _ _ Hz (part k) Hp) as (t & Ht). destruct (filter_one_in _ _ _ Ht) as [It Nt].
    assert (Lt : b_num t < NIL) by (pose proof (proj2 (li_num0 _ _ _ _ _ HI) t It); pose proof (li_nil _ _ _ _ _ HI); lia).
    cbn [level_get tables_point]. rewrite (smallest_one _ _ _ Ht Lt).
    assert (Hfound : forall u r, In u (l_zero s) -> fd_get k (b_docs u) = Some r -> r_key r = k /\ In r R).
    { intros u r Hu Hr. apply fd_get_in in Hr as [A B]. split; [exact B|]. apply (gd_docs _ _ _ _ (li_good0 _ _ _ _ _ HI u Hu)). exact A. }
    assert (Hmiss : match search hash c k (Some (b_num t)) (by_hash (part k) (l_zero s)) None with
                    | inl None => True | inl (Some r) => r_key r = k /\ In r R | inr _ => False end).
    { assert (Hsplit : forall u, In u (by_hash (part k) (l_zero s)) -> b_num u <> b_num t -> In u (filter (sf (part k)) (l_zero s))).
      { intros u Hu Nu. unfold by_hash in Hu. apply filter_In in Hu as [H1 H2]. apply filter_In. split; [exact H1|]. unfold sf. rewrite H2. cbn [andb].
        destruct (b_src u) eqn:E; [reflexivity|]. exfalso. apply Nu. f_equal.
        assert (J : In u (filter (nf (part k)) (l_zero s))) by (apply filter_In; split; [exact H1|]; unfold nf; now rewrite H2, E).
        rewrite Ht in J. destruct J as [<-|[]]. reflexivity. }
      assert (Hnd : NoDup (by_hash (part k) (l_zero s))).
      { apply NoDup_filter. apply (NoDup_map_inv b_num). apply (li_num0 _ _ _ _ _ HI). }
      assert (Hone : forall u w, In u (by_hash (part k) (l_zero s)) -> In w (by_hash (part k) (l_zero s)) -> b_num u <> b_num t -> b_num w <> b_num t -> u = w).
      { intros u w Hu Hw Nu Nw. apply Hsplit in Hu; [|exact Nu]. apply Hsplit in Hw; [|exact Nw].
        destruct (z_src _ _ _ Hz (part k)) as [E|(x & E)]; rewrite E in *; [destruct Hu|]. destruct Hu as [<-|[]], Hw as [<-|[]]. reflexivity. }
      assert (Hz0 : forall u, In u (by_hash (part k) (l_zero s)) -> In u (l_zero s)) by (intros u Hu; apply filter_In in Hu; tauto).
      revert Hnd Hone Hz0. clear Hsplit. generalize (by_hash (part k) (l_zero s)) as ts. intros ts.
      induction ts as [|u ts IH]; intros Hnd Hone Hz0; [exact I|]. cbn [search]. destruct (N.eqb_spec (b_num u) (b_num t)) as [E|E].
      - apply IH; [now inversion Hnd|intros a b Ha Hb; apply Hone; now right|intros a Ha; apply Hz0; now right].
      - assert (Hall : forall w, In w ts -> b_num w = b_num t).
        { intros w Hw. destruct (N.eq_dec (b_num w) (b_num t)) as [X|X]; [exact X|]. exfalso. inversion Hnd as [|? ? N1 _]. apply N1.
          rewrite (Hone u w); auto; [now left|now right]. }
        unfold LsmModel.tf_get. destruct (match b_bf u with Some f => _ | None => false end).
        + rewrite search_skips by exact Hall. exact I.
        + destruct (fd_get k (b_docs u)) as [r|] eqn:G; [|rewrite search_skips by exact Hall; exact I].
          change (rec_empty None) with true. cbn [orb].
          assert (Hs : forall ts', (forall w, In w ts' -> b_num w = b_num t) -> search hash c k (Some (b_num t)) ts' (Some r) = inl (Some r)).
          { induction ts' as [|w ts' IHs]; intros Hw; [reflexivity|]. cbn [search]. rewrite (Hw w (or_introl eq_refl)), N.eqb_refl. apply IHs.
            intros x Hx. apply Hw. now right. }
          rewrite Hs by exact Hall. eapply Hfound; [apply Hz0; now left|exact G]. }
    assert (Hrest : match (match search hash c k (Some (b_num t)) (by_hash (part k) (l_zero s)) None with
                           | inl l => inl (if rec_empty l then None else l) | inr e => inr e end) with
                    | inl None => True | inl (Some r) => r_key r = k /\ In r R | inr _ => False end).
    { destruct (search hash c k (Some (b_num t)) (by_hash (part k) (l_zero s)) None) as [[r|]|e]; [|exact I|exact Hmiss]. now destruct (rec_empty (Some r)). }
    destruct (LsmModel.tf_get hash c k t) as [r|e|] eqn:G.
    + unfold LsmModel.tf_get in G. destruct (match b_bf t with Some f => _ | None => false end); [discriminate|].
      destruct (fd_get k (b_docs t)) as [x|] eqn:G2; [|discriminate]. injection G as <-. eapply Hfound; [exact It|exact G2].
    + unfold LsmModel.tf_get in G. destruct (match b_bf t with Some f => _ | None => false end).
      * injection G as <-. exact Hrest.
      * destruct (fd_get k (b_docs t)); [discriminate|]. injection G as <-. exact Hrest.
    + unfold LsmModel.tf_get in G. destruct (match b_bf t with Some f => _ | None => false end); [discriminate|].
      destruct (fd_get k (b_docs t)); discriminate.
  - cbn [level_get tables_point]. destruct (floor k (nth i (l_up s) [])) as [t|] eqn:F.
    + assert (Hne : exists ts, In ts (l_up s) /\ In t ts).
      { assert (X : In t (nth i (l_up s) [])).
        { revert F. generalize (nth i (l_up s) []) as l. induction l as [|u l IH]; cbn [floor]; [discriminate|].
          destruct (kleb (b_min u) k); [|discriminate]. destruct (floor k l) as [w|] eqn:E; intros X; injection X as <-; [right; auto|now left]. }
        destruct (nth_in_some _ _ _ X) as [_ Y]. exists (nth i (l_up s) []). now split. }
      destruct Hne as (ts & H1 & H2). pose proof (search_one c k None t) as So.
      destruct (search hash c k None [t] None) as [[r|]|[e|]]; [|exact I|destruct So|destruct So].
      destruct (rec_empty (Some r)); [exact I|]. apply fd_get_in in So as [A B]. split; [exact B|].
      apply (gd_docs _ _ _ _ (li_good _ _ _ _ _ HI ts t H1 H2)). exact A.
    + exact I.
Qed.

Lemma got_has_record : forall c R s k, tcfg_ok c -> lreach c R s ->
  match tm_get hash part c k s with
  | Got r => r_key r = k /\ In r R
  | GotNothing => False
  | GotErr e => e = KEY_NOT_FOUND
  end.
Proof.
  intros c R s k Hc H. destruct (lreach_inv c R s Hc H) as [HI _]. unfold tm_get. generalize 0%nat as lv, (num_levels s) as n.
  intros lv n. revert lv. induction n as [|n IH]; intros lv; [reflexivity|]. cbn [levels_get].
  pose proof (level_get_some c R s k lv HI (proj2 (proj2 Hc) k)) as X. destruct (level_get hash part c k lv s) as [[r|]|e]; [|apply IH|destruct X].
  now destruct (rec_empty (Some r)).
Qed.

End Hash.
