(** Proofs about overlapping tables: lookups and the steps of the repair. *)
From Coq Require Import List NArith Bool Lia Arith Sorted.
From Verif Require Import Base LogFormatModel KeyModel KeyProofs BloomModel BloomProofs MemTableModel LsmModel LsmProofs LsmProofs2 RepairModel RepairSpec.
Import ListNotations.
Local Open Scope N_scope.

Lemma newest_ex_tab : forall k l, (exists r, version k l r) \/ forall r, ~ version k l r.
Proof.
  intros k. induction l as [|t l IH]; [right; intros r (_ & t & [] & _)|].
  destruct IH as [(r & Hk & u & H1 & H2)|IH]; [left; exists r; split; [exact Hk|exists u; split; [now right|exact H2]]|].
  destruct (fd_get k (b_docs t)) as [r|] eqn:E.
  - apply fd_get_in in E as [E1 E2]. left. exists r. split; [exact E2|]. exists t. split; [now left|exact E1].
  - right. rewrite fd_get_none in E. intros r (Hk & u & [<-|Hu] & Hr); [exact (E r Hr Hk)|]. apply (IH r). split; [exact Hk|]. now exists u.
Qed.

Lemma flagged_unflag : forall n m fl, flagged (unflag n fl) m = flagged fl m && negb (m =? n).
Proof.
  intros n m fl. unfold flagged, unflag. induction fl as [|x fl IH]; [reflexivity|]. cbn [filter existsb].
  destruct (N.eqb_spec x n) as [->|E]; cbn [negb existsb]; rewrite IH; [|].
  - destruct (N.eqb_spec m n) as [->|F]; cbn [negb orb andb]; [now rewrite andb_false_r|reflexivity].
  - destruct (N.eqb_spec m x) as [->|F]; cbn [orb]; [|reflexivity]. apply N.eqb_neq in E. now rewrite E.
Qed.

(** [before]: the predecessor in the list. *)
Lemma before_spec : forall n l prev, NoDup (map b_num l) -> forall t, In t l -> b_num t = n ->
  (exists pre p post, l = pre ++ p :: t :: post /\ before n prev l = Some p) \/ (exists post, l = t :: post /\ before n prev l = prev).
Proof.
  intros n. induction l as [|a l IH]; intros prev Hn t Ht E; [destruct Ht|]. cbn [before]. cbn [map] in Hn. apply NoDup_cons_iff in Hn as [Hn1 Hn2].
  destruct Ht as [<-|Ht].
  - rewrite E, N.eqb_refl. right. now exists l.
  - assert (Ea : b_num a <> n). { intros Q. apply Hn1. rewrite Q, <- E. now apply in_map. }
    apply N.eqb_neq in Ea. rewrite Ea. destruct (IH (Some a) Hn2 t Ht E) as [(pre & p & post & -> & B)|(post & -> & B)].
    + left. exists (a :: pre), p, post. now split.
    + left. exists [], a, post. now split.
Qed.

Section Hash.
Variable hash : key -> N * N.
Variable c : tcfg.
Local Notation tf_get := (tf_get hash c).

(** ** Bloom filters *)

Definition miss (b : option bloom) (k : key) : bool :=
  match b with Some f => tc_bfget c && match bl_check (hash k) f with Some x => negb x | None => false end | None => false end.
Lemma tf_get_miss : forall k t, tf_get k t = if miss (b_bf t) k then Fail KEY_NOT_FOUND
  else match fd_get k (b_docs t) with Some r => Ok r | None => Fail KEY_NOT_FOUND end.
Proof. reflexivity. Qed.
Lemma bl_check_total : forall hp f, wf_bl f -> exists x, bl_check hp f = Some x.
Proof.
  intros hp f [Hw Hp]. unfold bl_check. generalize (N.to_nat (bl_count f)) as n. generalize 0 as ii. intros ii n. revert ii.
  induction n as [|n IH]; intros ii; cbn [bl_check_loop]; [now exists true|]. unfold bl_index.
  assert (Hz : bm_bits (bl_map f) =? 0 = false) by (apply N.eqb_neq; lia). rewrite Hz.
  destruct (bm_get_some (bl_map f) (gen_hash ii hp mod bm_bits (bl_map f)) Hw) as [v ->]; [apply N.mod_lt; lia|].
  destruct v; [apply IH|now exists false].
Qed.
Definition bf_wf (b : option bloom) : Prop := forall f, b = Some f -> wf_bl f.
Lemma bf_add_wf : forall k b, bf_wf b -> bf_wf (bf_add hash k b).
Proof.
  intros k b H f. unfold bf_add. destruct b as [g|]; [|discriminate].
  destruct (bl_set_spec (hash k) g (H g eq_refl)) as (g' & E & W & _). rewrite E. intros Q. injection Q as <-. exact W.
Qed.
Lemma bf_add_miss : forall k k' b, bf_wf b -> miss b k = false -> miss (bf_add hash k' b) k = false.
Proof.
  intros k k' b H M. unfold bf_add. destruct b as [g|]; [|exact M]. destruct (bl_set_spec (hash k') g (H g eq_refl)) as (g' & E & W & _ & Mo). rewrite E.
  cbn [miss] in *. destruct (tc_bfget c); [|reflexivity]. cbn [andb] in *. destruct (bl_check_total (hash k) g (H g eq_refl)) as [x X]. rewrite X in M.
  destruct x; [|discriminate]. now rewrite (Mo _ X).
Qed.
Lemma bf_add_hit : forall k b, bf_wf b -> miss (bf_add hash k b) k = false.
Proof.
  intros k b H. unfold bf_add. destruct b as [g|]; [|reflexivity]. destruct (bl_set_spec (hash k) g (H g eq_refl)) as (g' & E & W & C & _). rewrite E.
  cbn [miss]. rewrite C. cbn. apply andb_false_r.
Qed.

Lemma table_get : forall t k, table_ok hash c t -> tf_get k t = match fd_get k (b_docs t) with Some r => Ok r | None => Fail KEY_NOT_FOUND end.
Proof.
  intros t k [_ H]. rewrite tf_get_miss. destruct (fd_get k (b_docs t)) as [r|] eqn:E; [|now destruct (miss _ _)].
  apply fd_get_in in E as [E1 E2]. destruct (H r E1) as (_ & _ & G). rewrite tf_get_miss, E2 in G. destruct (miss (b_bf t) k); [discriminate|reflexivity].
Qed.

(** ** Lookups *)

(** What is known of a level: it overlaps only between neighbours, and the second of two
    overlapping tables is flagged. *)
Definition marked (fl : list N) (l : list tbl) : Prop :=
  forall x y r, In x l -> In y l -> klt (b_min x) (b_min y) -> In r (b_docs x) -> kle (b_min y) (r_key r) -> flagged fl (b_num y) = true.

Lemma search_one' : forall k t, table_ok hash c t -> search hash c k None [t] None = inl (fd_get k (b_docs t)).
Proof. intros k t H. cbn [search]. rewrite table_get by exact H. now destruct (fd_get k (b_docs t)). Qed.

Lemma docs_num : forall t k r, table_ok hash c t -> (fd_get k (b_docs t) = Some r <-> In r (b_docs t) /\ r_key r = k).
Proof. intros t k r [H _]. now apply fd_get_some. Qed.

Lemma lookup_newest : forall fl l k, overlaps_next hash c l -> marked fl l -> newer_first l -> k <> [] ->
  exists o, newest k l o /\ lookup hash c fl k l = inl o.
Proof.
  intros fl l k (Hs & Hn & Ht & Hf) Hm Hd Hk. unfold lookup, read_tabs, points.
  destruct (floor k l) as [t|] eqn:F.
  - apply (floor_spec k l t Hs) in F as (F1 & F2 & F3).
    assert (V : forall r u, In u l -> In r (b_docs u) -> r_key r = k -> u = t \/ (klt (b_min u) (b_min t) /\ flagged fl (b_num t) = true)).
    { intros r u Hu Hr E. destruct (ktrichotomy (b_min u) (b_min t)) as [Q|[Q|Q]].
      - right. split; [exact Q|]. apply (Hm u t r); auto. now rewrite E.
      - left. apply in_split in F1 as (l1 & l2 & ->). apply in_app_iff in Hu as [Hu|[<-|Hu]]; [|reflexivity|].
        + apply ss_app in Hs as (_ & _ & Hs). specialize (Hs u t Hu (or_introl eq_refl)). cbn in Hs. rewrite Q in Hs. destruct (klt_irrefl _ Hs).
        + apply ss_app in Hs as (_ & Hs & _). pose proof (ss_in _ _ _ _ Hs u Hu) as G. cbn in G. rewrite Q in G. destruct (klt_irrefl _ G).
      - specialize (F3 u Hu Q). destruct (Ht u Hu) as [_ G]. destruct (G r Hr) as [G1 _]. rewrite E in G1. apply kle_not_lt in G1. contradiction. }
    destruct (flagged fl (b_num t)) eqn:Fl.
    + destruct (before_spec (b_num t) l None Hn t F1 eq_refl) as [(pre & p & post & El & B)|(post & El & B)]; rewrite B.
      * assert (Hp : In p l) by (rewrite El; apply in_app_iff; right; now left).
        assert (Hpt : klt (b_min p) (b_min t)). { rewrite El in Hs. apply ss_app in Hs as (_ & Hs & _). apply (ss_in _ _ _ _ Hs). now left. }
        assert (V' : forall r u, In u l -> In r (b_docs u) -> r_key r = k -> u = t \/ u = p).
        { intros r u Hu Hr E. destruct (V r u Hu Hr E) as [-> |[Q _]]; [now left|right].
          rewrite El in Hu. apply in_app_iff in Hu as [Hu|[<-|[<-|Hu]]]; [|reflexivity|destruct (klt_irrefl _ Q)|].
          - rewrite El in Hs. apply ss_app in Hs as (_ & _ & Hs). specialize (Hs u p Hu (or_introl eq_refl)). cbn in Hs.
            assert (Q2 : klt (r_key r) (b_min t)). { apply (Hf u p t r); auto. rewrite El. apply in_app_iff. now left. }
            rewrite E in Q2. apply kle_not_lt in F2. contradiction.
          - rewrite El in Hs. apply ss_app in Hs as (_ & Hs & _). apply ss_tail in Hs. pose proof (ss_in _ _ _ _ Hs u Hu) as G. cbn in G.
            destruct (klt_asym _ _ G Q). }
        cbn [search]. rewrite (table_get t k (Ht t F1)). destruct (fd_get k (b_docs t)) as [r|] eqn:E1.
        -- apply docs_num in E1 as [E1 E1k]; [|auto]. change (rec_empty None) with true; cbn [orb]. rewrite (table_get p k (Ht p Hp)). destruct (fd_get k (b_docs p)) as [r2|] eqn:E2.
           ++ apply docs_num in E2 as [E2 E2k]; [|auto]. pose proof (Hd p t r2 r Hp F1 Hpt E2 E1 (eq_trans E2k (eq_sym E1k))) as L.
              assert (Q : r_seq r <? r_seq r2 = true) by (apply N.ltb_lt; exact L). rewrite Q, orb_true_r. rewrite (key_not_empty k r2 Hk E2k).
              exists (Some r2). split; [|reflexivity]. split; [split; [exact E2k|now exists p]|]. intros r' (R1 & u & R2 & R3).
              destruct (V' r' u R2 R3 R1) as [-> | ->].
              ** assert (r' = r). { apply (docs_key_inj (b_docs t)); auto; [apply (proj1 (Ht t F1))|congruence]. } subst r'. lia.
              ** assert (r' = r2). { apply (docs_key_inj (b_docs p)); auto; [apply (proj1 (Ht p Hp))|congruence]. } subst r'. lia.
           ++ rewrite (key_not_empty k r Hk E1k). exists (Some r). split; [|reflexivity]. split; [split; [exact E1k|now exists t]|]. intros r' (R1 & u & R2 & R3).
              destruct (V' r' u R2 R3 R1) as [-> | ->].
              ** assert (r' = r). { apply (docs_key_inj (b_docs t)); auto; [apply (proj1 (Ht t F1))|congruence]. } subst r'. lia.
              ** rewrite fd_get_none in E2. destruct (E2 r' R3 R1).
        -- rewrite (table_get p k (Ht p Hp)). destruct (fd_get k (b_docs p)) as [r2|] eqn:E2.
           ++ apply docs_num in E2 as [E2 E2k]; [|auto]. change (rec_empty None) with true; cbn [orb]. rewrite (key_not_empty k r2 Hk E2k).
              exists (Some r2). split; [|reflexivity]. split; [split; [exact E2k|now exists p]|]. intros r' (R1 & u & R2 & R3).
              destruct (V' r' u R2 R3 R1) as [-> | ->]; [rewrite fd_get_none in E1; destruct (E1 r' R3 R1)|].
              assert (r' = r2). { apply (docs_key_inj (b_docs p)); auto; [apply (proj1 (Ht p Hp))|congruence]. } subst r'. lia.
           ++ exists None. split; [|reflexivity]. intros r' (R1 & u & R2 & R3).
              destruct (V' r' u R2 R3 R1) as [-> | ->]; [rewrite fd_get_none in E1; destruct (E1 r' R3 R1)|rewrite fd_get_none in E2; destruct (E2 r' R3 R1)].
      * rewrite (search_one' k t (Ht t F1)).
        assert (V' : forall r u, In u l -> In r (b_docs u) -> r_key r = k -> u = t).
        { intros r u Hu Hr E. destruct (V r u Hu Hr E) as [-> |[Q _]]; [reflexivity|].
          rewrite El in Hu, Hs. destruct Hu as [<-|Hu]; [reflexivity|]. pose proof (ss_in _ _ _ _ Hs u Hu) as G. cbn in G. destruct (klt_asym _ _ G Q). }
        destruct (fd_get k (b_docs t)) as [r|] eqn:E1.
        -- apply docs_num in E1 as [E1 E1k]; [|auto]. rewrite (key_not_empty k r Hk E1k). exists (Some r). split; [|reflexivity].
           split; [split; [exact E1k|now exists t]|]. intros r' (R1 & u & R2 & R3). rewrite (V' r' u R2 R3 R1) in R3.
           assert (r' = r). { apply (docs_key_inj (b_docs t)); auto; [apply (proj1 (Ht t F1))|congruence]. } subst r'. lia.
        -- exists None. split; [|reflexivity]. intros r' (R1 & u & R2 & R3). rewrite (V' r' u R2 R3 R1) in R3. rewrite fd_get_none in E1. destruct (E1 r' R3 R1).
    + rewrite (search_one' k t (Ht t F1)).
      assert (V' : forall r u, In u l -> In r (b_docs u) -> r_key r = k -> u = t).
      { intros r u Hu Hr E. destruct (V r u Hu Hr E) as [-> |[_ Q]]; [reflexivity|discriminate]. }
      destruct (fd_get k (b_docs t)) as [r|] eqn:E1.
      * apply docs_num in E1 as [E1 E1k]; [|auto]. rewrite (key_not_empty k r Hk E1k). exists (Some r). split; [|reflexivity].
        split; [split; [exact E1k|now exists t]|]. intros r' (R1 & u & R2 & R3). rewrite (V' r' u R2 R3 R1) in R3.
        assert (r' = r). { apply (docs_key_inj (b_docs t)); auto; [apply (proj1 (Ht t F1))|congruence]. } subst r'. lia.
      * exists None. split; [|reflexivity]. intros r' (R1 & u & R2 & R3). rewrite (V' r' u R2 R3 R1) in R3. rewrite fd_get_none in E1. destruct (E1 r' R3 R1).
  - cbn [search]. exists None. split; [|reflexivity]. intros r (R1 & u & R2 & R3). destruct (Ht u R2) as [_ G]. destruct (G r R3) as [G1 _]. rewrite R1 in G1.
    clear - F R2 G1 Hs. induction l as [|a l IH]; [destruct R2|]. cbn [floor] in F. destruct (kleb_spec (b_min a) k) as [Q|Q].
    + destruct (floor k l); discriminate.
    + destruct R2 as [<-|R2]; [contradiction|]. apply Q. apply klt_kle. eapply klt_kle_trans; [exact (ss_in _ _ _ _ Hs u R2)|exact G1].
Qed.

End Hash.
