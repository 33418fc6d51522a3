(** Every step keeps the invariant on files and tables. *)
From Coq Require Import Sorting.Sorted.
From Verif Require Import Base KeyModel LogFormatModel MemTableModel LogMgrModel DbModel MemTableProofs DbProofs GetRaceModel GetRaceSpec
  GetRaceProofs.
Local Open Scope N_scope.

Lemma fs_ext : forall w F s s', FS w F s -> s_files s' = s_files s -> s_lf s' = s_lf s -> s_tab s' = s_tab s -> s_fl s' = s_fl s -> FS w F s'.
Proof.
  intros w F s s' H E1 E2 E3 E4. destruct H. constructor; rewrite ?E1, ?E2, ?E3, ?E4; assumption.
Qed.

Lemma fs_new : FS [] 0 g_new.
Proof.
  constructor; cbn [g_new s_files s_lf s_tab s_fl flat_map gf_recs app].
  - reflexivity.
  - constructor.
  - intros x [].
  - constructor; [constructor|constructor].
  - reflexivity.
  - left. reflexivity.
  - intros f [<-|[]] Hm. exfalso. apply Hm. reflexivity.
  - intros f g x y [<-|[]] _ [].
  - discriminate.
  - intros f [<-|[]] E. discriminate.
  - discriminate.
  - intros f x [<-|[]] [].
Qed.

(** ** Writing *)
Section Write.
Variables (w : list rec) (F : N) (s : gst) (r : rec).
Hypothesis H : FS w F s.
Hypothesis Hv : 0 < r_seq r < NIL.
Hypothesis Hr : forall x, In x w -> r_seq x < r_seq r.

Lemma fs_write : FS (w ++ [r]) F (with_files s (add_last r (s_files s))).
Proof.
  destruct (last_split _ _ (fs_ne _ _ _ H)) as (a & f & E).
  set (f' := mkGF (gf_num f) (gf_recs f ++ [r]) (gf_mark f) (gf_gone f)).
  assert (EF : F < r_seq r) by (apply (F_lt w F s H); [exact Hr|lia]).
  assert (Hf : In f (s_files s)) by (rewrite E; apply in_or_app; right; left; reflexivity).
  (* the counterpart of a file *)
  assert (Hin : forall g, In g (a ++ [f']) -> exists g0, In g0 (s_files s) /\ gf_num g = gf_num g0 /\ gf_mark g = gf_mark g0 /\
            gf_gone g = gf_gone g0 /\ (forall x, In x (gf_recs g) -> In x (gf_recs g0) \/ x = r /\ g0 = f)).
  { intros g Hg. apply in_app_or in Hg. destruct Hg as [Hg|[<-|[]]].
    - exists g. split; [rewrite E; apply in_or_app; left; exact Hg|]. split; [reflexivity|]. split; [reflexivity|].
      split; [reflexivity|]. intros x Hx. left. exact Hx.
    - exists f. split; [exact Hf|]. split; [reflexivity|]. split; [reflexivity|]. split; [reflexivity|].
      intros x Hx. cbn [f' gf_recs] in Hx. apply in_app_or in Hx. destruct Hx as [Hx|[<-|[]]]; [left; exact Hx|right; split; reflexivity]. }
  assert (Hout : forall g, In g (s_files s) -> exists g', In g' (a ++ [f']) /\ gf_num g' = gf_num g /\ forall x, In x (gf_recs g) -> In x (gf_recs g')).
  { intros g Hg. rewrite E in Hg. apply in_app_or in Hg. destruct Hg as [Hg|[<-|[]]].
    - exists g. split; [apply in_or_app; left; exact Hg|]. split; [reflexivity|]. intros x Hx. exact Hx.
    - exists f'. split; [apply in_or_app; right; left; reflexivity|]. split; [reflexivity|]. intros x Hx. cbn [f' gf_recs]. apply in_or_app. left. exact Hx. }
  (* a file above another one that exists *)
  assert (Hmax : forall g, In g (s_files s) -> gf_num g <= gf_num f).
  { intros g Hg. rewrite E in Hg. apply in_app_or in Hg. destruct Hg as [Hg|[<-|[]]]; [|lia].
    assert (Hs := fs_num _ _ _ H). rewrite E in Hs. apply ss_app in Hs. destruct Hs as (_ & _ & S3).
    specialize (S3 g f Hg (or_introl eq_refl)). cbn beta in S3. lia. }
  (* [r] is not flushed *)
  assert (Hnf : forall g, In g (s_files s) -> ~ (gf_mark g <> NIL /\ r_seq r <= gf_mark g)).
  { intros g Hg [Ha Hb]. assert (L := fs_mF _ _ _ H g Hg Ha). lia. }
  rewrite E, add_last_app. fold f'. unfold with_files.
  constructor; cbn [s_files s_lf s_tab s_fl].
  - rewrite flat_map_app. cbn [flat_map f' gf_recs]. rewrite <- (fs_w _ _ _ H), E, flat_map_app. cbn [flat_map].
    rewrite !app_nil_r, app_assoc. reflexivity.
  - apply ss_app. split; [exact (fs_so _ _ _ H)|]. split; [repeat constructor|]. intros x y Hx [<-|[]]. exact (Hr x Hx).
  - intros x Hx. apply in_app_or in Hx. destruct Hx as [Hx|[<-|[]]]; [exact (fs_val _ _ _ H x Hx)|exact Hv].
  - assert (Hs := fs_num _ _ _ H). rewrite E in Hs. apply ss_app in Hs. apply ss_app. destruct Hs as (S1 & _ & S3).
    split; [exact S1|]. split; [repeat constructor|]. intros x y Hx [<-|[]]. exact (S3 x f Hx (or_introl eq_refl)).
  - rewrite (fs_tab _ _ _ H), upto_app, (upto_none F [r]), app_nil_r; [reflexivity|]. intros x [<-|[]]. exact EF.
  - destruct (fs_F _ _ _ H) as [->|(x & Hx & Ex)]; [left; reflexivity|right]. exists x. split; [apply in_or_app; left; exact Hx|exact Ex].
  - intros g Hg Hm. destruct (Hin g Hg) as (g0 & G0 & _ & Em & _). rewrite Em in *. exact (fs_mF _ _ _ H g0 G0 Hm).
  - intros g1 g2 x y Hg1 Hg2 Hx Hy L Hfl.
    destruct (Hin g1 Hg1) as (q1 & Q1 & _ & Em1 & _ & R1). destruct (Hin g2 Hg2) as (q2 & Q2 & _ & Em2 & _ & R2).
    unfold flagged in *. rewrite Em1 in Hfl. rewrite Em2.
    destruct (R1 x Hx) as [Hx'|[-> _]]; [|exfalso; exact (Hnf q1 Q1 Hfl)].
    destruct (R2 y Hy) as [Hy'|[-> _]]; [exact (fs_down _ _ _ H q1 q2 x y Q1 Q2 Hx' Hy' L Hfl)|].
    exfalso. specialize (Hr x (in_w _ _ _ H q1 x Q1 Hx')). lia.
  - intros l El. destruct (fs_lf _ _ _ H l El) as ((g & x & Hg & Hx & En & Ex) & Hlow). split.
    + destruct (Hout g Hg) as (g' & Hg' & En' & Hsub). exists g', x. split; [exact Hg'|]. split; [apply Hsub; exact Hx|]. split; [congruence|exact Ex].
    + intros g1 y Hg1 Hy L. destruct (Hin g1 Hg1) as (q & Q & En1 & Em & _ & R1). unfold flagged. rewrite Em.
      destruct (R1 y Hy) as [Hy'|[-> ->]]; [apply (Hlow q y Q Hy'); lia|]. exfalso. specialize (Hmax g Hg). lia.
  - intros g Hg Eg. destruct (Hin g Hg) as (q & Q & En & _ & Eg' & _). rewrite Eg' in Eg. rewrite En. exact (fs_gone _ _ _ H q Q Eg).
  - intro Hn. destruct a; discriminate.
  - assert (P := fs_ph _ _ _ H).
    assert (Hwit : forall to q, (exists f0 x, In f0 (s_files s) /\ In x (gf_recs f0) /\ gf_num f0 = to /\ r_seq x = q) ->
              exists f0 x, In f0 (a ++ [f']) /\ In x (gf_recs f0) /\ gf_num f0 = to /\ r_seq x = q).
    { intros to q (f0 & x & H1 & H2 & H3 & H4). destruct (Hout f0 H1) as (g' & Hg' & En' & Hsub). exists g', x.
      split; [exact Hg'|]. split; [apply Hsub; exact H2|]. split; [congruence|exact H4]. }
    assert (Hq : forall q, (exists f0 x, In f0 (s_files s) /\ In x (gf_recs f0) /\ r_seq x = q) -> q < r_seq r).
    { intros q (f0 & x & H1 & H2 & <-). apply Hr. exact (in_w _ _ _ H f0 x H1 H2). }
    destruct (s_fl s) as [|from to q|from to q n|to q n]; cbn [phase_ok] in *.
    + intros g x Hg Hx L. destruct (Hin g Hg) as (q & Q & _ & Em & _ & R). unfold flagged. rewrite Em.
      destruct (R x Hx) as [Hx'|[-> ->]]; [exact (P q x Q Hx' L)|lia].
    + destruct P as (P1 & P2 & P3 & P5 & P4). split; [|split; [|split; [exact P3|split; [exact P5|apply Hwit; exact P4]]]].
      * intros g x Hg Hx L. destruct (Hin g Hg) as (q' & Q & _ & Em & _ & R). unfold flagged. rewrite Em.
        destruct (R x Hx) as [Hx'|[-> ->]]; [exact (P1 q' x Q Hx' L)|lia].
      * intros g x Hg Hx L. destruct (Hin g Hg) as (q' & Q & En & Em & _ & R). unfold flagged. rewrite Em. rewrite En in L.
        destruct (R x Hx) as [Hx'|[-> ->]]; [exact (P2 q' x Q Hx' L)|].
        exfalso. destruct P4 as (f0 & x0 & H1 & H2 & H3 & H4). assert (L0 := Hmax f0 H1). lia.
    + destruct P as (P1 & P2 & P4). split; [exact P1|]. split; [|apply Hwit; exact P4].
      intros g x Hg Hx Ln L. destruct (Hin g Hg) as (q' & Q & En & Em & _ & R). unfold flagged. rewrite Em. rewrite En in Ln.
      destruct (R x Hx) as [Hx'|[-> ->]]; [exact (P2 q' x Q Hx' Ln L)|].
      exfalso. assert (L1 : q < r_seq r) by (apply Hq; destruct P4 as (f0 & x0 & H1 & H2 & _ & H4); exists f0, x0; auto). lia.
    + destruct P as (P1 & P2 & P4). split; [exact P1|]. split; [|apply Hwit; exact P4].
      intros g x Hg Hx L. destruct (Hin g Hg) as (q' & Q & En & Em & _ & R). unfold flagged. rewrite Em.
      destruct (R x Hx) as [Hx'|[-> ->]]; [exact (P2 q' x Q Hx' L)|].
      exfalso. assert (L1 : q < r_seq r) by (apply Hq; destruct P4 as (f0 & x0 & H1 & H2 & _ & H4); exists f0, x0; auto). lia.
Qed.
End Write.

Lemma fs_roll : forall w F s, FS w F s -> FS w F (with_files s (s_files s ++ [mkGF (newest_num (s_files s) + 1) [] NIL false])).
Proof.
  intros w F s H. destruct (last_split _ _ (fs_ne _ _ _ H)) as (a & f & E).
  assert (En : newest_num (s_files s) = gf_num f) by (rewrite E; apply newest_num_app). rewrite En.
  set (e := mkGF (gf_num f + 1) [] NIL false).
  assert (Hin : forall g x, In g (s_files s ++ [e]) -> In x (gf_recs g) -> In g (s_files s)).
  { intros g x Hg Hx. apply in_app_or in Hg. destruct Hg as [Hg|[<-|[]]]; [exact Hg|destruct Hx]. }
  assert (Hinl : forall g, In g (s_files s) -> In g (s_files s ++ [e])) by (intros g Hg; apply in_or_app; left; exact Hg).
  constructor; cbn [with_files s_files s_lf s_tab s_fl].
  - rewrite flat_map_app. cbn [flat_map e gf_recs]. rewrite !app_nil_r. exact (fs_w _ _ _ H).
  - exact (fs_so _ _ _ H).
  - exact (fs_val _ _ _ H).
  - apply ss_app. split; [exact (fs_num _ _ _ H)|]. split; [repeat constructor|]. intros x y Hx [<-|[]]. cbn [e gf_num].
    assert (Hs := fs_num _ _ _ H). rewrite E in Hs, Hx. apply ss_app in Hs. destruct Hs as (_ & _ & S3).
    apply in_app_or in Hx. destruct Hx as [Hx|[<-|[]]]; [specialize (S3 x f Hx (or_introl eq_refl)); cbn beta in S3; lia|lia].
  - exact (fs_tab _ _ _ H).
  - exact (fs_F _ _ _ H).
  - intros g Hg Hm. apply in_app_or in Hg. destruct Hg as [Hg|[<-|[]]]; [exact (fs_mF _ _ _ H g Hg Hm)|exfalso; apply Hm; reflexivity].
  - intros g1 g2 x y Hg1 Hg2 Hx Hy. apply (fs_down _ _ _ H); [exact (Hin g1 x Hg1 Hx)|exact (Hin g2 y Hg2 Hy)|exact Hx|exact Hy].
  - intros l El. destruct (fs_lf _ _ _ H l El) as ((g & x & Hg & Hx & E1 & E2) & Hlow). split.
    + exists g, x. split; [apply Hinl; exact Hg|]. split; [exact Hx|]. split; assumption.
    + intros g1 y Hg1 Hy L. exact (Hlow g1 y (Hin g1 y Hg1 Hy) Hy L).
  - intros g Hg Eg. apply in_app_or in Hg. destruct Hg as [Hg|[<-|[]]]; [exact (fs_gone _ _ _ H g Hg Eg)|discriminate].
  - intro Hn. destruct (s_files s); discriminate.
  - assert (P := fs_ph _ _ _ H).
    assert (Hwit : forall to q, (exists f0 x, In f0 (s_files s) /\ In x (gf_recs f0) /\ gf_num f0 = to /\ r_seq x = q) ->
              exists f0 x, In f0 (s_files s ++ [e]) /\ In x (gf_recs f0) /\ gf_num f0 = to /\ r_seq x = q).
    { intros to q (f0 & x & H1 & H2). exists f0, x. split; [apply Hinl; exact H1|]. split; [exact (proj1 H2)|exact (proj2 H2)]. }
    destruct (s_fl s) as [|from to q|from to q n|to q n]; cbn [phase_ok] in *.
    + intros g x Hg Hx. exact (P g x (Hin g x Hg Hx) Hx).
    + destruct P as (P1 & P2 & P3 & P5 & P4). split; [|split; [|split; [exact P3|split; [exact P5|apply Hwit; exact P4]]]].
      * intros g x Hg Hx. exact (P1 g x (Hin g x Hg Hx) Hx).
      * intros g x Hg Hx. exact (P2 g x (Hin g x Hg Hx) Hx).
    + destruct P as (P1 & P2 & P4). split; [exact P1|]. split; [|apply Hwit; exact P4].
      intros g x Hg Hx. exact (P2 g x (Hin g x Hg Hx) Hx).
    + destruct P as (P1 & P2 & P4). split; [exact P1|]. split; [|apply Hwit; exact P4].
      intros g x Hg Hx. exact (P2 g x (Hin g x Hg Hx) Hx).
Qed.

(** ** Flushing *)
Lemma fs_begin : forall w F s f r, FS w F s -> s_fl s = FIdle -> In f (s_files s) -> In r (gf_recs f) ->
  (forall x, In x (s_tab s) -> r_seq x <= r_seq r) -> FS w F (with_fl s (FTab (low s) (gf_num f) (r_seq r))).
Proof.
  intros w F s f r H Ei Hf Hr Ht. assert (P := fs_ph _ _ _ H). rewrite Ei in P. cbn [phase_ok] in P.
  assert (HF : F <= r_seq r).
  { destruct (fs_F _ _ _ H) as [->|(x & Hx & <-)]; [lia|]. apply Ht. rewrite (fs_tab _ _ _ H). apply filter_In. split; [exact Hx|lia]. }
  assert (Hlow : low s <= gf_num f).
  { destruct (s_lf s) as [l|] eqn:El.
    - unfold low. rewrite El. destruct (fs_lf _ _ _ H l El) as ((g & x & Hg & Hx & <- & Ex) & _).
      apply (order_le _ _ _ H g f x r Hg Hf Hx Hr). lia.
    - destruct (N.le_gt_cases (low s) (gf_num f)) as [L|L]; [exact L|exfalso].
      unfold low in L. rewrite El in L.
      assert (Hg : gf_gone f = false).
      { destruct (gf_gone f) eqn:E; [|reflexivity]. destruct (fs_gone _ _ _ H f Hf E) as (l & E' & _). congruence. }
      assert (Hin : In f (filter live (s_files s))) by (apply filter_In; split; [exact Hf|unfold live; rewrite Hg; reflexivity]).
      assert (Hs := fs_num _ _ _ H). clear -Hin Hs L Hg Hf.
      induction (s_files s) as [|a t IH]; [destruct Hin|]. inversion_clear Hs as [|? ? S1 S2]. cbn [filter] in *.
      rewrite Forall_forall in S2. destruct (live a) eqn:Ea.
      + destruct Hf as [->|Hf]; [lia|]. specialize (S2 f Hf). cbn beta in S2. lia.
      + destruct Hf as [->|Hf]; [unfold live in Ea; rewrite Hg in Ea; discriminate|]. exact (IH Hf L Hin S1). }
  destruct H. constructor; cbn [with_fl s_files s_lf s_tab s_fl]; try assumption. cbn [phase_ok].
  split; [exact P|]. split; [|split; [exact HF|split; [exact Hlow|exists f, r; auto]]].
  intros g x Hg Hx. apply (below_low w F s); [constructor; assumption|exact Hg|exact Hx].
Qed.

Lemma upto_split : forall F q w, StronglySorted blt w -> F <= q ->
  upto q w = upto F w ++ filter (fun r => (F <? r_seq r) && (r_seq r <=? q)) w.
Proof.
  intros F q w Hs L. unfold upto. induction Hs as [|x w Hs IH Hx]; [reflexivity|]. cbn [filter].
  destruct (r_seq x <=? F) eqn:E1.
  - assert (E2 : r_seq x <=? q = true) by lia. assert (E3 : F <? r_seq x = false) by lia. rewrite E2, E3. cbn [andb app]. rewrite IH. reflexivity.
  - assert (E3 : F <? r_seq x = true) by lia. rewrite E3. cbn [andb].
    assert (En : filter (fun r => r_seq r <=? F) w = []).
    { apply (upto_none F w). rewrite Forall_forall in Hx. intros y Hy. specialize (Hx y Hy). unfold blt in Hx. lia. }
    rewrite En in IH |- *. cbn [app] in *. rewrite IH. reflexivity.
Qed.

Lemma gather_all : forall F q from to fs,
  (forall f x, In f fs -> In x (gf_recs f) -> r_seq x <= F -> flagged f x) ->
  (forall f x, In f fs -> In x (gf_recs f) -> flagged f x -> r_seq x <= F) ->
  (forall f x, In f fs -> In x (gf_recs f) -> (live f && between_nums from to f) = false -> r_seq x <= q -> r_seq x <= F) ->
  gather_from from to q fs = filter (fun r => (F <? r_seq r) && (r_seq r <=? q)) (flat_map gf_recs fs).
Proof.
  intros F q from to fs H1 H2 H3. unfold gather_from. induction fs as [|f fs IH]; [reflexivity|].
  cbn [flat_map]. rewrite filter_app, <- IH; [|intros; eapply H1; eauto; right; assumption|intros; eapply H2; eauto; right; assumption|intros; eapply H3; eauto; right; assumption].
  cbn [filter]. destruct (live f && between_nums from to f) eqn:E.
  - cbn [flat_map]. f_equal. unfold to_flush. apply filter_ext_in. intros x Hx.
    specialize (H1 f x (or_introl eq_refl) Hx). specialize (H2 f x (or_introl eq_refl) Hx). unfold flagged, unflushed, valid_number in *.
    destruct (gf_mark f =? NIL) eqn:Em; cbn [negb orb].
    + apply N.eqb_eq in Em. destruct (F <? r_seq x) eqn:EF; [reflexivity|]. exfalso. destruct H1 as [H1 _]; [lia|]. contradiction.
    + apply N.eqb_neq in Em. destruct (F <? r_seq x) eqn:EF.
      * destruct (gf_mark f <? r_seq x) eqn:E5; [reflexivity|]. exfalso. assert (r_seq x <= F) by (apply H2; split; [exact Em|lia]). lia.
      * destruct H1 as [_ H1]; [lia|]. assert (E5 : gf_mark f <? r_seq x = false) by lia. rewrite E5. reflexivity.
  - replace (filter _ (gf_recs f)) with (@nil rec); [reflexivity|]. symmetry.
    assert (H4 : forall x, In x (gf_recs f) -> (F <? r_seq x) && (r_seq x <=? q) = false).
    { intros x Hx. specialize (H3 f x (or_introl eq_refl) Hx E). destruct (r_seq x <=? q) eqn:E6; [|apply andb_false_r].
      assert (r_seq x <= F) by (apply H3; lia). assert (E7 : F <? r_seq x = false) by lia. rewrite E7. reflexivity. }
    clear -H4. induction (gf_recs f) as [|x l IH]; [reflexivity|]. cbn [filter]. rewrite (H4 x (or_introl eq_refl)). apply IH.
    intros y Hy. apply H4. right. exact Hy.
Qed.

Lemma fs_tables : forall w F s from to q, FS w F s -> s_fl s = FTab from to q ->
  FS w q (mkG (s_files s) (s_lf s) (s_bar s) (s_tab s ++ gather_from from to q (s_files s)) (FMark from to q from) (s_get s)).
Proof.
  intros w F s from to q H Ep. assert (P := fs_ph _ _ _ H). rewrite Ep in P. cbn [phase_ok] in P. destruct P as (P1 & P2 & P3 & P5 & P4).
  assert (Eg : gather_from from to q (s_files s) = filter (fun r => (F <? r_seq r) && (r_seq r <=? q)) w).
  { rewrite <- (fs_w _ _ _ H). apply gather_all; [exact P1|intros f x Hf Hx; exact (flagged_F _ _ _ H f x Hf)|].
    intros f x Hf Hx E L. destruct (live f) eqn:El.
    - destruct (N.lt_ge_cases (gf_num f) from) as [L1|L1]; [apply (flagged_F _ _ _ H f x Hf); exact (P2 f x Hf Hx L1)|].
      destruct P4 as (f0 & x0 & A1 & A2 & <- & <-). assert (L2 := order_le _ _ _ H f f0 x x0 Hf A1 Hx A2 L).
      unfold between_nums in E. assert (T1 : from <=? gf_num f = true) by lia. assert (T2 : gf_num f <=? gf_num f0 = true) by lia.
      rewrite T1, T2 in E. discriminate.
    - apply (flagged_F _ _ _ H f x Hf). apply (gone_flagged _ _ _ H f x Hf Hx). unfold live in El. destruct (gf_gone f); [reflexivity|discriminate]. }
  rewrite Eg. constructor; cbn [s_files s_lf s_tab s_fl].
  - exact (fs_w _ _ _ H).
  - exact (fs_so _ _ _ H).
  - exact (fs_val _ _ _ H).
  - exact (fs_num _ _ _ H).
  - rewrite (fs_tab _ _ _ H). symmetry. apply upto_split; [exact (fs_so _ _ _ H)|exact P3].
  - right. destruct P4 as (f0 & x0 & A1 & A2 & _ & A4). exists x0. split; [exact (in_w _ _ _ H f0 x0 A1 A2)|exact A4].
  - intros f Hf Hm. assert (L := fs_mF _ _ _ H f Hf Hm). lia.
  - exact (fs_down _ _ _ H).
  - intros l El. destruct (fs_lf _ _ _ H l El) as ((g & x & Hg & Hx & E1 & E2) & Hlow). split; [|exact Hlow].
    exists g, x. split; [exact Hg|]. split; [exact Hx|]. split; [exact E1|lia].
  - exact (fs_gone _ _ _ H).
  - exact (fs_ne _ _ _ H).
  - cbn [phase_ok]. split; [reflexivity|]. split; [|exact P4]. intros f x Hf Hx L _. exact (P2 f x Hf Hx L).
Qed.

(** Marks only grow. *)
Definition marks_grow (fs fs' : list gfile) : Prop := forall f x, In f fs -> In x (gf_recs f) -> flagged f x ->
  forall f', In f' fs' -> gf_num f' = gf_num f -> flagged f' x.

Lemma in_mark : forall n q f' fs, In f' (map (mark_one n q) fs) -> exists f, In f fs /\ f' = mark_one n q f /\ gf_num f' = gf_num f /\
  gf_recs f' = gf_recs f /\ gf_gone f' = gf_gone f.
Proof.
  intros n q f' fs H. apply in_map_iff in H. destruct H as (f & <- & Hf). exists f. split; [exact Hf|]. split; [reflexivity|].
  unfold mark_one. destruct (gf_num f =? n); split; try split; reflexivity.
Qed.

Lemma map_recs : forall (g : gfile -> gfile) fs, (forall f, gf_recs (g f) = gf_recs f) -> flat_map gf_recs (map g fs) = flat_map gf_recs fs.
Proof. intros g fs H. induction fs as [|f fs IH]; [reflexivity|]. cbn [map flat_map]. rewrite H, IH. reflexivity. Qed.

Lemma map_nums : forall (g : gfile -> gfile) fs, (forall f, gf_num (g f) = gf_num f) ->
  StronglySorted (fun f g => gf_num f < gf_num g) fs -> StronglySorted (fun f g => gf_num f < gf_num g) (map g fs).
Proof.
  intros g fs H Hs. induction Hs as [|f fs Hs IH Hf]; [constructor|]. cbn [map]. constructor; [exact IH|].
  rewrite Forall_forall in *. intros y Hy. apply in_map_iff in Hy. destruct Hy as (z & <- & Hz). rewrite !H. exact (Hf z Hz).
Qed.

Lemma mark_one_num : forall n q f, gf_num (mark_one n q f) = gf_num f.
Proof. intros n q f. unfold mark_one. destruct (gf_num f =? n); reflexivity. Qed.
Lemma mark_one_recs : forall n q f, gf_recs (mark_one n q f) = gf_recs f.
Proof. intros n q f. unfold mark_one. destruct (gf_num f =? n); reflexivity. Qed.
Lemma mark_one_gone : forall n q f, gf_gone (mark_one n q f) = gf_gone f.
Proof. intros n q f. unfold mark_one. destruct (gf_num f =? n); reflexivity. Qed.

(** What a mark step does to a record of a file. *)
Lemma mark_flag : forall n q f x, In x (gf_recs f) -> q <> NIL -> (gf_mark f <> NIL -> gf_mark f <= q) ->
  flagged (mark_one n q f) x <-> flagged f x \/ gf_num f = n /\ r_seq x <= q.
Proof.
  intros n q f x Hx Hq Hm. unfold mark_one, flagged. destruct (gf_num f =? n) eqn:E; cbn [gf_mark].
  - apply N.eqb_eq in E. destruct (gf_recs f) as [|y t] eqn:Er; [destruct Hx|]. split.
    + intros [_ L]. right. split; [exact E|exact L].
    + intros [[A B]|[_ L]]; split; try exact Hq; [specialize (Hm A); lia|exact L].
  - apply N.eqb_neq in E. tauto.
Qed.

Lemma fs_mark : forall w F s from to q n, FS w F s -> s_fl s = FMark from to q n ->
  FS w F (mkG (map (mark_one n q) (s_files s)) (s_lf s) (s_bar s) (s_tab s) (FMark from to q (n + 1)) (s_get s)).
Proof.
  intros w F s from to q n H Ep. assert (P := fs_ph _ _ _ H). rewrite Ep in P. cbn [phase_ok] in P. destruct P as (<- & P2 & P4).
  assert (HF : F <> NIL).
  { destruct P4 as (f0 & x0 & A1 & A2 & _ & <-). assert (V := fs_val _ _ _ H x0 (in_w _ _ _ H f0 x0 A1 A2)). lia. }
  assert (Hf : forall f x, In f (s_files s) -> In x (gf_recs f) -> flagged (mark_one n F f) x <-> flagged f x \/ gf_num f = n /\ r_seq x <= F)
    by (intros f x Hf Hx; apply mark_flag; [exact Hx|exact HF|exact (fs_mF _ _ _ H f Hf)]).
  constructor; cbn [s_files s_lf s_tab s_fl].
  - rewrite map_recs; [exact (fs_w _ _ _ H)|apply mark_one_recs].
  - exact (fs_so _ _ _ H).
  - exact (fs_val _ _ _ H).
  - apply map_nums; [apply mark_one_num|exact (fs_num _ _ _ H)].
  - exact (fs_tab _ _ _ H).
  - exact (fs_F _ _ _ H).
  - intros f' Hf' Hm. destruct (in_mark _ _ _ _ Hf') as (f & Hin & -> & _). unfold mark_one in *. destruct (gf_num f =? n); [|exact (fs_mF _ _ _ H f Hin Hm)].
    cbn [gf_mark] in *. destruct (gf_recs f); [exact (fs_mF _ _ _ H f Hin Hm)|lia].
  - intros f' g' x y Hf' Hg' Hx Hy L Hfl. destruct (in_mark _ _ _ _ Hf') as (f & Hin & -> & _ & Er & _). destruct (in_mark _ _ _ _ Hg') as (g & Hing & -> & _ & Erg & _).
    rewrite Er in Hx. rewrite Erg in Hy. apply Hf in Hfl; [|exact Hin|exact Hx]. apply Hf; [exact Hing|exact Hy|].
    destruct Hfl as [Hfl|[En L2]]; [left; exact (fs_down _ _ _ H f g x y Hin Hing Hx Hy L Hfl)|].
    assert (L3 := order_le _ _ _ H g f y x Hing Hin Hy Hx L).
    destruct (N.eq_dec (gf_num g) n) as [E|E]; [right; split; [exact E|lia]|]. left. apply (P2 g y Hing Hy); lia.
  - intros l El. destruct (fs_lf _ _ _ H l El) as ((g & x & Hg & Hx & E1 & E2) & Hlow). split.
    + exists (mark_one n F g), x. split; [apply in_map; exact Hg|]. rewrite mark_one_recs, mark_one_num. auto.
    + intros f' x0 Hf' Hx0 L. destruct (in_mark _ _ _ _ Hf') as (f & Hin & -> & En & Er & _). rewrite Er in Hx0. rewrite En in L.
      apply Hf; [exact Hin|exact Hx0|]. left. exact (Hlow f x0 Hin Hx0 L).
  - intros f' Hf' Eg. destruct (in_mark _ _ _ _ Hf') as (f & Hin & _ & En & _ & Eg'). rewrite Eg' in Eg. rewrite En. exact (fs_gone _ _ _ H f Hin Eg).
  - intro E. apply map_eq_nil in E. exact (fs_ne _ _ _ H E).
  - cbn [phase_ok]. split; [reflexivity|]. split.
    + intros f' x Hf' Hx L1 L2. destruct (in_mark _ _ _ _ Hf') as (f & Hin & -> & En & Er & _). rewrite Er in Hx. rewrite En in L1.
      apply Hf; [exact Hin|exact Hx|]. destruct (N.eq_dec (gf_num f) n) as [E|E]; [right; split; assumption|]. left. apply (P2 f x Hin Hx); lia.
    + destruct P4 as (f0 & x0 & A1 & A2 & A3 & A4). exists (mark_one n F f0), x0. split; [apply in_map; exact A1|].
      rewrite mark_one_recs, mark_one_num. auto.
Qed.

Lemma fs_last : forall w F s from to q n, FS w F s -> s_fl s = FMark from to q n -> to < n ->
  FS w F (mkG (s_files s) (Some to) (s_bar s) (s_tab s) (FRem to q from) (s_get s)).
Proof.
  intros w F s from to q n H Ep Ln. assert (P := fs_ph _ _ _ H). rewrite Ep in P. cbn [phase_ok] in P. destruct P as (<- & P2 & P4).
  assert (Hall : forall f x, In f (s_files s) -> In x (gf_recs f) -> r_seq x <= F -> flagged f x).
  { intros f x Hf Hx L. destruct P4 as (f0 & x0 & A1 & A2 & A3 & A4). apply (P2 f x Hf Hx); [|exact L].
    assert (L2 := order_le _ _ _ H f f0 x x0 Hf A1 Hx A2). lia. }
  constructor; cbn [s_files s_lf s_tab s_fl]; try (destruct H; assumption).
  - intros l E. injection E as <-. destruct P4 as (f0 & x0 & A1 & A2 & A3 & A4). split.
    + exists f0, x0. split; [exact A1|]. split; [exact A2|]. split; [exact A3|lia].
    + intros f x Hf Hx L. apply (Hall f x Hf Hx). assert (O := order _ _ _ H f f0 x x0 Hf A1 Hx A2). lia.
  - intros f Hf Eg. destruct (fs_gone _ _ _ H f Hf Eg) as (l & El & L). exists to. split; [reflexivity|].
    destruct (fs_lf _ _ _ H l El) as ((g & x & Hg & Hx & E1 & E2) & _). destruct P4 as (f0 & x0 & A1 & A2 & A3 & A4).
    assert (L2 := order_le _ _ _ H g f0 x x0 Hg A1 Hx A2). lia.
  - cbn [phase_ok]. split; [reflexivity|]. split; [exact Hall|exact P4].
Qed.

Lemma remove_one_num : forall n f, gf_num (remove_one n f) = gf_num f.
Proof. intros n f. unfold remove_one. destruct (gf_num f =? n); reflexivity. Qed.
Lemma remove_one_recs : forall n f, gf_recs (remove_one n f) = gf_recs f.
Proof. intros n f. unfold remove_one. destruct (gf_num f =? n); reflexivity. Qed.
Lemma remove_one_mark : forall n f, gf_mark (remove_one n f) = gf_mark f.
Proof. intros n f. unfold remove_one. destruct (gf_num f =? n); reflexivity. Qed.

(** The last file flushed stays while a flush removes files. *)
Definition rem_lf (s : gst) : Prop := match s_fl s with FRem to _ _ => s_lf s = Some to | _ => True end.

Lemma fs_remove : forall w F s to q n, FS w F s -> s_fl s = FRem to q n -> s_lf s = Some to -> n < to ->
  FS w F (mkG (map (remove_one n) (s_files s)) (s_lf s) (s_bar s) (s_tab s) (FRem to q (n + 1)) (s_get s)).
Proof.
  intros w F s to q n H Ep Elf Ln. assert (P := fs_ph _ _ _ H). rewrite Ep in P. cbn [phase_ok] in P. destruct P as (E & P2 & P4).
  assert (Hin : forall f', In f' (map (remove_one n) (s_files s)) -> exists f, In f (s_files s) /\ gf_num f' = gf_num f /\ gf_recs f' = gf_recs f /\
     gf_mark f' = gf_mark f /\ (gf_gone f' = true -> gf_gone f = true \/ gf_num f = n)).
  { intros f' Hf'. apply in_map_iff in Hf'. destruct Hf' as (f & <- & Hf). exists f. split; [exact Hf|].
    rewrite remove_one_num, remove_one_recs, remove_one_mark. split; [reflexivity|]. split; [reflexivity|]. split; [reflexivity|].
    unfold remove_one. destruct (gf_num f =? n) eqn:En; [intros _; right; apply N.eqb_eq; exact En|intro G; left; exact G]. }
  assert (Hout : forall f, In f (s_files s) -> In (remove_one n f) (map (remove_one n) (s_files s))) by (intros f Hf; apply in_map; exact Hf).
  constructor; cbn [s_files s_lf s_tab s_fl].
  - rewrite map_recs; [exact (fs_w _ _ _ H)|apply remove_one_recs].
  - exact (fs_so _ _ _ H).
  - exact (fs_val _ _ _ H).
  - apply map_nums; [apply remove_one_num|exact (fs_num _ _ _ H)].
  - exact (fs_tab _ _ _ H).
  - exact (fs_F _ _ _ H).
  - intros f' Hf' Hm. destruct (Hin f' Hf') as (f & Hf & _ & _ & Em & _). rewrite Em in *. exact (fs_mF _ _ _ H f Hf Hm).
  - intros f' g' x y Hf' Hg' Hx Hy L Hfl. destruct (Hin f' Hf') as (f & Hf & _ & Er & Em & _). destruct (Hin g' Hg') as (g & Hg & _ & Er2 & Em2 & _).
    unfold flagged in *. rewrite Er in Hx. rewrite Er2 in Hy. rewrite Em in Hfl. rewrite Em2. exact (fs_down _ _ _ H f g x y Hf Hg Hx Hy L Hfl).
  - intros l El. destruct (fs_lf _ _ _ H l El) as ((g & x & Hg & Hx & E1 & E2) & Hlow). split.
    + exists (remove_one n g), x. split; [apply Hout; exact Hg|]. rewrite remove_one_recs, remove_one_num. auto.
    + intros f' x0 Hf' Hx0 L. destruct (Hin f' Hf') as (f & Hf & En & Er & Em & _). unfold flagged. rewrite Em. rewrite Er in Hx0. rewrite En in L.
      exact (Hlow f x0 Hf Hx0 L).
  - intros f' Hf' Eg. destruct (Hin f' Hf') as (f & Hf & En & _ & _ & G). rewrite En. destruct (G Eg) as [G1|G1]; [exact (fs_gone _ _ _ H f Hf G1)|].
    exists to. split; [exact Elf|lia].
  - intro E0. apply map_eq_nil in E0. exact (fs_ne _ _ _ H E0).
  - cbn [phase_ok]. split; [exact E|]. split.
    + intros f' x Hf' Hx L. destruct (Hin f' Hf') as (f & Hf & _ & Er & Em & _). unfold flagged. rewrite Em. rewrite Er in Hx. exact (P2 f x Hf Hx L).
    + destruct P4 as (f0 & x0 & A1 & A2 & A3 & A4). exists (remove_one n f0), x0. split; [apply Hout; exact A1|].
      rewrite remove_one_recs, remove_one_num. auto.
Qed.

Lemma fs_done : forall w F s to q n, FS w F s -> s_fl s = FRem to q n -> FS w F (with_fl s FIdle).
Proof.
  intros w F s to q n H Ep. assert (P := fs_ph _ _ _ H). rewrite Ep in P. cbn [phase_ok] in P. destruct P as (<- & P2 & P4).
  destruct H. constructor; cbn [with_fl s_files s_lf s_tab s_fl]; try assumption.
Qed.
