(** Proofs about building databases. *)
From Coq Require Import List NArith Bool Lia Arith Sorted Permutation.
From Verif Require Import Base LogFormatModel KeyModel KeyProofs BloomModel MemTableModel LsmModel LsmProofs LsmProofs2 LsmProofs3 LsmProofs4 LsmProofs5
  BuilderModel BuilderSpec.
Import ListNotations.
Local Open Scope N_scope.

Lemma mk_zero fs : minkey_number fs = 0.
Proof.
  unfold minkey_number. enough (G : forall st : key * N, fst st = [] /\ snd st = 0 ->
    snd (fold_left (fun st f => if kltb (td_min f) (fst st) then (td_min f, td_num f) else st) fs st) = 0) by now apply G.
  induction fs as [|f fs IH]; intros st [E1 E2]; cbn [fold_left]; [exact E2|].
  apply IH. rewrite E1. assert (K : kltb (td_min f) [] = false) by (apply kltb_false, kle_nil). rewrite K. now split.
Qed.

Lemma nodup_map_in A B (g : A -> B) l : NoDup l -> (forall x y, In x l -> In y l -> g x = g y -> x = y) -> NoDup (map g l).
Proof.
  induction l as [|a l IH]; intros D H; cbn [map]; [constructor|]. inversion D as [|? ? N D']; subst. constructor.
  - intros I. apply in_map_iff in I as (x & E & Hx). assert (x = a) by (apply H; [now right|now left|exact E]). now subst.
  - apply IH; [exact D'|]. intros x y Hx Hy. apply H; now right.
Qed.
Lemma nodup_of_map A B (g : A -> B) l : NoDup (map g l) -> NoDup l.
Proof. apply NoDup_map_inv. Qed.

Definition T (f : tdata) := as_tbl 0 f.

Lemma fold_lvl : forall fs acc, StronglySorted min_lt acc ->
  NoDup (map (fun f => b_min (T f)) fs) -> (forall f u, In f fs -> In u acc -> b_min u <> b_min (T f)) ->
  let l := fold_left (fun l f => add_tbl (T f) l) fs acc in
  StronglySorted min_lt l /\ (forall x, In x l <-> In x acc \/ exists f, In f fs /\ x = T f) /\
  Permutation (map b_num l) (map b_num acc ++ map td_num fs).
Proof.
  induction fs as [|f fs IH]; intros acc S D H; cbn [fold_left].
  - split; [exact S|]. split; [intros x; split; [auto|intros [A|(f & [] & _)]; exact A]|]. cbn [map]. now rewrite app_nil_r.
  - cbn [map] in D. inversion D as [|? ? N1 D']; subst.
    destruct (IH (add_tbl (T f) acc)) as (I1 & I2 & I3).
    + apply add_tbl_sorted; [exact S|]. intros u Hu. apply H; [now left|exact Hu].
    + exact D'.
    + intros g u Hg Hu. apply add_tbl_in in Hu as [->|Hu]; [|apply H; [now right|exact Hu]].
      intros E. apply N1. apply in_map_iff. exists g. now split.
    + split; [exact I1|]. split.
      * intros x. rewrite I2, add_tbl_in. cbn [In]. split.
        -- intros [[->|A]|(g & G1 & G2)]; [right; exists f; auto|now left|right; exists g; auto].
        -- intros [A|(g & [<-|G1] & G2)]; [left; now right|left; now left|right; exists g; auto].
      * etransitivity; [exact I3|]. rewrite (Permutation_map b_num (add_tbl_perm (T f) acc)). cbn [map app].
        apply Permutation_cons_app. reflexivity.
Qed.

Lemma docs_of_asc rs : ascending rs <-> docs_ok rs.
Proof. reflexivity. Qed.

Lemma mins_differ fs f g : files_ok fs -> In f fs -> In g fs -> b_min (T f) = b_min (T g) -> f = g.
Proof.
  intros OK Hf Hg E.
  assert (NI : forall a b, In a fs -> In b fs -> td_num a = td_num b -> a = b).
  { intros a b Ha Hb En. pose proof (fo_nums _ OK) as D. clear - Ha Hb En D. induction fs as [|x fs IH]; [destruct Ha|].
    cbn [map] in D. inversion D as [|? ? N D']; subst. destruct Ha as [<-|Ha], Hb as [<-|Hb]; auto.
    - destruct N. rewrite En. now apply in_map.
    - destruct N. rewrite <- En. now apply in_map. }
  unfold T, as_tbl in E. cbn [b_min] in E.
  destruct (N.eqb_spec 0 (td_num f)) as [F|F]; destruct (N.eqb_spec 0 (td_num g)) as [G|G].
  - apply NI; auto; congruence.
  - destruct (fo_first _ OK g Hg) as [N _]. congruence.
  - destruct (fo_first _ OK f Hf) as [N _]. congruence.
  - destruct (fo_first _ OK f Hf) as [_ (r & l & Ef & Kf)]. destruct (fo_first _ OK g Hg) as [_ (r' & l' & Eg & Kg)].
    destruct (N.eq_dec (td_num f) (td_num g)) as [En|En]; [now apply NI|]. exfalso.
    assert (Nfg : f <> g) by congruence.
    destruct (fo_apart _ OK f g Hf Hg Nfg) as [A|A].
    + specialize (A r). rewrite Ef, Kf, E in A. apply (klt_irrefl (td_min g)). apply A. now left.
    + specialize (A r'). rewrite Eg, Kg, E in A. apply (klt_irrefl (td_min g)). apply A. now left.
Qed.

Lemma level_one_spec fs : files_ok fs ->
  StronglySorted min_lt (level_one fs) /\ (forall x, In x (level_one fs) <-> exists f, In f fs /\ x = T f) /\
  Permutation (map b_num (level_one fs)) (map td_num fs).
Proof.
  intros OK. unfold level_one. rewrite mk_zero.
  destruct (fold_lvl fs []) as (A & B & C).
  - constructor.
  - apply nodup_map_in; [exact (nodup_of_map _ _ _ _ (fo_nums _ OK))|]. intros x y Hx Hy. now apply mins_differ with (fs := fs).
  - intros f u _ [].
  - split; [exact A|]. split; [|exact C]. intros x. specialize (B x). cbn [In] in B. split; [intros H; apply B in H as [[]|H]; exact H|intros H; apply B; now right].
Qed.

Lemma level_one_ok fs : files_ok fs -> zero_smallest fs -> lvl_ok (level_one fs).
Proof.
  intros OK Z. destruct (level_one_spec fs OK) as (A & B & _). split; [exact A|]. intros t Ht.
  apply B in Ht as (f & Hf & ->). split; [exact (fo_asc _ OK f Hf)|].
  intros d Hd. cbn [T as_tbl b_docs] in Hd.
  assert (Fd : kle (td_min f) (r_key d)).
  { destruct (fo_first _ OK f Hf) as [_ (r & l & Ef & Kf)]. pose proof (fo_asc _ OK f Hf) as As. rewrite Ef in As, Hd.
    destruct Hd as [<-|Hd]; [rewrite Kf; apply kle_refl|]. apply klt_kle. rewrite <- Kf. exact (ss_in _ _ _ _ As d Hd). }
  split.
  - unfold T, as_tbl. cbn [b_min]. destruct (0 =? td_num f); [apply kle_nil|exact Fd].
  - intros u Hu L. apply B in Hu as (g & Hg & ->).
    assert (Nz : 0 =? td_num g = false).
    { destruct (0 =? td_num g) eqn:E; [|reflexivity]. unfold T, as_tbl in L. cbn [b_min] in L. rewrite E in L.
      exfalso. revert L. apply kle_not_lt, kle_nil. }
    assert (Nfg : f <> g) by (intros ->; exact (klt_irrefl _ L)).
    unfold T, as_tbl in L |- *. cbn [b_min] in L |- *. rewrite Nz in L |- *.
    destruct (fo_apart _ OK f g Hf Hg Nfg) as [P|P]; [exact (P d Hd)|]. exfalso.
    destruct (fo_first _ OK g Hg) as [_ (r & l & Eg & Kg)].
    assert (Lg : klt (td_min g) (td_min f)) by (rewrite <- Kg; apply P; rewrite Eg; now left).
    destruct (N.eqb_spec 0 (td_num f)) as [F|F].
    + symmetry in F. apply (Z f g Hf Hg) in F. revert Lg. now apply kle_not_lt.
    + exact (klt_asym _ _ L Lg).
Qed.

Lemma max_number_ge fs f : In f fs -> td_num f <= max_number fs.
Proof.
  unfold max_number. assert (G : forall l m, m <= fold_left (fun m f => N.max (td_num f) m) l m).
  { induction l as [|x l IH]; intros m; cbn [fold_left]; [lia|]. eapply N.le_trans; [|apply IH]. lia. }
  generalize 0. induction fs as [|x fs IH]; intros m []; cbn [fold_left]; [subst|auto].
  eapply N.le_trans; [|apply G]. lia.
Qed.

Section Hash.
Variable hash : key -> N * N.
Variable part : key -> N.

Lemma zero_tbls_spec : forall c b m h l,
  (forall t, In t l -> exists j, j < h /\ t = new_tbl c (b + 1 + j) j []) -> NoDup (map b_num l) ->
  (forall j, filter (nf j) l = if j <? h then [new_tbl c (b + 1 + j) j []] else []) ->
  let l' := zero_tbls c b m h l in
  (forall t, In t l' -> exists j, j < h + N.of_nat m /\ t = new_tbl c (b + 1 + j) j []) /\ NoDup (map b_num l') /\
  (forall j, filter (nf j) l' = if j <? h + N.of_nat m then [new_tbl c (b + 1 + j) j []] else []).
Proof.
  intros c b m. induction m as [|m IH]; intros h l H1 H2 H3.
  - cbn [zero_tbls]. rewrite N.add_0_r. now split.
  - cbn [zero_tbls]. assert (E : add_tbl (new_tbl c (b + 1 + h) h []) l = new_tbl c (b + 1 + h) h [] :: l) by (apply add_tbl_front; intros u _; apply kle_nil).
    rewrite E. replace (h + N.of_nat (S m)) with (h + 1 + N.of_nat m) by lia. apply IH.
    + intros t [<-|Ht]; [exists h; split; [lia|reflexivity]|]. destruct (H1 t Ht) as (j & J & ->). exists j. split; [lia|reflexivity].
    + cbn [map new_tbl b_num]. constructor; [|exact H2]. intros I. apply in_map_iff in I as (t & T1 & T2).
      destruct (H1 t T2) as (j & J & ->). cbn [new_tbl b_num] in T1. lia.
    + intros j. cbn [filter]. rewrite H3. unfold nf at 1. cbn [new_tbl b_hash b_src negb]. rewrite andb_true_r.
      destruct (N.eqb_spec h j) as [->|N].
      * destruct (N.ltb_spec j j); [lia|]. destruct (N.ltb_spec j (j + 1)); [reflexivity|lia].
      * destruct (N.ltb_spec j h); destruct (N.ltb_spec j (h + 1)); try lia; reflexivity.
Qed.

Lemma in_all_docs fs r : In r (all_docs fs) <-> exists f, In f fs /\ In r (td_docs f).
Proof.
  unfold all_docs. rewrite in_concat. split.
  - intros (l & H1 & H2). apply in_map_iff in H1 as (f & <- & Hf). now exists f.
  - intros (f & Hf & H2). exists (td_docs f). split; [now apply in_map|exact H2].
Qed.

Lemma newest_unique : forall R k r, (forall a b, In a R -> In b R -> r_key a = r_key b -> a = b) -> In r R -> is_cmd r = false -> r_key r = k ->
  newest_write R k = Some r.
Proof.
  intros R k r U Hr Hc Hk. unfold newest_write. destruct (find _ (rev R)) as [x|] eqn:E.
  - apply find_some in E as [E1 E2]. apply andb_true_iff in E2 as [E2 _]. apply keqb_true in E2. apply in_rev in E1.
    f_equal. apply U; auto. congruence.
  - apply in_rev in Hr. apply (find_none _ _ E) in Hr. rewrite Hc in Hr. cbn [negb] in Hr. rewrite andb_true_r in Hr.
    assert (X : keqb (r_key r) k = true) by now apply keqb_true. congruence.
Qed.

Lemma docs_unique fs : files_ok fs -> forall a b, In a (all_docs fs) -> In b (all_docs fs) -> r_key a = r_key b -> a = b.
Proof.
  intros OK a b Ha Hb E. apply in_all_docs in Ha as (f & Hf & Ha). apply in_all_docs in Hb as (g & Hg & Hb).
  assert (Lo : forall f d, In f fs -> In d (td_docs f) -> kle (td_min f) (r_key d)).
  { clear - OK. intros f d Hf Hd. destruct (fo_first _ OK f Hf) as [_ (r & l & Ef & Kf)]. pose proof (fo_asc _ OK f Hf) as As. rewrite Ef in As, Hd.
    destruct Hd as [<-|Hd]; [rewrite Kf; apply kle_refl|]. apply klt_kle. rewrite <- Kf. exact (ss_in _ _ _ _ As d Hd). }
  destruct (N.eq_dec (td_num f) (td_num g)) as [En|En].
  - assert (f = g).
    { pose proof (fo_nums _ OK) as D. clear - Hf Hg En D. induction fs as [|x fs IH]; [destruct Hf|].
      cbn [map] in D. inversion D as [|? ? N D']; subst. destruct Hf as [<-|Hf], Hg as [<-|Hg]; auto.
      - destruct N. rewrite En. now apply in_map.
      - destruct N. rewrite <- En. now apply in_map. }
    subst g. assert (X : fd_get (r_key a) (td_docs f) = Some a) by (apply fd_get_some; [exact (fo_asc _ OK f Hf)|now split]).
    assert (Y : fd_get (r_key a) (td_docs f) = Some b) by (apply fd_get_some; [exact (fo_asc _ OK f Hf)|now split]). congruence.
  - assert (Nfg : f <> g) by congruence. exfalso. destruct (fo_apart _ OK f g Hf Hg Nfg) as [P|P].
    + specialize (P a Ha). rewrite E in P. revert P. apply kle_not_lt. now apply Lo.
    + specialize (P b Hb). rewrite <- E in P. revert P. apply kle_not_lt. now apply Lo.
Qed.

Lemma build_inv c fs : files_ok fs -> zero_smallest fs -> max_number fs + tc_parts c + 1 <= NIL ->
  LI hash part c (all_docs fs) (build c fs) /\ forall k, view part (build c fs) k = newest_write (all_docs fs) k.
Proof.
  intros OK Z Hn. pose proof (level_one_ok fs OK Z) as L1. destruct (level_one_spec fs OK) as (S1 & S2 & S3). unfold build.
  destruct (zero_tbls_spec c (max_number fs) (N.to_nat (tc_parts c)) 0 []) as (I1 & I2 & I3).
  { intros t []. } { constructor. } { intros j. cbn [filter]. destruct (N.ltb_spec j 0); [lia|reflexivity]. }
  set (l := zero_tbls c (max_number fs) (N.to_nat (tc_parts c)) 0 []) in *.
  replace (0 + N.of_nat (N.to_nat (tc_parts c))) with (tc_parts c) in * by lia.
  assert (Fs : forall h, filter (sf h) l = []).
  { intros h. apply filter_none. intros t Ht. destruct (I1 t Ht) as (j & _ & ->). unfold sf. cbn [new_tbl b_src]. apply andb_false_r. }
  set (up := match fs with [] => [] | _ => [level_one fs] end).
  assert (Up : forall ts, In ts up -> ts = level_one fs).
  { subst up. destruct fs; [intros ts []|intros ts [<-|[]]; reflexivity]. }
  assert (Uv : forall k, ups k up = lv_get k (level_one fs)).
  { intros k. subst up. destruct fs; [reflexivity|]. cbn [ups]. now destruct (lv_get k _). }
  split.
  - constructor; cbn [l_next l_zero l_up].
    + constructor.
      * intros t Ht. destruct (I1 t Ht) as (j & J & ->). cbn [new_tbl b_hash b_min b_docs]. repeat split; auto; [constructor|intros d []].
      * intros h L. rewrite I3. destruct (N.ltb_spec h (tc_parts c)); [|lia]. eexists. reflexivity.
      * intros h. left. apply Fs.
    + intros ts H. now rewrite (Up ts H).
    + split; [exact I2|]. intros t Ht. destruct (I1 t Ht) as (j & J & ->). cbn [new_tbl b_num]. lia.
    + intros ts H. rewrite (Up ts H). split.
      * eapply Permutation_NoDup; [symmetry; exact S3|exact (fo_nums _ OK)].
      * intros t Ht. apply S2 in Ht as (f & Hf & ->). cbn [T as_tbl b_num]. pose proof (max_number_ge fs f Hf). lia.
    + intros t Ht. destruct (I1 t Ht) as (j & J & ->). apply (good_new hash part).
    + intros ts t H Ht. rewrite (Up ts H) in Ht. apply S2 in Ht as (f & Hf & ->). constructor; cbn [T as_tbl b_docs b_bf].
      * intros d Hd. split; [apply in_all_docs; now exists f|exact (fo_plain _ OK f d Hf Hd)].
      * auto.
      * intros x; discriminate.
    + exact Hn.
  - intros k. unfold LsmProofs2.view, LsmProofs2.zview, zget. cbn [l_zero l_up]. rewrite I3, Fs, Uv.
    assert (Ez : orr (match (if part k <? tc_parts c then [new_tbl c (max_number fs + 1 + part k) (part k) []] else []) with
                      | t :: _ => fd_get k (b_docs t) | [] => None end) None = None) by (destruct (part k <? tc_parts c); reflexivity).
    rewrite Ez. cbn [orr]. destruct (lv_get k (level_one fs)) as [r|] eqn:E.
    + apply lv_get_some in E as [(t & Ht & Hr) E2]; [|exact L1]. apply S2 in Ht as (f & Hf & ->). cbn [T as_tbl b_docs] in Hr.
      symmetry. apply newest_unique; [now apply docs_unique|apply in_all_docs; now exists f|exact (fo_plain _ OK f r Hf Hr)|exact E2].
    + pose proof (proj1 (lv_get_none k _ L1) E) as N. destruct (newest_write (all_docs fs) k) as [r|] eqn:W; [|reflexivity].
      apply newest_write_in in W as (W1 & W2 & _). apply in_all_docs in W1 as (f & Hf & Hr).
      destruct (N r); [|exact W2]. exists (T f). split; [apply S2; now exists f|exact Hr].
Qed.

Lemma from_inv c R0 s0 R s : tcfg_ok part c -> LI hash part c R0 s0 -> (forall k, view part s0 k = newest_write R0 k) ->
  lreach_from hash part c R0 s0 R s -> LI hash part c R s /\ forall k, vle (view part s k) (newest_write R k).
Proof.
  intros Hc H0 V0 H. induction H as [|R s o s' H [IH1 IH2] Ho Hs Hn].
  - split; [exact H0|]. intros k. rewrite V0. apply vle_refl.
  - destruct (lstep_keeps hash part c R s o s' Hc IH1 Ho Hs Hn) as [A1 A2]. split; [exact A1|]. intros k.
    eapply vle_trans; [apply A2|]. rewrite newest_write_app. specialize (IH2 k). destruct (newest_write (lflushed o) k); cbn [orr]; [apply vle_refl|exact IH2].
Qed.

Lemma from_answer c R0 s0 R s k : tcfg_ok part c -> LI hash part c R0 s0 -> (forall k, view part s0 k = newest_write R0 k) ->
  lreach_from hash part c R0 s0 R s -> bf_safe c R -> k <> [] -> table_answer (newest_write R k) (tm_get hash part c k s).
Proof.
  intros Hc H0 V0 H S Hk. destruct (from_inv c R0 s0 R s Hc H0 V0 H) as [HI V]. specialize (V k).
  rewrite (get_view hash part c R s k HI S); [|apply Hc|exact Hk].
  destruct V as [-> |(-> & r & -> & D)]; cbn [table_answer].
  - destruct (newest_write R k); [now left|reflexivity].
  - right. now split.
Qed.

End Hash.

(** ** The files a Builder writes *)

Definition files (b : bst) : list tdata :=
  w_tabs b ++ match w_cur b with Some (n, docs) => [mkTD n (w_min b) (w_max b) docs] | None => [] end.
Definition ctr_after (n : N) (rs : list rec) : N := fold_left (fun n r => if r_seq r =? NIL then n + 1 else n) rs n.

Lemma numbered_app n a b : numbered n (a ++ b) = numbered n a ++ numbered (ctr_after n a) b.
Proof. revert n. induction a as [|r a IH]; intros n; [reflexivity|]. cbn [app numbered ctr_after fold_left]. now rewrite IH. Qed.
Lemma numbered_keys n rs : map r_key (numbered n rs) = map r_key rs.
Proof. revert n. induction rs as [|r rs IH]; intros n; [reflexivity|]. cbn [numbered map]. now rewrite IH. Qed.

Record BI (done : list rec) (b : bst) : Prop := {
  bi_docs : all_docs (files b) = numbered 1 done;
  bi_ctr : w_ctr b = ctr_after 1 done;
  bi_idx : w_idx b = N.of_nat (length (files b));
  bi_nums : map td_num (files b) = map N.of_nat (seq 0 (length (files b)));
  bi_head : forall f, In f (files b) -> exists r l, td_docs f = r :: l /\ r_key r = td_min f;
  bi_none : w_cur b = None -> w_tabs b = [] /\ w_docs b = 0 /\ w_min b = [];
  bi_some : w_cur b <> None -> w_docs b <> 0;
  bi_max : forall f r, In f (files b) -> In r (td_docs f) -> r_seq r <= td_max f }.

Lemma fd_set_last r l : (forall x, In x l -> klt (r_key x) (r_key r)) -> fd_set r l = l ++ [r].
Proof.
  induction l as [|x l IH]; intros H; [reflexivity|]. cbn [fd_set app].
  assert (C : kcmp (r_key r) (r_key x) = Gt).
  { specialize (H x (or_introl eq_refl)). destruct (kcmp (r_key r) (r_key x)) eqn:C; [| |reflexivity]; exfalso.
    - apply kcmp_eq in C. rewrite C in H. exact (klt_irrefl _ H).
    - exact (klt_asym _ _ H C). }
  rewrite C. f_equal. apply IH. intros y Hy. apply H. now right.
Qed.

Lemma seq_snoc n : map N.of_nat (seq 0 (n + 1)) = map N.of_nat (seq 0 n) ++ [N.of_nat n].
Proof. rewrite seq_app, map_app. reflexivity. Qed.

Lemma all_docs_app a b : all_docs (a ++ b) = all_docs a ++ all_docs b.
Proof. unfold all_docs. now rewrite map_app, concat_app. Qed.

Lemma BI_init : BI [] b_init.
Proof. constructor; cbn; try reflexivity; try tauto; try (intros f []); try (intros f r []); auto. Qed.

Lemma BI_step limit done r b : BI done b -> r_key r <> [] -> (forall x, In x done -> r_key x <> [] /\ klt (r_key x) (r_key r)) ->
  BI (done ++ [r]) (fst (b_set limit r b)) /\ snd (b_set limit r b) = true.
Proof.
  intros [D C X M H O S Q] K L.
  assert (L' : forall x, In x (all_docs (files b)) -> r_key x <> [] /\ klt (r_key x) (r_key r)).
  { intros x Hx. rewrite D in Hx. apply (in_map r_key) in Hx. rewrite numbered_keys in Hx. apply in_map_iff in Hx as (y & E & Hy).
    rewrite <- E. now apply L. }
  assert (KM : forall A (x y : A), match r_key r with [] => x | _ :: _ => y end = y) by (intros A x y; destruct (r_key r); [now destruct K|reflexivity]).
  set (r' := as_stored (w_ctr b) r).
  assert (N1 : numbered 1 (done ++ [r]) = numbered 1 done ++ [r']).
  { rewrite numbered_app, <- C. reflexivity. }
  assert (C1 : ctr_after 1 (done ++ [r]) = if r_seq r =? NIL then w_ctr b + 1 else w_ctr b).
  { unfold ctr_after. rewrite fold_left_app. cbn [fold_left]. fold (ctr_after 1 done). now rewrite <- C. }
  (* a fresh file after the files there are *)
  assert (Fresh : forall b', w_cur b' = None -> w_tabs b' = files b -> w_min b' = [] -> w_ctr b' = w_ctr b -> w_idx b' = w_idx b + 1 ->
     w_docs b' = 0 -> forall est, BI (done ++ [r]) (mkW (Some (w_idx b, fd_set r' [])) (r_key r) est 1 (N.max (w_max b') (r_seq r'))
        (if r_seq r =? NIL then w_ctr b + 1 else w_ctr b) (w_idx b') (w_tabs b'))).
  { intros b' _ Bt _ _ Bi _ est. constructor; unfold files; cbn [w_cur w_tabs w_min w_max w_ctr w_idx w_docs]; rewrite ?Bt.
    - rewrite all_docs_app, D, N1. reflexivity.
    - now rewrite C1.
    - rewrite app_length. cbn [length]. rewrite Bi, X. lia.
    - rewrite app_length, map_app, M. cbn [length map td_num]. rewrite seq_snoc. now rewrite X.
    - intros f Hf. apply in_app_or in Hf as [Hf|[<-|[]]]; [now apply H|]. cbn [td_docs td_min fd_set]. exists r', []. now split.
    - discriminate.
    - discriminate.
    - intros f x Hf Hx. apply in_app_or in Hf as [Hf|[<-|[]]]; [now apply (Q f)|]. cbn [td_docs td_max fd_set] in *. destruct Hx as [<-|[]]. lia. }
  unfold b_set, with_file. destruct (w_cur b) as [[n docs]|] eqn:E.
  - destruct (limit <? w_est b) eqn:EL.
    + unfold finalize. rewrite E. cbn [w_cur w_tabs w_min w_max w_ctr w_idx w_docs w_est].
      rewrite KM. cbn [fst snd]. split; [|reflexivity].
      assert (Fb : w_tabs b ++ [mkTD n (w_min b) (w_max b) docs] = files b) by (unfold files; now rewrite E).
      rewrite Fb.
      specialize (Fresh (mkW None [] 0 0 (w_max b) (w_ctr b) (w_idx b + 1) (files b))).
      cbn [w_cur w_tabs w_min w_max w_ctr w_idx w_docs] in Fresh.
      apply Fresh; reflexivity.
    + rewrite KM. cbn [fst snd]. split; [|reflexivity].
      assert (Fb : files b = w_tabs b ++ [mkTD n (w_min b) (w_max b) docs]) by (unfold files; now rewrite E).
      rewrite Fb in *.
      assert (Fd : fd_set r' docs = docs ++ [r']).
      { apply fd_set_last. intros x Hx. apply L'. rewrite all_docs_app. apply in_or_app. right. unfold all_docs. cbn. now rewrite app_nil_r. }
      destruct (H (mkTD n (w_min b) (w_max b) docs)) as (h & t & Hd & Hk); [apply in_or_app; right; now left|]. cbn [td_docs td_min] in Hd, Hk.
      assert (Wm : match w_min b with [] => r_key r | _ => w_min b end = w_min b).
      { destruct (w_min b) eqn:Em; [|reflexivity]. exfalso. destruct (L' h) as [Nh _]; [|contradiction].
        rewrite all_docs_app. apply in_or_app. right. unfold all_docs. cbn. rewrite Hd. now left. }
      fold r'. rewrite Fd. rewrite Wm.
      constructor; unfold files; cbn [w_cur w_tabs w_min w_max w_ctr w_idx w_docs].
      * rewrite all_docs_app, N1, <- D, all_docs_app. unfold all_docs at 2 4. cbn. now rewrite !app_nil_r, app_assoc.
      * now rewrite C1.
      * rewrite app_length in *. exact X.
      * rewrite !map_app, !app_length in *. exact M.
      * intros f Hf. apply in_app_or in Hf as [Hf|[<-|[]]]; [apply H, in_or_app; now left|]. cbn [td_docs td_min].
        exists h, (t ++ [r']). now rewrite Hd.
      * discriminate.
      * intros _. lia.
      * intros f x Hf Hx. apply in_app_or in Hf as [Hf|[<-|[]]]; [apply (Q f x); [apply in_or_app; now left|exact Hx]|]. cbn [td_docs td_max] in *.
        apply in_app_or in Hx as [Hx|[<-|[]]]; [|lia].
        assert (r_seq x <= w_max b) by (apply (Q (mkTD n (w_min b) (w_max b) docs)); [apply in_or_app; right; now left|exact Hx]). lia.
  - destruct (O eq_refl) as (O1 & O2 & O3). cbn [w_cur w_tabs w_min w_max w_ctr w_idx w_docs w_est]. rewrite O1, O2, O3.
    rewrite KM. cbn [fst snd]. split; [|reflexivity].
    assert (Fb : files b = []) by (unfold files; now rewrite E, O1).
    rewrite Fb in Fresh.
    specialize (Fresh (mkW None [] 0 0 (w_max b) (w_ctr b) (w_idx b + 1) [])).
    cbn [w_cur w_tabs w_min w_max w_ctr w_idx w_docs] in Fresh. apply Fresh; reflexivity.
Qed.

Lemma BI_sets limit : forall rs done b, BI done b -> (forall r, In r (done ++ rs) -> r_key r <> []) -> ascending (done ++ rs) ->
  BI (done ++ rs) (b_sets limit rs b).
Proof.
  induction rs as [|r rs IH]; intros done b B K A; cbn [b_sets]; [now rewrite app_nil_r|].
  replace (done ++ r :: rs) with ((done ++ [r]) ++ rs) in * by now rewrite <- app_assoc.
  apply IH; [|exact K|exact A]. apply BI_step; [exact B| |].
  - apply K. apply in_or_app. left. apply in_or_app. right. now left.
  - intros x Hx. split; [apply K; apply in_or_app; left; apply in_or_app; now left|].
    clear - A Hx. rewrite <- app_assoc in A. cbn [app] in A. induction done as [|y done IH]; [destruct Hx|].
    cbn [app] in A. destruct Hx as [<-|Hx]; [|apply IH; [exact (ss_tail _ _ _ _ A)|exact Hx]].
    apply (ss_in _ _ _ _ A). apply in_or_app. right. now left.
Qed.

Lemma built_BI limit rs : (forall r, In r rs -> r_key r <> []) -> ascending rs -> BI rs (b_sets limit rs b_init).
Proof. intros K A. apply (BI_sets limit rs [] b_init BI_init); assumption. Qed.

Lemma BI_tables done b : BI done b -> b_tables b = files b.
Proof.
  intros B. unfold b_tables, files. destruct (w_cur b) as [[n docs]|] eqn:E.
  - destruct (N.eqb_spec (w_docs b) 0) as [Z|Z]; [destruct (bi_some _ _ B); [congruence|exact Z]|]. unfold finalize. now rewrite E.
  - destruct (bi_none _ _ B E) as (T1 & T2 & _). rewrite T2. cbn. now rewrite app_nil_r.
Qed.

Definition before_file (f g : tdata) : Prop := forall r, In r (td_docs f) -> klt (r_key r) (td_min g).

Lemma ss_app_l A (R : A -> A -> Prop) a b : StronglySorted R (a ++ b) ->
  StronglySorted R a /\ StronglySorted R b /\ forall x y, In x a -> In y b -> R x y.
Proof.
  induction a as [|x a IH]; intros H; [split; [constructor|split; [exact H|intros x y []]]|].
  cbn [app] in H. pose proof (ss_in _ _ _ _ H) as Hx. destruct (IH (ss_tail _ _ _ _ H)) as (A1 & A2 & A3). split; [|split; [exact A2|]].
  - constructor; [exact A1|]. apply Forall_forall. intros y Hy. apply Hx, in_or_app. now left.
  - intros y z [<-|Hy] Hz; [apply Hx, in_or_app; now right|now apply A3].
Qed.

Lemma files_sorted fs : ascending (all_docs fs) -> (forall f, In f fs -> exists r l, td_docs f = r :: l /\ r_key r = td_min f) ->
  StronglySorted before_file fs /\ forall f, In f fs -> ascending (td_docs f).
Proof.
  induction fs as [|f fs IH]; intros A H; [split; [constructor|intros f []]|].
  unfold all_docs in A. cbn [map concat] in A. apply ss_app_l in A as (A1 & A2 & A3). fold (all_docs fs) in A2.
  destruct (IH A2 (fun g Hg => H g (or_intror Hg))) as [I1 I2]. split.
  - constructor; [exact I1|]. apply Forall_forall. intros g Hg r Hr. destruct (H g (or_intror Hg)) as (x & l & E & K).
    rewrite <- K. apply A3; [exact Hr|]. apply in_concat. exists (td_docs g). split; [now apply in_map|rewrite E; now left].
  - intros g [<-|Hg]; [exact A1|now apply I2].
Qed.

Lemma ss_pair A (R : A -> A -> Prop) l x y : StronglySorted R l -> In x l -> In y l -> x <> y -> R x y \/ R y x.
Proof.
  induction l as [|a l IH]; intros S Hx Hy N; [destruct Hx|]. pose proof (ss_in _ _ _ _ S) as Ha.
  destruct Hx as [<-|Hx], Hy as [<-|Hy]; [congruence|left; auto|right; auto|apply IH; auto; exact (ss_tail _ _ _ _ S)].
Qed.

Lemma ascending_keys a b : map r_key a = map r_key b -> ascending a -> ascending b.
Proof.
  unfold ascending. revert b. induction a as [|x a IH]; intros [|y b] E S; try discriminate; [constructor|].
  cbn [map] in E. injection E as E1 E2. constructor; [apply IH; [exact E2|exact (ss_tail _ _ _ _ S)]|].
  apply Forall_forall. intros z Hz. apply (in_map r_key) in Hz. rewrite <- E2 in Hz. apply in_map_iff in Hz as (w & Ew & Hw).
  rewrite <- Ew, <- E1. exact (ss_in _ _ _ _ S w Hw).
Qed.

Lemma numbered_ins n rs r : In r (numbered n rs) -> r_type r = INS.
Proof. revert n. induction rs as [|x rs IH]; intros n []; [subst; reflexivity|eauto]. Qed.

Lemma built_ok limit rs : (forall r, In r rs -> r_key r <> []) -> ascending rs ->
  files_ok (built_files limit rs) /\ zero_smallest (built_files limit rs) /\ all_docs (built_files limit rs) = numbered 1 rs /\
  (forall r, In r (numbered 1 rs) -> r_seq r < first_seqnum (built_files limit rs)).
Proof.
  intros K A. pose proof (built_BI limit rs K A) as B. unfold built_files. rewrite (BI_tables _ _ B).
  set (fs := files (b_sets limit rs b_init)) in *. pose proof (bi_docs _ _ B) as D. fold fs in D.
  pose proof (bi_nums _ _ B) as M. fold fs in M. pose proof (bi_head _ _ B) as H. fold fs in H.
  pose proof (bi_max _ _ B) as Q. fold fs in Q.
  assert (A' : ascending (all_docs fs)) by (rewrite D; eapply ascending_keys; [symmetry; apply numbered_keys|exact A]).
  destruct (files_sorted fs A' H) as [S1 S2].
  assert (Ks : forall f r, In f fs -> In r (td_docs f) -> r_key r <> [] /\ r_type r = INS).
  { intros f r Hf Hr. assert (I : In r (numbered 1 rs)) by (rewrite <- D; apply in_all_docs; now exists f). split; [|exact (numbered_ins _ _ _ I)].
    apply (in_map r_key) in I. rewrite numbered_keys in I. apply in_map_iff in I as (x & <- & Hx). now apply K. }
  split; [|split; [|split; [exact D|]]].
  - constructor.
    + rewrite M. apply FinFun.Injective_map_NoDup; [intros x y; apply Nnat.Nat2N.inj|apply seq_NoDup].
    + exact S2.
    + intros f Hf. destruct (H f Hf) as (r & l & E & Kf). split; [rewrite <- Kf; apply (Ks f r Hf); rewrite E; now left|]. now exists r, l.
    + intros f r Hf Hr. unfold is_cmd. destruct (Ks f r Hf Hr) as [_ ->]. reflexivity.
    + intros f g Hf Hg N. exact (ss_pair _ _ _ _ _ S1 Hf Hg N).
  - intros f g Hf Hg E0. destruct fs as [|h fs']; [destruct Hf|]. cbn [length seq map] in M. injection M as M1 M2.
    assert (f = h).
    { destruct Hf as [<-|Hf]; [reflexivity|]. exfalso. apply (in_map td_num) in Hf. rewrite M2, E0 in Hf. apply in_map_iff in Hf as (x & X1 & X2).
      apply in_seq in X2. lia. }
    subst h. destruct Hg as [<-|Hg]; [apply kle_refl|]. apply klt_kle. destruct (H f (or_introl eq_refl)) as (r & l & E & Kf).
    rewrite <- Kf. apply (ss_in _ _ _ _ S1 g Hg). rewrite E. now left.
  - intros r Hr. rewrite <- D in Hr. apply in_all_docs in Hr as (f & Hf & Hr). unfold first_seqnum.
    assert (td_max f <= max_seqnum fs).
    { unfold max_seqnum. assert (G : forall l m, m <= fold_left (fun m f => N.max (td_max f) m) l m).
      { induction l as [|x l IH]; intros m; cbn [fold_left]; [lia|]. eapply N.le_trans; [|apply IH]. lia. }
      clear - Hf G. generalize 0. induction fs as [|x fs IH]; intros m; [destruct Hf|]. cbn [fold_left]. destruct Hf as [->|Hf]; [|auto].
      eapply N.le_trans; [|apply G]. lia. }
    pose proof (Q f r Hf Hr). lia.
Qed.

Lemma built_number limit rs : (forall r, In r rs -> r_key r <> []) -> ascending rs -> max_number (built_files limit rs) <= N.of_nat (length rs).
Proof.
  intros K A. pose proof (built_BI limit rs K A) as B. unfold built_files. rewrite (BI_tables _ _ B).
  set (fs := files (b_sets limit rs b_init)) in *. pose proof (bi_docs _ _ B) as D. fold fs in D.
  pose proof (bi_nums _ _ B) as M. fold fs in M. pose proof (bi_head _ _ B) as H. fold fs in H.
  assert (Ln : (length fs <= length rs)%nat).
  { assert (E : length (all_docs fs) = length rs).
    { rewrite D. rewrite <- (map_length r_key (numbered 1 rs)), numbered_keys. apply map_length. }
    rewrite <- E. clear - H. induction fs as [|f fs IH]; [cbn; lia|]. unfold all_docs. cbn [map concat]. rewrite app_length. fold (all_docs fs).
    destruct (H f (or_introl eq_refl)) as (r & l & Ef & _). rewrite Ef. cbn [length].
    specialize (IH (fun g Hg => H g (or_intror Hg))). lia. }
  assert (G : forall f, In f fs -> td_num f <= N.of_nat (length rs)).
  { intros f Hf. apply (in_map td_num) in Hf. rewrite M in Hf. apply in_map_iff in Hf as (x & <- & Hx). apply in_seq in Hx. lia. }
  unfold max_number. assert (G2 : forall m, m <= N.of_nat (length rs) -> fold_left (fun m f => N.max (td_num f) m) fs m <= N.of_nat (length rs)).
  { clear - G. induction fs as [|f fs IH]; intros m L; cbn [fold_left]; [exact L|]. apply IH; [intros g Hg; apply G; now right|].
    specialize (G f (or_introl eq_refl)). lia. }
  apply G2. lia.
Qed.

Lemma set_accepts limit rs r b done : BI done b -> r_key r <> [] -> ascending (done ++ r :: rs) -> (forall x, In x done -> r_key x <> []) ->
  snd (b_set limit r b) = true.
Proof.
  intros B K A Kd. apply (BI_step limit done r b B K). intros x Hx. split; [now apply Kd|].
  apply ss_app_l in A as (_ & _ & A3). apply A3; [exact Hx|now left].
Qed.

(** ** The statements *)

Lemma files_answer : forall hash part c fs R s k, tcfg_ok part c -> files_ok fs -> zero_smallest fs -> max_number fs + tc_parts c + 1 <= NIL ->
  lreach_from hash part c (all_docs fs) (build c fs) R s -> bf_safe c R -> k <> [] ->
  table_answer (newest_write R k) (tm_get hash part c k s).
Proof.
  intros hash part c fs R s k Hc OK Z Hn H S Hk. destruct (build_inv hash part c fs OK Z Hn) as [I V].
  eapply from_answer; eauto.
Qed.

Lemma builder_answer : forall hash part c limit rs R s k, tcfg_ok part c -> (forall r, In r rs -> r_key r <> []) -> ascending rs ->
  N.of_nat (length rs) + tc_parts c + 1 <= NIL ->
  lreach_from hash part c (numbered 1 rs) (built c limit rs) R s -> bf_safe c R -> k <> [] ->
  table_answer (newest_write R k) (tm_get hash part c k s).
Proof.
  intros hash part c limit rs R s k Hc K A Hn H S Hk. destruct (built_ok limit rs K A) as (OK & Z & D & _).
  pose proof (built_number limit rs K A) as Bn.
  eapply (files_answer hash part c (built_files limit rs)); eauto; [lia|]. rewrite D. exact H.
Qed.

Lemma numbered_get : forall n rs r, In r rs -> exists sq, In (mkRec sq INS (r_key r) (r_meta r) (r_val r)) (numbered n rs).
Proof. intros n rs. revert n. induction rs as [|x rs IH]; intros n r []; [subst; eexists; now left|]. destruct (IH (if r_seq x =? NIL then n + 1 else n) r H) as (sq & I). exists sq. now right. Qed.

Lemma builder_reads : forall hash part c limit rs k, tcfg_ok part c -> (forall r, In r rs -> r_key r <> []) -> ascending rs ->
  N.of_nat (length rs) + tc_parts c + 1 <= NIL -> k <> [] ->
  (forall r, In r rs -> r_key r = k -> exists sq, tm_get hash part c k (built c limit rs) = Got (mkRec sq INS k (r_meta r) (r_val r))) /\
  ((forall r, In r rs -> r_key r <> k) -> tm_get hash part c k (built c limit rs) = GotErr KEY_NOT_FOUND).
Proof.
  intros hash part c limit rs k Hc K A Hn Hk.
  assert (S : bf_safe c (numbered 1 rs)).
  { right. right. intros r Hr. left. unfold is_ins. now rewrite (numbered_ins _ _ _ Hr). }
  pose proof (builder_answer hash part c limit rs _ _ k Hc K A Hn (lf_start _ _ _ _ _) S Hk) as T. split.
  - intros r Hr E. destruct (numbered_get 1 rs r Hr) as (sq & I). exists sq. rewrite E in I.
    assert (W : newest_write (numbered 1 rs) k = Some (mkRec sq INS k (r_meta r) (r_val r))).
    { apply newest_unique; [|exact I|reflexivity|reflexivity].
      destruct (built_ok limit rs K A) as (OK & _ & D & _). rewrite <- D. now apply docs_unique. }
    rewrite W in T. cbn [table_answer] in T. destruct T as [T|[T _]]; [exact T|discriminate T].
  - intros N. destruct (newest_write (numbered 1 rs) k) as [r|] eqn:W; [|exact T].
    apply newest_write_in in W as (W1 & W2 & _). apply (in_map r_key) in W1. rewrite numbered_keys in W1.
    apply in_map_iff in W1 as (x & X1 & X2). destruct (N x X2). congruence.
Qed.

Lemma auto_numbers : forall rs n, (forall r, In r rs -> r_seq r = NIL) ->
  map r_seq (numbered (N.of_nat n) rs) = map N.of_nat (seq n (length rs)).
Proof.
  induction rs as [|r rs IH]; intros n H; [reflexivity|]. cbn [numbered map length seq].
  rewrite (H r (or_introl eq_refl)), N.eqb_refl. cbn [r_seq]. f_equal. replace (N.of_nat n + 1) with (N.of_nat (S n)) by lia.
  apply IH. intros x Hx. apply H. now right.
Qed.
Lemma auto_distinct : forall limit rs, (forall r, In r rs -> r_key r <> []) -> ascending rs -> (forall r, In r rs -> r_seq r = NIL) ->
  NoDup (map r_seq (all_docs (built_files limit rs))).
Proof.
  intros limit rs K A H. destruct (built_ok limit rs K A) as (_ & _ & -> & _). change 1 with (N.of_nat 1). rewrite auto_numbers by exact H.
  apply FinFun.Injective_map_NoDup; [intros x y; apply Nnat.Nat2N.inj|apply seq_NoDup].
Qed.
Lemma seqs_below : forall limit rs, (forall r, In r rs -> r_key r <> []) -> ascending rs ->
  forall r, In r (all_docs (built_files limit rs)) -> r_seq r < first_seqnum (built_files limit rs).
Proof. intros limit rs K A r. destruct (built_ok limit rs K A) as (_ & _ & D & B). rewrite D at 1. apply B. Qed.
