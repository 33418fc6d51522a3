(** A Builder given records in any order. *)
From Coq Require Import List NArith Bool Lia Arith Sorted Permutation.
From Verif Require Import Base LogFormatModel KeyModel KeyProofs BloomModel MemTableModel LsmModel LsmProofs LsmProofs2 LsmProofs3 LsmProofs4 LsmProofs5
  BuilderModel BuilderSpec BuilderProofs.
Import ListNotations.
Local Open Scope N_scope.

Record DI (done : list rec) (b : bst) : Prop := {
  di_docs : forall x, In x (all_docs (files b)) <-> In x (numbered 1 done);
  di_ctr : w_ctr b = ctr_after 1 done;
  di_idx : w_idx b = N.of_nat (length (files b));
  di_nums : map td_num (files b) = map N.of_nat (seq 0 (length (files b)));
  di_asc : forall f, In f (files b) -> docs_ok (td_docs f);
  di_first : forall f, In f (files b) -> td_min f <> [] /\ exists r, In r (td_docs f) /\ r_key r = td_min f;
  di_none : w_cur b = None -> w_tabs b = [] /\ w_docs b = 0 /\ w_min b = [];
  di_some : w_cur b <> None -> w_docs b <> 0;
  di_len : (length (files b) <= length done)%nat }.

Lemma DI_init : DI [] b_init.
Proof. constructor; cbn; try reflexivity; try tauto; try (intros f []); auto. Qed.

Lemma DI_step limit done r b : DI done b -> r_key r <> [] -> (forall x, In x done -> r_key x <> r_key r) ->
  DI (done ++ [r]) (fst (b_set limit r b)).
Proof.
  intros [D C X M A F O S Ln] K L.
  assert (L' : forall x, In x (all_docs (files b)) -> r_key x <> r_key r).
  { intros x Hx. apply D in Hx. apply (in_map r_key) in Hx. rewrite numbered_keys in Hx. apply in_map_iff in Hx as (y & E & Hy).
    rewrite <- E. now apply L. }
  assert (KM : forall A (x y : A), match r_key r with [] => x | _ :: _ => y end = y) by (intros U x y; destruct (r_key r); [now destruct K|reflexivity]).
  set (r' := as_stored (w_ctr b) r).
  assert (N1 : numbered 1 (done ++ [r]) = numbered 1 done ++ [r']) by (rewrite numbered_app, <- C; reflexivity).
  assert (C1 : ctr_after 1 (done ++ [r]) = if r_seq r =? NIL then w_ctr b + 1 else w_ctr b).
  { unfold ctr_after. rewrite fold_left_app. cbn [fold_left]. fold (ctr_after 1 done). now rewrite <- C. }
  assert (Fresh : forall b', w_tabs b' = files b -> w_idx b' = w_idx b + 1 ->
     forall est, DI (done ++ [r]) (mkW (Some (w_idx b, fd_set r' [])) (r_key r) est 1 (N.max (w_max b') (r_seq r'))
        (if r_seq r =? NIL then w_ctr b + 1 else w_ctr b) (w_idx b') (w_tabs b'))).
  { intros b' Bt Bi est. constructor; unfold files; cbn [w_cur w_tabs w_min w_max w_ctr w_idx w_docs]; rewrite ?Bt.
    - intros x. rewrite all_docs_app, N1, !in_app_iff, D. reflexivity.
    - now rewrite C1.
    - rewrite app_length. cbn [length]. rewrite Bi, X. lia.
    - rewrite app_length, map_app, M. cbn [length map td_num]. rewrite seq_snoc. now rewrite X.
    - intros f Hf. apply in_app_or in Hf as [Hf|[<-|[]]]; [now apply A|]. cbn [td_docs fd_set]. repeat constructor.
    - intros f Hf. apply in_app_or in Hf as [Hf|[<-|[]]]; [now apply F|]. cbn [td_docs td_min fd_set]. split; [exact K|]. exists r'. split; [now left|reflexivity].
    - discriminate.
    - discriminate.
    - rewrite !app_length. cbn [length]. lia. }
  unfold b_set, with_file. destruct (w_cur b) as [[n docs]|] eqn:E.
  - assert (Fb : files b = w_tabs b ++ [mkTD n (w_min b) (w_max b) docs]) by (unfold files; now rewrite E).
    destruct (limit <? w_est b) eqn:EL.
    + unfold finalize. rewrite E. cbn [w_cur w_tabs w_min w_max w_ctr w_idx w_docs w_est].
      rewrite KM. cbn [fst]. rewrite <- Fb.
      apply (Fresh (mkW None [] 0 0 (w_max b) (w_ctr b) (w_idx b + 1) (files b))); reflexivity.
    + rewrite KM. cbn [fst]. rewrite Fb in *.
      assert (Hc : In (mkTD n (w_min b) (w_max b) docs) (w_tabs b ++ [mkTD n (w_min b) (w_max b) docs])) by (apply in_or_app; right; now left).
      pose proof (A _ Hc) as Ad. destruct (F _ Hc) as [Fm (h & Fh & Fk)]. cbn [td_docs td_min] in *.
      assert (Ld : forall x, In x docs -> r_key x <> r_key r).
      { intros x Hx. apply L'. rewrite all_docs_app. apply in_or_app. right. unfold all_docs. cbn. now rewrite app_nil_r. }
      destruct (fd_set_spec r' docs Ad) as [S1 S2].
      assert (Si : forall x, In x (fd_set r' docs) <-> In x docs \/ x = r').
      { intros x. rewrite S2. split; [tauto|]. intros [Hx|Hx]; [right; split; [exact Hx|exact (Ld x Hx)]|now left]. }
      assert (Wm : match w_min b with [] => r_key r | _ => w_min b end = w_min b) by (destruct (w_min b); [now destruct Fm|reflexivity]).
      fold r'. rewrite Wm.
      constructor; unfold files; cbn [w_cur w_tabs w_min w_max w_ctr w_idx w_docs].
      * intros x. rewrite N1, in_app_iff, <- D, !all_docs_app, !in_app_iff. unfold all_docs at 2 4. cbn [map concat td_docs In]. rewrite !app_nil_r, Si.
        split; [intros [Q|[Q|Q]]; auto; right; left; now symmetry|intros [[Q|Q]|[Q|[]]]; auto].
      * now rewrite C1.
      * rewrite app_length in *. exact X.
      * rewrite !map_app, !app_length in *. exact M.
      * intros f Hf. apply in_app_or in Hf as [Hf|[<-|[]]]; [apply A, in_or_app; now left|exact S1].
      * intros f Hf. apply in_app_or in Hf as [Hf|[<-|[]]]; [apply F, in_or_app; now left|]. cbn [td_docs td_min]. split; [exact Fm|].
        exists h. split; [apply Si; now left|exact Fk].
      * discriminate.
      * intros _. lia.
      * rewrite !app_length in *. cbn [length] in *. lia.
  - destruct (O eq_refl) as (O1 & O2 & O3). cbn [w_cur w_tabs w_min w_max w_ctr w_idx w_docs w_est]. rewrite O1, O2, O3.
    rewrite KM. cbn [fst].
    assert (Fb : files b = []) by (unfold files; now rewrite E, O1).
    rewrite Fb in Fresh. apply (Fresh (mkW None [] 0 0 (w_max b) (w_ctr b) (w_idx b + 1) [])); reflexivity.
Qed.

Lemma DI_sets limit : forall rs done b, DI done b -> (forall r, In r (done ++ rs) -> r_key r <> []) -> NoDup (map r_key (done ++ rs)) ->
  DI (done ++ rs) (b_sets limit rs b).
Proof.
  induction rs as [|r rs IH]; intros done b B K A; cbn [b_sets]; [now rewrite app_nil_r|].
  replace (done ++ r :: rs) with ((done ++ [r]) ++ rs) in * by now rewrite <- app_assoc.
  apply IH; [|exact K|exact A]. apply DI_step; [exact B| |].
  - apply K. apply in_or_app. left. apply in_or_app. right. now left.
  - intros x Hx E. rewrite <- app_assoc in A. rewrite map_app in A. cbn [app map] in A. apply NoDup_remove_2 in A. apply A.
    apply in_or_app. left. rewrite <- E. now apply in_map.
Qed.

Lemma DI_tables done b : DI done b -> b_tables b = files b.
Proof.
  intros B. unfold b_tables, files. destruct (w_cur b) as [[n docs]|] eqn:E.
  - destruct (N.eqb_spec (w_docs b) 0) as [Z|Z]; [destruct (di_some _ _ B); [congruence|exact Z]|]. unfold finalize. now rewrite E.
  - destruct (di_none _ _ B E) as (T1 & T2 & _). rewrite T2. cbn. now rewrite app_nil_r.
Qed.

(** Whatever is recorded as the smallest key of file 0 is not looked at. *)
Definition fixf (f : tdata) : tdata :=
  if td_num f =? 0 then mkTD (td_num f) (match td_docs f with r :: _ => r_key r | [] => [] end) (td_max f) (td_docs f) else f.
Lemma fixf_docs f : td_docs (fixf f) = td_docs f.
Proof. unfold fixf. now destruct (td_num f =? 0). Qed.
Lemma fixf_num f : td_num (fixf f) = td_num f.
Proof. unfold fixf. now destruct (td_num f =? 0). Qed.
Lemma fixf_tbl f : as_tbl 0 (fixf f) = as_tbl 0 f.
Proof. unfold as_tbl. rewrite fixf_num, fixf_docs. unfold fixf. destruct (N.eqb_spec (td_num f) 0) as [->|N]; [reflexivity|]. now rewrite (proj2 (N.eqb_neq 0 (td_num f))) by congruence. Qed.
Lemma fixf_all fs : all_docs (map fixf fs) = all_docs fs.
Proof. unfold all_docs. rewrite map_map. f_equal. apply map_ext. exact fixf_docs. Qed.
Lemma fixf_max fs : max_number (map fixf fs) = max_number fs.
Proof. unfold max_number. generalize 0. induction fs as [|f fs IH]; intros m; [reflexivity|]. cbn [map fold_left]. now rewrite fixf_num, IH. Qed.
Lemma fixf_level fs : level_one (map fixf fs) = level_one fs.
Proof.
  unfold level_one. rewrite !mk_zero. generalize (@nil tbl). induction fs as [|f fs IH]; intros l; [reflexivity|]. cbn [map fold_left]. now rewrite fixf_tbl, IH.
Qed.
Lemma fixf_build c fs : build c (map fixf fs) = build c fs.
Proof. unfold build. rewrite fixf_max, fixf_level. now destruct fs. Qed.

Lemma seq_inj fs f g : map td_num fs = map N.of_nat (seq 0 (length fs)) -> In f fs -> In g fs -> td_num f = td_num g -> f = g.
Proof.
  intros M. assert (D : NoDup (map td_num fs)) by (rewrite M; apply FinFun.Injective_map_NoDup; [intros x y; apply Nnat.Nat2N.inj|apply seq_NoDup]). clear M.
  revert D. induction fs as [|x fs IH]; intros D Hf Hg E; [destruct Hf|]. cbn [map] in D. inversion D as [|? ? N D']; subst.
  destruct Hf as [<-|Hf], Hg as [<-|Hg]; auto; destruct N; [rewrite E|rewrite <- E]; now apply in_map.
Qed.

Lemma docs_head r l x : docs_ok (r :: l) -> In x (r :: l) -> kle (r_key r) (r_key x).
Proof. intros D [<-|H]; [apply kle_refl|]. apply klt_kle. exact (ss_in _ _ _ _ D x H). Qed.

Lemma any_files_ok limit rs : (forall r, In r rs -> r_key r <> []) -> NoDup (map r_key rs) -> apart_files (built_files limit rs) ->
  files_ok (map fixf (built_files limit rs)) /\ zero_smallest (map fixf (built_files limit rs)).
Proof.
  intros K Nd [H1 H2]. pose proof (DI_sets limit rs [] b_init DI_init K Nd) as B. cbn [app] in B. unfold built_files in *. rewrite (DI_tables _ _ B) in *.
  set (fs := files (b_sets limit rs b_init)) in *.
  pose proof (di_docs _ _ B) as D. fold fs in D. pose proof (di_nums _ _ B) as M. fold fs in M.
  pose proof (di_asc _ _ B) as A. fold fs in A. pose proof (di_first _ _ B) as F. fold fs in F.
  assert (Mn : forall f, In f fs -> td_num f <> 0 -> td_min (fixf f) = td_min f).
  { intros f Hf N. unfold fixf. apply N.eqb_neq in N. now rewrite N. }
  assert (Hd : forall f, In f fs -> exists r l, td_docs f = r :: l /\ r_key r = td_min (fixf f)).
  { intros f Hf. destruct (F f Hf) as [_ (h & Fh & Fk)]. destruct (td_docs f) as [|r l] eqn:E; [destruct Fh|]. exists r, l. split; [reflexivity|].
    destruct (N.eq_dec (td_num f) 0) as [Z|Z].
    - unfold fixf. rewrite Z, E. reflexivity.
    - rewrite (Mn f Hf Z). pose proof (A f Hf) as Af. rewrite E in Af. pose proof (docs_head r l h Af Fh) as L1. rewrite Fk in L1.
      pose proof (H1 f Hf Z r) as L2. rewrite E in L2. specialize (L2 (or_introl eq_refl)). apply kle_antisym; assumption. }
  assert (Ap : forall f g, In f fs -> In g fs -> td_num f < td_num g -> forall r, In r (td_docs f) -> klt (r_key r) (td_min (fixf g))).
  { intros f g Hf Hg Lt r Hr. rewrite (Mn g Hg) by lia. exact (H2 f g Hf Hg Lt r Hr). }
  split.
  - constructor.
    + rewrite map_map. rewrite (map_ext (fun x => td_num (fixf x)) td_num fixf_num). rewrite M. apply FinFun.Injective_map_NoDup; [intros x y; apply Nnat.Nat2N.inj|apply seq_NoDup].
    + intros g Hg. apply in_map_iff in Hg as (f & <- & Hf). rewrite fixf_docs. exact (A f Hf).
    + intros g Hg. apply in_map_iff in Hg as (f & <- & Hf). destruct (Hd f Hf) as (r & l & E & Kr). rewrite fixf_docs. split; [|exists r, l; auto].
      rewrite <- Kr. assert (I : In r (numbered 1 rs)) by (apply D; apply in_all_docs; exists f; rewrite E; split; [exact Hf|now left]).
      apply (in_map r_key) in I. rewrite numbered_keys in I. apply in_map_iff in I as (x & <- & Hx). now apply K.
    + intros g r Hg Hr. apply in_map_iff in Hg as (f & <- & Hf). rewrite fixf_docs in Hr. unfold is_cmd.
      assert (I : In r (numbered 1 rs)) by (apply D; apply in_all_docs; now exists f). now rewrite (numbered_ins _ _ _ I).
    + intros g g' Hg Hg' N. apply in_map_iff in Hg as (f & <- & Hf). apply in_map_iff in Hg' as (f' & <- & Hf'). rewrite !fixf_docs.
      destruct (N.lt_trichotomy (td_num f) (td_num f')) as [Lt|[Eq|Gt]].
      * left. now apply Ap.
      * destruct N. f_equal. now apply (seq_inj fs).
      * right. now apply Ap.
  - intros g g' Hg Hg' Z. apply in_map_iff in Hg as (f & <- & Hf). apply in_map_iff in Hg' as (f' & <- & Hf'). rewrite fixf_num in Z.
    destruct (N.eq_dec (td_num f') 0) as [Z'|Z'].
    + replace f' with f by (apply (seq_inj fs); congruence). apply kle_refl.
    + apply klt_kle. destruct (Hd f Hf) as (r & l & E & <-). apply (Ap f f'); auto; [lia|]. rewrite E. now left.
Qed.

Lemma any_number limit rs : (forall r, In r rs -> r_key r <> []) -> NoDup (map r_key rs) -> max_number (built_files limit rs) <= N.of_nat (length rs).
Proof.
  intros K Nd. pose proof (DI_sets limit rs [] b_init DI_init K Nd) as B. cbn [app] in B. unfold built_files in *. rewrite (DI_tables _ _ B) in *.
  set (fs := files (b_sets limit rs b_init)) in *. pose proof (di_nums _ _ B) as M. fold fs in M. pose proof (di_len _ _ B) as Ln. fold fs in Ln.
  assert (G : forall f, In f fs -> td_num f <= N.of_nat (length rs)).
  { intros f Hf. apply (in_map td_num) in Hf. rewrite M in Hf. apply in_map_iff in Hf as (x & <- & Hx). apply in_seq in Hx. lia. }
  unfold max_number. assert (G2 : forall m, m <= N.of_nat (length rs) -> fold_left (fun m f => N.max (td_num f) m) fs m <= N.of_nat (length rs)).
  { clear - G. induction fs as [|f fs IH]; intros m L; cbn [fold_left]; [exact L|]. apply IH; [intros g Hg; apply G; now right|].
    specialize (G f (or_introl eq_refl)). lia. }
  apply G2. lia.
Qed.

Lemma any_reads : forall hash part c limit rs k, tcfg_ok part c -> (forall r, In r rs -> r_key r <> []) -> NoDup (map r_key rs) ->
  N.of_nat (length rs) + tc_parts c + 1 <= NIL -> apart_files (built_files limit rs) -> k <> [] ->
  (forall r, In r rs -> r_key r = k -> exists sq, tm_get hash part c k (built c limit rs) = Got (mkRec sq INS k (r_meta r) (r_val r))) /\
  ((forall r, In r rs -> r_key r <> k) -> tm_get hash part c k (built c limit rs) = GotErr KEY_NOT_FOUND).
Proof.
  intros hash part c limit rs k Hc K Nd Hn Ap Hk. destruct (any_files_ok limit rs K Nd Ap) as [OK Z]. pose proof (any_number limit rs K Nd) as Hm.
  pose proof (DI_sets limit rs [] b_init DI_init K Nd) as B. cbn [app] in B.
  assert (D : forall x, In x (all_docs (built_files limit rs)) <-> In x (numbered 1 rs)).
  { intros x. unfold built_files. rewrite (DI_tables _ _ B). apply (di_docs _ _ B). }
  set (fs := built_files limit rs) in *.
  assert (S : bf_safe c (all_docs fs)).
  { right. right. intros r Hr. left. apply D in Hr. unfold is_ins. now rewrite (numbered_ins _ _ _ Hr). }
  pose proof (files_answer hash part c (map fixf fs) (all_docs fs) (build c fs) k Hc OK Z) as T. rewrite fixf_max, fixf_all, fixf_build in T.
  specialize (T ltac:(lia) (lf_start _ _ _ _ _) S Hk). change (built c limit rs) with (build c fs). split.
  - intros r Hr E. destruct (numbered_get 1 rs r Hr) as (sq & I). exists sq. rewrite E in I. apply D in I.
    assert (W : newest_write (all_docs fs) k = Some (mkRec sq INS k (r_meta r) (r_val r))).
    { apply newest_unique; [|exact I|reflexivity|reflexivity]. rewrite <- fixf_all. now apply docs_unique. }
    rewrite W in T. cbn [table_answer] in T. destruct T as [T|[T _]]; [exact T|discriminate T].
  - intros N. destruct (newest_write (all_docs fs) k) as [r|] eqn:W; [|exact T].
    apply newest_write_in in W as (W1 & W2 & _). apply D in W1. apply (in_map r_key) in W1. rewrite numbered_keys in W1.
    apply in_map_iff in W1 as (x & X1 & X2). destruct (N x X2). congruence.
Qed.

(** ** Records that fit in one file *)
Definition one (b : bst) : Prop := w_tabs b = [] /\ (w_cur b = None -> w_idx b = 0) /\ forall n d, w_cur b = Some (n, d) -> n = 0.

Lemma one_sets limit : forall rs b, one b -> (forall r, In r rs -> r_key r <> []) -> w_est b + total_size rs <= limit -> one (b_sets limit rs b).
Proof.
  induction rs as [|r rs IH]; intros b O K L; cbn [b_sets]; [exact O|]. cbn [total_size] in L. destruct O as (O1 & O2 & O3).
  assert (KM : forall A (x y : A), match r_key r with [] => x | _ :: _ => y end = y).
  { intros U x y. destruct (r_key r) eqn:E; [exfalso; exact (K r (or_introl eq_refl) E)|reflexivity]. }
  apply IH; [|intros x Hx; apply K; now right|].
  - unfold b_set, with_file. destruct (w_cur b) as [[n d]|] eqn:E.
    + replace (limit <? w_est b) with false by (symmetry; apply N.ltb_ge; lia). rewrite KM. cbn [fst]. split; [exact O1|]. split; [discriminate|].
      cbn [w_cur]. intros n' d' [= <- _]. now apply (O3 n d).
    + rewrite KM. cbn [fst]. split; [exact O1|]. split; [discriminate|]. cbn [w_cur]. intros n' d' [= <- _]. now apply O2.
  - unfold b_set, with_file. destruct (w_cur b) as [[n d]|] eqn:E.
    + replace (limit <? w_est b) with false by (symmetry; apply N.ltb_ge; lia). rewrite KM. cbn [fst w_est]. unfold APPROX_META_SIZE. lia.
    + rewrite KM. cbn [fst w_est]. unfold APPROX_META_SIZE. lia.
Qed.

Lemma one_apart limit rs : (forall r, In r rs -> r_key r <> []) -> total_size rs <= limit -> apart_files (built_files limit rs).
Proof.
  intros K L. assert (O : one (b_sets limit rs b_init)) by (apply one_sets; [repeat split; discriminate|exact K|exact L]). destruct O as (O1 & _ & O3).
  assert (Z : forall f, In f (built_files limit rs) -> td_num f = 0).
  { intros f Hf. unfold built_files, b_tables in Hf. destruct (w_docs (b_sets limit rs b_init) =? 0); [rewrite O1 in Hf; destruct Hf|].
    unfold finalize in Hf. destruct (w_cur (b_sets limit rs b_init)) as [[n d]|] eqn:E; [|rewrite O1 in Hf; destruct Hf].
    cbn [w_tabs] in Hf. rewrite O1 in Hf. cbn [app] in Hf. destruct Hf as [<-|[]]. exact (O3 n d eq_refl). }
  split.
  - intros f Hf N. destruct N. now apply Z.
  - intros f g Hf Hg Lt. rewrite (Z f Hf), (Z g Hg) in Lt. lia.
Qed.
