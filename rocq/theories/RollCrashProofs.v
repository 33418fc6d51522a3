(** Proofs about a death in the middle of a rollback. *)
From Verif Require Import Base KeyModel LogFormatModel BloomModel MemTableModel KeyProofs BloomProofs LogWriterModel LogSpec MemTableProofs RollbackModel RollCrashModel RollbackSpec RollCrashSpec
  RollbackProofs RollbackProofs2 RollbackProofs3 RollbackProofs4.
From Coq Require Import Sorted ZifyBool.
Local Open Scope N_scope.

(** ** Opening what is on disk *)

Lemma open_none : forall fs gone last mx ls, (forall f, In f fs -> gone (rf_num f) = false) ->
  r_open_gone gone last mx ls fs = r_open last mx ls fs.
Proof.
  induction fs as [|f t IH]; intros gone last mx ls H; [reflexivity|]. cbn [r_open_gone r_open].
  rewrite (H f (or_introl eq_refl)), IH by (intros x Hx; apply H; right; exact Hx). reflexivity.
Qed.

Lemma open_saved : forall fs last mx ls, r_open last mx ls (map r_saved fs) = r_open last mx ls fs.
Proof.
  induction fs as [|f t IH]; intros last mx ls; [reflexivity|]. cbn [map r_open]. rewrite IH. destruct t; reflexivity.
Qed.

Lemma upd_saved : forall n d fs, map r_saved (rf_upd n (with_disk d) fs) = rf_upd n (with_disk d) (map r_saved fs).
Proof.
  intros n d. induction fs as [|f t IH]; [reflexivity|]. unfold rf_upd in *. cbn [map]. rewrite IH. f_equal.
  change (rf_num (r_saved f)) with (rf_num f). destruct (rf_num f =? n); reflexivity.
Qed.

Lemma open_upd : forall n d fs last mx ls,
  r_open last mx ls (rf_upd n (with_disk d) fs) =
  (rf_upd n (with_disk d) (fst (fst (r_open last mx ls fs))), snd (fst (r_open last mx ls fs)), snd (r_open last mx ls fs)).
Proof.
  intros n d. induction fs as [|f t IH]; intros last mx ls; [reflexivity|].
  change (rf_upd n (with_disk d) (f :: t)) with ((if rf_num f =? n then with_disk d f else f) :: rf_upd n (with_disk d) t).
  set (g := if rf_num f =? n then with_disk d f else f).
  assert (E1 : rf_get m_min rf_min g = rf_get m_min rf_min f) by (unfold g; destruct (rf_num f =? n); reflexivity).
  assert (E2 : rf_get m_flushed rf_flushed g = rf_get m_flushed rf_flushed f) by (unfold g; destruct (rf_num f =? n); reflexivity).
  assert (E3 : rf_get m_synced rf_synced g = rf_get m_synced rf_synced f) by (unfold g; destruct (rf_num f =? n); reflexivity).
  assert (E4 : rf_num g = rf_num f) by (unfold g; destruct (rf_num f =? n); reflexivity).
  cbn [r_open]. rewrite E1, E2, E3, E4, IH.
  assert (E5 : match rf_upd n (with_disk d) t with [] => true | _ => false end = match t with [] => true | _ => false end) by (destruct t; reflexivity).
  rewrite E5. match goal with |- (if ?b then _ else _) = _ => destruct b end.
  - destruct (rf_num f =? 0); reflexivity.
  - match goal with |- context [r_open ?a mx ?b t] => destruct (r_open a mx b t) as [[u v] w] end. cbn [fst snd].
    f_equal. f_equal. unfold rf_upd at 2. cbn [map]. fold (rf_upd n (with_disk d) u). f_equal. cbn [rf_num]. unfold g.
    destruct (rf_num f =? n); reflexivity.
Qed.

(** Number and content of the files. *)
Definition kd (f : rfile) : N * list entry := (rf_num f, rf_disk f).

Lemma open_kd : forall fs last mx ls fs' mx' ls', r_open last mx ls fs = (fs', mx', ls') ->
  (exists rest, map kd fs = map kd fs' ++ rest) /\ forall f, In f fs' -> rf_mem f = None.
Proof.
  induction fs as [|f t IH]; intros last mx ls fs' mx' ls' E.
  - cbn in E. injection E as <- <- <-. split; [exists []; reflexivity|intros ? []].
  - cbn [r_open] in E. match type of E with (if ?b then _ else _) = _ => destruct b end.
    + destruct (rf_num f =? 0); injection E as <- <- <-; (split; [exists (map kd (f :: t)); reflexivity|intros ? []]).
    + match type of E with context [r_open ?a mx ?b t] => destruct (r_open a mx b t) as [[u v] w] eqn:E2 end.
      injection E as <- <- <-. destruct (IH _ _ _ _ _ _ E2) as ((rest & I1) & I2). split.
      * exists rest. cbn [map app]. rewrite I1. reflexivity.
      * intros x [<-|Hx]; [reflexivity|apply I2, Hx].
Qed.

(** A missing file cuts the list there. *)
Lemma open_gone : forall gone g B P last mx ls R mx' ls',
  (forall f, In f P -> gone (rf_num f) = false) -> gone (rf_num g) = true ->
  r_open last mx ls (P ++ g :: B) = (R, mx', ls') -> length R = length (P ++ g :: B) ->
  r_open_gone gone last mx ls (P ++ g :: B) = (firstn (length P) R, rf_num g - 1, rf_num g - 1).
Proof.
  intros gone g B. induction P as [|f P IH]; intros last mx ls R mx' ls' HP Hg E HL.
  - cbn [app length firstn] in *. cbn [r_open] in E. cbn [r_open_gone].
    match type of E with (if ?b then _ else _) = _ => destruct b end.
    + exfalso. destruct (rf_num g =? 0); injection E as <- _ _; discriminate.
    + rewrite Hg. reflexivity.
  - cbn [app length firstn] in *. cbn [r_open] in E. cbn [r_open_gone].
    assert (E5 : match P ++ g :: B with [] => true | _ => false end = false) by (destruct P; reflexivity).
    match type of E with (if ?b then _ else _) = _ => destruct b end.
    + exfalso. destruct (rf_num f =? 0); injection E as <- _ _; discriminate.
    + rewrite (HP f (or_introl eq_refl)).
      match type of E with context [r_open ?a mx ?b _] => destruct (r_open a mx b (P ++ g :: B)) as [[u v] w] eqn:E2 end.
      injection E as <- <- <-. cbn [length] in HL.
      rewrite (IH _ _ _ _ _ _ (fun x Hx => HP x (or_intror Hx)) Hg E2 ltac:(lia)). reflexivity.
Qed.

(** ** One file shorter *)

(** The records in the files. *)
Definition dl (fs : list rfile) : list rec := flat_map (fun f => recs_of (rf_disk f)) fs.
Definition purged (fs : list rfile) : Prop := forall f, In f fs -> rf_mem f = None.

Section Proofs.
Variable hash : key -> N * N.
Variable c : rcfg.
Hypothesis Hc : cfg_fine c.

Notation FI := (FI hash).
Notation MI := (MI hash).
Notation pre := (pre hash).
Notation mid_ok := (mid_ok hash).
Notation last_ok := (last_ok hash).
Notation inv := (inv hash).
Notation parts := (parts hash).
Notation synced_inv := (synced_inv hash).

Lemma fi_disk : forall f Lf, FI f Lf -> rf_mem f = None -> Lf = recs_of (rf_disk f) /\ Lf <> [].
Proof. intros f Lf H E. assert (Q := fi_mem _ _ _ H). rewrite E in Q. destruct Q as (Q1 & Q2 & _). split; [symmetry; exact Q2|exact Q1]. Qed.

Lemma parts_dl : forall fs L, parts fs L -> purged fs -> L = dl fs /\ forall f, In f fs -> FI f (recs_of (rf_disk f)).
Proof.
  intros fs L H. induction H as [|fs L f Lf Hp IH HF]; intros HP; [split; [reflexivity|intros ? []]|].
  destruct IH as [-> I2]; [intros x Hx; apply HP, in_or_app; left; exact Hx|].
  destruct (fi_disk f Lf HF) as [-> _]; [apply HP, in_or_app; right; left; reflexivity|]. split.
  - unfold dl. rewrite flat_map_app. cbn [flat_map]. rewrite app_nil_r. reflexivity.
  - intros x Hx. apply in_app_or in Hx. destruct Hx as [Hx|[<-|[]]]; [apply I2, Hx|exact HF].
Qed.

Lemma parts_of : forall fs, (forall f, In f fs -> FI f (recs_of (rf_disk f))) -> parts fs (dl fs).
Proof.
  induction fs as [|f fs IH] using rev_ind; intros H; [constructor|]. unfold dl. rewrite flat_map_app. cbn [flat_map]. rewrite app_nil_r.
  constructor; [apply IH; intros x Hx; apply H, in_or_app; left; exact Hx|apply H, in_or_app; right; left; reflexivity].
Qed.

Lemma get_parts : forall fs L k, parts fs L -> answers (r_first_ok hash c k (rev fs)) (latest k L).
Proof.
  intros fs L k H. induction H as [|fs L f Lf Hp IH HF]; [cbn; eauto|].
  rewrite rev_app_distr. cbn [rev app r_first_ok]. assert (X := get_file hash c Hc f Lf k HF). rewrite latest_app.
  destruct (view hash c f) as [m| |]; try contradiction. destruct (latest k Lf) as [r|].
  - rewrite X. reflexivity.
  - destruct X as (e & ->). exact IH.
Qed.

(** A shorter file is a log file with fewer records, although the numbers kept for it are old. *)
Lemma fi_short : forall f d n, FI f (recs_of (rf_disk f)) -> rf_mem f = None -> cut n (rf_disk f) = Some d ->
  FI (with_disk d f) (recs_of d) /\ recs_of d = filter (fun r => r_seq r <=? n) (recs_of (rf_disk f)) /\ recs_of d <> [] /\
  fst_seq (recs_of (rf_disk f)) <= n.
Proof.
  intros f d n H E HC. assert (CR := cut_recs n (rf_disk f) (fi_asc _ _ _ H)). rewrite HC in CR. destruct CR as [C1 C2].
  assert (Q := fi_mem _ _ _ H). rewrite E in Q. destruct Q as (Q1 & _ & Q3 & Q4 & Q5 & Q6 & Q7).
  assert (HF : exists x t, recs_of (rf_disk f) = x :: t /\ r_seq x <= n).
  { destruct (recs_of (rf_disk f)) as [|x t] eqn:EL; [congruence|]. exists x, t. split; [reflexivity|].
    destruct (recs_of d) as [|y u] eqn:Ed; [congruence|].
    assert (Hy : In y (filter (fun r => r_seq r <=? n) (x :: t))) by (rewrite <- C1; left; reflexivity).
    apply filter_In in Hy. destruct Hy as [Hy1 Hy2]. assert (X := fst_le _ _ (fi_asc _ _ _ H) Hy1). cbn [fst_seq] in X. lia. }
  destruct HF as (x & t & EL & Hx). split; [|split; [exact C1|split; [exact C2|rewrite EL; exact Hx]]].
  constructor.
  - rewrite C1. apply filter_sorted, (fi_asc _ _ _ H).
  - intros r Hr. rewrite C1 in Hr. apply filter_In in Hr. apply (fi_bnd _ _ _ H), Hr.
  - cbn [with_disk rf_mem rf_disk rf_imm rf_min rf_max rf_flushed rf_synced]. rewrite E.
    split; [exact C2|]. split; [reflexivity|]. split; [exact Q3|]. split.
    + rewrite C1, Q4, EL. cbn [filter fst_seq]. destruct (r_seq x <=? n) eqn:Z; [reflexivity|lia].
    + split; [exact Q5|]. split; [|exact Q7]. destruct (end_in _ C2) as (y & Hy & Ey). rewrite C1 in Hy. apply filter_In in Hy.
      assert (X := end_ge _ _ (fi_asc _ _ _ H) (proj1 Hy)). lia.
Qed.

Lemma by_start_map : forall h s fs, (forall f, rf_start (h f) = rf_start f) ->
  r_by_start s (map h fs) = option_map h (r_by_start s fs).
Proof.
  intros h s fs H. induction fs as [|f t IH]; [reflexivity|]. cbn [map r_by_start]. rewrite IH, H.
  destruct (r_by_start s t) as [x|]; cbn [option_map].
  - rewrite H. destruct (_ && _); reflexivity.
  - destruct (_ <=? _); reflexivity.
Qed.

Lemma by_seq_map : forall h s fs, (forall f, rf_start (h f) = rf_start f /\ rf_mem (h f) = rf_mem f /\ rf_min (h f) = rf_min f /\ rf_max (h f) = rf_max f) ->
  r_by_seq s false (map h fs) = option_map h (r_by_seq s false fs).
Proof.
  intros h s fs H. unfold r_by_seq. rewrite by_start_map by apply H. destruct (r_by_start s fs) as [f|]; [|reflexivity]. cbn [option_map].
  destruct (H f) as (H1 & H2 & H3 & H4). unfold rf_get. rewrite H2, H3, H4. cbn [negb]. rewrite !orb_true_r.
  match goal with |- (if ?b then _ else _) = _ => destruct b end; [reflexivity|].
  match goal with |- (if ?b then _ else _) = _ => destruct b end; reflexivity.
Qed.

Lemma numbered_filter : forall (q : N -> bool) m L, numbered m (filter (fun r => q (r_seq r)) L) = if q m then numbered m L else None.
Proof.
  intros q m. induction L as [|a L IH]; [destruct (q m); reflexivity|]. cbn [filter]. unfold numbered in *.
  destruct (q (r_seq a)) eqn:E; cbn [find]; destruct (r_seq a =? m) eqn:E2.
  - apply N.eqb_eq in E2. subst m. rewrite E. reflexivity.
  - exact IH.
  - apply N.eqb_eq in E2. subst m. rewrite IH, E. reflexivity.
  - exact IH.
Qed.

Definition holed (n b x : N) : bool := (x <=? n) || (b <? x).

Lemma hole_log : forall A F B n b, sorted_seq (A ++ F ++ B) -> F <> [] -> fst_seq F <= n -> b = end_seq F ->
  (forall r, In r B -> n < r_seq r) ->
  filter (fun r => holed n b (r_seq r)) (A ++ F ++ B) = A ++ filter (fun r => r_seq r <=? n) F ++ B.
Proof.
  intros A F B n b HS NE Hn Hb HB. rewrite !filter_app. assert (SR := sorted_app_r _ _ HS). assert (SF := sorted_app_l _ _ SR).
  destruct (fst_in _ NE) as (y & Hy & Ey). destruct (end_in _ NE) as (z & Hz & Ez).
  rewrite (filter_all _ A).
  - rewrite (filter_all _ B).
    + f_equal. f_equal. apply filter_ext_in. intros r Hr. unfold holed. assert (X := end_ge _ _ SF Hr). lia.
    + intros r Hr. unfold holed. assert (X := sorted_app_lt _ _ _ _ SR Hz Hr). lia.
  - intros r Hr. unfold holed. assert (X := sorted_app_lt _ _ _ _ HS Hr (in_or_app _ _ _ (or_introl Hy))). lia.
Qed.

(** What reads find when one file was shortened behind the manifest's back. *)
Lemma hole_reads : forall L s A f B n d mx ls, inv L s -> purged (rs_files s) -> rs_files s = A ++ f :: B ->
  cut n (rf_disk f) = Some d -> (forall r, In r (dl B) -> n < r_seq r) ->
  let L' := filter (fun r => holed n (end_seq (recs_of (rf_disk f))) (r_seq r)) L in
  L = dl A ++ recs_of (rf_disk f) ++ dl B /\ L' = dl A ++ recs_of d ++ dl B /\
  rf_upd (rf_num f) (with_disk d) (rs_files s) = A ++ with_disk d f :: B /\
  (forall k, answers (r_get hash c k (mkR (A ++ with_disk d f :: B) mx ls)) (latest k L')) /\
  (forall m, answers (r_get_seq hash c m (mkR (A ++ with_disk d f :: B) mx ls)) (numbered m L')).
Proof.
  intros L s A f B n d mx ls HI HP EF HC HB L'.
  destruct (parts_dl _ _ (inv_parts hash L s HI) HP) as [EL HFI]. destruct (inv_sorted hash L s HI) as [HS _].
  assert (Inf : In f (rs_files s)) by (rewrite EF; apply in_or_app; right; left; reflexivity).
  destruct (fi_short f d n (HFI f Inf) (HP f Inf) HC) as (F1 & F2 & F3 & F4).
  assert (NF : recs_of (rf_disk f) <> []) by (apply (fi_disk f _ (HFI f Inf) (HP f Inf))).
  assert (EL2 : L = dl A ++ recs_of (rf_disk f) ++ dl B) by (rewrite EL, EF; unfold dl; rewrite flat_map_app; reflexivity).
  assert (EL' : L' = dl A ++ recs_of d ++ dl B).
  { unfold L'. rewrite F2, EL2. apply hole_log; [rewrite <- EL2; exact HS|exact NF|exact F4|reflexivity|exact HB]. }
  destruct (inv_part hash _ _ _ _ _ HI EF) as (n0 & LA & Lf & LB & lo & P).
  destruct (pre_nums _ _ _ _ _ _ _ _ (pa_pre _ _ _ _ _ _ _ _ _ _ _ P)) as [_ K2]. assert (K3 := pa_num _ _ _ _ _ _ _ _ _ _ _ P).
  assert (EU : rf_upd (rf_num f) (with_disk d) (rs_files s) = A ++ with_disk d f :: B).
  { rewrite EF, upd_app. change (f :: B) with ([f] ++ B). rewrite upd_app, upd_one, !upd_other; [reflexivity| |].
    - intros x Hx. specialize (K3 x Hx). lia.
    - intros x Hx. specialize (K2 x Hx). lia. }
  split; [exact EL2|]. split; [exact EL'|]. split; [exact EU|]. split.
  - intros k. unfold r_get. cbn [rs_files].
    assert (PP : parts (A ++ with_disk d f :: B) L').
    { rewrite EL'. replace (dl A ++ recs_of d ++ dl B) with (dl (A ++ with_disk d f :: B)) by (unfold dl; rewrite flat_map_app; reflexivity).
      apply parts_of. intros x Hx. apply in_app_or in Hx. destruct Hx as [Hx|[<-|Hx]].
      - apply HFI. rewrite EF. apply in_or_app. left. exact Hx.
      - exact F1.
      - apply HFI. rewrite EF. apply in_or_app. right. right. exact Hx. }
    apply get_parts, PP.
  - intros m. unfold r_get_seq. cbn [rs_files]. rewrite <- EU. unfold rf_upd. rewrite by_seq_map by (intros x; destruct (rf_num x =? rf_num f); repeat split).
    assert (NE : L <> []) by (rewrite EL2; destruct (dl A); [destruct (recs_of (rf_disk f)); [congruence|discriminate]|discriminate]).
    assert (Q := by_seq_spec hash L s m HI NE). unfold L'. rewrite numbered_filter.
    destruct (r_by_seq m false (rs_files s)) as [g|]; cbn [option_map].
    2:{ rewrite Q. destruct (holed _ _ _); cbn; eauto. }
    destruct Q as (A2 & B2 & n2 & LA2 & Lg & LB2 & lo2 & EF2 & P2 & HA2 & HB2 & _).
    assert (Ing : In g (rs_files s)) by (rewrite EF2; apply in_or_app; right; left; reflexivity).
    destruct (fi_disk g Lg (pa_fi _ _ _ _ _ _ _ _ _ _ _ P2) (HP g Ing)) as [-> NG].
    assert (EN : numbered m L = numbered m (recs_of (rf_disk g))).
    { rewrite (pa_L _ _ _ _ _ _ _ _ _ _ _ P2), !numbered_app. rewrite (numbered_none m LA2) by (intros r Hr; specialize (HA2 r Hr); lia).
      rewrite (numbered_none m LB2) by (intros r Hr; specialize (HB2 r Hr); lia). destruct (numbered m (recs_of (rf_disk g))); reflexivity. }
    assert (GEN : forall h, FI h (recs_of (rf_disk h)) -> answers (match view hash c h with
       | Ok m0 => if m_max m0 <? m then Fail KEY_NOT_FOUND else mt_get_seq m m0 | Fail e => Fail e | Undef => Undef end) (numbered m (recs_of (rf_disk h)))).
    { intros h HF. destruct (view_ok hash c Hc h _ HF) as (m0 & E & HM & _). rewrite E. destruct (m_max m0 <? m) eqn:EM.
      + rewrite numbered_none; [cbn; eauto|]. intros r Hr. assert (X := end_ge _ _ (fi_asc _ _ _ HF) Hr). rewrite (mi_max _ _ _ _ HM) in EM. lia.
      + rewrite (mt_get_seq_spec hash _ m0 m (mw_mr _ _ _ (mi_mw _ _ _ _ HM))), (mi_fl _ _ _ _ HM), nil_invalid. cbn [andb].
        rewrite (numbered_rev _ m (fi_asc _ _ _ HF)). destruct (numbered m (recs_of (rf_disk h))); cbn; eauto. }
    destruct (rf_num g =? rf_num f) eqn:EG.
    + assert (g = f).
      { rewrite EF in Ing. apply in_app_or in Ing. destruct Ing as [Hx|[Hx|Hx]]; [specialize (K2 g Hx); lia|symmetry; exact Hx|specialize (K3 g Hx); lia]. }
      subst g. assert (X := GEN (with_disk d f) F1). cbn [with_disk rf_disk] in X. rewrite F2 in X.
      rewrite EN. change (fun r : rec => r_seq r <=? n) with (fun r : rec => (fun x => x <=? n) (r_seq r)) in X. rewrite numbered_filter in X.
      replace (if holed n (end_seq (recs_of (rf_disk f))) m then numbered m (recs_of (rf_disk f)) else None)
        with (if m <=? n then numbered m (recs_of (rf_disk f)) else None); [exact X|].
      unfold holed. destruct (m <=? n); [reflexivity|]. cbn [orb]. destruct (end_seq (recs_of (rf_disk f)) <? m) eqn:Z; [|reflexivity].
      symmetry. apply numbered_none. intros r Hr. assert (Y := end_ge _ _ (fi_asc _ _ _ (HFI f Inf)) Hr). lia.
    + assert (X := GEN g (HFI g Ing)). rewrite EN. destruct (holed n (end_seq (recs_of (rf_disk f))) m) eqn:Z; [exact X|].
      replace None with (numbered m (recs_of (rf_disk g))); [exact X|]. apply numbered_none. intros r Hr Em.
      assert (HS2 := HS). rewrite EL2 in HS2. assert (SR := sorted_app_r _ _ HS2).
      destruct (fst_in _ NF) as (y & Hy & Ey). destruct (end_in _ NF) as (z & Hz & Ez). unfold holed in Z.
      rewrite EF in Ing. apply in_app_or in Ing. destruct Ing as [Hx|[Hx|Hx]].
      * assert (W : In r (dl A)) by (apply in_flat_map; exists g; split; assumption).
        assert (Y := sorted_app_lt _ _ _ _ HS2 W (in_or_app _ _ _ (or_introl Hy))). lia.
      * subst g. lia.
      * assert (W : In r (dl B)) by (apply in_flat_map; exists g; split; assumption).
        assert (Y := sorted_app_lt _ _ _ _ SR Hz W). lia.
Qed.

(** ** The moments *)

(** Everything is on disk, and the log is not empty. *)
Definition oinv (L : list rec) (s : rst) : Prop :=
  exists n0 fA f LA Lf lo, rs_files s = fA ++ [f] /\ L = LA ++ Lf /\
    pre (rs_max s) n0 0 fA LA (rs_max s) lo /\ last_ok (rs_max s) lo f Lf /\ on_disk f Lf /\ Lf <> [] /\
    (valid_number (rs_ls s) = true -> rs_ls s <= rs_max s) /\ rs_max s < NIL.

Lemma synced_oinv : forall L s, synced_inv L s -> L <> [] -> oinv L s.
Proof.
  intros L s (n0 & fA & f & LA & Lf & lo & EF & EL & Hp & Hl & OD & _ & Hls & Hmx) NE.
  exists n0, fA, f, LA, Lf, lo. split; [exact EF|]. split; [exact EL|]. split; [apply Hp|]. split; [exact Hl|]. split; [exact OD|].
  split; [|split; assumption]. intros Z. destruct (last_empty _ _ _ _ _ _ _ _ _ (Hp 0) Hl Z) as [_ Q]. apply NE. rewrite EL, Z, Q. reflexivity.
Qed.

Lemma oinv_nums : forall L s, oinv L s -> StronglySorted N.lt (map rf_num (rs_files s)).
Proof.
  intros L s (n0 & fA & f & LA & Lf & lo & EF & _ & Hp & Hl & _). rewrite EF. assert (NUM := lk_num _ _ _ _ _ Hl). clear -Hp NUM.
  revert Hp NUM. generalize (rs_max s) at 2 3. generalize (rs_max s). intros q x Hp NUM.
  induction Hp as [n lo0|n lo0 g Lg t L n' lo' Hm Hp IH]; cbn [app map].
  { constructor; [constructor|constructor]. }
  apply SSorted_cons; [apply IH, NUM|]. destruct (pre_nums _ _ _ _ _ _ _ _ Hp) as [K1 K2]. assert (E := md_num _ _ _ _ _ _ Hm).
  apply Forall_forall. intros x Hx. apply in_map_iff in Hx. destruct Hx as (y & <- & Hy). apply in_app_or in Hy.
  destruct Hy as [Hy|[<-|[]]]; [specialize (K2 y Hy); lia|lia].
Qed.

Lemma sorted_prefix : forall (z rest : list N) y w u, StronglySorted N.lt (w ++ [y]) -> w ++ [y] = (z ++ [y]) ++ rest -> u = rest -> u = [].
Proof.
  intros z rest y w u HS E ->. destruct rest as [|a rest]; [reflexivity|]. exfalso.
  destruct (exists_last (l := a :: rest)) as (M & v & EM); [discriminate|]. rewrite EM in E.
  rewrite app_assoc in E. apply app_inj_tail in E. destruct E as [E1 E2]. subst v. rewrite E1 in HS.
  clear -HS. induction z as [|b z IH]; cbn [app] in HS.
  - apply StronglySorted_inv in HS. destruct HS as [_ HS]. rewrite Forall_forall in HS.
    assert (X : In y (M ++ [y])) by (apply in_or_app; right; left; reflexivity). specialize (HS y X). lia.
  - apply StronglySorted_inv in HS. apply IH, HS.
Qed.

Lemma open_ok : forall L s, oinv L s -> consecutive L ->
  exists fs l', r_open NIL (rs_max s) (rs_ls s) (rs_files s) = (fs, rs_max s, l') /\ inv L (mkR fs (rs_max s) l') /\
    map kd fs = map kd (rs_files s) /\ purged fs /\ fs <> [].
Proof.
  intros L s HO HC. assert (SN := oinv_nums L s HO).
  destruct HO as (n0 & fA & f & LA & Lf & lo & EF & EL & Hp & Hl & OD & NE & Hls & Hmx).
  destruct (open_pre hash (rs_max s) n0 0 fA LA (rs_max s) lo Hp (vn_lt _ Hmx) (N.le_refl _) Hmx f Lf NIL (rs_max s) (rs_ls s) 0 Hl OD NE)
      as (fs' & f' & l' & E & R1 & R2).
  - rewrite <- EL. exact HC.
  - left. reflexivity.
  - left. reflexivity.
  - destruct (N.eq_dec (rs_ls s) NIL) as [Z|Z]; [left; exact Z|right; apply Hls, vn_true, Z].
  - lia.
  - rewrite <- EF in E. destruct (open_kd _ _ _ _ _ _ _ E) as ((rest & K1) & K2). exists (fs' ++ [f']), l'. split; [exact E|].
    destruct (R1 l') as (lo3 & R3 & R4). split; [|split; [|split; [exact K2|destruct fs'; discriminate]]].
    + exists n0, fs', f', LA, Lf, lo3. cbn [rs_files rs_max rs_ls]. split; [reflexivity|]. split; [exact EL|]. split; [exact R3|].
      split; [exact R4|]. split; [intros _; exact R2|exact Hmx].
    + assert (N1 : map rf_num (rs_files s) = map rf_num (fs' ++ [f']) ++ map fst rest).
      { assert (X := f_equal (map fst) K1). rewrite map_app, !map_map in X. exact X. }
      rewrite K1. assert (Z : map fst rest = []).
      { rewrite EF in N1, SN. rewrite !map_app in N1. rewrite map_app in SN. cbn [map] in N1, SN.
        rewrite (lk_num _ _ _ _ _ Hl), (lk_num _ _ _ _ _ R4) in N1. rewrite (lk_num _ _ _ _ _ Hl) in SN.
        apply (sorted_prefix _ _ _ _ _ SN N1 eq_refl). }
      apply map_eq_nil in Z. subst rest. rewrite app_nil_r. reflexivity.
Qed.

(** A successful rollback: the file that it shortened. *)
Lemma rb_shape : forall open n s s2, r_rollback hash c open false n s = (Ok tt, s2) ->
  exists s1 f0 d, r_sync hash c open s = (Ok tt, s1) /\ r_by_seq n false (rs_files s1) = Some f0 /\ In f0 (rs_files s1) /\
    cut n (rf_disk f0) = Some d /\ rs_max s2 = rf_num f0 /\ rs_ls s2 = rf_num f0 /\
    (exists f2, rfile_at (rf_num f0) (rs_files s2) = Some f2 /\ rf_disk f2 = d) /\
    (forall x, In x (rs_files s2) -> rf_num x = rf_num f0 -> rf_mem x = None).
Proof.
  intros open n s s2 E. unfold r_rollback in E. destruct (r_sync hash c open s) as [[[]|e|] s1]; try discriminate.
  destruct (r_by_seq n false (rs_files s1)) as [f0|] eqn:EB; [|discriminate].
  destruct (view hash c f0) as [m|e|]; try discriminate. unfold r_truncate in E.
  cbn [rf_with_mem rf_disk rf_mem rf_num rf_start rf_min rf_flushed rf_imm] in E.
  destruct (cut n (rf_disk f0)) as [d|] eqn:EC; [|discriminate].
  assert (Inf : In f0 (rs_files s1)).
  { unfold r_by_seq in EB. destruct (r_by_start n (rs_files s1)) as [x|] eqn:ES; [|discriminate].
    destruct (_ && _) in EB; [discriminate|]. destruct (_ && _) in EB; [discriminate|].
    assert (x = f0) by congruence. subst x. clear -ES. induction (rs_files s1) as [|g t IH]; [discriminate|]. cbn [r_by_start] in ES.
    destruct (r_by_start n t) as [x|].
    - destruct (_ && _) in ES; [left; congruence|right; apply IH; congruence].
    - destruct (_ <=? _) in ES; [left; congruence|discriminate]. }
  exists s1, f0, d. split; [reflexivity|]. split; [exact EB|]. split; [exact Inf|]. split; [exact EC|].
  apply (f_equal snd) in E. cbn [snd] in E. subst s2. cbn [rs_max rs_ls rs_files]. split; [reflexivity|]. split; [reflexivity|].
  cbn [rf_set_imm r_purge rf_mem rf_imm rf_num rf_start rf_disk]. split.
  - eexists. split.
    + clear EB EC. revert Inf. induction (rs_files s1) as [|g t IH]; [intros []|]. intros [<-|Hin]; cbn [filter].
      * rewrite N.leb_refl. unfold rf_upd, rfile_at. cbn [map find]. rewrite N.eqb_refl. cbn [rf_num]. rewrite N.eqb_refl. reflexivity.
      * destruct (rf_num g <=? rf_num f0); [|apply IH, Hin]. unfold rf_upd, rfile_at in *. cbn [map find].
        destruct (rf_num g =? rf_num f0) eqn:EG; [cbn [rf_num]; rewrite N.eqb_refl; reflexivity|]. rewrite EG. apply IH, Hin.
    + reflexivity.
  - intros x Hx En. unfold rf_upd in Hx. apply in_map_iff in Hx. destruct Hx as (g & Eg & _). destruct (rf_num g =? rf_num f0) eqn:EG.
    + subst x. reflexivity.
    + subst x. lia.
Qed.

Lemma pre_any : forall fs ls n lo L n' lo', pre ls n lo fs L n' lo' -> purged fs -> forall ls2, pre ls2 n lo fs L n' lo'.
Proof.
  intros fs ls n lo L n' lo' H. induction H as [|n lo f Lf t L n' lo' Hm Hp IH]; intros HP ls2; [constructor|].
  econstructor; [|apply IH; intros x Hx; apply HP; right; exact Hx].
  destruct Hm as [M1 M2 M3 M4 M5 M6 M7]. constructor; try assumption. intros _ _.
  destruct (fi_disk f Lf M5 (HP f (or_introl eq_refl))) as [X _]. symmetry. exact X.
Qed.

(** The two states in the middle. *)
Lemma die_middle : forall L s open n s2 mo, inv L s -> L <> [] -> consecutive L ->
  r_die hash c open mo n s = Ok s2 -> (mo = MCut \/ exists k, mo = MUnlinked k) ->
  exists s1 f0, r_sync hash c open s = (Ok tt, s1) /\ r_by_seq n false (rs_files s1) = Some f0 /\
  exists b, numbered b L <> None /\ b = end_seq (recs_of (rf_disk f0)) /\
    let whole := existsb (fun g => rf_num f0 <? rf_num g) (rs_files s1) in
    let L' := if match mo with MCut => whole | _ => false end then filter (fun r => holed n b (r_seq r)) L
              else filter (fun r => r_seq r <=? n) L in
    (forall k, answers (r_get hash c k s2) (latest k L')) /\ (forall m, answers (r_get_seq hash c m s2) (numbered m L')).
Proof.
  intros L s open n s2 mo HI NE HC E HM. unfold r_die in E.
  destruct (sync_ok hash c Hc L s open HI) as (s1 & E1 & HS & EM). rewrite E1 in E.
  destruct (r_rollback hash c open false n s) as [[[]|e|] st2] eqn:ER; try discriminate.
  destruct (rb_shape open n s st2 ER) as (s1' & f0 & d & E1' & EB & Inf & EC & Emax & Els & (f2 & EA & Ed) & _).
  rewrite E1 in E1'. injection E1' as <-. rewrite Emax, EA, Ed in E.
  exists s1, f0. split; [exact E1|]. split; [exact EB|].
  assert (HO := synced_oinv L s1 HS NE). destruct (open_ok L s1 HO HC) as (fs & l' & EO & HI2 & KD & HP & NN).
  (* the file among those opened *)
  assert (Q := by_seq_spec hash L _ n (synced_ls hash L s1 HS) NE). cbn [rs_files] in Q. rewrite EB in Q.
  destruct Q as (A1 & B1 & n1 & LA1 & Lf1 & LB1 & lo1 & EF1 & P1 & HA1 & HB1 & Hn1 & _).
  assert (OD1 := synced_disk hash _ _ _ _ _ _ _ _ _ _ HS EF1 P1). unfold on_disk in OD1.
  rewrite EF1 in KD. rewrite map_app in KD. cbn [map] in KD.
  apply map_eq_app in KD. destruct KD as (A & R & Efs & KA & KR). destruct R as [|f B]; [discriminate|]. cbn [map] in KR.
  injection KR as KN KDk KB.
  assert (HI2p := HI2). assert (EFS : rs_files (mkR fs (rs_max s1) l') = A ++ f :: B) by exact Efs.
  destruct (parts_dl _ _ (inv_parts hash L _ HI2) HP) as [EL HFI]. cbn [rs_files] in EL.
  assert (DB : dl B = LB1 /\ dl A = LA1).
  { assert (D1 : dl A ++ recs_of (rf_disk f) ++ dl B = LA1 ++ Lf1 ++ LB1).
    { rewrite <- (pa_L _ _ _ _ _ _ _ _ _ _ _ P1), EL, Efs. unfold dl. rewrite flat_map_app. reflexivity. }
    assert (D2 : dl A = LA1).
    { clear -KA P1 HS EF1. (* the files before *)
      assert (PP := pa_pre _ _ _ _ _ _ _ _ _ _ _ P1). cbn [rs_ls] in PP.
      assert (OO : dl A1 = LA1).
      { assert (MX : valid_number (rs_max s1) = true) by (destruct HS as (? & ? & ? & ? & ? & ? & HS'); apply vn_lt, HS').
        assert (PM := pa_max _ _ _ _ _ _ _ _ _ _ _ P1). cbn [rs_max] in PM. revert PP PM. generalize (rf_num f0). intros x PP PM. clear -PP MX PM.
        induction PP as [|n lo g Lg t L n' lo' Hm Hp IH]; [reflexivity|]. unfold dl. cbn [flat_map]. fold (dl t). rewrite IH by exact PM. f_equal.
        destruct (pre_nums _ _ _ _ _ _ _ _ Hp) as [K _]. apply (md_ls _ _ _ _ _ _ Hm MX). lia. }
      rewrite <- OO. clear -KA. revert A1 KA. induction A as [|a A IH]; intros [|b A1] KA; try discriminate; [reflexivity|].
      cbn [map] in KA. injection KA as _ K2 K3. unfold dl. cbn [flat_map]. rewrite K2. f_equal. apply IH, K3. }
    split; [|exact D2]. rewrite D2 in D1. apply app_inv_head in D1. rewrite KDk, OD1 in D1. apply app_inv_head in D1. exact D1. }
  destruct DB as [DB DA].
  assert (HBn : forall r, In r (dl B) -> n < r_seq r) by (rewrite DB; exact HB1).
  assert (EC2 : cut n (rf_disk f) = Some d) by (rewrite KDk; exact EC).
  assert (Inf2 : In f fs) by (rewrite Efs; apply in_or_app; right; left; reflexivity).
  destruct (fi_short f d n (HFI f Inf2) (HP f Inf2) EC2) as (_ & SD & _ & SF).
  destruct (inv_sorted hash L _ HI2) as [SL _].
  exists (end_seq (recs_of (rf_disk f0))). rewrite <- KDk.
  destruct (fi_disk f _ (HFI f Inf2) (HP f Inf2)) as [_ NF].
  destruct (hole_reads L _ A f B n d (rs_max s1) l' HI2 HP EFS EC2 HBn) as (G1 & G2 & G3 & G4 & G5). cbn [rs_files] in G3.
  destruct (end_in _ NF) as (z & Hz & Ez).
  split. { intros Z. unfold numbered in Z. assert (X := find_none _ _ Z z). rewrite G1 in X. specialize (X (in_or_app _ _ _ (or_intror (in_or_app _ _ _ (or_introl Hz))))). cbv beta in X. lia. }
  split; [reflexivity|]. cbv zeta.
  (* without later files there is no hole *)
  assert (NOHOLE : dl B = [] -> filter (fun r => holed n (end_seq (recs_of (rf_disk f))) (r_seq r)) L = filter (fun r => r_seq r <=? n) L).
  { intros Z. rewrite G2, Z, G1, Z, !app_nil_r, filter_app, <- SD. f_equal. rewrite filter_all; [reflexivity|].
    intros r Hr. rewrite DA in Hr. specialize (HA1 r Hr). lia. }
  assert (CUT : filter (fun r => r_seq r <=? n) L = dl A ++ recs_of d).
  { rewrite G1, !filter_app, <- SD. rewrite (filter_no _ (dl B)) by (intros r Hr; specialize (HBn r Hr); lia). rewrite app_nil_r. f_equal.
    apply filter_all. intros r Hr. rewrite DA in Hr. specialize (HA1 r Hr). lia. }
  assert (WH : existsb (fun g => rf_num f0 <? rf_num g) (rs_files s1) = match B1 with [] => false | _ => true end).
  { destruct (pre_nums _ _ _ _ _ _ _ _ (pa_pre _ _ _ _ _ _ _ _ _ _ _ P1)) as [_ K2]. assert (K3 := pa_num _ _ _ _ _ _ _ _ _ _ _ P1).
    rewrite EF1, existsb_app. assert (X : existsb (fun g => rf_num f0 <? rf_num g) A1 = false).
    { apply not_true_is_false. intros Z. apply existsb_exists in Z. destruct Z as (g & Z1 & Z2). specialize (K2 g Z1). lia. }
    rewrite X. cbn [orb existsb]. rewrite N.ltb_irrefl. cbn [orb]. destruct B1 as [|g B1]; [reflexivity|]. cbn [existsb].
    assert (Y := K3 g (or_introl eq_refl)). destruct (rf_num f0 <? rf_num g) eqn:Z; [reflexivity|lia]. }
  assert (BE : B1 = [] <-> B = []) by (clear -KB; destruct B, B1; try discriminate; split; congruence).
  assert (HALF : forall gone, (forall g, In g (rs_files s1) -> gone (rf_num g) = false) ->
     r_restart c gone (mkR (rf_upd (rf_num f0) (with_disk d) (rs_files s1)) (rs_max s1) (rs_ls s1)) = mkR (A ++ with_disk d f :: B) (rs_max s1) l').
  { intros gone Hg. unfold r_restart. cbn [rs_files rs_max rs_ls]. rewrite upd_saved, open_none.
    - rewrite open_upd, open_saved, EO. cbn [fst snd]. rewrite <- KN, G3. destruct (A ++ with_disk d f :: B) eqn:Z; [destruct A; discriminate|reflexivity].
    - intros g Hgi. unfold rf_upd in Hgi. apply in_map_iff in Hgi. destruct Hgi as (y & Ey & Hy). apply in_map_iff in Hy. destruct Hy as (w & <- & Hw).
      change (rf_num (r_saved w)) with (rf_num w) in Ey. destruct (rf_num w =? rf_num f0); subst g; apply (Hg w Hw). }
  destruct HM as [->|(k & ->)].
  - injection E as <-. rewrite HALF by reflexivity. rewrite WH. destruct B1 as [|g1 B1].
    + rewrite (proj1 BE eq_refl) in *. rewrite <- NOHOLE by reflexivity. split; [exact G4|exact G5].
    + split; [exact G4|exact G5].
  - injection E as <-. destruct B1 as [|g1 B1'] eqn:EB1.
    + rewrite HALF.
      * rewrite (proj1 BE eq_refl) in *. rewrite <- NOHOLE by reflexivity. split; [exact G4|exact G5].
      * intros g Hg. destruct (rf_num f0 <? rf_num g) eqn:Z; [|reflexivity]. exfalso.
        apply not_true_iff_false in WH. apply WH, existsb_exists. exists g. split; assumption.
    + (* the first later file is gone *)
      destruct B as [|g B']; [discriminate|]. cbn [map] in KB. injection KB as KGn KGd KB'.
      assert (NG1 : rf_num g1 = rf_num f0 + 1).
      { assert (EF3 : rs_files (mkR (rs_files s1) (rs_max s1) (rs_max s1)) = (A1 ++ [f0]) ++ g1 :: B1') by (cbn [rs_files]; rewrite EF1, <- app_assoc; reflexivity).
        destruct (inv_part hash _ _ _ _ _ (synced_ls hash L s1 HS) EF3) as (? & ? & ? & ? & ? & P3). assert (PP := pa_pre _ _ _ _ _ _ _ _ _ _ _ P3).
        destruct (pre_split _ _ _ _ _ _ _ _ _ PP) as (? & ? & n4 & ? & _ & _ & PP2).
        inversion PP2 as [|? ? ? ? ? ? ? ? M4 PP3]; subst. inversion PP3; subst. rewrite (md_num _ _ _ _ _ _ M4). congruence. }
      destruct (pre_nums _ _ _ _ _ _ _ _ (pa_pre _ _ _ _ _ _ _ _ _ _ _ P1)) as [_ K2].
      set (gone := fun x => (rf_num f0 <? x) && (x <=? rf_num f0 + 1 + k)).
      assert (RES : r_restart c gone (mkR (rf_upd (rf_num f0) (with_disk d) (rs_files s1)) (rs_max s1) (rs_ls s1)) =
                    mkR (A ++ [with_disk d f]) (rf_num f0) (rf_num f0)).
      { unfold r_restart. cbn [rs_files rs_max rs_ls]. rewrite upd_saved.
        assert (OPEN : r_open NIL (rs_max s1) (rs_ls s1) (rf_upd (rf_num f0) (with_disk d) (map r_saved (rs_files s1))) =
                       (A ++ with_disk d f :: g :: B', rs_max s1, l')).
        { rewrite open_upd, open_saved, EO. cbn [fst snd]. rewrite <- KN, G3. reflexivity. }
        assert (SPLIT : rf_upd (rf_num f0) (with_disk d) (map r_saved (rs_files s1)) =
                        (rf_upd (rf_num f0) (with_disk d) (map r_saved (A1 ++ [f0]))) ++ r_saved g1 :: rf_upd (rf_num f0) (with_disk d) (map r_saved B1')).
        { rewrite EF1. replace (A1 ++ f0 :: g1 :: B1') with ((A1 ++ [f0]) ++ [g1] ++ B1') by (rewrite <- app_assoc; reflexivity).
          rewrite !map_app, !upd_app. f_equal. cbn [map app]. unfold rf_upd at 1. cbn [map]. change (rf_num (r_saved g1)) with (rf_num g1).
          destruct (rf_num g1 =? rf_num f0) eqn:Z; [lia|reflexivity]. }
        rewrite SPLIT in OPEN |- *.
        assert (LEN : length (rf_upd (rf_num f0) (with_disk d) (map r_saved (A1 ++ [f0]))) = (length A + 1)%nat).
        { unfold rf_upd. rewrite !map_length, app_length. cbn [length]. f_equal. assert (X := f_equal (@length _) KA). rewrite !map_length in X. symmetry. exact X. }
        rewrite open_gone with (R := A ++ with_disk d f :: g :: B') (mx' := rs_max s1) (ls' := l').
        - rewrite LEN. replace (A ++ with_disk d f :: g :: B') with ((A ++ [with_disk d f]) ++ g :: B') by (rewrite <- app_assoc; reflexivity).
          rewrite firstn_app, firstn_all2 by (rewrite app_length; cbn [length]; lia). rewrite app_length. cbn [length].
          rewrite Nat.sub_diag. cbn [firstn]. rewrite app_nil_r. change (rf_num (r_saved g1)) with (rf_num g1). rewrite NG1.
          replace (rf_num f0 + 1 - 1) with (rf_num f0) by lia. destruct (A ++ [with_disk d f]) eqn:Z; [destruct A; discriminate|reflexivity].
        - intros x Hx. unfold rf_upd in Hx. apply in_map_iff in Hx. destruct Hx as (y & Ey & Hy). apply in_map_iff in Hy. destruct Hy as (w & <- & Hw).
          change (rf_num (r_saved w)) with (rf_num w) in Ey.
          assert (Nx : rf_num x = rf_num w) by (destruct (rf_num w =? rf_num f0); subst x; reflexivity). rewrite Nx. unfold gone.
          apply in_app_or in Hw. destruct Hw as [Hw|[<-|[]]]; [specialize (K2 w Hw); lia|lia].
        - change (rf_num (r_saved g1)) with (rf_num g1). unfold gone. lia.
        - exact OPEN.
        - rewrite (app_length A), (app_length (rf_upd _ _ _)), LEN. cbn [length]. unfold rf_upd. rewrite !map_length.
          assert (X := f_equal (@length _) KB'). rewrite !map_length in X. rewrite X. lia. }
      rewrite RES. rewrite CUT.
      (* the state with the later files gone and the file not yet shortened *)
      assert (HPA : purged A) by (intros x Hx; apply HP; rewrite Efs; apply in_or_app; left; exact Hx).
      destruct (inv_part hash _ _ _ _ _ HI2 EFS) as (n5 & LA5 & Lf5 & LB5 & lo5 & P5).
      assert (PP5 := pa_pre _ _ _ _ _ _ _ _ _ _ _ P5). assert (F5 := pa_fi _ _ _ _ _ _ _ _ _ _ _ P5).
      destruct (fi_disk f Lf5 F5 (HP f Inf2)) as [EL5 NL5].
      assert (HI5 : inv (LA5 ++ Lf5) (mkR (A ++ [f]) (rf_num f) (rf_num f))).
      { exists n5, A, f, LA5, Lf5, lo5. cbn [rs_files rs_max rs_ls]. split; [reflexivity|]. split; [reflexivity|].
        split; [apply (pre_any _ _ _ _ _ _ _ PP5 HPA)|]. split.
        - constructor; [reflexivity|apply (pa_lo _ _ _ _ _ _ _ _ _ _ _ P5)|exact F5|apply (pa_st _ _ _ _ _ _ _ _ _ _ _ P5)|congruence].
        - split; [intros _; lia|]. assert (X := pa_max _ _ _ _ _ _ _ _ _ _ _ P5). cbn [rs_max] in X.
          destruct HI2p as (? & ? & ? & ? & ? & ? & _ & _ & _ & _ & _ & HM). cbn [rs_max] in HM. lia. }
      assert (HP5 : purged (rs_files (mkR (A ++ [f]) (rf_num f) (rf_num f)))).
      { cbn [rs_files]. intros x Hx. apply in_app_or in Hx. destruct Hx as [Hx|[<-|[]]]; [apply HPA, Hx|apply HP, Inf2]. }
      destruct (hole_reads _ _ A f [] n d (rf_num f0) (rf_num f0) HI5 HP5 eq_refl EC2 ltac:(intros ? [])) as (J1 & J2 & _ & J4 & J5).
      rewrite J2 in J4, J5. cbn [dl flat_map] in J4, J5. rewrite app_nil_r in J4, J5. split; [exact J4|exact J5].
Qed.

Lemma die_synced : forall L s open n s2, inv L s -> L <> [] -> consecutive L -> r_die hash c open MSynced n s = Ok s2 -> inv L s2.
Proof.
  intros L s open n s2 HI NE HC E. unfold r_die in E.
  destruct (sync_ok hash c Hc L s open HI) as (s1 & E1 & HS & EM). rewrite E1 in E.
  destruct (r_rollback hash c open false n s) as [[[]|e|] st2] eqn:ER; try discriminate.
  destruct (rfile_at (rs_max st2) (rs_files st2)); [|discriminate]. injection E as <-.
  destruct (open_ok L s1 (synced_oinv L s1 HS NE) HC) as (fs & l' & EO & HI2 & _ & _ & NN).
  unfold r_restart. rewrite open_none by reflexivity. rewrite open_saved, EO. destruct fs; [congruence|exact HI2].
Qed.

Lemma cons_filter : forall n L, consecutive L -> consecutive (filter (fun r => r_seq r <=? n) L).
Proof.
  intros n L HC. induction L as [|a L IH]; [exact I|]. destruct L as [|b L].
  - cbn [filter]. destruct (r_seq a <=? n); exact I.
  - destruct HC as [H1 H2]. specialize (IH H2). cbn [filter] in *. destruct (r_seq a <=? n) eqn:Ea.
    + destruct (r_seq b <=? n) eqn:Eb; [split; [exact H1|exact IH]|].
      assert (Z : filter (fun r => r_seq r <=? n) L = []).
      { clear -H2 Eb. revert b H2 Eb. induction L as [|d L IH]; intros b H2 Eb; [reflexivity|]. destruct H2 as [H1 H2]. cbn [filter].
        destruct (r_seq d <=? n) eqn:Ed; [lia|]. apply (IH d H2 Ed). }
      rewrite Z. exact I.
    + exact IH.
Qed.

Lemma die_stored : forall L s open n s2, inv L s -> L <> [] -> consecutive L -> r_die hash c open MStored n s = Ok s2 ->
  inv (filter (fun r => r_seq r <=? n) L) s2.
Proof.
  intros L s open n s2 HI NE HC E. unfold r_die in E.
  destruct (sync_ok hash c Hc L s open HI) as (s1 & E1 & HS & EM). rewrite E1 in E.
  destruct (r_rollback hash c open false n s) as [[[]|e|] st2] eqn:ER; try discriminate.
  destruct (rfile_at (rs_max st2) (rs_files st2)); [|discriminate]. injection E as <-.
  destruct (rb_shape open n s st2 ER) as (_ & f0 & _ & _ & _ & _ & _ & Emax & Els & _ & PU).
  destruct (rollback_ok hash c Hc L s open n HI NE) as (x & s3 & ER2 & HR). rewrite ER in ER2. injection ER2 as <- <-. destruct HR as [HR _].
  assert (HO : oinv (filter (fun r => r_seq r <=? n) L) st2).
  { destruct HR as (n0 & fA & f & LA & Lf & lo & EF & EL & Hp & Hl & Hls & Hmx).
    assert (MN : rf_mem f = None).
    { apply PU; [rewrite EF; apply in_or_app; right; left; reflexivity|]. rewrite (lk_num _ _ _ _ _ Hl). exact Emax. }
    destruct (fi_disk f Lf (lk_fi _ _ _ _ _ Hl) MN) as [OD NL].
    exists n0, fA, f, LA, Lf, lo. split; [exact EF|]. split; [exact EL|]. split; [rewrite Els, <- Emax in Hp; exact Hp|]. split; [exact Hl|].
    split; [symmetry; exact OD|]. split; [exact NL|]. split; assumption. }
  destruct (open_ok _ st2 HO (cons_filter n L HC)) as (fs & l' & EO & HI2 & _ & _ & NN).
  unfold r_restart. rewrite open_none by reflexivity. rewrite open_saved, EO. destruct fs; [congruence|exact HI2].
Qed.

(** Rolling back to the number of a record has all these moments. *)
Lemma die_some : forall L s open n mo, inv L s -> numbered n L <> None -> exists s2, r_die hash c open mo n s = Ok s2.
Proof.
  intros L s open n mo HI HN. destruct (sync_ok hash c Hc L s open HI) as (s1 & E1 & HS & EM).
  destruct (rollback_succeeds hash c Hc L s open n HI HN) as (st2 & ER & _). cbn [r_step] in ER.
  destruct (r_rollback hash c open false n s) as [[[]|e|] st3] eqn:ER3; cbn [out_of] in ER; try discriminate.
  destruct (rb_shape open n s st3 ER3) as (_ & f0 & _ & _ & _ & _ & _ & Emax & _ & (f2 & EA & _) & _).
  unfold r_die. rewrite E1, ER3, Emax, EA. destruct mo; eauto.
Qed.

End Proofs.

(** ** The claims *)

Lemma die_ends : forall hash c L s open n mo, cfg_fine c -> rreach hash c L s -> consecutive L -> numbered n L <> None -> mo <> MCut ->
  exists s2, r_die hash c open mo n s = Ok s2 /\
    reads_as hash c s2 (match mo with MSynced => L | _ => rolled_back n L end).
Proof.
  intros hash c L s open n mo Hc HR HC HN HM. assert (HI := reach_inv hash c Hc L s HR).
  assert (NE : L <> []) by (intros ->; apply HN; reflexivity).
  destruct (die_some hash c Hc L s open n mo HI HN) as (s2 & E). exists s2. split; [exact E|]. destruct mo as [| |k|].
  - assert (I2 := die_synced hash c Hc L s open n s2 HI NE HC E). split; intros x; [exact (get_ok hash c Hc L s2 x I2)|exact (get_seq_ok hash c Hc L s2 x I2)].
  - congruence.
  - destruct (die_middle hash c Hc L s open n s2 (MUnlinked k) HI NE HC E (or_intror (ex_intro _ k eq_refl))) as (s1 & f0 & _ & _ & b & _ & _ & H).
    exact H.
  - assert (I2 := die_stored hash c Hc L s open n s2 HI NE HC E). split; intros x; [exact (get_ok hash c Hc _ s2 x I2)|exact (get_seq_ok hash c Hc _ s2 x I2)].
Qed.

Lemma top_filter : forall n L b, sorted_seq L -> (forall r, In r L -> r_seq r <= b) ->
  rolled_back n L = with_hole n b L.
Proof. intros n L b HS HB. apply filter_ext_in. intros r Hr. specialize (HB r Hr). lia. Qed.

Lemma numbered_in : forall n L, numbered n L <> None <-> exists r, In r L /\ r_seq r = n.
Proof.
  intros n L. split.
  - intros H. destruct (numbered n L) as [r|] eqn:E; [|congruence]. apply find_some in E. exists r. split; [apply E|]. apply N.eqb_eq, E.
  - intros (r & Hr & En) Z. assert (X := find_none _ _ Z r Hr). cbv beta in X. lia.
Qed.

Lemma die_cut : forall hash c L s open n, cfg_fine c -> rreach hash c L s -> consecutive L -> numbered n L <> None ->
  exists s2 b, r_die hash c open MCut n s = Ok s2 /\ numbered b L <> None /\ n <= b /\ reads_as hash c s2 (with_hole n b L).
Proof.
  intros hash c L s open n Hc HR HC HN. assert (HI := reach_inv hash c Hc L s HR).
  assert (NE : L <> []) by (intros ->; apply HN; reflexivity). destruct (inv_sorted hash L s HI) as [HS _].
  destruct (die_some hash c Hc L s open n MCut HI HN) as (s2 & E).
  destruct (die_middle hash c Hc L s open n s2 MCut HI NE HC E (or_introl eq_refl)) as (s1 & f0 & E1 & EB & b & Hb & Eb & H). cbv zeta in H.
  destruct (existsb _ _) in H.
  - exists s2, b. split; [exact E|]. split; [exact Hb|]. split; [|exact H].
    destruct (sync_ok hash c Hc L s open HI) as (s1' & E1' & HSy & _). rewrite E1 in E1'. injection E1' as <-.
    assert (Q := by_seq_spec hash L _ n (synced_ls hash L s1 HSy) NE). cbn [rs_files] in Q. rewrite EB in Q.
    destruct Q as (A1 & B1 & n1 & LA1 & Lf1 & LB1 & lo1 & EF1 & P1 & HA1 & HB1 & Hn1 & _).
    assert (OD1 := synced_disk hash _ _ _ _ _ _ _ _ _ _ HSy EF1 P1). unfold on_disk in OD1. rewrite OD1 in Eb. subst b.
    apply numbered_in in HN. destruct HN as (r & Hr & Er). rewrite (pa_L _ _ _ _ _ _ _ _ _ _ _ P1) in Hr.
    apply in_app_or in Hr. destruct Hr as [Hr|Hr]; [specialize (HA1 r Hr); lia|]. apply in_app_or in Hr. destruct Hr as [Hr|Hr]; [|specialize (HB1 r Hr); lia].
    assert (X := end_ge _ _ (fi_asc _ _ _ (pa_fi _ _ _ _ _ _ _ _ _ _ _ P1)) Hr). lia.
  - exists s2, (end_seq L). destruct (end_in _ NE) as (z & Hz & Ez). split; [exact E|]. split; [apply numbered_in; exists z; split; assumption|].
    split.
    + apply numbered_in in HN. destruct HN as (r & Hr & Er). assert (X := end_ge _ _ HS Hr). lia.
    + rewrite <- top_filter; [exact H|exact HS|]. intros r Hr. apply (end_ge _ _ HS Hr).
Qed.

Lemma sync_starts : forall hash c open from mx fs last fs' l, r_sync_files hash c open from mx last fs = Ok (fs', l) ->
  map rf_start fs' = map rf_start fs.
Proof.
  intros hash c open from mx. induction fs as [|f t IH]; intros last fs' l E; cbn [r_sync_files] in E.
  - injection E as <- _. reflexivity.
  - destruct ((from <=? rf_num f) && (rf_num f <=? mx)).
    + destruct (r_sync_file hash c open mx f) as [[f' a]|e|] eqn:EF; try discriminate.
      destruct (r_sync_files hash c open from mx _ t) as [[t' l2]|e|] eqn:ET; try discriminate. injection E as <- _.
      cbn [map]. rewrite (IH _ _ _ ET). f_equal. unfold r_sync_file in EF. destruct (view hash c f) as [m|e|]; try discriminate.
      destruct (r_flush_entries _ _ _) as [es af]. apply (f_equal (fun x => match x with Ok (g, _) => rf_start g | _ => 0 end)) in EF. symmetry. exact EF.
    + destruct (r_sync_files hash c open from mx last t) as [[t' l2]|e|] eqn:ET; try discriminate. injection E as <- _.
      cbn [map]. rewrite (IH _ _ _ ET). reflexivity.
Qed.

Lemma die_newest : forall hash c L s open n, cfg_fine c -> rreach hash c L s -> consecutive L -> numbered n L <> None ->
  (forall f, In f (rs_files s) -> rf_start f <= n) ->
  exists s2, r_die hash c open MCut n s = Ok s2 /\ reads_as hash c s2 (rolled_back n L).
Proof.
  intros hash c L s open n Hc HR HC HN HST. assert (HI := reach_inv hash c Hc L s HR).
  assert (NE : L <> []) by (intros ->; apply HN; reflexivity).
  destruct (die_some hash c Hc L s open n MCut HI HN) as (s2 & E).
  destruct (die_middle hash c Hc L s open n s2 MCut HI NE HC E (or_introl eq_refl)) as (s1 & f0 & E1 & EB & b & Hb & Eb & H). cbv zeta in H.
  exists s2. split; [exact E|].
  assert (HST1 : forall f, In f (rs_files s1) -> rf_start f <= n).
  { unfold r_sync in E1. destruct (r_sync_files _ _ _ _ _ _ _) as [[fs l]|e|] eqn:EF; try discriminate. injection E1 as <-. cbn [rs_files].
    apply sync_starts in EF. intros f Hf. apply (in_map rf_start) in Hf. rewrite EF in Hf. apply in_map_iff in Hf. destruct Hf as (g & <- & Hg).
    apply HST, Hg. }
  destruct (sync_ok hash c Hc L s open HI) as (s1' & E1' & HSy & _). rewrite E1 in E1'. injection E1' as <-.
  assert (HI1 := synced_ls hash L s1 HSy). destruct (inv_starts hash L _ HI1) as [SS _]. cbn [rs_files] in SS.
  assert (W : existsb (fun g => rf_num f0 <? rf_num g) (rs_files s1) = false); [|rewrite W in H; exact H].
  apply not_true_is_false. intros Z. apply existsb_exists in Z. destruct Z as (g & Hg & Hlt).
  assert (Q := by_start_spec n (rs_files s1) SS). unfold r_by_seq in EB. destruct (r_by_start n (rs_files s1)) as [x|]; [|discriminate].
  destruct (_ && _) in EB; [discriminate|]. destruct (_ && _) in EB; [discriminate|]. assert (x = f0) by congruence. subst x.
  destruct Q as (A & B & EF & _ & Q). destruct B as [|y B]; [|assert (X := Q y (or_introl eq_refl)); specialize (HST1 y); rewrite EF in HST1;
    assert (IY : In y (A ++ f0 :: y :: B)) by (apply in_or_app; right; right; left; reflexivity); specialize (HST1 IY); lia].
  assert (EF2 : rs_files (mkR (rs_files s1) (rs_max s1) (rs_max s1)) = A ++ f0 :: []) by exact EF.
  destruct (inv_part hash _ _ _ _ _ HI1 EF2) as (? & ? & ? & ? & ? & P).
  destruct (pre_nums _ _ _ _ _ _ _ _ (pa_pre _ _ _ _ _ _ _ _ _ _ _ P)) as [_ K2]. rewrite EF in Hg. apply in_app_or in Hg.
  destruct Hg as [Hg|[<-|[]]]; [specialize (K2 g Hg); lia|lia].
Qed.

Lemma latest_in : forall k L r, latest k L = Some r -> In r L.
Proof. intros k L r H. apply find_some in H. apply in_rev, H. Qed.

Lemma reads_sub : forall hash c s L (p : N -> bool) n, reads_as hash c s (filter (fun r => p (r_seq r)) L) -> (forall x, x <= n -> p x = true) ->
  (forall m, m <= n -> answers (r_get_seq hash c m s) (numbered m L)) /\
  (forall m r, r_get_seq hash c m s = Ok r -> numbered m L = Some r) /\
  (forall k r, r_get hash c k s = Ok r -> In r L).
Proof.
  intros hash c s L p n [H1 H2] Hp. split; [|split].
  - intros m Hm. specialize (H2 m). rewrite numbered_filter, (Hp m Hm) in H2. exact H2.
  - intros m r E. specialize (H2 m). rewrite numbered_filter, E in H2. destruct (p m); [|destruct H2 as (e & H2); discriminate].
    destruct (numbered m L) as [x|]; cbn [answers] in H2; [congruence|destruct H2 as (e & H2); discriminate].
  - intros k r E. specialize (H1 k). rewrite E in H1. destruct (latest k _) as [x|] eqn:EL; cbn [answers] in H1; [|destruct H1 as (e & H1); discriminate].
    assert (x = r) by congruence. subst x. apply latest_in in EL. apply filter_In in EL. apply EL.
Qed.

Lemma die_kept : forall hash c L s open n mo, cfg_fine c -> rreach hash c L s -> consecutive L -> numbered n L <> None ->
  exists s2, r_die hash c open mo n s = Ok s2 /\
    (forall m, m <= n -> answers (r_get_seq hash c m s2) (numbered m L)) /\
    (forall m r, r_get_seq hash c m s2 = Ok r -> numbered m L = Some r) /\
    (forall k r, r_get hash c k s2 = Ok r -> In r L).
Proof.
  intros hash c L s open n mo Hc HR HC HN. destruct mo as [| |k|].
  - destruct (die_ends hash c L s open n MSynced Hc HR HC HN ltac:(discriminate)) as (s2 & E & H). exists s2. split; [exact E|].
    apply (reads_sub hash c s2 L (fun _ => true) n); [|reflexivity]. rewrite filter_all by reflexivity. exact H.
  - destruct (die_cut hash c L s open n Hc HR HC HN) as (s2 & b & E & _ & _ & H). exists s2. split; [exact E|].
    apply (reads_sub hash c s2 L (fun x => (x <=? n) || (b <? x)) n); [exact H|]. intros x Hx. lia.
  - destruct (die_ends hash c L s open n (MUnlinked k) Hc HR HC HN ltac:(discriminate)) as (s2 & E & H). exists s2. split; [exact E|].
    apply (reads_sub hash c s2 L (fun x => x <=? n) n); [exact H|]. intros x Hx. lia.
  - destruct (die_ends hash c L s open n MStored Hc HR HC HN ltac:(discriminate)) as (s2 & E & H). exists s2. split; [exact E|].
    apply (reads_sub hash c s2 L (fun x => x <=? n) n); [exact H|]. intros x Hx. lia.
Qed.
