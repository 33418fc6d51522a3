(** The log files of a log-section-only database hold the log that the user expects. *)
From Verif Require Import Base KeyModel KeyProofs LogFormatModel LogWriterModel LogSpec BloomModel BloomProofs
  MemTableModel MemTableProofs RollbackModel RollbackSpec RollbackProofs.
From Coq Require Import Sorted ZifyBool.
Local Open Scope N_scope.

(** First and last number of a list of records, [NIL] if there is none. *)
Definition fst_seq (l : list rec) : N := match l with r :: _ => r_seq r | [] => NIL end.
Definition end_seq (l : list rec) : N := match rev l with r :: _ => r_seq r | [] => NIL end.

Lemma end_snoc : forall l r, end_seq (l ++ [r]) = r_seq r.
Proof. intros. unfold end_seq. rewrite rev_app_distr. reflexivity. Qed.

Lemma end_in : forall l, l <> [] -> exists r, In r l /\ r_seq r = end_seq l.
Proof.
  intros l H. destruct (exists_last H) as (a & x & ->). exists x. rewrite end_snoc.
  split; [apply in_or_app; right; left; reflexivity|reflexivity].
Qed.

Lemma end_ge : forall l r, sorted_seq l -> In r l -> r_seq r <= end_seq l.
Proof.
  intros h r Hs Hr. destruct (exists_last (l := h)) as (a & x & ->); [intros E; subst; destruct Hr|].
  rewrite end_snoc. unfold sorted_seq in Hs. rewrite map_app in Hs. apply SS_app_inv in Hs.
  destruct Hs as (_ & _ & Hs). apply in_app_or in Hr. destruct Hr as [Hr|[->|[]]]; [|lia].
  assert (X := Hs (r_seq r) (r_seq x) (in_map _ _ _ Hr) (or_introl eq_refl)). lia.
Qed.

Lemma fst_le : forall l r, sorted_seq l -> In r l -> fst_seq l <= r_seq r.
Proof.
  intros [|a l] r Hs Hr; [destruct Hr|]. cbn [fst_seq]. destruct Hr as [<-|Hr]; [lia|].
  unfold sorted_seq in Hs. cbn [map] in Hs. apply StronglySorted_inv in Hs. destruct Hs as [_ Hs].
  rewrite Forall_forall in Hs. specialize (Hs _ (in_map r_seq _ _ Hr)). lia.
Qed.

Lemma fst_in : forall l, l <> [] -> exists r, In r l /\ r_seq r = fst_seq l.
Proof. intros [|a l] H; [congruence|]. exists a. split; [left|]; reflexivity. Qed.

Lemma end_app : forall a b, b <> [] -> end_seq (a ++ b) = end_seq b.
Proof. intros a b H. destruct (exists_last H) as (b' & x & ->). rewrite app_assoc, !end_snoc. reflexivity. Qed.

Lemma fst_app : forall a b, a <> [] -> fst_seq (a ++ b) = fst_seq a.
Proof. intros [|x a] b H; [congruence|reflexivity]. Qed.

Lemma top_end : forall l, l <> [] -> top_of l = end_seq l.
Proof. intros l H. destruct (exists_last H) as (b' & x & ->). unfold top_of, end_seq. rewrite rev_app_distr. reflexivity. Qed.

Lemma sorted_app_lt : forall a b x y, sorted_seq (a ++ b) -> In x a -> In y b -> r_seq x < r_seq y.
Proof.
  unfold sorted_seq. intros a b x y H Hx Hy. rewrite map_app in H. apply SS_app_inv in H. destruct H as (_ & _ & H).
  apply H; apply in_map; assumption.
Qed.
Lemma sorted_app_l : forall a b, sorted_seq (a ++ b) -> sorted_seq a.
Proof. unfold sorted_seq. intros a b H. rewrite map_app in H. apply SS_app_inv in H. apply H. Qed.
Lemma sorted_app_r : forall a b, sorted_seq (a ++ b) -> sorted_seq b.
Proof. unfold sorted_seq. intros a b H. rewrite map_app in H. apply SS_app_inv in H. apply H. Qed.
Lemma sorted_app : forall a b, sorted_seq a -> sorted_seq b ->
  (forall x y, In x a -> In y b -> r_seq x < r_seq y) -> sorted_seq (a ++ b).
Proof.
  unfold sorted_seq. intros a b Ha Hb H. rewrite map_app. apply SS_app; [exact Ha|exact Hb|].
  intros x y Hx Hy. apply in_map_iff in Hx. destruct Hx as (x' & <- & Hx). apply in_map_iff in Hy. destruct Hy as (y' & <- & Hy).
  apply H; assumption.
Qed.

Definition bounded (l : list rec) : Prop := forall r, In r l -> 1 <= r_seq r /\ r_seq r + 2 < NIL.

Section Proofs.
Variable hash : key -> N * N.
Variable c : rcfg.
Hypothesis Hc : cfg_fine c.

(** A memtable with the records [Lf], of which [D] are on disk. *)
Record MI (Lf D : list rec) (m : mt) : Prop := {
  mi_mw : MW hash Lf m;
  mi_fl : m_flushed m = NIL;
  mi_max : m_max m = end_seq Lf;
  mi_min : m_min m = fst_seq Lf;
  mi_syn : m_synced m = end_seq D;
  mi_dsk : exists U, Lf = D ++ U;
  mi_st : m_start m < NIL
}.

(** A log file with the records [Lf]. *)
Record FI (f : rfile) (Lf : list rec) : Prop := {
  fi_asc : sorted_seq Lf;
  fi_bnd : bounded Lf;
  fi_mem : match rf_mem f with
           | Some m => MI Lf (recs_of (rf_disk f)) m
           | None => Lf <> [] /\ recs_of (rf_disk f) = Lf /\ rf_imm f = true /\ rf_min f = fst_seq Lf /\ rf_flushed f = NIL /\
                     end_seq Lf <= rf_max f < NIL /\ rf_synced f = rf_max f
           end
}.

Definition on_disk (f : rfile) (Lf : list rec) : Prop := recs_of (rf_disk f) = Lf.

(** A file that is not the newest; [lo] is the last number before it. *)
Record mid_ok (ls n lo : N) (f : rfile) (Lf : list rec) : Prop := {
  md_num : rf_num f = n;
  md_lo : lo < rf_start f;
  md_st : rf_start f <= fst_seq Lf;
  md_ne : Lf <> [];
  md_fi : FI f Lf;
  md_ls : valid_number ls = true -> n < ls -> on_disk f Lf;
  md_syn : rf_mem f = None -> rf_synced f = end_seq Lf
}.

(** The newest file; it is empty only in a new database. *)
Record last_ok (n lo : N) (f : rfile) (Lf : list rec) : Prop := {
  lk_num : rf_num f = n;
  lk_lo : lo < rf_start f;
  lk_fi : FI f Lf;
  lk_st : Lf <> [] -> rf_start f <= fst_seq Lf;
  lk_new : Lf = [] -> lo = 0 /\ n = 0 /\ rf_start f = 1 /\ rf_imm f = false /\ exists m, rf_mem f = Some m /\ m_start m = 0
}.

(** A run of files that are not the newest, from number [n] and last number [lo] to [n'], [lo']. *)
Inductive pre (ls : N) : N -> N -> list rfile -> list rec -> N -> N -> Prop :=
| pre_nil : forall n lo, pre ls n lo [] [] n lo
| pre_cons : forall n lo f Lf t L n' lo', mid_ok ls n lo f Lf ->
    pre ls (n + 1) (end_seq Lf) t L n' lo' -> pre ls n lo (f :: t) (Lf ++ L) n' lo'.

Definition inv (L : list rec) (s : rst) : Prop :=
  exists n0 fA f LA Lf lo, rs_files s = fA ++ [f] /\ L = LA ++ Lf /\
    pre (rs_ls s) n0 0 fA LA (rs_max s) lo /\ last_ok (rs_max s) lo f Lf /\
    (valid_number (rs_ls s) = true -> rs_ls s <= rs_max s) /\ rs_max s < NIL.

(** ** Runs of files *)

Lemma pre_app : forall ls fA n lo LA n1 lo1 fB LB n2 lo2,
  pre ls n lo fA LA n1 lo1 -> pre ls n1 lo1 fB LB n2 lo2 -> pre ls n lo (fA ++ fB) (LA ++ LB) n2 lo2.
Proof.
  intros ls fA n lo LA n1 lo1 fB LB n2 lo2 H. revert fB LB n2 lo2. induction H as [|n lo f Lf t L n' lo' Hm Hp IH]; intros fB LB n2 lo2 HB.
  - exact HB.
  - cbn [app]. rewrite <- app_assoc. econstructor; [exact Hm|]. apply IH, HB.
Qed.

Lemma pre_split : forall ls fA fB n lo L n2 lo2, pre ls n lo (fA ++ fB) L n2 lo2 ->
  exists LA LB n1 lo1, L = LA ++ LB /\ pre ls n lo fA LA n1 lo1 /\ pre ls n1 lo1 fB LB n2 lo2.
Proof.
  induction fA as [|f fA IH]; intros fB n lo L n2 lo2 H.
  - exists [], L, n, lo. split; [reflexivity|]. split; [constructor|exact H].
  - cbn [app] in H. inversion H as [|? ? ? Lf ? L' ? ? Hm Hp]; subst.
    destruct (IH _ _ _ _ _ _ Hp) as (LA & LB & n1 & lo1 & -> & H1 & H2).
    exists (Lf ++ LA), LB, n1, lo1. split; [apply app_assoc|]. split; [econstructor; eassumption|exact H2].
Qed.

Lemma pre_nums : forall ls n lo fs L n' lo', pre ls n lo fs L n' lo' ->
  n <= n' /\ forall f, In f fs -> n <= rf_num f < n'.
Proof.
  intros ls n lo fs L n' lo' H. induction H as [|n lo f Lf t L n' lo' Hm Hp [IH1 IH2]]; [split; [lia|intros ? []]|].
  split; [lia|]. assert (E := md_num _ _ _ _ _ Hm). intros x [<-|Hx]; [lia|]. specialize (IH2 x Hx). lia.
Qed.

Lemma end_bounds : forall f Lf, FI f Lf -> Lf <> [] ->
  1 <= fst_seq Lf /\ fst_seq Lf <= end_seq Lf /\ end_seq Lf + 2 < NIL.
Proof.
  intros f Lf H Hne. destruct (end_in _ Hne) as (x & Hx & Ex). destruct (fst_in _ Hne) as (y & Hy & Ey).
  assert (A := fi_bnd _ _ H x Hx). assert (B := fi_bnd _ _ H y Hy). assert (C := end_ge _ _ (fi_asc _ _ H) Hy). lia.
Qed.

(** The numbers of a run lie between [lo] and [lo']. *)
Lemma pre_seqs : forall ls n lo fs L n' lo', pre ls n lo fs L n' lo' ->
  lo <= lo' /\ sorted_seq L /\ bounded L /\ (forall r, In r L -> lo < r_seq r <= lo') /\
  (fs <> [] -> L <> [] /\ lo' = end_seq L).
Proof.
  intros ls n lo fs L n' lo' H. induction H as [|n lo f Lf t L n' lo' Hm Hp IH].
  - split; [lia|]. split; [constructor|]. split; [intros ? []|]. split; [intros ? []|congruence].
  - destruct IH as (I1 & I2 & I3 & I4 & I5). assert (F := md_fi _ _ _ _ _ Hm). assert (NE := md_ne _ _ _ _ _ Hm).
    destruct (end_bounds _ _ F NE) as (B1 & B2 & B3). assert (S1 := md_lo _ _ _ _ _ Hm). assert (S2 := md_st _ _ _ _ _ Hm).
    assert (R1 : forall r, In r Lf -> lo < r_seq r <= end_seq Lf).
    { intros r Hr. assert (X := fst_le _ _ (fi_asc _ _ F) Hr). assert (Y := end_ge _ _ (fi_asc _ _ F) Hr). lia. }
    split; [lia|]. split; [|split; [|split]].
    + apply sorted_app; [apply (fi_asc _ _ F)|exact I2|]. intros x y Hx Hy. specialize (R1 x Hx). specialize (I4 y Hy). lia.
    + intros r Hr. apply in_app_or in Hr. destruct Hr as [Hr|Hr]; [apply (fi_bnd _ _ F), Hr|apply I3, Hr].
    + intros r Hr. apply in_app_or in Hr. destruct Hr as [Hr|Hr]; [specialize (R1 r Hr)|specialize (I4 r Hr)]; lia.
    + intros _. split; [destruct Lf; [congruence|discriminate]|].
      destruct t as [|g t].
      * inversion Hp; subst. rewrite app_nil_r. reflexivity.
      * destruct (I5 ltac:(discriminate)) as [Q1 Q2]. rewrite end_app by exact Q1. exact Q2.
Qed.

Lemma last_seqs : forall n lo f Lf r, last_ok n lo f Lf -> In r Lf -> lo < r_seq r /\ rf_start f <= r_seq r.
Proof.
  intros n lo f Lf r H Hr. assert (NE : Lf <> []) by (intros ->; destruct Hr).
  assert (A := lk_lo _ _ _ _ H). assert (B := lk_st _ _ _ _ H NE). assert (F := fst_le _ _ (fi_asc _ _ (lk_fi _ _ _ _ H)) Hr). lia.
Qed.

Lemma inv_sorted : forall L s, inv L s -> sorted_seq L /\ bounded L.
Proof.
  intros L s (n0 & fA & f & LA & Lf & lo & E1 & -> & Hp & Hl & _). destruct (pre_seqs _ _ _ _ _ _ _ Hp) as (P1 & P2 & P3 & P4 & _).
  split.
  - apply sorted_app; [exact P2|apply (fi_asc _ _ (lk_fi _ _ _ _ Hl))|]. intros x y Hx Hy.
    assert (A := P4 x Hx). assert (B := last_seqs _ _ _ _ _ Hl Hy). lia.
  - intros r Hr. apply in_app_or in Hr. destruct Hr as [Hr|Hr]; [apply P3, Hr|apply (fi_bnd _ _ (lk_fi _ _ _ _ Hl)), Hr].
Qed.

(** Files by number. *)
Lemma at_app : forall fA f fB, (forall x, In x fA -> rf_num x < rf_num f) -> rfile_at (rf_num f) (fA ++ f :: fB) = Some f.
Proof.
  unfold rfile_at. induction fA as [|x fA IH]; intros f fB H; cbn [app find].
  - rewrite N.eqb_refl. reflexivity.
  - assert (X := H x (or_introl eq_refl)). destruct (rf_num x =? rf_num f) eqn:E; [lia|]. apply IH. intros y Hy. apply H. right; exact Hy.
Qed.

Lemma upd_other : forall n h fs, (forall x, In x fs -> rf_num x <> n) -> rf_upd n h fs = fs.
Proof.
  intros n h fs H. unfold rf_upd. rewrite <- (map_id fs) at 2. apply map_ext_in. intros x Hx.
  specialize (H x Hx). destruct (rf_num x =? n) eqn:E; [lia|reflexivity].
Qed.

Lemma upd_app : forall n h a b, rf_upd n h (a ++ b) = rf_upd n h a ++ rf_upd n h b.
Proof. intros. unfold rf_upd. apply map_app. Qed.

Lemma upd_one : forall h f, rf_upd (rf_num f) h [f] = [h f].
Proof. intros. cbn [rf_upd map]. rewrite N.eqb_refl. reflexivity. Qed.

Lemma pre_other : forall ls n lo fs L n' lo' h, pre ls n lo fs L n' lo' -> rf_upd n' h fs = fs.
Proof.
  intros ls n lo fs L n' lo' h H. apply upd_other. intros x Hx. assert (X := proj2 (pre_nums _ _ _ _ _ _ _ H) x Hx). lia.
Qed.

(** ** Loading a memtable *)

Lemma load_fold : forall es m0 h0 last, MW hash h0 m0 \/ (h0 = [] /\ MR hash h0 m0) ->
  m_seq m0 = h0 -> sorted_seq (h0 ++ recs_of es) -> (forall r, In r (recs_of es) -> r_seq r <= m_max m0) -> m_max m0 < NIL ->
  exists m', fold_left (fun a e => load_entry hash e a) es (Ok (m0, last)) =
             Ok (m', match recs_of es with [] => last | _ => end_seq (recs_of es) end) /\
    MR hash (h0 ++ recs_of es) m' /\ m_seq m' = h0 ++ recs_of es /\ m_max m' = m_max m0 /\ m_start m' = m_start m0 /\
    m_min m' = m_min m0 /\ m_flushed m' = m_flushed m0 /\ m_synced m' = m_synced m0 /\ m_alloc m' = m_alloc m0.
Proof.
  intros es m0 h0 last H. assert (HM : MR hash h0 m0) by (destruct H as [H|[_ H]]; [apply (mw_mr _ _ _ H)|exact H]). clear H.
  revert m0 h0 last HM. induction es as [|e es IH]; intros m0 h0 last HM Hsq Hs Hb Hmx.
  - exists m0. cbn [fold_left recs_of flat_map]. rewrite app_nil_r. auto 10.
  - destruct e as [r|s|s].
    + change (recs_of (ERec r :: es)) with (r :: recs_of es) in *.
      cbn [fold_left load_entry].
      assert (Hlt : forall x, In x h0 -> r_seq x < r_seq r).
      { intros x Hx. apply (sorted_app_lt _ _ _ _ Hs Hx). left; reflexivity. }
      assert (Hr : r_seq r <= m_max m0) by (apply Hb; left; reflexivity).
      assert (Hstep : forall key' bf',
        (if is_cmd r then key' = m_key m0 /\ bf' = m_bf m0 else add_key hash r (m_key m0) (m_bf m0) = Ok (key', bf')) ->
        exists m', fold_left (fun a e => load_entry hash e a) es
           (Ok (mkMt (m_start m0) (m_min m0) (m_flushed m0) (m_synced m0) (m_max m0) (m_alloc m0)
                     (add_seq r (m_max m0) (m_seq m0)) key' (m_chks m0) bf', r_seq r)) =
             Ok (m', match r :: recs_of es with [] => last | _ => end_seq (r :: recs_of es) end) /\
        MR hash (h0 ++ r :: recs_of es) m' /\ m_seq m' = h0 ++ r :: recs_of es /\ m_max m' = m_max m0 /\ m_start m' = m_start m0 /\
        m_min m' = m_min m0 /\ m_flushed m' = m_flushed m0 /\ m_synced m' = m_synced m0 /\ m_alloc m' = m_alloc m0).
      { intros key' bf' HK.
        set (m1 := mkMt (m_start m0) (m_min m0) (m_flushed m0) (m_synced m0) (m_max m0) (m_alloc m0)
                     (add_seq r (m_max m0) (m_seq m0)) key' (m_chks m0) bf').
        assert (HM1 : MR hash (h0 ++ [r]) m1).
        { apply (mr_add hash h0 m0 r key' bf' HM); [lia|exact HK|reflexivity|reflexivity|reflexivity|left; cbn; lia|exact Hr]. }
        assert (Hsq1 : m_seq m1 = h0 ++ [r]).
        { cbn [m1 m_seq]. rewrite Hsq. apply add_seq_app. exact Hlt. }
        destruct (IH m1 (h0 ++ [r]) (r_seq r) HM1 Hsq1) as (m' & E & R).
        - rewrite <- app_assoc. exact Hs.
        - intros x Hx. cbn [m1 m_max]. apply Hb. right; exact Hx.
        - exact Hmx.
        - exists m'. rewrite <- app_assoc in R. cbn [app] in R. cbn [m1 m_max m_start m_min m_flushed m_synced m_alloc] in R.
          split; [|exact R]. rewrite E. f_equal. f_equal. destruct (recs_of es) as [|x l] eqn:El; [reflexivity|].
          change (r :: x :: l) with ([r] ++ (x :: l)). rewrite end_app by discriminate. reflexivity. }
      destruct (is_cmd r) eqn:Ec.
      * apply Hstep; auto.
      * destruct (add_key_spec hash r _ _ (mr_ksort _ _ _ HM) (mr_wf _ _ _ HM) (mr_bf _ _ _ HM)) as (l' & b2 & E & _).
        rewrite E. apply Hstep. exact E.
    + cbn [fold_left load_entry]. change (recs_of (EFlush s :: es)) with (recs_of es) in *. apply IH; assumption.
    + cbn [fold_left load_entry]. change (recs_of (EChk s :: es)) with (recs_of es) in *.
      destruct (match rev (m_chks m0) with c' :: _ => c' =? s | [] => false end); [apply IH; assumption|].
      match goal with |- context [Ok (?mm, last)] => set (m1 := mm) end.
      destruct (IH m1 h0 last) as (m' & E & R); [apply (mr_marks hash h0 m0); auto; cbn; lia|exact Hsq|exact Hs|exact Hb|exact Hmx|].
      exists m'. split; [exact E|exact R].
Qed.

Lemma load_ok : forall es mn sy, sorted_seq (recs_of es) -> bounded (recs_of es) -> recs_of es <> [] ->
  mn = fst_seq (recs_of es) -> end_seq (recs_of es) <= sy < NIL ->
  exists m, mt_load hash (rc_maxent c * 64) mn NIL sy es = Ok m /\ MI (recs_of es) (recs_of es) m.
Proof.
  intros es mn sy Hs Hb Hne Emn Hsy. destruct Hc as (_ & _ & Hent). unfold mt_load.
  assert (HR0 : MR hash [] (mkMt mn mn NIL NIL sy sy [] [] [] (bl_create (rc_maxent c * 64) 3))).
  { apply (mr_marks hash [] (mkMt mn mn NIL NIL 0 sy [] [] [] (bl_create (rc_maxent c * 64) 3))); cbn; try reflexivity; [|lia].
    assert (X := mr_init hash (rc_maxent c * 64) mn ltac:(lia)).
    constructor; cbn; try (constructor; fail); try (intros; reflexivity); try (intros ? []). apply (mr_wf _ _ _ X). }
  destruct (load_fold es _ [] NIL (or_intror (conj eq_refl HR0)) eq_refl) as (m' & E & R1 & R2 & R3 & R4 & R5 & R6 & R7 & R8).
  - exact Hs.
  - intros r Hr. cbn [m_max]. assert (X := end_ge _ _ Hs Hr). lia.
  - cbn; lia.
  - cbn [app] in R1, R2. rewrite E. destruct (recs_of es) as [|x l] eqn:El; [congruence|]. rewrite <- El in *.
    destruct (end_in _ Hne) as (y & Hy & Ey). assert (By := Hb y Hy).
    destruct (end_seq (recs_of es) =? NIL) eqn:EN; [lia|].
    eexists. split; [reflexivity|]. destruct (fst_in _ Hne) as (z & Hz & Ez). assert (Bz := Hb z Hz).
    cbn [m_max m_start m_min m_flushed m_synced] in R3, R4, R5, R6, R7.
    assert (Zy := fst_le _ _ Hs Hy).
    constructor; cbn [m_flushed m_max m_min m_synced m_start].
    + constructor; cbn [m_seq m_max m_min m_alloc].
      * destruct R1 as [K1 K2 K3 K4 K5 K6 K7 K8]. constructor; cbn [m_key m_seq m_bf m_max]; try assumption.
        intros r Hr. assert (X := end_ge _ _ Hs Hr). assert (Br := Hb r Hr). lia.
      * exact R2.
      * exact Hs.
      * reflexivity.
      * intros r Hr. rewrite R5, Emn. apply (fst_le _ _ Hs Hr).
      * rewrite R5. lia.
      * intros _. rewrite R5. lia.
      * intros Q. lia.
    + exact R6.
    + reflexivity.
    + rewrite R5. exact Emn.
    + reflexivity.
    + exists []. rewrite app_nil_r. reflexivity.
    + rewrite R4. lia.
Qed.

(** What a caller finds after grab. *)
Lemma view_ok : forall f Lf, FI f Lf ->
  exists m, view hash c f = Ok m /\ MI Lf (recs_of (rf_disk f)) m /\ FI (rf_with_mem f m) Lf.
Proof.
  intros f Lf H. assert (Q := fi_mem _ _ H). unfold view.
  assert (X : exists m, match rf_mem f with
    | Some m => Ok m
    | None => if rc_ttl c then mt_load hash (rc_maxent c * 64) (rf_min f) (rf_flushed f) (rf_synced f) (rf_disk f) else Undef
    end = Ok m /\ MI Lf (recs_of (rf_disk f)) m).
  { destruct (rf_mem f) as [m|].
    - exists m. split; [reflexivity|exact Q].
    - destruct Q as (Q1 & Q2 & Q3 & Q4 & Q5 & Q6 & Q7). destruct Hc as (Ht & _). rewrite Ht, Q5.
      assert (FA := fi_asc _ _ H). assert (FB := fi_bnd _ _ H). rewrite <- Q2 in FA, FB, Q1, Q4, Q6.
      destruct (load_ok (rf_disk f) (rf_min f) (rf_synced f) FA FB Q1 Q4 ltac:(lia)) as (m & E & HM).
      exists m. split; [exact E|]. rewrite <- Q2 at 1. exact HM. }
  destruct X as (m & E & HM). exists m. split; [exact E|]. split; [exact HM|].
  constructor; [apply (fi_asc _ _ H)|apply (fi_bnd _ _ H)|]. cbn [rf_with_mem rf_mem rf_disk]. exact HM.
Qed.

End Proofs.
