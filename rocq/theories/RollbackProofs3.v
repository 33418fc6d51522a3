(** Every operation keeps the log that the user expects. *)
From Verif Require Import Base KeyModel KeyProofs LogFormatModel LogWriterModel LogSpec BloomModel BloomProofs
  MemTableModel MemTableProofs RollbackModel RollbackSpec RollbackProofs RollbackProofs2.
From Coq Require Import Sorted ZifyBool.
Local Open Scope N_scope.

Lemma vn_true : forall n, valid_number n = true <-> n <> NIL.
Proof. intros n. unfold valid_number. destruct (n =? NIL) eqn:E; cbn; lia. Qed.
Lemma vn_lt : forall n, n < NIL -> valid_number n = true.
Proof. intros n H. apply vn_true. lia. Qed.

Section Proofs.
Variable hash : key -> N * N.
Variable c : rcfg.
Hypothesis Hc : cfg_fine c.

Notation FI := (FI hash).
Notation MI := (MI hash).
Notation pre := (pre hash).
Notation mid_ok := (mid_ok hash).
Notation last_ok := (last_ok hash).
Notation inv := (inv hash).

(** A new database. *)
Lemma first_ok_file : last_ok 0 0 (first_rfile c) [].
Proof.
  destruct Hc as (_ & _ & Hent). constructor; cbn [first_rfile rf_num rf_start rf_imm rf_mem].
  - reflexivity.
  - lia.
  - constructor; [constructor|intros ? []|]. cbn [first_rfile rf_mem rf_disk recs_of flat_map].
    constructor; try reflexivity; [apply mw_init; lia|exists []; reflexivity].
  - congruence.
  - intros _. repeat (split; [reflexivity|]). eexists. split; reflexivity.
Qed.

Lemma inv_new : inv [] (r_new c).
Proof.
  exists 0, [], (first_rfile c), [], [], 0. split; [reflexivity|]. split; [reflexivity|]. split; [constructor|].
  split; [apply first_ok_file|]. split; [intros X; vm_compute in X; discriminate|]. cbn; rewrite nil_val; lia.
Qed.

Lemma last_empty : forall ls n0 fA LA mx lo f Lf, pre ls n0 0 fA LA mx lo -> last_ok mx lo f Lf -> Lf = [] -> fA = [] /\ LA = [].
Proof.
  intros ls n0 fA LA mx lo f Lf Hp Hl E. destruct (lk_new _ _ _ _ _ Hl E) as (_ & E2 & _).
  destruct fA as [|g fA]; [inversion Hp; auto|]. assert (X := proj2 (pre_nums _ _ _ _ _ _ _ _ Hp) g (or_introl eq_refl)). lia.
Qed.

(** ** Writes *)

(** The number a write gets. *)
Definition number_for (L : list rec) (r : rec) : N := if r_seq r =? NIL then top_of L + 1 else r_seq r.

Lemma mi_put : forall Lf D m r, MI Lf D m -> bounded Lf ->
  (Lf <> [] -> r_seq r = NIL \/ end_seq Lf < r_seq r) -> r_seq r <= NIL ->
  exists m', let s := if r_seq r =? NIL then (if m_max m =? NIL then (if m_start m =? 0 then 1 else m_start m) else m_max m + 1) else r_seq r in
    lf_set hash false r m = (Ok (stored r s), m') /\ MI (Lf ++ [stored r s]) D m'.
Proof.
  intros Lf D m r H HB Hr Hle. cbv zeta.
  assert (W := mi_mw _ _ _ _ H). assert (Emx := mi_max _ _ _ _ H). assert (Emn := mi_min _ _ _ _ H). assert (Est := mi_st _ _ _ _ H).
  assert (Hmx : m_max m = NIL \/ m_max m + 1 < NIL).
  { destruct Lf as [|x l] eqn:El; [left; exact Emx|]. rewrite <- El in *. right.
    destruct (end_in Lf) as (y & Hy & Ey); [rewrite El; discriminate|]. assert (B := HB y Hy). lia. }
  assert (P := mt_put_spec hash Lf m r W Est Hmx Hle). unfold lf_set.
  replace (negb (r_seq r =? NIL) && false && (r_seq r <=? m_max m)) with false by (rewrite andb_false_r; reflexivity).
  unfold next_seq in P.
  assert (Q : (if r_seq r =? NIL
     then if m_max m =? NIL then Some (if m_start m =? 0 then 1 else m_start m) else Some (m_max m + 1)
     else if negb (m_max m =? NIL) && (r_seq r <=? m_max m) then None
     else if negb (m_min m =? NIL) && (r_seq r <? m_min m) then None else Some (r_seq r)) =
     Some (if r_seq r =? NIL then (if m_max m =? NIL then (if m_start m =? 0 then 1 else m_start m) else m_max m + 1) else r_seq r)).
  { destruct (r_seq r =? NIL) eqn:E1; [destruct (m_max m =? NIL); reflexivity|].
    destruct Lf as [|x l] eqn:El.
    - rewrite Emx, Emn. reflexivity.
    - rewrite <- El in *. assert (NE : Lf <> []) by (rewrite El; discriminate). specialize (Hr NE).
      destruct (end_in _ NE) as (y & Hy & Ey). assert (X := fst_le _ _ (mw_asc _ _ _ W) Hy).
      destruct (negb (m_max m =? NIL) && (r_seq r <=? m_max m)) eqn:E2; [lia|].
      destruct (negb (m_min m =? NIL) && (r_seq r <? m_min m)) eqn:E3; [lia|]. reflexivity. }
  rewrite Q in P. destruct P as (m' & E & W' & P1 & P2 & P3 & P4 & P5 & P6 & _).
  rewrite E. exists m'. split; [reflexivity|].
  constructor.
  - exact W'.
  - rewrite P5. apply (mi_fl _ _ _ _ H).
  - rewrite P1, end_snoc, r_seq_stored. reflexivity.
  - rewrite P2. destruct Lf as [|x l] eqn:El.
    + destruct (m_max m =? NIL) eqn:Z; [|rewrite Emx in Z; discriminate]. cbn [app fst_seq]. rewrite r_seq_stored. reflexivity.
    + rewrite <- El in *. assert (NE : Lf <> []) by (rewrite El; discriminate). rewrite fst_app by exact NE. rewrite <- Emn.
      destruct (m_max m =? NIL) eqn:E4; [|reflexivity]. destruct (end_in _ NE) as (y & Hy & Ey). assert (B := HB y Hy). lia.
  - rewrite P6. apply (mi_syn _ _ _ _ H).
  - destruct (mi_dsk _ _ _ _ H) as (U & ->). exists (U ++ [stored r (if r_seq r =? NIL
         then if m_max m =? NIL then if m_start m =? 0 then 1 else m_start m else m_max m + 1 else r_seq r)]).
    rewrite app_assoc. reflexivity.
  - rewrite P4. exact Est.
Qed.

Lemma bounded_snoc : forall L r, bounded L -> 1 <= r_seq r -> r_seq r + 2 < NIL -> bounded (L ++ [r]).
Proof. intros L r H H1 H2 x Hx. apply in_app_or in Hx. destruct Hx as [Hx|[<-|[]]]; [apply H, Hx|lia]. Qed.
Lemma sorted_snoc : forall L r, sorted_seq L -> (forall x, In x L -> r_seq x < r_seq r) -> sorted_seq (L ++ [r]).
Proof.
  intros L r H Hr. apply sorted_app; [exact H|repeat constructor|]. intros x y Hx [<-|[]]. apply Hr, Hx.
Qed.

Lemma stored_with : forall r s, r_seq (stored r s) = s.
Proof. intros. apply r_seq_stored. Qed.

Lemma put_ok : forall L s full r, inv L s -> op_fine L (OPut full r) ->
  exists s', r_set hash c full r s = (Ok (stored r (number_for L r)), s') /\
    (rs_max s' < NIL -> inv (L ++ [stored r (number_for L r)]) s').
Proof.
  intros L s full r HI (Hr & Hfull). assert (HI0 := HI). destruct HI as (n0 & fA & f & LA & Lf & lo & EF & EL & Hp & Hl & Hls & Hmx).
  destruct (inv_sorted _ _ _ HI0) as [HS HB].
  destruct (pre_seqs _ _ _ _ _ _ _ _ Hp) as (P1 & P2 & P3 & P4 & P5).
  assert (LF := lk_fi _ _ _ _ _ Hl). assert (NUM := lk_num _ _ _ _ _ Hl).
  destruct (view_ok hash c Hc f Lf LF) as (m & EV & HM & HFI).
  assert (Hrs : r_seq r <= NIL) by lia.
  unfold r_set. destruct (r_seq r =? 0) eqn:E0; [lia|].
  destruct Hc as (Httl & How & Hent). rewrite How, andb_false_r.
  assert (EA : rfile_at (rs_max s) (rs_files s) = Some f).
  { rewrite EF, <- NUM. apply at_app. intros x Hx. assert (X := proj2 (pre_nums _ _ _ _ _ _ _ _ Hp) x Hx). lia. }
  rewrite EA, EV. cbn [negb].
  assert (FS0 : rf_upd (rs_max s) (fun f => rf_with_mem f m) (rs_files s) = fA ++ [rf_with_mem f m]).
  { rewrite EF, upd_app, (pre_other _ _ _ _ _ _ _ _ _ Hp), <- NUM, upd_one. reflexivity. }
  rewrite FS0. rewrite andb_true_r.
  assert (Etop : Lf <> [] -> top_of L = end_seq Lf).
  { intros NE. rewrite EL. rewrite top_end by (destruct LA; [exact NE|discriminate]). apply end_app, NE. }
  assert (Hseq := mw_seq _ _ _ (mi_mw _ _ _ _ HM)).
  set (roll := rf_imm f || full || (rc_maxent c <=? N.of_nat (length (m_seq m)))).
  assert (Hroll : roll = true -> Lf <> []).
  { intros Q E. destruct (lk_new _ _ _ _ _ Hl E) as (_ & _ & _ & Im & _).
    destruct (last_empty _ _ _ _ _ _ _ _ Hp Hl E) as [_ E2].
    assert (Z : full = false) by (apply Hfull; rewrite EL, E, E2; reflexivity).
    unfold roll in Q. rewrite Im, Hseq, E, Z in Q. cbn in Q. lia. }
  set (q := number_for L r) in *.
  assert (Hq : 1 <= q /\ q + 2 < NIL /\ forall x, In x L -> r_seq x < q).
  { assert (TB : forall x, In x L -> r_seq x <= top_of L).
    { intros x Hx. rewrite top_end by (intros E; rewrite E in Hx; destruct Hx). apply end_ge; assumption. }
    unfold q, number_for. destruct (r_seq r =? NIL) eqn:E1; (split; [lia|split; [lia|intros x Hx; specialize (TB x Hx); lia]]). }
  destruct Hq as (Q1 & Q2 & Q3).
  destruct roll eqn:ER.
  - (* a new file *)
    specialize (Hroll eq_refl). assert (Etop' := Etop Hroll). destruct (end_bounds _ _ _ LF Hroll) as (B1 & B2 & B3).
    rewrite (mi_max _ _ _ _ HM).
    replace ((end_seq Lf + 1) mod 2 ^ 64) with (end_seq Lf + 1)
      by (symmetry; apply N.mod_small; rewrite nil_val in *; change (2 ^ 64) with 18446744073709551616; lia).
    set (nf := new_rfile c (rs_max s + 1) (end_seq Lf + 1)).
    assert (EA2 : rfile_at (rs_max s + 1) ((fA ++ [rf_with_mem f m]) ++ [nf]) = Some nf).
    { change (rs_max s + 1) with (rf_num nf). apply at_app. intros x Hx. cbn [nf new_rfile rf_num].
      apply in_app_or in Hx. destruct Hx as [Hx|[<-|[]]]; [assert (X := proj2 (pre_nums _ _ _ _ _ _ _ _ Hp) x Hx); lia|cbn [rf_with_mem rf_num]; lia]. }
    rewrite EA2. cbn [nf new_rfile rf_mem].
    assert (HM0 : MI [] [] (mt_init (rc_maxent c * 64) (end_seq Lf + 1))).
    { constructor; try reflexivity; [apply mw_init; lia|exists []; reflexivity|cbn [mt_init m_start]; lia]. }
    destruct (mi_put [] [] _ r HM0 ltac:(intros ? []) ltac:(congruence) Hrs) as (m2 & EP & HM2).
    assert (Eq2 : (if r_seq r =? NIL then if m_max (mt_init (rc_maxent c * 64) (end_seq Lf + 1)) =? NIL
          then if m_start (mt_init (rc_maxent c * 64) (end_seq Lf + 1)) =? 0 then 1 else m_start (mt_init (rc_maxent c * 64) (end_seq Lf + 1))
          else m_max (mt_init (rc_maxent c * 64) (end_seq Lf + 1)) + 1 else r_seq r) = q).
    { cbn [mt_init m_max m_start]. rewrite N.eqb_refl. unfold q, number_for. rewrite Etop'.
      destruct (end_seq Lf + 1 =? 0) eqn:Z; [lia|reflexivity]. }
    cbv zeta in EP, HM2. rewrite Eq2 in EP, HM2. rewrite EP. cbn [app] in HM2.
    eexists. split; [reflexivity|]. intros Hmx'. cbn [rs_max] in Hmx'.
    assert (HM3 : mid_ok (rs_ls s) (rs_max s) lo (rf_with_mem f m) Lf).
    { constructor; cbn [rf_with_mem rf_num rf_start rf_mem].
      - exact NUM.
      - apply (lk_lo _ _ _ _ _ Hl).
      - apply (lk_st _ _ _ _ _ Hl Hroll).
      - exact Hroll.
      - exact HFI.
      - intros V X. specialize (Hls V). lia.
      - discriminate. }
    assert (UPD : rf_upd (rs_max s + 1) (fun f => rf_with_mem f m2) ((fA ++ [rf_with_mem f m]) ++ [nf]) =
                  (fA ++ [rf_with_mem f m]) ++ [rf_with_mem nf m2]).
    { rewrite upd_app. change (rs_max s + 1) with (rf_num nf) at 2. rewrite upd_one. f_equal. apply upd_other.
      intros x Hx. apply in_app_or in Hx. destruct Hx as [Hx|[<-|[]]]; [assert (X := proj2 (pre_nums _ _ _ _ _ _ _ _ Hp) x Hx); lia|cbn [rf_with_mem rf_num]; lia]. }
    exists n0, (fA ++ [rf_with_mem f m]), (rf_with_mem nf m2), L, [stored r q], (end_seq Lf).
    cbn [rs_files rs_max rs_ls].
    split; [exact UPD|]. split; [reflexivity|]. cbn [andb].
    split; [|split; [|split; [|exact Hmx']]].
    + rewrite EL. eapply pre_app; [exact Hp|]. rewrite <- (app_nil_r Lf) at 1. econstructor; [exact HM3|]. constructor.
    + constructor; cbn [rf_with_mem nf new_rfile rf_num rf_start rf_imm].
      * reflexivity.
      * lia.
      * constructor; [repeat constructor|intros x [<-|[]]; rewrite stored_with; lia|]. cbn [rf_with_mem rf_mem nf new_rfile rf_disk]. exact HM2.
      * intros _. cbn [fst_seq]. rewrite stored_with. destruct (end_in _ Hroll) as (x & Hx & Ex).
        assert (X : r_seq x < q) by (apply Q3; rewrite EL; apply in_or_app; right; exact Hx). lia.
      * discriminate.
    + change (valid_number (rs_ls s) = true -> rs_ls s <= rs_max s + 1). intros V. specialize (Hls V). lia.
  - (* into the newest file *)
    assert (EA2 : rfile_at (rs_max s) (fA ++ [rf_with_mem f m]) = Some (rf_with_mem f m)).
    { rewrite <- NUM. change (rf_num f) with (rf_num (rf_with_mem f m)). apply at_app. intros x Hx.
      assert (X := proj2 (pre_nums _ _ _ _ _ _ _ _ Hp) x Hx). cbn [rf_with_mem rf_num]. lia. }
    rewrite EA2. cbn [rf_with_mem rf_mem rf_imm].
    assert (Hr1 : Lf <> [] -> r_seq r = NIL \/ end_seq Lf < r_seq r).
    { intros NE. rewrite <- (Etop NE). lia. }
    destruct (mi_put Lf _ m r HM (fi_bnd _ _ _ LF) Hr1 Hrs) as (m2 & EP & HM2).
    assert (Eq2 : (if r_seq r =? NIL then if m_max m =? NIL then if m_start m =? 0 then 1 else m_start m else m_max m + 1 else r_seq r) = q).
    { unfold q, number_for. destruct (r_seq r =? NIL); [|reflexivity]. rewrite (mi_max _ _ _ _ HM).
      destruct Lf as [|x l] eqn:El.
      - destruct (lk_new _ _ _ _ _ Hl eq_refl) as (_ & _ & _ & _ & m0 & Em0 & St0).
        destruct (last_empty _ _ _ _ _ _ _ _ Hp Hl eq_refl) as [_ ->].
        assert (m = m0). { unfold view in EV. rewrite Em0 in EV. congruence. } subst m0. rewrite St0, EL. reflexivity.
      - rewrite <- El in *. assert (NE : Lf <> []) by (rewrite El; discriminate). rewrite <- (Etop NE).
        destruct (top_of L =? NIL) eqn:Z; [|reflexivity]. rewrite (Etop NE) in Z. destruct (end_bounds _ _ _ LF NE) as (B1 & B2 & B3). lia. }
    cbv zeta in EP, HM2. rewrite Eq2 in EP, HM2. rewrite EP.
    eexists. split; [reflexivity|]. intros Hmx'.
    assert (UPD : rf_upd (rs_max s) (fun f => rf_with_mem f m2) (fA ++ [rf_with_mem f m]) = fA ++ [rf_with_mem f m2]).
    { rewrite upd_app, (pre_other _ _ _ _ _ _ _ _ _ Hp). f_equal. rewrite <- NUM. change (rf_num f) with (rf_num (rf_with_mem f m)). rewrite upd_one. reflexivity. }
    assert (ELS : rf_imm f = false).
    { unfold roll in ER. destruct (rf_imm f); [discriminate|reflexivity]. }
    rewrite ELS. cbn [andb].
    exists n0, fA, (rf_with_mem f m2), LA, (Lf ++ [stored r q]), lo. cbn [rs_files rs_max rs_ls].
    split; [exact UPD|]. split; [rewrite EL, app_assoc; reflexivity|]. split; [exact Hp|].
    split; [|split; [exact Hls|exact Hmx]].
    assert (Q3' : forall x, In x Lf -> r_seq x < q) by (intros x Hx; apply Q3; rewrite EL; apply in_or_app; right; exact Hx).
    constructor; cbn [rf_with_mem rf_num rf_start rf_imm].
    + exact NUM.
    + apply (lk_lo _ _ _ _ _ Hl).
    + constructor.
      * apply sorted_snoc; [apply (fi_asc _ _ _ LF)|rewrite stored_with; exact Q3'].
      * apply bounded_snoc; [apply (fi_bnd _ _ _ LF)| |]; rewrite stored_with; lia.
      * cbn [rf_with_mem rf_mem rf_disk]. exact HM2.
    + intros _. destruct Lf as [|x l] eqn:El.
      * cbn [app fst_seq]. rewrite stored_with. destruct (lk_new _ _ _ _ _ Hl eq_refl) as (_ & _ & St & _). lia.
      * rewrite <- El in *. assert (NE : Lf <> []) by (rewrite El; discriminate). rewrite fst_app by exact NE. apply (lk_st _ _ _ _ _ Hl NE).
    + intros E. destruct Lf; discriminate.
Qed.

(** ** Sync *)

Lemma disk_all : forall Lf D, sorted_seq Lf -> (exists U, Lf = D ++ U) -> Lf <> [] -> end_seq D = end_seq Lf -> bounded Lf -> D = Lf.
Proof.
  intros Lf D Hs (U & ->) NE E HB. destruct U as [|u U]; [rewrite app_nil_r; reflexivity|exfalso].
  rewrite end_app in E by discriminate. destruct (end_in (u :: U)) as (y & Hy & Ey); [discriminate|].
  destruct D as [|d D].
  - cbn [end_seq rev] in E. assert (B := HB y ltac:(apply in_or_app; right; exact Hy)). change (end_seq []) with NIL in E. lia.
  - destruct (end_in (d :: D)) as (x & Hx & Ex); [discriminate|]. assert (X := sorted_app_lt _ _ _ _ Hs Hx Hy). lia.
Qed.

Lemma flush_ok : forall Lf D m open imm, MI Lf D m -> bounded Lf ->
  let (es, after) := r_flush_entries open imm m in
  D ++ recs_of es = Lf /\ MI Lf Lf (lf_set_synced after m) /\ (after <> NIL -> after < NIL).
Proof.
  intros Lf D m open imm H HB. assert (W := mi_mw _ _ _ _ H). assert (Hs := mw_asc _ _ _ W). destruct (mi_dsk _ _ _ _ H) as (U & EU).
  assert (SET : forall a, end_seq Lf <= a -> MI Lf Lf (lf_set_synced a m)).
  { intros a Ha. assert (W2 := mw_set_synced hash Lf m a W). unfold lf_set_synced in *.
    destruct (negb (valid_number (m_max m))) eqn:E.
    - assert (m_max m = NIL). { unfold valid_number in E. destruct (m_max m =? NIL) eqn:Z; [lia|discriminate]. }
      assert (El := mw_emp _ _ _ W H0). destruct H as [A1 A2 A3 A4 A5 A6 A7]. constructor; try assumption.
      + rewrite A5. rewrite El in EU. symmetry in EU. apply app_eq_nil in EU. destruct EU as [-> _]. rewrite El. reflexivity.
      + exists []. rewrite app_nil_r. reflexivity.
    - destruct H as [A1 A2 A3 A4 A5 A6 A7]. constructor; cbn [set_marks m_flushed m_max m_min m_synced m_start]; try assumption.
      + rewrite A3 in *. destruct (end_seq Lf <? a) eqn:Z; lia.
      + exists []. rewrite app_nil_r. reflexivity. }
  unfold r_flush_entries. destruct (imm && negb open && r_is_synced m) eqn:E1.
  - assert (ED : D = Lf).
    { destruct Lf as [|x l] eqn:El; [symmetry in EU; apply app_eq_nil in EU; destruct EU as [-> _]; reflexivity|]. rewrite <- El in *.
      assert (NE : Lf <> []) by (rewrite El; discriminate).
      apply (disk_all Lf D Hs (mi_dsk _ _ _ _ H) NE); [|exact HB].
      apply andb_true_iff in E1. destruct E1 as [_ E1]. unfold r_is_synced in E1.
      rewrite (mi_max _ _ _ _ H), (mi_syn _ _ _ _ H) in E1.
      destruct (end_in _ NE) as (y & Hy & Ey). assert (B := HB y Hy).
      destruct D as [|d D].
      - exfalso. change (end_seq []) with NIL in E1. rewrite (vn_lt (end_seq Lf)) in E1 by lia. discriminate.
      - destruct (end_in (d :: D)) as (z & Hz & Ez); [discriminate|].
        assert (Z := end_ge Lf z Hs ltac:(rewrite EU; apply in_or_app; left; exact Hz)).
        rewrite (vn_lt (end_seq Lf)), (vn_lt (end_seq (d :: D))) in E1 by lia. cbn [negb andb orb] in E1. lia. }
    cbn [recs_of flat_map]. rewrite app_nil_r. split; [exact ED|]. split; [|congruence]. apply SET.
    destruct Lf as [|x l] eqn:El; [cbn; lia|]. rewrite <- El in *. destruct (end_in Lf) as (y & Hy & Ey); [rewrite El; discriminate|]. assert (B := HB y Hy). lia.
  - destruct (m_min m =? NIL) eqn:E2.
    + assert (El : Lf = []).
      { destruct Lf as [|x l]; [reflexivity|]. rewrite (mi_min _ _ _ _ H) in E2. cbn [fst_seq] in E2. assert (B := HB x (or_introl eq_refl)). lia. }
      cbn [recs_of flat_map]. rewrite app_nil_r. split; [rewrite El in EU; symmetry in EU; apply app_eq_nil in EU; destruct EU as [-> _]; congruence|].
      split; [|congruence]. apply SET. rewrite El. cbn; lia.
    + assert (NE : Lf <> []). { intros ->. rewrite (mi_min _ _ _ _ H) in E2. cbn [fst_seq] in E2. lia. }
      destruct (end_in _ NE) as (y & Hy & Ey). assert (By := HB y Hy).
      rewrite recs_of_app. cbn [recs_of flat_map]. fold recs_of. rewrite app_nil_r.
      assert (MR : forall l, flat_map (fun e => match e with ERec r => [r] | _ => [] end) (map ERec l) = l).
      { clear. induction l as [|a l IH]; [reflexivity|]. cbn [map flat_map app]. f_equal. exact IH. }
      unfold recs_of. rewrite MR. split; [|split; [apply SET; rewrite (mi_max _ _ _ _ H); lia|rewrite (mi_max _ _ _ _ H); lia]].
      rewrite (mw_seq _ _ _ W).
      set (from := if m_synced m =? NIL then m_min m else (m_synced m + 1) mod 2 ^ 64).
      assert (ED : drop_while (fun x => r_seq x <? from) Lf = U).
      { rewrite drop_while_filter by exact Hs. rewrite EU, filter_app.
        assert (FD : filter (fun x => from <=? r_seq x) D = [] /\ filter (fun x => from <=? r_seq x) U = U).
        { assert (ALL : forall l, (forall x, In x l -> from <= r_seq x) -> filter (fun x => from <=? r_seq x) l = l).
          { clear. induction l as [|a l IH]; intros Q; [reflexivity|]. cbn [filter]. assert (X := Q a (or_introl eq_refl)).
            destruct (from <=? r_seq a) eqn:Z; [|lia]. f_equal. apply IH. intros x Hx. apply Q. right; exact Hx. }
          assert (NON : forall l, (forall x, In x l -> r_seq x < from) -> filter (fun x => from <=? r_seq x) l = []).
          { clear. induction l as [|a l IH]; intros Q; [reflexivity|]. cbn [filter]. assert (X := Q a (or_introl eq_refl)).
            destruct (from <=? r_seq a) eqn:Z; [lia|]. apply IH. intros x Hx. apply Q. right; exact Hx. }
          unfold from in *. rewrite (mi_syn _ _ _ _ H), (mi_min _ _ _ _ H) in *. destruct D as [|d D].
          - change (end_seq []) with NIL in *. rewrite N.eqb_refl in *. split; [reflexivity|]. apply ALL. intros x Hx. cbn [app] in EU. rewrite <- EU in Hx.
            apply (fst_le _ _ Hs Hx).
          - destruct (end_in (d :: D)) as (z & Hz & Ez); [discriminate|].
            assert (Bz := HB z ltac:(rewrite EU; apply in_or_app; left; exact Hz)).
            destruct (end_seq (d :: D) =? NIL) eqn:Z; [lia|].
            rewrite N.mod_small in * by (rewrite nil_val in *; change (2 ^ 64) with 18446744073709551616; lia).
            split.
            + apply NON. intros x Hx. rewrite EU in Hs. assert (X := end_ge _ _ (sorted_app_l _ _ Hs) Hx). lia.
            + apply ALL. intros x Hx. rewrite EU in Hs. assert (X := sorted_app_lt _ _ _ _ Hs Hz Hx). lia. }
        destruct FD as [-> ->]. reflexivity. }
      rewrite ED. rewrite take_upto_filter by (rewrite EU in Hs; apply (sorted_app_r _ _ Hs)).
      rewrite (mi_max _ _ _ _ H).
      assert (ALL : filter (fun x => r_seq x <=? end_seq Lf) U = U).
      { assert (Q : forall x, In x U -> r_seq x <= end_seq Lf) by (intros x Hx; apply end_ge; [exact Hs|rewrite EU; apply in_or_app; right; exact Hx]).
        clear -Q. induction U as [|a l IH]; [reflexivity|]. cbn [filter]. assert (X := Q a (or_introl eq_refl)).
        destruct (r_seq a <=? end_seq Lf) eqn:Z; [|lia]. f_equal. apply IH. intros x Hx. apply Q. right; exact Hx. }
      rewrite ALL. symmetry. exact EU.
Qed.

Lemma sync_file_ok : forall f Lf open mx, FI f Lf ->
  exists f' after m', r_sync_file hash c open mx f = Ok (f', after) /\ FI f' Lf /\ on_disk f' Lf /\
    rf_num f' = rf_num f /\ rf_start f' = rf_start f /\ rf_mem f' = Some m' /\ (rf_imm f' = rf_imm f || (rf_num f <? mx)) /\
    (forall m, rf_mem f = Some m -> m_start m' = m_start m).
Proof.
  intros f Lf open mx H. destruct (view_ok hash c Hc f Lf H) as (m & EV & HM & _). unfold r_sync_file. rewrite EV.
  assert (FO := flush_ok Lf _ m (open (rf_num f)) (rf_imm f) HM (fi_bnd _ _ _ H)).
  destruct (r_flush_entries (open (rf_num f)) (rf_imm f) m) as [es after] eqn:EF. destruct FO as (F1 & F2 & _).
  eexists _, _, _. split; [reflexivity|]. cbn [rf_num rf_start rf_mem rf_imm].
  split; [|split; [|split; [reflexivity|split; [reflexivity|split; [reflexivity|split; [reflexivity|]]]]]].
  - constructor; [apply (fi_asc _ _ _ H)|apply (fi_bnd _ _ _ H)|]. cbn [rf_mem rf_disk]. rewrite recs_of_app, F1. exact F2.
  - unfold on_disk. cbn [rf_disk]. rewrite recs_of_app. exact F1.
  - intros m0 E0. unfold view in EV. rewrite E0 in EV. assert (m0 = m) by congruence. subst m0.
    unfold lf_set_synced. destruct (negb _); reflexivity.
Qed.

Lemma sync_app : forall open from mx a b last,
  r_sync_files hash c open from mx last (a ++ b) =
  match r_sync_files hash c open from mx last a with
  | Ok (a', l1) => match r_sync_files hash c open from mx l1 b with
                   | Ok (b', l) => Ok (a' ++ b', l)
                   | other => other
                   end
  | other => other
  end.
Proof.
  intros open from mx. induction a as [|f a IH]; intros b last.
  - cbn [app r_sync_files]. destruct (r_sync_files hash c open from mx last b) as [[b' l]| |]; reflexivity.
  - cbn [app r_sync_files]. destruct ((from <=? rf_num f) && (rf_num f <=? mx)).
    + destruct (r_sync_file hash c open mx f) as [[f' after]| |]; try reflexivity. rewrite IH.
      destruct (r_sync_files hash c open from mx _ a) as [[a' l1]| |]; try reflexivity.
      destruct (r_sync_files hash c open from mx l1 b) as [[b' l]| |]; reflexivity.
    + rewrite IH. destruct (r_sync_files hash c open from mx last a) as [[a' l1]| |]; try reflexivity.
      destruct (r_sync_files hash c open from mx l1 b) as [[b' l]| |]; reflexivity.
Qed.

Lemma sync_pre : forall ls n lo fs L n' lo', pre ls n lo fs L n' lo' ->
  forall open from mx last, (valid_number ls = true /\ from = ls) \/ from <= n -> n' <= mx -> last <= mx ->
  exists fs' l, r_sync_files hash c open from mx last fs = Ok (fs', l) /\ (forall ls2, pre ls2 n lo fs' L n' lo') /\ l <= mx.
Proof.
  intros ls n lo fs L n' lo' H. induction H as [|n lo f Lf t L n' lo' Hm Hp IH]; intros open from mx last Hf Hn Hla.
  - exists [], last. split; [reflexivity|]. split; [intros; constructor|exact Hla].
  - assert (En := md_num _ _ _ _ _ _ Hm). assert (N1 := proj1 (pre_nums _ _ _ _ _ _ _ _ Hp)).
    cbn [r_sync_files]. rewrite En. destruct ((from <=? n) && (n <=? mx)) eqn:EC.
    + destruct (sync_file_ok f Lf open mx (md_fi _ _ _ _ _ _ Hm)) as (f' & after & m' & E & S1 & S2 & S3 & S4 & S5 & S6 & _).
      rewrite E. destruct (IH open from mx (if valid_number after then n else last)) as (t' & l & E2 & I1 & I2).
      * destruct Hf as [Hf|Hf]; [left; exact Hf|right; lia].
      * exact Hn.
      * destruct (valid_number after); lia.
      * rewrite E2. exists (f' :: t'), l. split; [reflexivity|]. split; [|exact I2]. intros ls2. econstructor; [|apply I1].
        constructor; [congruence|rewrite S4; apply (md_lo _ _ _ _ _ _ Hm)|rewrite S4; apply (md_st _ _ _ _ _ _ Hm)|apply (md_ne _ _ _ _ _ _ Hm)|exact S1|intros _ _; exact S2|congruence].
    + destruct (IH open from mx last) as (t' & l & E2 & I1 & I2).
      * destruct Hf as [Hf|Hf]; [left; exact Hf|right; lia].
      * exact Hn.
      * exact Hla.
      * rewrite E2. exists (f :: t'), l. split; [reflexivity|]. split; [|exact I2]. intros ls2. econstructor; [|apply I1].
        destruct Hm as [M1 M2 M3 M4 M5 M6 M7]. constructor; try assumption. intros _ _. apply M6; [|lia].
        destruct Hf as [[V _]|Hf]; [exact V|lia].
Qed.

(** After a sync every record is on disk. *)
Definition synced_inv (L : list rec) (s : rst) : Prop :=
  exists n0 fA f LA Lf lo, rs_files s = fA ++ [f] /\ L = LA ++ Lf /\
    (forall ls2, pre ls2 n0 0 fA LA (rs_max s) lo) /\ last_ok (rs_max s) lo f Lf /\ on_disk f Lf /\
    (exists m, rf_mem f = Some m) /\
    (valid_number (rs_ls s) = true -> rs_ls s <= rs_max s) /\ rs_max s < NIL.

Lemma synced_is_inv : forall L s, synced_inv L s -> inv L s.
Proof.
  intros L s (n0 & fA & f & LA & Lf & lo & E1 & E2 & Hp & Hl & _ & _ & H1 & H2).
  exists n0, fA, f, LA, Lf, lo. auto 10.
Qed.

Lemma sync_ok : forall L s open, inv L s -> exists s', r_sync hash c open s = (Ok tt, s') /\ synced_inv L s' /\ rs_max s' = rs_max s.
Proof.
  intros L s open (n0 & fA & f & LA & Lf & lo & EF & EL & Hp & Hl & Hls & Hmx). unfold r_sync.
  set (from := if rs_ls s =? NIL then match rs_files s with f0 :: _ => rf_num f0 | [] => 0 end else rs_ls s).
  assert (NUM := lk_num _ _ _ _ _ Hl). destruct (pre_nums _ _ _ _ _ _ _ _ Hp) as [PN1 PN2].
  assert (Hfrom : (valid_number (rs_ls s) = true /\ from = rs_ls s) \/ from <= n0).
  { unfold from. destruct (rs_ls s =? NIL) eqn:E.
    - right. rewrite EF. destruct fA as [|g fA']; cbn [app].
      + inversion Hp; subst; lia.
      + inversion Hp as [|? ? ? ? ? ? ? ? Hm ?]; subst. rewrite (md_num _ _ _ _ _ _ Hm). lia.
    - left. split; [apply vn_true; lia|reflexivity]. }
  assert (Hfm : from <= rs_max s) by (destruct Hfrom as [[V ->]|Hf]; [apply Hls, V|lia]).
  destruct (sync_pre _ _ _ _ _ _ _ Hp open from (rs_max s) from Hfrom ltac:(lia) Hfm) as (fA' & l1 & E1 & Hp' & Hl1).
  rewrite EF, sync_app, E1. cbn [r_sync_files]. rewrite NUM.
  destruct ((from <=? rs_max s) && (rs_max s <=? rs_max s)) eqn:EC; [|lia].
  destruct (sync_file_ok f Lf open (rs_max s) (lk_fi _ _ _ _ _ Hl)) as (f' & after & m' & E & S1 & S2 & S3 & S4 & S5 & S6 & S7).
  rewrite E. eexists. split; [reflexivity|]. split; [|reflexivity].
  exists n0, fA', f', LA, Lf, lo. cbn [rs_files rs_max rs_ls].
  split; [reflexivity|]. split; [exact EL|]. split; [exact Hp'|].
  split; [|split; [exact S2|split; [eauto|split; [|exact Hmx]]]].
  - constructor.
    + congruence.
    + rewrite S4. apply (lk_lo _ _ _ _ _ Hl).
    + exact S1.
    + rewrite S4. apply (lk_st _ _ _ _ _ Hl).
    + intros E0. destruct (lk_new _ _ _ _ _ Hl E0) as (K1 & K2 & K3 & K4 & m0 & K5 & K6). rewrite S4, S6, K4, NUM.
      split; [exact K1|]. split; [exact K2|]. split; [exact K3|]. split; [rewrite N.ltb_irrefl; reflexivity|].
      exists m'. split; [exact S5|]. rewrite (S7 _ K5). exact K6.
  - intros _. destruct (valid_number after); lia.
Qed.

End Proofs.
