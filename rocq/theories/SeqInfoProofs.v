(** Proofs about getMinSeqNum and the count of the log. *)
From Verif Require Import Base KeyModel KeyProofs LogFormatModel BloomModel MemTableModel MemTableProofs
  LogMgrModel LogMgrProofs LogMgrProofs2 LogMgrProofs3 DbModel DbProofs SeqInfoModel SeqInfoSpec.
From Coq Require Import Sorted.
Local Open Scope N_scope.

Section Proofs.
Variable hash : key -> N * N.
Notation GI := (GI hash).
Notation FI := (FI hash).

(** The mark of the first file is the number up to which writes were handed to the tables. *)
Lemma first_mark : forall n0 pre h F g f t, GI n0 pre h F g -> g_files g = f :: t ->
  (m_flushed (f_mt f) = NIL -> F = 0) /\ (m_flushed (f_mt f) <> NIL -> m_flushed (f_mt f) = F /\ 1 <= F).
Proof.
  intros n0 pre h F g f t H E.
  assert (A : F <> 0 -> m_flushed (f_mt f) <> NIL /\ F <= m_flushed (f_mt f) -> True) by auto.
  assert (B : F <> 0 -> valid_number (m_flushed (f_mt f)) = true /\ m_flushed (f_mt f) >= F).
  { intros HF. destruct (gi_F _ _ _ _ _ _ H HF) as (r & Hr & Er). apply in_flat_map in Hr. destruct Hr as (f' & Hf' & Hr).
    assert (U := gi_flu _ _ _ _ _ _ H f' r Hf' Hr). rewrite Er, N.ltb_irrefl in U. unfold unflushed in U.
    apply orb_false_iff in U. destruct U as [U1 U2]. apply negb_false_iff in U1.
    destruct (in_split _ _ Hf') as (a & b & Es).
    assert (Ha : a = []). { apply (gi_first _ _ _ _ _ _ H a f' b Es). intros C. rewrite C in U1. discriminate. }
    subst a. rewrite E in Es. cbn [app] in Es. injection Es as <- _. split; [exact U1|]. lia. }
  split.
  - intros C. destruct (N.eq_dec F 0) as [|n]; [assumption|]. destruct (B n) as [B1 _]. rewrite C in B1. discriminate.
  - intros C. assert (Hf : In f (g_files g)) by (rewrite E; left; reflexivity).
    destruct (fi_flu _ _ (gi_fi _ _ _ _ _ _ H f Hf) C) as (r & Hr & Er).
    assert (U := gi_flu _ _ _ _ _ _ H f r Hf Hr). unfold unflushed in U. rewrite Er, N.ltb_irrefl in U.
    assert (Hp : 1 <= r_seq r).
    { apply (gi_pos _ _ _ _ _ _ H). rewrite (gi_hist _ _ _ _ _ _ H). apply in_or_app; right. apply in_flat_map. exists f; auto. }
    assert (Hlt : r_seq r < NIL).
    { apply (gi_lt _ _ _ _ _ _ _ H). apply in_flat_map. exists f; auto. }
    assert (V : valid_number (m_flushed (f_mt f)) = true).
    { unfold valid_number. apply negb_true_iff, N.eqb_neq. exact C. }
    rewrite V in U. cbn [negb orb] in U. assert (X : m_flushed (f_mt f) <= F) by lia.
    assert (Y : F <> 0) by lia. destruct (B Y). lia.
Qed.

Lemma first_file : forall n0 pre h F g, GI n0 pre h F g -> exists f t, g_files g = f :: t /\ f_num f = n0 /\ nums_from (n0 + 1) t /\
  file_at n0 (g_files g) = Some f.
Proof.
  intros n0 pre h F g H. assert (N := gi_nums _ _ _ _ _ _ H). assert (E := gi_ne _ _ _ _ _ _ H).
  destruct (g_files g) as [|f t]; [congruence|]. destruct N as [N1 N2]. exists f, t. repeat split; auto.
  unfold file_at. cbn [find]. rewrite N1, N.eqb_refl. reflexivity.
Qed.

Lemma flushed_F : forall n0 pre h F d, GI n0 pre h F (d_log d) -> flushed_upto d = F.
Proof.
  intros n0 pre h F d H. unfold flushed_upto, lm_flushed_seq. rewrite (gi_last_flushed _ _ _ _ _ _ H).
  destruct (first_file _ _ _ _ _ H) as (f & t & E & _ & _ & A). rewrite A.
  destruct (first_mark _ _ _ _ _ _ _ H E) as [P Q]. unfold valid_number.
  destruct (m_flushed (f_mt f) =? NIL) eqn:C; cbn [negb].
  - apply N.eqb_eq in C. symmetry. apply P, C.
  - apply N.eqb_neq in C. apply Q, C.
Qed.

Lemma filter_nil : forall {A} (p : A -> bool) l, (forall x, In x l -> p x = false) -> filter p l = [].
Proof.
  intros A p l H. induction l as [|x l IH]; [reflexivity|]. cbn [filter]. rewrite (H x (or_introl eq_refl)).
  apply IH. intros y Hy; apply H; right; exact Hy.
Qed.

Lemma filter_all : forall {A} (p : A -> bool) l, (forall x, In x l -> p x = true) -> filter p l = l.
Proof.
  intros A p l H. induction l as [|x l IH]; [reflexivity|]. cbn [filter]. rewrite (H x (or_introl eq_refl)).
  f_equal. apply IH. intros y Hy; apply H; right; exact Hy.
Qed.

Lemma sorted_hd : forall x l y, sorted_seq (x :: l) -> In y (x :: l) -> r_seq x <= r_seq y.
Proof.
  intros x l y S [->|H]; [lia|]. unfold sorted_seq in S. cbn [map] in S. apply StronglySorted_inv in S. destruct S as [_ S].
  rewrite Forall_forall in S. assert (r_seq x < r_seq y) by (apply S, in_map, H). lia.
Qed.

(** The answer in general. *)
Lemma min_gi : forall n0 pre h F g, GI n0 pre h F g -> lastseq h + 1 < NIL ->
  lm_min_seq g =
  Ok (match filter (fun r => F <? r_seq r) h with
      | [] => None
      | r :: _ => Some (if F =? 0 then r_seq r else F + 1)
      end).
Proof.
  intros n0 pre h F g H Hl. unfold lm_min_seq. rewrite (gi_last_flushed _ _ _ _ _ _ H).
  destruct (first_file _ _ _ _ _ H) as (f & t & E & En & Nt & A). rewrite A.
  destruct (first_mark _ _ _ _ _ _ _ H E) as [P Q].
  assert (Hf : In f (g_files g)) by (rewrite E; left; reflexivity).
  assert (Hh := gi_hist _ _ _ _ _ _ H). rewrite E in Hh. cbn [all_h flat_map] in Hh. fold (all_h t) in Hh.
  unfold valid_number at 1. destruct (m_flushed (f_mt f) =? NIL) eqn:C; cbn [negb].
  - (* nothing flushed *)
    apply N.eqb_eq in C. assert (F0 := P C). subst F.
    assert (Hpre : pre = []).
    { destruct pre as [|x p]; [reflexivity|]. exfalso. assert (X := gi_pre _ _ _ _ _ _ H x (or_introl eq_refl)).
      assert (Y : 1 <= r_seq x) by (apply (gi_pos _ _ _ _ _ _ H); rewrite Hh; left; reflexivity). lia. }
    subst pre. cbn [app] in Hh.
    rewrite (filter_all _ h) by (intros x Hx; assert (Y := gi_pos _ _ _ _ _ _ H x Hx); lia).
    rewrite N.eqb_refl.
    destruct h as [|x h'] eqn:Eh.
    + destruct (fi_emp _ _ (gi_fi _ _ _ _ _ _ H f Hf)) as [_ M]. { destruct (fh f); [reflexivity|discriminate]. }
      rewrite M. change (valid_number NIL) with false. cbv iota. rewrite (gi_max_num _ _ _ _ _ _ H Hl).
      assert (G := gi_few _ _ _ _ _ _ H). cbn in G.
      replace (g_max g <=? n0) with true by lia. reflexivity.
    + rewrite <- Eh in *. assert (Hne : h <> []) by (rewrite Eh; discriminate).
      assert (Hfn := gi_nonemp _ _ _ _ _ _ H Hne f Hf).
      assert (FI1 := gi_fi _ _ _ _ _ _ H f Hf).
      destruct (fi_min _ _ FI1 Hfn) as (r & Hr & Er).
      assert (Hlt : r_seq r < NIL) by (apply (gi_lt _ _ _ _ _ _ _ H); apply in_flat_map; exists f; auto).
      unfold valid_number. replace (m_min (f_mt f) =? NIL) with false by lia. cbn [negb].
      (* the first of the file is the first of all *)
      destruct (fh f) as [|y u] eqn:Eu; [congruence|]. cbn [app] in Hh. rewrite Eh in Hh. injection Hh as <- _.
      assert (S := mw_asc _ _ _ (fi_mw _ _ FI1)). rewrite Eu in S.
      assert (L1 := sorted_hd _ _ _ S Hr).
      assert (L2 := mw_min _ _ _ (fi_mw _ _ FI1) x). rewrite Eu in L2. specialize (L2 (or_introl eq_refl)).
      do 2 f_equal. lia.
  - apply N.eqb_neq in C. destruct (Q C) as [QF Q1]. rewrite QF.
    assert (HF0 : F <> 0) by lia. replace (F =? 0) with false by lia.
    destruct (gi_F _ _ _ _ _ _ H HF0) as (rF & HrF & ErF).
    assert (HFlt : F < NIL) by (rewrite <- ErF; apply (gi_lt _ _ _ _ _ _ _ H), HrF).
    assert (Hne : h <> []). { rewrite (gi_hist _ _ _ _ _ _ H). intros X. apply app_eq_nil in X. destruct X as [_ X]. rewrite X in HrF. exact HrF. }
    assert (Hfn := gi_nonemp _ _ _ _ _ _ H Hne f Hf).
    assert (FI1 := gi_fi _ _ _ _ _ _ H f Hf).
    assert (Mx := fi_max _ _ FI1 Hfn).
    assert (HFl : F <= lastseq h) by (apply (gi_F_le hash _ _ _ _ _ H)).
    destruct (file_at (n0 + 1) (g_files g)) as [f'|] eqn:En1.
    + (* another file *)
      rewrite andb_false_r. apply file_at_in in En1. destruct En1 as [I1 N1].
      assert (Hf'n := gi_nonemp _ _ _ _ _ _ H Hne f' I1).
      destruct (fh f') as [|y u] eqn:Eu; [congruence|].
      assert (Hy : In y (fh f')) by (rewrite Eu; left; reflexivity).
      assert (U := gi_flu _ _ _ _ _ _ H f' y I1 Hy).
      assert (V : m_flushed (f_mt f') = NIL).
      { destruct (N.eq_dec (m_flushed (f_mt f')) NIL) as [|n]; [assumption|]. exfalso.
        rewrite E in I1. destruct I1 as [<-|I1]; [lia|]. destruct (in_split _ _ I1) as (a & b & Es).
        assert (X := gi_first _ _ _ _ _ _ H (f :: a) f' b). rewrite E, Es in X. specialize (X eq_refl n). discriminate. }
      unfold unflushed in U. rewrite V in U. change (valid_number NIL) with false in U. cbn [negb orb] in U.
      assert (Hyh : In y (filter (fun r => F <? r_seq r) h)).
      { apply filter_In. split; [|symmetry; exact U]. rewrite (gi_hist _ _ _ _ _ _ H). apply in_or_app; right. apply in_flat_map. exists f'; auto. }
      destruct (filter (fun r => F <? r_seq r) h) as [|z v]; [destruct Hyh|].
      rewrite N.mod_small by (rewrite nil_val in *; lia). reflexivity.
    + (* the only file *)
      assert (Ht : t = []).
      { destruct t as [|f2 t2]; [reflexivity|]. exfalso. destruct Nt as [Nt _]. unfold file_at in En1. rewrite E in En1.
        cbn [find] in En1. rewrite En, Nt in En1. rewrite N.eqb_refl in En1. destruct (n0 =? n0 + 1); discriminate. }
      subst t. cbn [all_h flat_map] in Hh. rewrite app_nil_r in Hh.
      assert (Hll : lastseq h = lastseq (fh f)).
      { rewrite Hh. destruct (exists_last Hfn) as (a & z & Ez). rewrite Ez, app_assoc, !lastseq_snoc. reflexivity. }
      rewrite andb_true_r, Mx, <- Hll. destruct (F =? lastseq h) eqn:EF.
      * apply N.eqb_eq in EF. rewrite filter_nil; [reflexivity|]. intros x Hx.
        assert (X := lastseq_ge h x (gi_asc _ _ _ _ _ _ H) Hx). lia.
      * apply N.eqb_neq in EF. destruct (exists_last Hne) as (a & z & Ez).
        assert (Hz : In z (filter (fun r => F <? r_seq r) h)).
        { apply filter_In. split; [rewrite Ez; apply in_or_app; right; left; reflexivity|].
          rewrite Ez, lastseq_snoc in HFl, EF. lia. }
        destruct (filter (fun r => F <? r_seq r) h) as [|w v]; [destruct Hz|].
        rewrite N.mod_small by (rewrite nil_val in *; lia). reflexivity.
Qed.

Lemma count_gi : forall n0 pre h F g, GI n0 pre h F g -> lastseq h + 1 < NIL -> log_count g = Ok (lastseq h - F).
Proof.
  intros n0 pre h F g H Hl. unfold log_count, lm_range. rewrite (gi_last_flushed _ _ _ _ _ _ H).
  destruct (first_file _ _ _ _ _ H) as (f & t & E & En & Nt & A). rewrite A, (gi_max_num _ _ _ _ _ _ H Hl).
  rewrite (gi_newest _ _ _ _ _ _ H), (newest_file_max _ _ _ _ _ _ H).
  destruct (first_mark _ _ _ _ _ _ _ H E) as [P Q]. assert (HF := gi_F_le hash _ _ _ _ _ H).
  destruct h as [|x h'] eqn:Eh.
  - cbn in HF. assert (F = 0) by lia. subst F. change (valid_number NIL) with false. rewrite andb_false_r. reflexivity.
  - rewrite <- Eh in *. assert (Vh : valid_number (lastseq h) = true) by (unfold valid_number; replace (lastseq h =? NIL) with false by lia; reflexivity).
    rewrite Vh. destruct (m_flushed (f_mt f) =? NIL) eqn:C.
    + apply N.eqb_eq in C. rewrite (P C). change (valid_number 0) with true. cbn [andb]. rewrite N.eqb_refl.
      replace (0 <=? lastseq h) with true by lia. f_equal. lia.
    + apply N.eqb_neq in C. destruct (Q C) as [-> Q1]. rewrite N.mod_small by (rewrite nil_val in *; lia).
      unfold valid_number. replace (F + 1 =? NIL) with false by lia. cbn [negb andb].
      destruct (F + 1 <=? lastseq h) eqn:L.
      * replace (F + 1 =? 0) with false by lia. f_equal. lia.
      * f_equal. lia.
Qed.

(** * The statements *)

Lemma di_gi : forall c h d, DI hash c h d -> d_bat d = None ->
  exists n0 pre, GI n0 pre h (flushed_upto d) (d_log d) /\ d_tab d = filter (fun r => r_seq r <=? flushed_upto d) h /\ lastseq h + 1 < NIL.
Proof.
  intros c h d D B. destruct (di_ex _ _ _ _ D) as (n0 & pre & F & part & H & T & L & _ & _ & _ & M).
  rewrite B in M. destruct M as [-> _]. rewrite app_nil_r in *. exists n0, pre. rewrite (flushed_F _ _ _ _ _ H). auto.
Qed.

Lemma tables_ok : forall c h d, cfg_ok c -> reach hash c h d -> d_bat d = None ->
  d_tab d = filter (fun r => r_seq r <=? flushed_upto d) h.
Proof. intros c h d C R B. destruct (di_gi c h d (reach_inv hash c h d C R) B) as (n0 & pre & _ & T & _). exact T. Qed.

Lemma min_bound : forall c h d, cfg_ok c -> reach hash c h d -> d_bat d = None ->
  match in_log d h with
  | [] => lm_min_seq (d_log d) = Ok None
  | r :: _ => exists m, lm_min_seq (d_log d) = Ok (Some m) /\ flushed_upto d < m <= r_seq r /\
                        (flushed_upto d = 0 -> m = r_seq r)
  end.
Proof.
  intros c h d C R B. destruct (di_gi c h d (reach_inv hash c h d C R) B) as (n0 & pre & H & _ & L).
  assert (M := min_gi _ _ _ _ _ H L). unfold in_log.
  destruct (filter (fun r => flushed_upto d <? r_seq r) h) as [|r v] eqn:E; [exact M|].
  eexists. split; [exact M|].
  assert (I : In r (filter (fun r => flushed_upto d <? r_seq r) h)) by (rewrite E; left; reflexivity).
  apply filter_In in I. destruct I as [_ I]. destruct (flushed_upto d =? 0) eqn:Z; lia.
Qed.

Lemma cons_in : forall h r, consecutive h -> In r h -> exists i, nth_error h i = Some r /\ r_seq r = N.of_nat i + 1.
Proof. intros h r C I. apply In_nth_error in I. destruct I as [i E]. exists i. split; [exact E|apply C, E]. Qed.

Lemma cons_len : forall h, consecutive h -> lastseq h = N.of_nat (length h).
Proof.
  intros h C. destruct h as [|x h'] eqn:E; [reflexivity|]. rewrite <- E in *. assert (Hne : h <> []) by (rewrite E; discriminate).
  destruct (exists_last Hne) as (a & z & Ez). rewrite Ez at 1. rewrite lastseq_snoc. rewrite (C (length a) z).
  - rewrite Ez, app_length. cbn [length]. lia.
  - rewrite Ez, nth_error_app2, Nat.sub_diag by lia. reflexivity.
Qed.

Lemma consecutive_tl : forall k h, (forall i r, nth_error h i = Some r -> r_seq r = N.of_nat i + 1 + k) ->
  forall F, N.of_nat (length (filter (fun r => F <? r_seq r) h)) = (N.of_nat (length h) + k) - N.max F k.
Proof.
  intros k h. revert k. induction h as [|x h IH]; intros k C F; [cbn; lia|].
  assert (Cx := C 0%nat x eq_refl). assert (IHk := IH (k + 1)).
  assert (C' : forall i r, nth_error h i = Some r -> r_seq r = N.of_nat i + 1 + (k + 1)) by (intros i r Hi; rewrite (C (S i) r Hi); lia).
  specialize (IHk C' F). cbn [filter length]. destruct (F <? r_seq x) eqn:E; cbn [length]; lia.
Qed.

Lemma min_exact : forall c h d, cfg_ok c -> reach hash c h d -> d_bat d = None -> consecutive h ->
  lm_min_seq (d_log d) = Ok (match in_log d h with [] => None | r :: _ => Some (r_seq r) end).
Proof.
  intros c h d C R B K. destruct (di_gi c h d (reach_inv hash c h d C R) B) as (n0 & pre & H & _ & L).
  rewrite (min_gi _ _ _ _ _ H L). unfold in_log. set (F := flushed_upto d) in *.
  destruct (filter (fun r => F <? r_seq r) h) as [|r v] eqn:E; [reflexivity|].
  destruct (F =? 0) eqn:Z; [reflexivity|]. do 2 f_equal.
  assert (I : In r (filter (fun r => F <? r_seq r) h)) by (rewrite E; left; reflexivity).
  apply filter_In in I. destruct I as [I IF]. destruct (cons_in h r K I) as (i & Ei & Er).
  assert (HF : F <> 0) by lia. destruct (gi_F _ _ _ _ _ _ H HF) as (rF & HrF & ErF).
  assert (IFh : In rF h) by (rewrite (gi_hist _ _ _ _ _ _ H); apply in_or_app; right; exact HrF).
  (* the write numbered F + 1 exists and is in the log *)
  assert (Len : (N.to_nat F < length h)%nat).
  { assert (X : (i < length h)%nat) by (apply nth_error_Some; rewrite Ei; discriminate). lia. }
  destruct (nth_error h (N.to_nat F)) as [y|] eqn:Ey; [|apply nth_error_None in Ey; lia].
  assert (Ys := K _ _ Ey).
  assert (Iy : In y (r :: v)) by (rewrite <- E; apply filter_In; split; [apply nth_error_In in Ey; exact Ey|lia]).
  assert (S : sorted_seq (r :: v)) by (rewrite <- E; apply sorted_seq_filter, (gi_asc _ _ _ _ _ _ H)).
  assert (X := sorted_hd _ _ _ S Iy). lia.
Qed.

Lemma count_exact : forall c h d, cfg_ok c -> reach hash c h d -> d_bat d = None -> consecutive h ->
  log_count (d_log d) = Ok (N.of_nat (length (in_log d h))).
Proof.
  intros c h d C R B K. destruct (di_gi c h d (reach_inv hash c h d C R) B) as (n0 & pre & H & _ & L).
  rewrite (count_gi _ _ _ _ _ H L), (cons_len h K). f_equal. unfold in_log.
  rewrite (consecutive_tl 0 h) by (intros i r Hi; rewrite (K i r Hi); lia). lia.
Qed.

Lemma count_bound : forall c h d, cfg_ok c -> reach hash c h d -> d_bat d = None ->
  exists n, log_count (d_log d) = Ok n /\ N.of_nat (length (in_log d h)) <= n.
Proof.
  intros c h d C R B. destruct (di_gi c h d (reach_inv hash c h d C R) B) as (n0 & pre & H & _ & L).
  exists (lastseq h - flushed_upto d). split; [apply (count_gi _ _ _ _ _ H L)|].
  assert (S := gi_asc _ _ _ _ _ _ H). clear -S. unfold in_log. set (F := flushed_upto d). clearbody F.
  assert (Q : forall l k, sorted_seq l -> (forall r, In r l -> k < r_seq r) -> k + N.of_nat (length l) <= N.max k (lastseq l)).
  { induction l as [|x l IH]; intros k Sl Hk; [cbn; lia|]. 
    assert (Hx := Hk x (or_introl eq_refl)).
    assert (Hl : forall r, In r l -> r_seq x < r_seq r).
    { intros r Hr. unfold sorted_seq in Sl. cbn [map] in Sl. apply StronglySorted_inv in Sl. destruct Sl as [_ Sl].
      rewrite Forall_forall in Sl. apply Sl, in_map, Hr. }
    assert (Sl' : sorted_seq l) by (unfold sorted_seq in *; cbn [map] in Sl; apply StronglySorted_inv in Sl; tauto).
    specialize (IH (r_seq x) Sl' Hl). cbn [length].
    destruct l as [|y l'] eqn:E.
    - cbn. cbn in IH. lia.
    - rewrite <- E in *. assert (Hne : l <> []) by (rewrite E; discriminate). destruct (exists_last Hne) as (a & z & Ez).
      assert (Lz : lastseq (x :: l) = lastseq l) by (rewrite Ez, app_comm_cons, !lastseq_snoc; reflexivity). rewrite Lz.
      assert (In z l) by (rewrite Ez; apply in_or_app; right; left; reflexivity). specialize (Hl z H).
      assert (lastseq l = r_seq z) by (rewrite Ez; apply lastseq_snoc). lia. }
  assert (X := Q (filter (fun r => F <? r_seq r) h) F (sorted_seq_filter _ _ S)).
  destruct (filter (fun r => F <? r_seq r) h) as [|x l] eqn:E; [cbn; lia|]. rewrite <- E in *.
  assert (Hne : filter (fun r => F <? r_seq r) h <> []) by (rewrite E; discriminate).
  assert (Y : forall r, In r (filter (fun r => F <? r_seq r) h) -> F < r_seq r) by (intros r Hr; apply filter_In in Hr; lia).
  specialize (X Y). destruct (exists_last Hne) as (a & z & Ez).
  assert (Hz : In z (filter (fun r => F <? r_seq r) h)) by (rewrite Ez; apply in_or_app; right; left; reflexivity).
  assert (Fz := Y z Hz). rewrite Ez in X at 2. rewrite lastseq_snoc in X. apply filter_In in Hz. destruct Hz as [Hz _].
  assert (Lz := lastseq_ge h z S Hz). lia.
Qed.

End Proofs.
