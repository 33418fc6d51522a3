(** Reads, rollback, eviction and reopening; the claims of RollbackProps.v. *)
From Verif Require Import Base KeyModel KeyProofs LogFormatModel LogWriterModel LogSpec BloomModel BloomProofs
  MemTableModel MemTableProofs RollbackModel RollbackSpec RollbackProofs RollbackProofs2 RollbackProofs3.
From Coq Require Import Sorted ZifyBool.
Local Open Scope N_scope.

(** ** The specification *)

Lemma find_app : forall {A} (p : A -> bool) a b, find p (a ++ b) = match find p a with Some x => Some x | None => find p b end.
Proof. intros A p. induction a as [|x a IH]; intros b; [reflexivity|]. cbn [app find]. destruct (p x); [reflexivity|apply IH]. Qed.

Lemma latest_app : forall k a b, latest k (a ++ b) = match latest k b with Some r => Some r | None => latest k a end.
Proof. intros. unfold latest. rewrite rev_app_distr. apply find_app. Qed.

Lemma numbered_none : forall n L, (forall r, In r L -> r_seq r <> n) -> numbered n L = None.
Proof.
  unfold numbered. intros n L H. destruct (find _ L) as [x|] eqn:E; [|reflexivity]. apply find_some in E. destruct E as [E1 E2].
  specialize (H x E1). cbn beta in E2. lia.
Qed.

Lemma numbered_app : forall n a b, numbered n (a ++ b) = match numbered n a with Some r => Some r | None => numbered n b end.
Proof. intros. apply find_app. Qed.

Lemma numbered_rev : forall L n, sorted_seq L -> find (fun r => r_seq r =? n) (rev L) = numbered n L.
Proof.
  induction L as [|a L IH]; intros n Hs; [reflexivity|]. cbn [rev numbered find]. rewrite find_app. rewrite IH.
  - destruct (r_seq a =? n) eqn:E.
    + rewrite numbered_none; [cbn [find]; rewrite E; reflexivity|]. intros r Hr.
      assert (X := sorted_app_lt [a] L a r Hs (or_introl eq_refl) Hr). lia.
    + cbn [find]. rewrite E. unfold numbered. destruct (find _ L); reflexivity.
  - apply (sorted_app_r [a] L Hs).
Qed.

Lemma filter_all : forall (p : rec -> bool) l, (forall x, In x l -> p x = true) -> filter p l = l.
Proof.
  intros p. induction l as [|a l IH]; intros H; [reflexivity|]. cbn [filter]. rewrite (H a (or_introl eq_refl)). f_equal.
  apply IH. intros x Hx. apply H. right; exact Hx.
Qed.
Lemma filter_no : forall (p : rec -> bool) l, (forall x, In x l -> p x = false) -> filter p l = [].
Proof.
  intros p. induction l as [|a l IH]; intros H; [reflexivity|]. cbn [filter]. rewrite (H a (or_introl eq_refl)).
  apply IH. intros x Hx. apply H. right; exact Hx.
Qed.

Lemma find_filter : forall {A} (p q : A -> bool) l, find p (filter q l) = find (fun x => q x && p x) l.
Proof.
  intros A p q. induction l as [|a l IH]; [reflexivity|]. cbn [filter find]. destruct (q a); cbn [andb find]; [|exact IH].
  destruct (p a); [reflexivity|exact IH].
Qed.
Lemma find_ext : forall {A} (p q : A -> bool) l, (forall x, p x = q x) -> find p l = find q l.
Proof. intros A p q l H. induction l as [|a l IH]; [reflexivity|]. cbn [find]. rewrite H, IH. reflexivity. Qed.

Lemma newest_latest : forall k L, newest L NIL k = latest k L.
Proof.
  intros k L. unfold newest, latest, for_key.
  replace (rev (filter (fun r => keqb (r_key r) k && negb (is_cmd r)) L))
    with (filter (fun r => keqb (r_key r) k && negb (is_cmd r)) (rev L)).
  - rewrite find_filter. apply find_ext. intros x. unfold visible. rewrite nil_invalid. cbn. rewrite andb_true_r. reflexivity.
  - induction L as [|a L IH]; [reflexivity|]. cbn [rev filter]. rewrite filter_app, IH. cbn [filter].
    destruct (_ && _); cbn [rev]; [reflexivity|rewrite app_nil_r; reflexivity].
Qed.

Section Proofs.
Variable hash : key -> N * N.
Variable c : rcfg.
Hypothesis Hc : cfg_fine c.

Notation FI := (FI hash).
Notation MI := (MI hash).
Notation pre := (pre hash).
Notation mid_ok := (mid_ok hash).
Notation last_ok := (last_ok hash).
Notation inv := (inv hash).
Notation synced_inv := (synced_inv hash).

(** ** Reads by key *)

Lemma get_file : forall f Lf k, FI f Lf ->
  match view hash c f with
  | Ok m => match latest k Lf with
            | Some r => mt_get hash NIL k false true m = Ok r
            | None => exists e, mt_get hash NIL k false true m = Fail e
            end
  | _ => False
  end.
Proof.
  intros f Lf k H. destruct (view_ok hash c Hc f Lf H) as (m & E & HM & _). rewrite E.
  rewrite (mt_get_spec hash Lf m NIL k false true (mw_mr _ _ _ (mi_mw _ _ _ _ HM))), (mi_fl _ _ _ _ HM), newest_latest.
  unfold answer. rewrite nil_invalid. cbn [andb negb]. destruct (latest k Lf); [reflexivity|eauto].
Qed.

Inductive parts : list rfile -> list rec -> Prop :=
| pt_nil : parts [] []
| pt_snoc : forall fs L f Lf, parts fs L -> FI f Lf -> parts (fs ++ [f]) (L ++ Lf).

Lemma parts_pre : forall ls n lo fs L n' lo', pre ls n lo fs L n' lo' -> forall A LA, parts A LA -> parts (A ++ fs) (LA ++ L).
Proof.
  intros ls n lo fs L n' lo' H. induction H as [|n lo f Lf t L n' lo' Hm Hp IH]; intros A LA HA.
  - rewrite !app_nil_r. exact HA.
  - assert (X := IH (A ++ [f]) (LA ++ Lf) (pt_snoc _ _ _ _ HA (md_fi _ _ _ _ _ _ Hm))). rewrite <- !app_assoc in X. exact X.
Qed.

Lemma inv_parts : forall L s, inv L s -> parts (rs_files s) L.
Proof.
  intros L s (n0 & fA & f & LA & Lf & lo & EF & EL & Hp & Hl & _). rewrite EF, EL. constructor; [|apply (lk_fi _ _ _ _ _ Hl)].
  apply (parts_pre _ _ _ _ _ _ _ Hp [] []). constructor.
Qed.

Lemma get_ok : forall L s k, inv L s -> answers (r_get hash c k s) (latest k L).
Proof.
  intros L s k H. apply inv_parts in H. unfold r_get. induction H as [|fs L f Lf Hp IH HF]; [cbn; eauto|].
  rewrite rev_app_distr. cbn [rev app r_first_ok]. assert (X := get_file f Lf k HF). rewrite latest_app.
  destruct (view hash c f) as [m| |]; try contradiction. destruct (latest k Lf) as [r|].
  - rewrite X. reflexivity.
  - destruct X as (e & ->). exact IH.
Qed.

(** ** The file of a number *)

Lemma by_start_spec : forall s fs, StronglySorted N.lt (map rf_start fs) ->
  match r_by_start s fs with
  | None => forall f, In f fs -> s < rf_start f
  | Some f => exists A B, fs = A ++ f :: B /\ rf_start f <= s /\ forall b, In b B -> s < rf_start b
  end.
Proof.
  intros s. induction fs as [|g fs IH]; intros Hs; cbn [r_by_start]; [intros ? []|].
  cbn [map] in Hs. apply StronglySorted_inv in Hs. destruct Hs as [Hs Hg]. specialize (IH Hs). rewrite Forall_forall in Hg.
  destruct (r_by_start s fs) as [x|].
  - destruct IH as (A & B & -> & H1 & H2).
    assert (X := Hg (rf_start x) (in_map rf_start _ x (in_or_app A (x :: B) x (or_intror (or_introl eq_refl))))).
    destruct ((rf_start g <=? s) && (rf_start x <? rf_start g)) eqn:E; [lia|].
    exists (g :: A), B. auto.
  - destruct (rf_start g <=? s) eqn:E.
    + exists [], fs. split; [reflexivity|]. split; [lia|exact IH].
    + intros f [<-|Hf]; [lia|apply IH, Hf].
Qed.

Lemma pre_starts : forall ls n lo fs L n' lo', pre ls n lo fs L n' lo' ->
  StronglySorted N.lt (map rf_start fs) /\ (forall f, In f fs -> lo < rf_start f <= lo') /\
  (forall r, In r L -> exists f, In f fs /\ rf_start f <= r_seq r).
Proof.
  intros ls n lo fs L n' lo' H. induction H as [|n lo f Lf t L n' lo' Hm Hp (I1 & I2 & I3)].
  - split; [constructor|]. split; intros ? [].
  - assert (F := md_fi _ _ _ _ _ _ Hm). assert (NE := md_ne _ _ _ _ _ _ Hm).
    destruct (end_bounds _ _ _ F NE) as (B1 & B2 & B3). assert (S1 := md_lo _ _ _ _ _ _ Hm). assert (S2 := md_st _ _ _ _ _ _ Hm).
    destruct (pre_seqs _ _ _ _ _ _ _ _ Hp) as (P1 & _).
    split; [|split].
    + cbn [map]. constructor; [exact I1|]. rewrite Forall_forall. intros x Hx. apply in_map_iff in Hx. destruct Hx as (y & Ey & Hy).
      specialize (I2 y Hy). lia.
    + intros x [<-|Hx]; [lia|]. specialize (I2 x Hx). lia.
    + intros r Hr. apply in_app_or in Hr. destruct Hr as [Hr|Hr].
      * exists f. split; [left; reflexivity|]. assert (X := fst_le _ _ (fi_asc _ _ _ F) Hr). lia.
      * destruct (I3 r Hr) as (g & G1 & G2). exists g. split; [right; exact G1|exact G2].
Qed.

Lemma inv_starts : forall L s, inv L s -> StronglySorted N.lt (map rf_start (rs_files s)) /\
  (forall r, In r L -> exists f, In f (rs_files s) /\ rf_start f <= r_seq r).
Proof.
  intros L s (n0 & fA & f & LA & Lf & lo & EF & EL & Hp & Hl & _). destruct (pre_starts _ _ _ _ _ _ _ Hp) as (I1 & I2 & I3).
  rewrite EF, EL. split.
  - rewrite map_app. apply SS_app; [exact I1|repeat constructor|]. intros x y Hx [<-|[]].
    apply in_map_iff in Hx. destruct Hx as (g & Eg & Hg). assert (X := I2 g Hg). assert (Y := lk_lo _ _ _ _ _ Hl). lia.
  - intros r Hr. apply in_app_or in Hr. destruct Hr as [Hr|Hr].
    + destruct (I3 r Hr) as (g & G1 & G2). exists g. split; [apply in_or_app; left; exact G1|exact G2].
    + exists f. split; [apply in_or_app; right; left; reflexivity|]. apply (last_seqs _ _ _ _ _ _ Hl Hr).
Qed.

(** One file of the log. *)
Record part_at (L : list rec) (s : rst) (A : list rfile) (f : rfile) (B : list rfile) (n0 : N) (LA Lf LB : list rec) (lo : N) : Prop := {
  pa_L : L = LA ++ Lf ++ LB;
  pa_pre : pre (rs_ls s) n0 0 A LA (rf_num f) lo;
  pa_fi : FI f Lf;
  pa_lo : lo < rf_start f;
  pa_st : Lf <> [] -> rf_start f <= fst_seq Lf;
  pa_ne : L <> [] -> Lf <> [];
  pa_B : forall r, In r LB -> exists g, In g B /\ rf_start g <= r_seq r;
  pa_num : forall g, In g B -> rf_num f < rf_num g;
  pa_max : rf_num f <= rs_max s;
  pa_ls : B <> [] -> rf_num f < rs_max s /\ (valid_number (rs_ls s) = true -> rf_num f < rs_ls s -> on_disk f Lf)
}.

Lemma inv_part : forall L s A f B, inv L s -> rs_files s = A ++ f :: B ->
  exists n0 LA Lf LB lo, part_at L s A f B n0 LA Lf LB lo.
Proof.
  intros L s A f B (n0 & fA & g & LA & Lg & lo & EF & EL & Hp & Hl & Hls & Hmx) E.
  destruct (exists_last (l := f :: B)) as (M & z & EM); [discriminate|].
  assert (EQ : fA ++ [g] = (A ++ M) ++ [z]) by (rewrite <- EF, E, EM, app_assoc; reflexivity).
  apply app_inj_tail in EQ. destruct EQ as [EfA ->]. destruct M as [|f' M].
  - cbn [app] in EM. injection EM as -> ->. rewrite app_nil_r in EfA. subst A.
    exists n0, LA, Lg, [], lo. constructor.
    + rewrite app_nil_r. exact EL.
    + rewrite (lk_num _ _ _ _ _ Hl). exact Hp.
    + apply (lk_fi _ _ _ _ _ Hl).
    + apply (lk_lo _ _ _ _ _ Hl).
    + apply (lk_st _ _ _ _ _ Hl).
    + intros NE Q. destruct (last_empty _ _ _ _ _ _ _ _ _ Hp Hl Q) as [_ Q2]. apply NE. rewrite EL, Q, Q2. reflexivity.
    + intros ? [].
    + intros ? [].
    + rewrite (lk_num _ _ _ _ _ Hl). lia.
    + congruence.
  - cbn [app] in EM. injection EM as E1 E2. subst f' B. subst fA.
    destruct (pre_split _ _ _ _ _ _ _ _ _ Hp) as (LA1 & LB1 & n1 & lo1 & -> & H1 & H2).
    inversion H2 as [|? ? ? Lf ? LB2 ? ? Hm Hp2]; subst.
    destruct (pre_starts _ _ _ _ _ _ _ Hp2) as (_ & _ & I3). destruct (pre_nums _ _ _ _ _ _ _ _ Hp2) as [K1 K2].
    exists n0, LA1, Lf, (LB2 ++ Lg), lo1. constructor.
    + rewrite <- !app_assoc. reflexivity.
    + rewrite (md_num _ _ _ _ _ _ Hm). exact H1.
    + apply (md_fi _ _ _ _ _ _ Hm).
    + apply (md_lo _ _ _ _ _ _ Hm).
    + intros _. apply (md_st _ _ _ _ _ _ Hm).
    + intros _. apply (md_ne _ _ _ _ _ _ Hm).
    + intros r Hr. apply in_app_or in Hr. destruct Hr as [Hr|Hr].
      * destruct (I3 r Hr) as (x & X1 & X2). exists x. split; [apply in_or_app; left; exact X1|exact X2].
      * exists z. split; [apply in_or_app; right; left; reflexivity|]. apply (last_seqs _ _ _ _ _ _ Hl Hr).
    + rewrite (md_num _ _ _ _ _ _ Hm). intros x Hx. apply in_app_or in Hx. destruct Hx as [Hx|[<-|[]]]; [specialize (K2 x Hx); lia|].
      rewrite (lk_num _ _ _ _ _ Hl). lia.
    + rewrite (md_num _ _ _ _ _ _ Hm). lia.
    + intros _. rewrite (md_num _ _ _ _ _ _ Hm). split; [lia|apply (md_ls _ _ _ _ _ _ Hm)].
Qed.

(** The numbers kept for a file, whether it is purged or not. *)
Lemma meta_of : forall f Lf, FI f Lf -> Lf <> [] ->
  rf_get m_min rf_min f = fst_seq Lf /\ end_seq Lf <= rf_get m_max rf_max f < NIL.
Proof.
  intros f Lf H NE. destruct (end_bounds _ _ _ H NE) as (B1 & B2 & B3). assert (Q := fi_mem _ _ _ H). unfold rf_get.
  destruct (rf_mem f) as [m|].
  - rewrite (mi_min _ _ _ _ Q), (mi_max _ _ _ _ Q). lia.
  - destruct Q as (_ & _ & _ & Q1 & _ & Q2 & _). split; [exact Q1|exact Q2].
Qed.

Lemma by_seq_spec : forall L s n, inv L s -> L <> [] ->
  match r_by_seq n false (rs_files s) with
  | None => numbered n L = None
  | Some f => exists A B n0 LA Lf LB lo, rs_files s = A ++ f :: B /\ part_at L s A f B n0 LA Lf LB lo /\
      (forall r, In r LA -> r_seq r < n) /\ (forall r, In r LB -> n < r_seq r) /\ fst_seq Lf <= n < NIL
  end.
Proof.
  intros L s n H NE. destruct (inv_starts _ _ H) as [ST SR]. unfold r_by_seq. assert (Q := by_start_spec n (rs_files s) ST).
  destruct (r_by_start n (rs_files s)) as [f|].
  - destruct Q as (A & B & EF & Q1 & Q2). destruct (inv_part _ _ _ _ _ H EF) as (n0 & LA & Lf & LB & lo & P).
    assert (NF := pa_ne _ _ _ _ _ _ _ _ _ _ P NE). destruct (meta_of f Lf (pa_fi _ _ _ _ _ _ _ _ _ _ P) NF) as [M1 M2].
    destruct (pre_seqs _ _ _ _ _ _ _ _ (pa_pre _ _ _ _ _ _ _ _ _ _ P)) as (_ & _ & _ & P4 & _).
    assert (LO := pa_lo _ _ _ _ _ _ _ _ _ _ P).
    assert (HA : forall r, In r LA -> r_seq r < n) by (intros r Hr; specialize (P4 r Hr); lia).
    assert (HBB : forall r, In r LB -> n < r_seq r).
    { intros r Hr. destruct (pa_B _ _ _ _ _ _ _ _ _ _ P r Hr) as (g & G1 & G2). specialize (Q2 g G1). lia. }
    assert (NN : (forall r, In r Lf -> r_seq r <> n) -> numbered n L = None).
    { intros Z. apply numbered_none. rewrite (pa_L _ _ _ _ _ _ _ _ _ _ P). intros r Hr. apply in_app_or in Hr.
      destruct Hr as [Hr|Hr]; [specialize (HA r Hr); lia|]. apply in_app_or in Hr. destruct Hr as [Hr|Hr]; [apply Z, Hr|specialize (HBB r Hr); lia]. }
    assert (FS := fi_asc _ _ _ (pa_fi _ _ _ _ _ _ _ _ _ _ P)).
    destruct (valid_number (rf_get m_min rf_min f) && (n <? rf_get m_min rf_min f)) eqn:E1.
    + apply NN. intros r Hr. assert (X := fst_le _ _ FS Hr). lia.
    + assert (V : valid_number (rf_get m_min rf_min f) = true).
      { rewrite M1. apply vn_lt. destruct (end_bounds _ _ _ (pa_fi _ _ _ _ _ _ _ _ _ _ P) NF) as (B1 & B2 & B3). lia. }
      rewrite V in E1. cbn [andb] in E1.
      destruct ((rf_get m_max rf_max f <? n) && (negb (r_has_next f (rs_files s)) || negb false)) eqn:E2.
      * apply NN. intros r Hr. assert (X := end_ge _ _ FS Hr). lia.
      * exists A, B, n0, LA, Lf, LB, lo. split; [exact EF|]. split; [exact P|]. split; [exact HA|]. split; [exact HBB|].
        cbn [negb] in E2. rewrite orb_true_r, andb_true_r in E2. lia.
  - apply numbered_none. intros r Hr. destruct (SR r Hr) as (f & F1 & F2). specialize (Q f F1). lia.
Qed.

Lemma get_seq_ok : forall L s n, inv L s -> answers (r_get_seq hash c n s) (numbered n L).
Proof.
  intros L s n H. destruct L as [|x l] eqn:EL.
  - (* a new database *)
    cbn [numbered find answers]. unfold r_get_seq. destruct H as (n0 & fA & f & LA & Lf & lo & EF & EL' & Hp & Hl & _).
    symmetry in EL'. apply app_eq_nil in EL'. destruct EL' as [-> ->].
    destruct (last_empty _ _ _ _ _ _ _ _ _ Hp Hl eq_refl) as [-> _]. cbn [app] in EF. rewrite EF.
    destruct (r_by_seq n false [f]) as [g|] eqn:EB; [|eauto].
    assert (g = f).
    { unfold r_by_seq in EB. cbn [r_by_start] in EB. destruct (rf_start f <=? n); [|discriminate].
      destruct (_ && _) in EB; [discriminate|]. destruct (_ && _) in EB; [discriminate|]. congruence. }
    subst g. destruct (view_ok hash c Hc f [] (lk_fi _ _ _ _ _ Hl)) as (m & E & HM & _). rewrite E.
    destruct (m_max m <? n); [eauto|].
    rewrite (mt_get_seq_spec hash [] m n (mw_mr _ _ _ (mi_mw _ _ _ _ HM))), (mi_fl _ _ _ _ HM), nil_invalid. cbn. eauto.
  - rewrite <- EL in *. assert (NE : L <> []) by (rewrite EL; discriminate). clear x l EL.
    unfold r_get_seq. assert (Q := by_seq_spec L s n H NE).
    destruct (r_by_seq n false (rs_files s)) as [f|]; [|rewrite Q; cbn; eauto].
    destruct Q as (A & B & n0 & LA & Lf & LB & lo & EF & P & HA & HBB & _).
    assert (HF := pa_fi _ _ _ _ _ _ _ _ _ _ P). destruct (view_ok hash c Hc f Lf HF) as (m & E & HM & _). rewrite E.
    assert (EN : numbered n L = numbered n Lf).
    { rewrite (pa_L _ _ _ _ _ _ _ _ _ _ P), !numbered_app. rewrite (numbered_none n LA) by (intros r Hr; specialize (HA r Hr); lia).
      rewrite (numbered_none n LB) by (intros r Hr; specialize (HBB r Hr); lia). destruct (numbered n Lf); reflexivity. }
    rewrite EN. destruct (m_max m <? n) eqn:EM.
    + rewrite numbered_none; [cbn; eauto|]. intros r Hr. assert (X := end_ge _ _ (fi_asc _ _ _ HF) Hr). rewrite (mi_max _ _ _ _ HM) in EM. lia.
    + rewrite (mt_get_seq_spec hash Lf m n (mw_mr _ _ _ (mi_mw _ _ _ _ HM))), (mi_fl _ _ _ _ HM), nil_invalid. cbn [andb].
      rewrite (numbered_rev Lf n (fi_asc _ _ _ HF)). destruct (numbered n Lf); cbn; eauto.
Qed.


(** ** Rollback *)

Lemma synced_ls : forall L s, synced_inv L s -> inv L (mkR (rs_files s) (rs_max s) (rs_max s)).
Proof.
  intros L s (n0 & fA & f & LA & Lf & lo & E1 & E2 & Hp & Hl & _ & _ & H1 & H2).
  exists n0, fA, f, LA, Lf, lo. cbn [rs_files rs_max rs_ls]. split; [exact E1|]. split; [exact E2|]. split; [apply Hp|].
  split; [exact Hl|]. split; [intros _; lia|exact H2].
Qed.

Lemma synced_disk : forall L s A f B n0 LA Lf LB lo, synced_inv L s -> rs_files s = A ++ f :: B ->
  part_at L (mkR (rs_files s) (rs_max s) (rs_max s)) A f B n0 LA Lf LB lo -> on_disk f Lf.
Proof.
  intros L s A f B n0 LA Lf LB lo HS E P. destruct B as [|b B].
  - destruct HS as (n1 & fA & g & LA' & Lg & lo' & EF & EL & Hp & Hl & OD & (m & Em) & _).
    rewrite EF in E. apply app_inj_tail in E. destruct E as [_ ->].
    assert (F1 := fi_mem _ _ _ (lk_fi _ _ _ _ _ Hl)). assert (F2 := fi_mem _ _ _ (pa_fi _ _ _ _ _ _ _ _ _ _ P)).
    rewrite Em in F1, F2. rewrite <- (mw_seq _ _ _ (mi_mw _ _ _ _ F2)), (mw_seq _ _ _ (mi_mw _ _ _ _ F1)). exact OD.
  - destruct (pa_ls _ _ _ _ _ _ _ _ _ _ P ltac:(discriminate)) as [K1 K2]. cbn [rs_max rs_ls] in K1, K2. apply K2; [|exact K1].
    destruct HS as (n1 & fA & g & LA' & Lg & lo' & EF & EL & Hp & Hl & OD & _ & _ & Hm). apply vn_lt, Hm.
Qed.

Lemma filter_nums : forall n A f B, (forall x, In x A -> rf_num x < n) -> rf_num f = n -> (forall x, In x B -> n < rf_num x) ->
  filter (fun x => rf_num x <=? n) (A ++ f :: B) = A ++ [f].
Proof.
  intros n A f B HA Hf HB. rewrite filter_app. cbn [filter]. rewrite Hf, N.leb_refl.
  assert (X1 : filter (fun x => rf_num x <=? n) A = A).
  { clear -HA. induction A as [|a A IH]; [reflexivity|]. cbn [filter]. assert (X := HA a (or_introl eq_refl)).
    destruct (rf_num a <=? n) eqn:E; [|lia]. f_equal. apply IH. intros x Hx. apply HA. right; exact Hx. }
  assert (X2 : filter (fun x => rf_num x <=? n) B = []).
  { clear -HB. induction B as [|a B IH]; [reflexivity|]. cbn [filter]. assert (X := HB a (or_introl eq_refl)).
    destruct (rf_num a <=? n) eqn:E; [lia|]. apply IH. intros x Hx. apply HB. right; exact Hx. }
  rewrite X1, X2. reflexivity.
Qed.

Lemma filter_sorted : forall s L, sorted_seq L -> sorted_seq (filter (fun r => r_seq r <=? s) L).
Proof.
  intros s. induction L as [|a L IH]; intros H; [constructor|]. cbn [filter].
  assert (H2 := sorted_app_r [a] L H). destruct (r_seq a <=? s); [|apply IH, H2].
  apply (sorted_app [a] _); [repeat constructor|apply IH, H2|]. intros x y [<-|[]] Hy. apply filter_In in Hy. destruct Hy as [Hy _].
  apply (sorted_app_lt [a] L a y H (or_introl eq_refl) Hy).
Qed.

Lemma rollback_ok : forall L s open n, inv L s -> L <> [] ->
  exists x s', r_rollback hash c open false n s = (x, s') /\
    match x with
    | Ok _ => inv (filter (fun r => r_seq r <=? n) L) s' /\ rs_max s' <= rs_max s
    | Fail _ => inv L s' /\ rs_max s' <= rs_max s /\ numbered n L = None
    | Undef => False
    end.
Proof.
  intros L s open n H NE. destruct (sync_ok hash c Hc L s open H) as (s1 & E1 & HS & EM). unfold r_rollback. rewrite E1.
  assert (H2 := synced_ls _ _ HS). assert (Q := by_seq_spec L _ n H2 NE). cbn [rs_files] in Q.
  destruct (r_by_seq n false (rs_files s1)) as [f|].
  - destruct Q as (A & B & n0 & LA & Lf & LB & lo & EF & P & HA & HBB & Hn1 & Hn2).
    assert (HF := pa_fi _ _ _ _ _ _ _ _ _ _ P). destruct (view_ok hash c Hc f Lf HF) as (m & E & HM & _). rewrite E.
    assert (OD := synced_disk _ _ _ _ _ _ _ _ _ _ HS EF P). unfold on_disk in OD.
    assert (NF := pa_ne _ _ _ _ _ _ _ _ _ _ P NE).
    assert (CR := cut_recs n (rf_disk f)). rewrite OD in CR. specialize (CR (fi_asc _ _ _ HF)).
    unfold r_truncate. cbn [rf_with_mem rf_disk rf_mem rf_num rf_start rf_min rf_flushed rf_imm].
    destruct (fst_in _ NF) as (y & Hy & Ey).
    assert (NFI : filter (fun r => r_seq r <=? n) Lf <> []).
    { intros Z. assert (X : In y (filter (fun r => r_seq r <=? n) Lf)) by (apply filter_In; split; [exact Hy|lia]). rewrite Z in X. destruct X. }
    destruct (cut n (rf_disk f)) as [d|]; [|congruence]. destruct CR as [CR1 CR2].
    eexists _, _. split; [reflexivity|]. split; [|cbn [rs_max]; assert (X := pa_max _ _ _ _ _ _ _ _ _ _ P); cbn [rs_max] in X; lia].
    cbn [rf_set_imm r_purge rf_mem rf_imm rf_num rf_start rf_disk m_min m_max m_flushed m_synced set_top].
    set (f2 := mkRF (rf_num f) (rf_start f) d None (m_min m) n (m_flushed m) n true).
    assert (PP := pa_pre _ _ _ _ _ _ _ _ _ _ P). cbn [rs_ls] in PP. destruct (pre_nums _ _ _ _ _ _ _ _ PP) as [K1 K2].
    assert (K3 : forall x, In x A -> rf_num x < rf_num f) by (intros x Hx; specialize (K2 x Hx); lia).
    rewrite EF, (filter_nums (rf_num f) A f B K3 eq_refl (pa_num _ _ _ _ _ _ _ _ _ _ P)).
    rewrite upd_app, upd_one, upd_other by (intros x Hx; specialize (K2 x Hx); lia).
    exists n0, A, f2, LA, (filter (fun r => r_seq r <=? n) Lf), lo. cbn [rs_files rs_max rs_ls].
    assert (MX : rs_max s1 < NIL) by (destruct HS as (? & ? & ? & ? & ? & ? & HS'); apply HS').
    assert (PM := pa_max _ _ _ _ _ _ _ _ _ _ P). cbn [rs_max] in PM.
    split; [reflexivity|]. split; [|split; [|split; [|split; [intros _; lia|lia]]]].
    + rewrite (pa_L _ _ _ _ _ _ _ _ _ _ P), !filter_app.
      rewrite (filter_all _ LA) by (intros r Hr; specialize (HA r Hr); lia).
      rewrite (filter_no _ LB) by (intros r Hr; specialize (HBB r Hr); lia). rewrite app_nil_r. reflexivity.
    + (* the synced files stay synced whatever lastSyncedLog says *)
      clear -PP PM MX HS EF K1. destruct HS as (n1 & fA & g & LA' & Lg & lo' & EF' & EL & Hp & Hl & OD & _).
      assert (EA : exists T, fA = A ++ T).
      { rewrite EF in EF'. destruct (exists_last (l := f :: B)) as (M & z & EMz); [discriminate|]. exists M.
        rewrite EMz, app_assoc in EF'. apply app_inj_tail in EF'. destruct EF' as [EF' _]. symmetry. exact EF'. }
      assert (GEN : forall q fs L m0 l0 m1 l1, pre q m0 l0 fs L m1 l1 -> (valid_number q = true /\ m1 <= q) -> forall ls2, pre ls2 m0 l0 fs L m1 l1).
      { clear. intros q fs L m0 l0 m1 l1 H. induction H as [|m0 l0 f Lf t L m1 l1 Hm Hp IH]; intros Hq ls2; [constructor|].
        econstructor; [|apply IH, Hq]. destruct Hm as [M1 M2 M3 M4 M5 M6 M7]. constructor; try assumption. intros _ _.
        destruct (pre_nums _ _ _ _ _ _ _ _ Hp) as [K _]. apply M6; [apply Hq|lia]. }
      apply (GEN _ _ _ _ _ _ _ PP). split; [apply vn_lt, MX|exact PM].
    + constructor.
      * reflexivity.
      * apply (pa_lo _ _ _ _ _ _ _ _ _ _ P).
      * constructor.
        -- apply filter_sorted, (fi_asc _ _ _ HF).
        -- intros r Hr. apply filter_In in Hr. apply (fi_bnd _ _ _ HF), Hr.
        -- cbn [f2 rf_mem rf_disk rf_imm rf_min rf_max rf_flushed rf_synced]. split; [exact NFI|]. split; [exact CR1|]. split; [reflexivity|].
           split; [|split; [apply (mi_fl _ _ _ _ HM)|split; [|reflexivity]]].
           ++ rewrite (mi_min _ _ _ _ HM). destruct Lf as [|z Lf']; [congruence|]. cbn [fst_seq filter] in *.
              destruct (r_seq z <=? n) eqn:Z; [reflexivity|lia].
           ++ split; [|exact Hn2]. destruct (end_in _ NFI) as (z & Hz & Ez). apply filter_In in Hz. lia.
      * intros _. cbn [f2 rf_start]. assert (X := pa_st _ _ _ _ _ _ _ _ _ _ P NF). destruct Lf as [|z Lf']; [congruence|]. cbn [fst_seq filter] in *.
        destruct (r_seq z <=? n) eqn:Z; [exact X|lia].
      * congruence.
  - eexists _, _. split; [reflexivity|]. split; [apply synced_is_inv, HS|]. split; [lia|exact Q].
Qed.

(** ** Eviction and loading *)

Lemma pre_map : forall h ls n lo fs L n' lo', pre ls n lo fs L n' lo' ->
  (forall f Lf n lo, In f fs -> mid_ok ls n lo f Lf -> mid_ok ls n lo (h f) Lf) -> pre ls n lo (map h fs) L n' lo'.
Proof.
  intros h ls n lo fs L n' lo' H. induction H as [|n lo f Lf t L n' lo' Hm Hp IH]; intros Hh; [constructor|].
  cbn [map]. econstructor; [apply Hh; [left; reflexivity|exact Hm]|]. apply IH. intros. apply Hh; [right; assumption|assumption].
Qed.

Lemma purge_mid : forall ls n lo f Lf, mid_ok ls n lo f Lf -> on_disk f Lf -> mid_ok ls n lo (r_purge f) Lf.
Proof.
  intros ls n lo f Lf Hm OD. unfold r_purge. destruct (rf_mem f) as [m|] eqn:Em; [|exact Hm]. destruct (rf_imm f) eqn:Ei; [|exact Hm].
  destruct Hm as [M1 M2 M3 M4 M5 M6 M7]. assert (Q := fi_mem _ _ _ M5). rewrite Em in Q. destruct (end_bounds _ _ _ M5 M4) as (B1 & B2 & B3).
  unfold on_disk in OD. rewrite OD in Q.
  constructor; cbn [rf_num rf_start rf_mem rf_synced]; try assumption.
  - constructor; [apply (fi_asc _ _ _ M5)|apply (fi_bnd _ _ _ M5)|]. cbn [rf_mem rf_disk rf_imm rf_min rf_max rf_flushed rf_synced].
    split; [exact M4|]. split; [exact OD|]. split; [reflexivity|]. split; [apply (mi_min _ _ _ _ Q)|]. split; [apply (mi_fl _ _ _ _ Q)|].
    rewrite (mi_max _ _ _ _ Q), (mi_syn _ _ _ _ Q). split; [lia|reflexivity].
  - intros _. rewrite (mi_syn _ _ _ _ Q). reflexivity.
Qed.

Lemma evict_ok : forall L s n, inv L s -> inv L (r_evict n s).
Proof.
  intros L s n H. assert (H0 := H). destruct H as (n0 & fA & f & LA & Lf & lo & EF & EL & Hp & Hl & Hls & Hmx).
  unfold r_evict. destruct (rs_files s) as [|f0 t] eqn:Ef; [destruct fA; discriminate|].
  destruct (valid_number (rs_ls s) && (n <? rs_ls s)) eqn:E; [|exact H0]. apply andb_true_iff in E. destruct E as [V E].
  specialize (Hls V). assert (NUM := lk_num _ _ _ _ _ Hl).
  destruct fA as [|g fA].
  - cbn [app] in EF. injection EF as -> ->. exists n0, [], f, LA, Lf, lo. cbn [rs_files rs_max rs_ls rf_upd map app]. auto 10.
  - cbn [app] in EF. injection EF as -> ->. exists n0, (g :: rf_upd n r_purge fA), f, LA, Lf, lo. cbn [rs_files rs_max rs_ls].
    split; [|split; [exact EL|split; [|split; [exact Hl|split; [intros _; exact Hls|exact Hmx]]]]].
    + rewrite upd_app. cbn [app]. f_equal. f_equal. apply upd_other. intros x [<-|[]]. lia.
    + inversion Hp as [|? ? ? Lg ? L2 ? ? Hm Hp2]; subst. econstructor; [exact Hm|]. unfold rf_upd.
      apply pre_map; [exact Hp2|]. intros x Lx nx lox Hx Hmx'. destruct (rf_num x =? n) eqn:Ex; [|exact Hmx'].
      apply purge_mid; [exact Hmx'|]. apply (md_ls _ _ _ _ _ _ Hmx' V). rewrite <- (md_num _ _ _ _ _ _ Hmx'). lia.
Qed.

Lemma load_file_ok : forall f Lf, FI f Lf -> exists m, view hash c f = Ok m /\ FI (rf_with_mem f m) Lf /\
  (forall m0, rf_mem f = Some m0 -> m = m0).
Proof.
  intros f Lf H. destruct (view_ok hash c Hc f Lf H) as (m & E & HM & HF). exists m. split; [exact E|]. split; [exact HF|].
  intros m0 E0. unfold view in E. rewrite E0 in E. congruence.
Qed.

Lemma load_state_ok : forall L s n, inv L s -> inv L (r_load hash c n s).
Proof.
  intros L s n (n0 & fA & f & LA & Lf & lo & EF & EL & Hp & Hl & Hls & Hmx). unfold r_load.
  set (h := fun f => match view hash c f with Ok m => rf_with_mem f m | _ => f end).
  set (h2 := fun f => if rf_num f =? n then h f else f).
  exists n0, (map h2 fA), (h2 f), LA, Lf, lo. cbn [rs_files rs_max rs_ls].
  split; [rewrite EF; unfold rf_upd; rewrite map_app; reflexivity|]. split; [exact EL|].
  split; [|split; [|split; [exact Hls|exact Hmx]]].
  - apply pre_map; [exact Hp|]. intros x Lx nx lox _ Hm. unfold h2, h. destruct (rf_num x =? n); [|exact Hm].
    destruct (load_file_ok x Lx (md_fi _ _ _ _ _ _ Hm)) as (m & E & HF & _). rewrite E.
    destruct Hm as [M1 M2 M3 M4 M5 M6 M7]. constructor; cbn [rf_with_mem rf_num rf_start rf_mem]; try assumption. discriminate.
  - unfold h2, h. destruct (rf_num f =? n); [|exact Hl]. destruct (load_file_ok f Lf (lk_fi _ _ _ _ _ Hl)) as (m & E & HF & HU). rewrite E.
    destruct Hl as [M1 M2 M3 M4 M5]. constructor; cbn [rf_with_mem rf_num rf_start rf_mem rf_imm]; try assumption.
    intros E0. destruct (M5 E0) as (K1 & K2 & K3 & K4 & m0 & K5 & K6). repeat (split; [assumption|]). exists m. split; [reflexivity|].
    rewrite (HU _ K5). exact K6.
Qed.

(** ** Close and reopen *)

Lemma cons_app : forall a b, consecutive (a ++ b) -> consecutive a /\ consecutive b /\ (a <> [] -> b <> [] -> fst_seq b = end_seq a + 1).
Proof.
  induction a as [|x a IH]; intros b H; [split; [exact I|]; split; [exact H|congruence]|].
  destruct a as [|y a].
  - cbn [app] in H. destruct b as [|z b]; [split; [exact I|]; split; [exact I|congruence]|].
    destruct H as [H1 H2]. split; [exact I|]. split; [exact H2|]. intros _ _. cbn. exact H1.
  - cbn [app] in H. destruct H as [H1 H2]. destruct (IH b H2) as (I1 & I2 & I3).
    split; [split; [exact H1|exact I1]|]. split; [exact I2|]. intros _ Hb. rewrite (I3 ltac:(discriminate) Hb).
    change (x :: y :: a) with ([x] ++ (y :: a)). rewrite (end_app [x]) by discriminate. reflexivity.
Qed.

Lemma synced_num : forall f Lf, FI f Lf -> on_disk f Lf -> Lf <> [] ->
  rf_get m_flushed rf_flushed f = NIL /\ end_seq Lf <= rf_get m_synced rf_synced f < NIL /\
  (rf_mem f <> None -> rf_get m_synced rf_synced f = end_seq Lf).
Proof.
  intros f Lf H OD NE. destruct (end_bounds _ _ _ H NE) as (B1 & B2 & B3). assert (Q := fi_mem _ _ _ H). unfold rf_get.
  unfold on_disk in OD. destruct (rf_mem f) as [m|].
  - rewrite OD in Q. rewrite (mi_fl _ _ _ _ Q), (mi_syn _ _ _ _ Q). split; [reflexivity|]. split; [lia|reflexivity].
  - destruct Q as (_ & _ & _ & Q1 & Q2 & Q3 & Q4). split; [exact Q2|]. split; [lia|congruence].
Qed.

(** The next file is kept: its first number follows the last one. *)
Definition follows (last : N) (L : list rec) : Prop := last = NIL \/ fst_seq L = last + 1.

Lemma open_pre : forall ls n lo fs L n' lo', pre ls n lo fs L n' lo' -> valid_number ls = true -> n' <= ls -> n' < NIL ->
  forall f Lf last mx l lo2, last_ok n' lo' f Lf -> on_disk f Lf -> Lf <> [] -> consecutive (L ++ Lf) -> follows last (L ++ Lf) ->
  (last = NIL \/ last < NIL) -> (l = NIL \/ l <= n') -> lo2 <= lo ->
  exists fs' f' l' , r_open last mx l (fs ++ [f]) = (fs' ++ [f'], mx, l') /\
    (forall ls2, exists lo3, pre ls2 n lo2 fs' L n' lo3 /\ last_ok n' lo3 f' Lf) /\ l' <= n'.
Proof.
  intros ls n lo fs L n' lo' H HV Hle Hnn. induction H as [|n lo g Lg t L n' lo' Hm Hp IH]; intros f Lf last mx l lo2 Hl OD NE HC HFo HLast Hlv Hlo.
  - (* the newest file *)
    cbn [app r_open]. assert (HF := lk_fi _ _ _ _ _ Hl). destruct (end_bounds _ _ _ HF NE) as (B1 & B2 & B3).
    destruct (meta_of f Lf HF NE) as [M1 _]. destruct (synced_num f Lf HF OD NE) as (S1 & S2 & _).
    assert (NUM := lk_num _ _ _ _ _ Hl).
    rewrite M1, S1. set (sy := rf_get m_synced rf_synced f) in *.
    rewrite (vn_lt (fst_seq Lf)), (vn_lt sy) by lia. cbn [negb andb orb].
    assert (BAD : (sy <? fst_seq Lf) || (valid_number last && negb (fst_seq Lf =? (last + 1) mod 2 ^ 64)) = false).
    { apply orb_false_iff. split; [lia|]. cbn [app] in HFo. destruct HFo as [->|HFo]; [reflexivity|].
      destruct HLast as [->|HLast]; [reflexivity|].
      rewrite N.mod_small by (rewrite nil_val in *; change (2 ^ 64) with 18446744073709551616; lia). lia. }
    rewrite BAD. cbn [orb].
    eexists [], _, _. split; [reflexivity|]. split.
    + intros ls2. exists lo2. split; [constructor|]. constructor; cbn [rf_num rf_start rf_imm rf_mem].
      * exact NUM.
      * destruct (fst_in _ NE) as (z & Hz & Ez). assert (X := last_seqs _ _ _ _ _ _ Hl Hz). lia.
      * constructor; [apply (fi_asc _ _ _ HF)|apply (fi_bnd _ _ _ HF)|]. cbn [rf_mem rf_disk rf_imm rf_min rf_max rf_flushed rf_synced].
        split; [exact NE|]. split; [exact OD|]. split; [reflexivity|]. split; [reflexivity|]. split; [reflexivity|]. split; [lia|reflexivity].
      * intros _. lia.
      * congruence.
    + rewrite NUM. destruct (negb (valid_number l) || (l <? n)) eqn:EL; [lia|].
      apply orb_false_iff in EL. destruct EL as [EL _]. apply negb_false_iff, vn_true in EL. lia.
  - assert (HF := md_fi _ _ _ _ _ _ Hm). assert (NG := md_ne _ _ _ _ _ _ Hm). destruct (end_bounds _ _ _ HF NG) as (B1 & B2 & B3).
    destruct (pre_nums _ _ _ _ _ _ _ _ Hp) as [K1 _].
    assert (ODg : on_disk g Lg) by (apply (md_ls _ _ _ _ _ _ Hm HV); lia).
    destruct (meta_of g Lg HF NG) as [M1 _]. destruct (synced_num g Lg HF ODg NG) as (S1 & S2 & S3).
    assert (NUM := md_num _ _ _ _ _ _ Hm).
    assert (SY : rf_get m_synced rf_synced g = end_seq Lg).
    { destruct (rf_mem g) as [m|] eqn:Em; [apply S3; discriminate|]. unfold rf_get. rewrite Em. apply (md_syn _ _ _ _ _ _ Hm Em). }
    rewrite <- app_assoc in HC, HFo. destruct (cons_app _ _ HC) as (C1 & C2 & C3).
    cbn [app r_open]. rewrite M1, S1, SY.
    rewrite (vn_lt (fst_seq Lg)), (vn_lt (end_seq Lg)) by lia. cbn [negb andb orb]. rewrite andb_false_r, orb_false_r.
    assert (BAD : (end_seq Lg <? fst_seq Lg) || (valid_number last && negb (fst_seq Lg =? (last + 1) mod 2 ^ 64)) = false).
    { apply orb_false_iff. split; [lia|]. destruct HFo as [->|HFo]; [reflexivity|]. rewrite fst_app in HFo by exact NG.
      destruct HLast as [->|HLast]; [reflexivity|].
      rewrite N.mod_small by (rewrite nil_val in *; change (2 ^ 64) with 18446744073709551616; lia). lia. }
    rewrite BAD.
    assert (NLf : L ++ Lf <> []) by (destruct L; [exact NE|discriminate]).
    destruct (IH Hle Hnn f Lf (end_seq Lg) mx (if negb (valid_number l) || (l <? rf_num g) then rf_num g else l) (end_seq Lg) Hl OD NE C2) as (fs' & f' & l' & E & R1 & R2).
    + right. apply C3; assumption.
    + right. lia.
    + right. rewrite NUM. destruct (negb (valid_number l) || (l <? n)) eqn:EL; [lia|].
      apply orb_false_iff in EL. destruct EL as [EL _]. apply negb_false_iff, vn_true in EL. lia.
    + lia.
    + rewrite E. eexists (_ :: fs'), f', l'. split; [reflexivity|]. split; [|exact R2].
      intros ls2. destruct (R1 ls2) as (lo3 & R3 & R4). exists lo3. split; [|exact R4]. econstructor; [|exact R3].
      constructor; cbn [rf_num rf_start rf_mem rf_synced].
      * exact NUM.
      * assert (X := md_lo _ _ _ _ _ _ Hm). assert (Y := md_st _ _ _ _ _ _ Hm). lia.
      * lia.
      * exact NG.
      * constructor; [apply (fi_asc _ _ _ HF)|apply (fi_bnd _ _ _ HF)|]. cbn [rf_mem rf_disk rf_imm rf_min rf_max rf_flushed rf_synced].
        split; [exact NG|]. split; [exact ODg|]. split; [reflexivity|]. split; [reflexivity|]. split; [reflexivity|]. split; [lia|reflexivity].
      * intros _ _. exact ODg.
      * reflexivity.
Qed.

Lemma reopen_ok : forall L s open, inv L s -> consecutive L ->
  exists s', r_reopen hash c open s = (Ok tt, s') /\ inv L s' /\ rs_max s' = rs_max s.
Proof.
  intros L s open H HC. destruct (sync_ok hash c Hc L s open H) as (s1 & E1 & HS & EM). unfold r_reopen. rewrite E1.
  destruct HS as (n0 & fA & f & LA & Lf & lo & EF & EL & Hp & Hl & OD & (m & Em) & Hls & Hmx). rewrite EF.
  destruct Lf as [|x l] eqn:ELf.
  - (* empty *)
    destruct (last_empty _ _ _ _ _ _ _ _ _ (Hp 0) Hl eq_refl) as [-> ->]. subst L.
    destruct (lk_new _ _ _ _ _ Hl eq_refl) as (K1 & K2 & K3 & K4 & _).
    assert (Q := fi_mem _ _ _ (lk_fi _ _ _ _ _ Hl)). rewrite Em in Q.
    cbn [app r_open]. unfold rf_get. rewrite Em, (mi_min _ _ _ _ Q). cbn [fst_seq]. rewrite nil_invalid. cbn [negb andb orb].
    rewrite (lk_num _ _ _ _ _ Hl), K2. cbn [N.eqb]. eexists. split; [reflexivity|]. cbn [rs_max]. split; [|lia].
    exists 0, [], (first_rfile c), [], [], 0. cbn [rs_files rs_max rs_ls]. split; [reflexivity|]. split; [reflexivity|].
    rewrite K2 in Hls, Hmx. split; [constructor|]. split; [apply first_ok_file, Hc|]. split; [exact Hls|exact Hmx].
  - rewrite <- ELf in *. assert (NE : Lf <> []) by (rewrite ELf; discriminate). clear x l ELf.
    destruct (open_pre (rs_max s1) n0 0 fA LA (rs_max s1) lo (Hp _) (vn_lt _ Hmx) (N.le_refl _) Hmx f Lf NIL (rs_max s1) (rs_ls s1) 0 Hl OD NE)
      as (fs' & f' & l' & E & R1 & R2).
    + rewrite <- EL. exact HC.
    + left. reflexivity.
    + left. reflexivity.
    + destruct (N.eq_dec (rs_ls s1) NIL) as [Z|Z]; [left; exact Z|right; apply Hls, vn_true, Z].
    + lia.
    + rewrite E. destruct (fs' ++ [f']) as [|a b] eqn:EN; [destruct fs'; discriminate|]. rewrite <- EN.
      eexists. split; [reflexivity|]. split; [|exact EM].
      destruct (R1 l') as (lo3 & R3 & R4).
      exists n0, fs', f', LA, Lf, lo3. cbn [rs_files rs_max rs_ls]. split; [reflexivity|]. split; [exact EL|]. split; [exact R3|].
      split; [exact R4|]. split; [intros _; exact R2|exact Hmx].
Qed.

(** ** All operations *)

Lemma step_inv : forall L s o out s', inv L s -> op_fine L o -> r_step hash c o s = (out, s') -> rs_max s' < NIL ->
  inv (log_after o out L) s' /\ out <> RUb.
Proof.
  intros L s o out s' H HO E Hmx. destruct o as [full r|open|open held n|n|n|open]; cbn [r_step] in E.
  - destruct (put_ok hash c Hc L s full r H HO) as (s2 & E2 & H2). rewrite E2 in E. cbn [out_of] in E.
    assert (E3 : RRec (stored r (number_for L r)) = out /\ s2 = s') by (split; congruence). destruct E3 as [<- <-].
    cbn [log_after]. split; [apply H2, Hmx|discriminate].
  - destruct (sync_ok hash c Hc L s open H) as (s2 & E2 & H2 & _). rewrite E2 in E. cbn [out_of] in E. injection E as <- <-.
    cbn [log_after]. split; [apply synced_is_inv, H2|discriminate].
  - destruct HO as [HO ->]. destruct (rollback_ok L s open n H HO) as (x & s2 & E2 & H2). rewrite E2 in E. destruct x as [u|e|]; cbn [out_of] in E; [| |contradiction].
    + injection E as <- <-. cbn [log_after]. split; [apply H2|discriminate].
    + injection E as <- <-. cbn [log_after]. split; [apply H2|discriminate].
  - injection E as <- <-. cbn [log_after]. split; [apply evict_ok, H|discriminate].
  - injection E as <- <-. cbn [log_after]. split; [apply load_state_ok, H|discriminate].
  - destruct (reopen_ok L s open H HO) as (s2 & E2 & H2 & _). rewrite E2 in E. cbn [out_of] in E. injection E as <- <-.
    cbn [log_after]. split; [exact H2|discriminate].
Qed.

Theorem reach_inv : forall L s, rreach hash c L s -> inv L s.
Proof.
  intros L s H. induction H as [|L s o out s' H IH HO E Hmx]; [apply inv_new, Hc|].
  apply (step_inv L s o out s' IH HO E Hmx).
Qed.

(** Rollback to the number of a record succeeds. *)
Lemma rollback_succeeds : forall L s open n, inv L s -> numbered n L <> None ->
  exists s', r_step hash c (ORoll open false n) s = (RDone, s') /\ rs_max s' < NIL.
Proof.
  intros L s open n H HN. assert (NE : L <> []) by (intros ->; apply HN; reflexivity).
  destruct (rollback_ok L s open n H NE) as (x & s2 & E2 & H2). cbn [r_step]. rewrite E2. exists s2.
  destruct x as [u|e|]; [|exfalso; apply HN, H2|contradiction]. cbn [out_of]. split; [reflexivity|].
  destruct H2 as [_ H2]. destruct H as (? & ? & ? & ? & ? & ? & _ & _ & _ & _ & _ & Q). lia.
Qed.

End Proofs.
