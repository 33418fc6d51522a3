(** Proofs about the writing side of a log file. *)
From Verif Require Import Base Crc32Model Crc32Proofs LogFormatModel LogFormatProofs LogWriterModel LogSpec.
From Coq Require Import ZifyBool ZifyNat ZifyN Sorting.Sorted.
Local Open Scope N_scope.

Lemma recs_of_app : forall a b, recs_of (a ++ b) = recs_of a ++ recs_of b.
Proof. intros; apply flat_map_app. Qed.
Lemma chks_of_app : forall a b, chks_of (a ++ b) = chks_of a ++ chks_of b.
Proof. intros; apply flat_map_app. Qed.
Lemma recs_of_chks : forall l, recs_of (map EChk l) = [].
Proof. induction l; [reflexivity|assumption]. Qed.
Lemma chks_of_chks : forall l, chks_of (map EChk l) = l.
Proof. induction l as [|a l IH]; [reflexivity|]. cbn. now rewrite <- IH at 2. Qed.

Lemma recs_of_entries_for : forall chks rs, recs_of (entries_for chks rs) = rs.
Proof.
  intros chks. induction rs as [|r rs IH]; [reflexivity|].
  cbn [entries_for flat_map]. fold (entries_for chks rs).
  change ((ERec r :: map EChk (filter (fun c => c =? r_seq r) chks)) ++ entries_for chks rs)
    with (ERec r :: (map EChk (filter (fun c => c =? r_seq r) chks) ++ entries_for chks rs)).
  cbn [recs_of flat_map]. fold (recs_of (map EChk (filter (fun c => c =? r_seq r) chks) ++ entries_for chks rs)).
  rewrite recs_of_app, recs_of_chks, IH. reflexivity.
Qed.

Section P.
Variable comp : rec -> option (list N).
Variable decomp : option (list N -> list N).
Variable PL : N.

Lemma enc_entries_app : forall a b, enc_entries comp (a ++ b) = enc_entries comp a ++ enc_entries comp b.
Proof. intros; apply flat_map_app. Qed.

Lemma enc_header_len : forall r, wf_rec r -> blen (enc_header comp r) <= REC_META_LEN.
Proof.
  intros r Hw. pose proof (len_meta_len comp r Hw) as HL.
  unfold enc_header. rewrite !blen_app, blen_u64, !blen_u32, HL.
  unfold len_meta_size, REC_META_LEN. destruct (flags_compressed _); lia.
Qed.

Lemma comp_fits_uncompressed : forall r, 16 <= PL -> compressed comp r = None -> comp_fits comp PL r.
Proof. intros r Hp H. unfold comp_fits, value_ref. rewrite H. lia. Qed.

Lemma blen_chk : forall c, blen (enc_chk c) = 16.
Proof. intros c. unfold enc_chk. rewrite blen_app, !blen_u64. reflexivity. Qed.

Lemma put_chks_spec : forall chks seq w, NoDup chks -> blen (w_buf w) + 16 <= 2 * PL ->
  exists w', put_chks PL w chks seq = Some w' /\ w_file w' = w_file w /\
    w_buf w' = w_buf w ++ enc_entries comp (map EChk (filter (fun c => c =? seq) chks)).
Proof.
  induction chks as [|c chks IH]; intros seq w Hnd Hb.
  - exists w. cbn. rewrite app_nil_r. auto.
  - inversion Hnd as [|? ? Hni Hnd']; subst. cbn [put_chks filter].
    destruct (N.eqb_spec c seq) as [->|Hne].
    + unfold buf_put. rewrite blen_chk.
      destruct (N.ltb_spec (2 * PL) (blen (w_buf w) + 16)); [lia|].
      assert (F : filter (fun c => c =? seq) chks = []).
      { clear -Hni. induction chks as [|d chks IH]; [reflexivity|]. cbn [filter].
        destruct (N.eqb_spec d seq) as [->|]; [exfalso; apply Hni; now left|].
        apply IH. intros H. apply Hni. now right. }
      assert (P : forall l v, filter (fun c => c =? seq) l = [] -> put_chks PL v l seq = Some v).
      { clear. induction l as [|d l IH]; intros v H; [reflexivity|]. cbn [filter put_chks] in *.
        destruct (d =? seq); [discriminate|]. now apply IH. }
      rewrite P by exact F. rewrite F.
      eexists. split; [reflexivity|]. cbn [w_file w_buf map enc_entries flat_map enc_entry].
      rewrite app_nil_r. auto.
    + apply IH; assumption.
Qed.

Lemma write_rec_spec : forall chks w r, 40 <= PL -> NoDup chks -> wf_rec r -> comp_fits comp PL r ->
  blen (w_buf w) <= 2 * PL ->
  exists w', write_rec comp PL chks w r = Some w' /\
    w_file w' ++ w_buf w' = (w_file w ++ w_buf w) ++ enc_entries comp (entries_for chks [r]) /\
    blen (w_buf w') <= 2 * PL /\
    (exists x, w_file w' = w_file w ++ x).
Proof.
  intros chks w r HP Hnd Hw Hf Hb.
  pose proof (enc_header_len r Hw) as HH. unfold REC_META_LEN in HH.
  unfold write_rec.
  set (w0 := if PL <? blen (w_buf w) + REC_META_LEN then buf_spill w else w).
  assert (H0 : w_file w0 ++ w_buf w0 = w_file w ++ w_buf w /\ blen (w_buf w0) + 40 <= PL /\ exists x, w_file w0 = w_file w ++ x).
  { unfold w0, REC_META_LEN. destruct (N.ltb_spec PL (blen (w_buf w) + 40)); cbn [buf_spill w_file w_buf].
    - rewrite app_nil_r. split; [reflexivity|]. split; [change (blen []) with 0; lia|]. eauto.
    - split; [reflexivity|]. split; [lia|]. exists []. now rewrite app_nil_r. }
  destruct H0 as (H0 & H0l & x0 & H0x). clearbody w0.
  unfold buf_put at 1.
  destruct (N.ltb_spec (2 * PL) (blen (w_buf w0) + blen (enc_header comp r))); [lia|].
  cbn [w_file w_buf].
  set (data_len := blen (r_key r) + blen (r_val r) + blen (r_meta r)).
  assert (Hdl : blen (enc_data comp r) + 16 <= data_len + PL).
  { unfold enc_data, data_len, comp_fits in *. rewrite !blen_app. lia. }
  assert (Hfin : forall w3, w_file w3 ++ w_buf w3 = (w_file w0 ++ w_buf w0) ++ enc_rec comp r ->
     (exists x, w_file w3 = w_file w ++ x) ->
     blen (w_buf w3) + 16 <= 2 * PL ->
     exists w', put_chks PL w3 chks (r_seq r) = Some w' /\
       w_file w' ++ w_buf w' = (w_file w ++ w_buf w) ++ enc_entries comp (entries_for chks [r]) /\
       blen (w_buf w') <= 2 * PL /\ (exists x, w_file w' = w_file w ++ x)).
  { intros w3 E3 [x3 Hx3] B3. destruct (put_chks_spec chks (r_seq r) w3 Hnd B3) as (w' & Ew & Ef & Eb).
    exists w'. split; [exact Ew|]. rewrite Ef, Eb, app_assoc, E3, H0. split.
    - unfold entries_for. cbn [flat_map]. rewrite app_nil_r. cbn [enc_entries flat_map enc_entry].
      fold (enc_entries comp (map EChk (filter (fun c => c =? r_seq r) chks))).
      now rewrite <- !app_assoc.
    - split; [|eauto]. rewrite blen_app.
      assert (F : (length (filter (fun c => N.eqb c (r_seq r)) chks) <= 1)%nat).
      { clear -Hnd. induction chks as [|d chks IH]; [cbn; lia|]. inversion Hnd as [|? ? Hni Hnd']; subst.
        cbn [filter]. destruct (N.eqb_spec d (r_seq r)) as [->|]; [|now apply IH].
        assert (filter (fun c => c =? r_seq r) chks = []) as ->; [|cbn; lia].
        clear -Hni. induction chks as [|e chks IH]; [reflexivity|]. cbn [filter].
        destruct (N.eqb_spec e (r_seq r)) as [->|]; [exfalso; apply Hni; now left|].
        apply IH. intros H. apply Hni. now right. }
      destruct (filter (fun c => c =? r_seq r) chks) as [|d [|? ?]]; cbn [length] in F; [| |lia].
      + cbn [map enc_entries flat_map]. change (blen []) with 0. lia.
      + cbn [map enc_entries flat_map enc_entry]. rewrite app_nil_r, blen_chk. lia. }
  destruct (N.leb_spec PL data_len) as [Hbig|Hsmall].
  - apply Hfin; cbn [file_put buf_spill w_file w_buf].
    + rewrite app_nil_r. unfold enc_rec. now rewrite <- !app_assoc.
    + rewrite H0x. exists (x0 ++ (w_buf w0 ++ enc_header comp r) ++ enc_data comp r). now rewrite <- !app_assoc.
    + change (blen []) with 0. lia.
  - rewrite blen_app.
    destruct (N.ltb_spec PL (blen (w_buf w0) + blen (enc_header comp r) + data_len)) as [Hov|Hfit].
    + unfold buf_put. cbn [buf_spill w_file w_buf]. change (blen []) with 0.
      destruct (N.ltb_spec (2 * PL) (0 + blen (enc_data comp r))); [lia|].
      apply Hfin; cbn [w_file w_buf app].
      * unfold enc_rec. now rewrite <- !app_assoc.
      * rewrite H0x. exists (x0 ++ (w_buf w0 ++ enc_header comp r)). now rewrite <- !app_assoc.
      * lia.
    + unfold buf_put. cbn [w_file w_buf]. rewrite blen_app.
      destruct (N.ltb_spec (2 * PL) (blen (w_buf w0) + blen (enc_header comp r) + blen (enc_data comp r))); [lia|].
      apply Hfin; cbn [w_file w_buf].
      * unfold enc_rec. now rewrite <- !app_assoc.
      * rewrite H0x. exists x0. reflexivity.
      * rewrite !blen_app. lia.
Qed.

(** C06: buffering by pages does not change the bytes. *)
Theorem write_recs_spec : forall chks rs w, 40 <= PL -> NoDup chks ->
  Forall wf_rec rs -> Forall (comp_fits comp PL) rs -> blen (w_buf w) <= 2 * PL ->
  exists w', write_recs comp PL chks w rs = Some w' /\
    w_file w' ++ w_buf w' = (w_file w ++ w_buf w) ++ enc_entries comp (entries_for chks rs) /\
    (exists x, w_file w' = w_file w ++ x).
Proof.
  intros chks rs. induction rs as [|r rs IH]; intros w HP Hnd Hw Hf Hb.
  - exists w. cbn. rewrite app_nil_r. split; [reflexivity|]. split; [reflexivity|]. exists []. now rewrite app_nil_r.
  - inversion Hw as [|? ? Hr Hrs]; subst. inversion Hf as [|? ? Gr Grs]; subst.
    destruct (write_rec_spec chks w r HP Hnd Hr Gr Hb) as (w1 & E1 & F1 & B1 & x1 & X1).
    destruct (IH w1 HP Hnd Hrs Grs B1) as (w2 & E2 & F2 & x2 & X2).
    exists w2. cbn [write_recs]. rewrite E1, E2. split; [reflexivity|]. split.
    + rewrite F2, F1, <- app_assoc. f_equal. rewrite <- enc_entries_app. f_equal.
      unfold entries_for. cbn [flat_map]. now rewrite app_nil_r.
    + rewrite X2, X1. exists (x1 ++ x2). now rewrite <- app_assoc.
Qed.

Theorem write_recs_fresh : forall chks rs file, 40 <= PL -> NoDup chks ->
  Forall wf_rec rs -> Forall (comp_fits comp PL) rs ->
  exists w, write_recs comp PL chks (mkW file []) rs = Some w /\
    w_file w ++ w_buf w = file ++ enc_entries comp (entries_for chks rs).
Proof.
  intros chks rs file HP Hnd Hw Hf.
  destruct (write_recs_spec chks rs (mkW file []) HP Hnd Hw Hf) as (w & E & F & _).
  - cbn. change (blen []) with 0. lia.
  - exists w. split; [exact E|]. rewrite F. cbn. now rewrite app_nil_r.
Qed.

(** *** Whole histories of one log file *)

Definition le_synced (s : N) (n : N) : bool := valid_number s && (n <=? s).

Record Inv (f : lfile) (es : list entry) : Prop := mkInv {
  inv_ok : Forall (rec_ok comp decomp PL) (lf_recs f);
  inv_sorted : StronglySorted seq_lt (lf_recs f);
  inv_max_nil : lf_recs f = [] -> lf_max f = NIL;
  inv_max : forall l r, lf_recs f = l ++ [r] -> lf_max f = r_seq r;
  inv_synced : lf_synced f = NIL \/ (lf_synced f <= lf_max f /\ lf_recs f <> []);
  inv_chks_sorted : StronglySorted N.lt (lf_chks f);
  inv_chks_max : Forall (fun c => exists r, In r (lf_recs f) /\ r_seq r = c) (lf_chks f);
  inv_bytes : lf_bytes f = log_file_bytes comp es;
  inv_es : Forall (wf_entry comp decomp) es;
  inv_recs : recs_of es = filter (fun r => le_synced (lf_synced f) (r_seq r)) (lf_recs f) }.

Lemma StronglySorted_app_last : forall (A : Type) (R : A -> A -> Prop) l x,
  StronglySorted R l -> Forall (fun y => R y x) l -> StronglySorted R (l ++ [x]).
Proof.
  intros A R l x. induction l as [|a l IH]; intros Hs Hf.
  - cbn. repeat constructor.
  - inversion Hs as [|? ? Hs' Ha]; subst. inversion Hf as [|? ? Hx Hf']; subst. cbn. constructor.
    + now apply IH.
    + apply Forall_app. split; [assumption|]. constructor; [assumption|constructor].
Qed.

Lemma StronglySorted_last : forall (A : Type) (R : A -> A -> Prop) l x,
  StronglySorted R (l ++ [x]) -> Forall (fun y => R y x) l.
Proof.
  intros A R l x. induction l as [|a l IH]; intros H; [constructor|].
  cbn in H. inversion H as [|? ? Hs Ha]; subst. apply Forall_app in Ha as [_ Ha]. inversion Ha; subst.
  constructor; [assumption|]. now apply IH.
Qed.

Lemma list_snoc_cases : forall (A : Type) (l : list A), l = [] \/ exists l' x, l = l' ++ [x].
Proof.
  intros A l. destruct (rev l) as [|x r] eqn:E.
  - left. apply (f_equal (@rev A)) in E. rewrite rev_involutive in E. exact E.
  - right. exists (rev r), x. apply (f_equal (@rev A)) in E. rewrite rev_involutive in E. exact E.
Qed.

Lemma inv_max_ge : forall f es, Inv f es -> forall r, In r (lf_recs f) -> r_seq r <= lf_max f.
Proof.
  intros f es I r Hr. destruct (list_snoc_cases _ (lf_recs f)) as [E|(l & x & E)].
  - rewrite E in Hr. destruct Hr.
  - rewrite (inv_max f es I l x E). pose proof (inv_sorted f es I) as S. rewrite E in S, Hr.
    apply StronglySorted_last in S. apply in_app_or in Hr. destruct Hr as [Hr|[->|[]]]; [|lia].
    rewrite Forall_forall in S. specialize (S r Hr). unfold seq_lt in S. lia.
Qed.

Lemma inv_max_valid : forall f es, Inv f es -> lf_recs f <> [] -> lf_max f < NIL.
Proof.
  intros f es I H. destruct (list_snoc_cases _ (lf_recs f)) as [E|(l & x & E)]; [contradiction|].
  rewrite (inv_max f es I l x E). pose proof (inv_ok f es I) as O. rewrite E in O.
  apply Forall_app in O as [_ O]. inversion O as [|? ? O1 _]; subst. apply O1.
Qed.

Lemma valid_lt : forall n, n < NIL -> valid_number n = true.
Proof. intros n H. unfold valid_number. destruct (N.eqb_spec n NIL); [lia|reflexivity]. Qed.
Lemma valid_NIL : valid_number NIL = false.
Proof. reflexivity. Qed.

Lemma le_synced_NIL : forall n, le_synced NIL n = false.
Proof. reflexivity. Qed.

Lemma le_synced_valid : forall s n, s < NIL -> le_synced s n = (n <=? s).
Proof. intros s n H. unfold le_synced. now rewrite valid_lt. Qed.

Lemma Inv_create : Inv lf_create [].
Proof.
  constructor; cbn [lf_create lf_bytes lf_recs lf_max lf_synced lf_chks lf_dirty].
  - constructor.
  - constructor.
  - reflexivity.
  - intros l r H. destruct l; discriminate H.
  - now left.
  - constructor.
  - constructor.
  - unfold log_file_bytes. cbn [enc_entries flat_map]. now rewrite app_nil_r.
  - constructor.
  - reflexivity.
Qed.

Lemma filter_all_false : forall (A : Type) (p : A -> bool) l, (forall x, In x l -> p x = false) -> filter p l = [].
Proof.
  intros A p l. induction l as [|a l IH]; intros H; [reflexivity|]. cbn [filter].
  rewrite (H a) by now left. apply IH. intros x Hx. apply H. now right.
Qed.
Lemma filter_all_true : forall (A : Type) (p : A -> bool) l, (forall x, In x l -> p x = true) -> filter p l = l.
Proof.
  intros A p l. induction l as [|a l IH]; intros H; [reflexivity|]. cbn [filter].
  rewrite (H a) by now left. f_equal. apply IH. intros x Hx. apply H. now right.
Qed.

Lemma Inv_append : forall f es r, Inv f es -> rec_ok comp decomp PL r ->
  Forall (fun x => seq_lt x r) (lf_recs f) -> Inv (lf_append f r) es.
Proof.
  intros f es r I Hr Hlt. pose proof (inv_synced f es I) as HS.
  assert (Hnew : le_synced (lf_synced f) (r_seq r) = false).
  { destruct HS as [->|[HS1 HS2]]; [reflexivity|]. unfold le_synced.
    destruct (list_snoc_cases _ (lf_recs f)) as [E|(l & x & E)]; [contradiction|].
    rewrite (inv_max f es I l x E) in HS1. rewrite E in Hlt. apply Forall_app in Hlt as [_ Hx].
    inversion Hx as [|? ? Hx1 _]; subst. unfold seq_lt in Hx1.
    destruct (N.leb_spec (r_seq r) (lf_synced f)); [lia|]. apply andb_false_r. }
  constructor; cbn [lf_append lf_bytes lf_recs lf_max lf_synced lf_chks lf_dirty].
  - apply Forall_app. split; [apply (inv_ok f es I)|]. constructor; [assumption|constructor].
  - apply StronglySorted_app_last; [apply (inv_sorted f es I)|exact Hlt].
  - intros E. destruct (lf_recs f); discriminate.
  - intros l x E. apply app_inj_tail in E as [_ <-]. reflexivity.
  - destruct HS as [H|[HS1 HS2]]; [now left|]. right. split.
    + destruct (list_snoc_cases _ (lf_recs f)) as [E|(l & x & E)]; [contradiction|].
      rewrite (inv_max f es I l x E) in HS1. rewrite E in Hlt. apply Forall_app in Hlt as [_ Hx].
      inversion Hx as [|? ? Hx1 _]; subst. unfold seq_lt in Hx1. lia.
    + destruct (lf_recs f); discriminate.
  - apply (inv_chks_sorted f es I).
  - eapply Forall_impl; [|apply (inv_chks_max f es I)]. intros c (x & Hx & Ex). exists x. split; [|exact Ex].
    apply in_or_app. now left.
  - apply (inv_bytes f es I).
  - apply (inv_es f es I).
  - rewrite filter_app. cbn [filter]. rewrite Hnew, app_nil_r. apply (inv_recs f es I).
Qed.

Lemma Inv_mark : forall f es, Inv f es -> Inv (lf_mark f) es.
Proof.
  intros f es I. unfold lf_mark.
  destruct (valid_number (lf_max f)) eqn:EV; cbn [negb]; [|exact I].
  destruct (list_snoc_cases _ (lf_recs f)) as [E|(l & x & E)].
  { rewrite (inv_max_nil f es I E) in EV. discriminate. }
  pose proof (inv_max f es I l x E) as Hmax.
  assert (Hin : exists r, In r (lf_recs f) /\ r_seq r = lf_max f).
  { exists x. rewrite Hmax, E. split; [apply in_or_app; right; now left|reflexivity]. }
  assert (Hlast : forall c, In c (lf_chks f) -> c <= lf_max f).
  { intros c Hc. pose proof (inv_chks_max f es I) as F. rewrite Forall_forall in F.
    destruct (F c Hc) as (r & Hr & <-). now apply (inv_max_ge f es I). }
  destruct (list_snoc_cases _ (lf_chks f)) as [Ec|(lc & c & Ec)].
  - rewrite Ec. constructor; cbn [lf_bytes lf_recs lf_max lf_synced lf_chks lf_dirty]; try apply I.
    + repeat constructor.
    + constructor; [exact Hin|constructor].
  - destruct (lf_chks f) as [|c0 lc0] eqn:EC; [destruct lc; discriminate|]. rewrite Ec.
    rewrite last_last.
    destruct (N.eqb_spec c (lf_max f)) as [Hc|Hc]; [exact I|].
    constructor; cbn [lf_bytes lf_recs lf_max lf_synced lf_chks lf_dirty]; try apply I.
    + apply StronglySorted_app_last; [rewrite <- Ec, <- EC; apply I|].
      pose proof (inv_chks_sorted f es I) as S. rewrite EC, Ec in S. apply StronglySorted_last in S.
      assert (Hcl : c < lf_max f).
      { assert (c <= lf_max f) by (apply Hlast; rewrite Ec; apply in_or_app; right; now left). lia. }
      apply Forall_app. split; [|repeat constructor; exact Hcl].
      eapply Forall_impl; [|exact S]. cbn. intros; lia.
    + apply Forall_app. split; [rewrite <- Ec, <- EC; apply I|]. constructor; [exact Hin|constructor].
Qed.

Lemma StronglySorted_lt_NoDup : forall l, StronglySorted N.lt l -> NoDup l.
Proof.
  induction l as [|a l IH]; intros H; [constructor|]. inversion H as [|? ? Hs Ha]; subst. constructor; [|now apply IH].
  intros Hi. rewrite Forall_forall in Ha. specialize (Ha a Hi). lia.
Qed.

(** A sorted list is the concatenation of its parts below and above a bound. *)
Lemma filter_split_sorted : forall (A : Type) (k : A -> N) l s,
  StronglySorted (fun a b => k a < k b) l ->
  filter (fun a => k a <=? s) l ++ filter (fun a => s <? k a) l = l.
Proof.
  intros A k l s. induction l as [|a l IH]; intros H; [reflexivity|].
  inversion H as [|? ? Hs Ha]; subst. cbn [filter].
  destruct (N.leb_spec (k a) s) as [H1|H1]; destruct (N.ltb_spec s (k a)) as [H2|H2]; try lia.
  - cbn [app]. f_equal. now apply IH.
  - rewrite filter_all_false, filter_all_true; [reflexivity| |].
    + intros x Hx. rewrite Forall_forall in Ha. specialize (Ha x Hx). lia.
    + intros x Hx. rewrite Forall_forall in Ha. specialize (Ha x Hx). lia.
Qed.

Lemma seq_sorted_k : forall l, StronglySorted seq_lt l -> StronglySorted (fun a b => r_seq a < r_seq b) l.
Proof. intros l H. exact H. Qed.

(** Markers written while flushing sorted records that cover the checkpoints. *)
Lemma chks_of_entries_for : forall chks rs,
  StronglySorted N.lt chks -> StronglySorted seq_lt rs ->
  chks_of (entries_for chks rs) = filter (fun c => existsb (fun r => c =? r_seq r) rs) chks.
Proof.
  intros chks rs Hc. induction rs as [|r rs IH]; intros Hs.
  - cbn. symmetry. apply filter_all_false. reflexivity.
  - inversion Hs as [|? ? Hs' Hr]; subst. cbn [entries_for flat_map].
    fold (entries_for chks rs).
    change ((ERec r :: map EChk (filter (fun c => c =? r_seq r) chks)) ++ entries_for chks rs)
      with ([ERec r] ++ (map EChk (filter (fun c => c =? r_seq r) chks) ++ entries_for chks rs)).
    rewrite !chks_of_app, chks_of_chks, IH by exact Hs'. cbn [chks_of flat_map app existsb].
    clear IH Hs Hs'. induction chks as [|c chks IHc]; [reflexivity|].
    inversion Hc as [|? ? Hc' Hcl]; subst. specialize (IHc Hc'). cbn [filter].
    destruct (N.eqb_spec c (r_seq r)) as [->|Hne].
    + cbn [orb]. assert (E : existsb (fun r0 => r_seq r =? r_seq r0) rs = false).
      { apply not_true_is_false. intros H. apply existsb_exists in H as (x & Hx & Ex).
        rewrite Forall_forall in Hr. specialize (Hr x Hx). unfold seq_lt in Hr. lia. }
      rewrite E. cbn [app]. f_equal. exact IHc.
    + cbn [orb]. destruct (existsb (fun r0 => c =? r_seq r0) rs) eqn:E.
      * (* every later checkpoint is larger, so none equals r's number *)
        apply existsb_exists in E as (x & Hx & Ex). apply N.eqb_eq in Ex.
        rewrite Forall_forall in Hr. specialize (Hr x Hx). unfold seq_lt in Hr.
        assert (F : filter (fun c0 => c0 =? r_seq r) chks = []).
        { apply filter_all_false. intros d Hd. rewrite Forall_forall in Hcl. specialize (Hcl d Hd). lia. }
        rewrite F in IHc |- *. cbn [app] in *. f_equal. exact IHc.
      * exact IHc.
Qed.

(** When everything fits in one page nothing is spilled before the end. *)
Lemma put_chks_file : forall chks seq w w', put_chks PL w chks seq = Some w' -> w_file w' = w_file w.
Proof.
  induction chks as [|c chks IH]; intros seq w w' H; cbn [put_chks] in H; [now injection H as <-|].
  destruct (c =? seq); [|now apply (IH seq)].
  unfold buf_put in H. destruct (2 * PL <? _); [discriminate|]. apply IH in H. exact H.
Qed.

(** Whether the marker of a "cold" checkpoint lands on an entry boundary. *)
Definition cold_harmless (f : lfile) : Prop := cold_chk f = true -> pending f NIL = [].

Lemma Inv_sync : forall f es, 40 <= PL -> Inv f es -> cold_harmless f ->
  exists f' es', lf_sync comp PL f NIL = Some f' /\ Inv f' (es ++ es') /\
    lf_recs f' = lf_recs f /\ lf_max f' = lf_max f /\ lf_chks f' = lf_chks f /\
    lf_synced f' = lf_max f /\ (lf_dirty f' = false \/ lf_recs f = []) /\
    (chks_of es ++ (if cold_chk f then [lf_synced f] else []) = filter (le_synced (lf_synced f)) (lf_chks f) ->
     chks_of (es ++ es') = filter (le_synced (lf_synced f')) (lf_chks f')).
Proof.
  intros f es HP I Hcold. unfold lf_sync.
  destruct (list_snoc_cases _ (lf_recs f)) as [E|(l & x & E)].
  - (* no record *)
    rewrite (inv_max_nil f es I E). rewrite valid_NIL. cbn [negb].
    assert (HS : lf_synced f = NIL) by (destruct (inv_synced f es I) as [H|[_ H]]; [exact H|contradiction]).
    eexists. exists [EFlush (lf_synced f)]. split; [reflexivity|].
    cbn [lf_recs lf_max lf_chks lf_synced lf_dirty]. split.
    2:{ repeat split; auto. intros Hc. rewrite chks_of_app. cbn [chks_of flat_map]. rewrite app_nil_r.
        assert (HCC : lf_chks f = []).
        { pose proof (inv_chks_max f es I) as F. destruct (lf_chks f) as [|c l]; [reflexivity|].
          inversion F as [|? ? (r & Hr & _) _]; subst. rewrite E in Hr. destruct Hr. }
        unfold cold_chk in Hc. rewrite HCC in Hc. rewrite HCC. cbn in *. now rewrite app_nil_r in Hc. }
    constructor; cbn [lf_bytes lf_recs lf_max lf_synced lf_chks lf_dirty]; try apply I.
    + reflexivity.
    + intros l0 r0 E0. rewrite E in E0. destruct l0; discriminate.
    + now left.
    + rewrite (inv_bytes f es I). unfold log_file_bytes. rewrite enc_entries_app, app_assoc. reflexivity.
    + apply Forall_app. split; [apply I|]. constructor; [|constructor]. cbn. rewrite HS. reflexivity.
    + rewrite recs_of_app. cbn [recs_of flat_map]. rewrite app_nil_r. apply I.
  - assert (Hne : lf_recs f <> []) by (rewrite E; destruct l; discriminate).
    pose proof (inv_max_valid f es I Hne) as Hmv. rewrite (valid_lt _ Hmv). cbn [negb].
    assert (HFU : flush_upto f NIL = lf_max f) by reflexivity.
    assert (Hpend : pending f NIL = filter (fun r => negb (le_synced (lf_synced f) (r_seq r))) (lf_recs f)).
    { unfold pending. rewrite HFU. apply filter_ext_in. intros r Hr.
      pose proof (inv_max_ge f es I r Hr) as Hle. unfold le_synced.
      destruct (valid_number (lf_synced f)); cbn [negb orb andb]; lia. }
    assert (HwfP : Forall (rec_ok comp decomp PL) (pending f NIL)).
    { apply Forall_forall. intros r Hr. apply filter_In in Hr as [Hr _].
      pose proof (inv_ok f es I) as O. rewrite Forall_forall in O. now apply O. }
    assert (HspP : StronglySorted seq_lt (pending f NIL)).
    { unfold pending. generalize (inv_sorted f es I). generalize (lf_recs f). clear.
      intros l. induction l as [|a l IH]; intros H; [constructor|]. inversion H as [|? ? Hs Ha]; subst.
      cbn [filter]. destruct (_ && _); [|now apply IH]. constructor; [now apply IH|].
      apply Forall_forall. intros x Hx. apply filter_In in Hx as [Hx _]. rewrite Forall_forall in Ha. now apply Ha. }
    destruct (write_recs_spec (lf_chks f) (pending f NIL) (mkW (lf_bytes f) []) HP) as (w & Ew & Ef & _).
    { apply StronglySorted_lt_NoDup, I. }
    { eapply Forall_impl; [|exact HwfP]. intros r H; apply H. }
    { eapply Forall_impl; [|exact HwfP]. intros r H; apply H. }
    { cbn. change (blen []) with 0. lia. }
    rewrite Ew. cbn [w_file w_buf] in Ef. rewrite app_nil_r in Ef.
    set (new := entries_for (lf_chks f) (pending f NIL) ++
                (if cold_chk f then [EChk (lf_synced f)] else [])).
    eexists. exists (new ++ [EFlush (lf_synced f)]). split; [reflexivity|].
    cbn [lf_recs lf_max lf_chks lf_synced lf_dirty]. rewrite HFU.
    assert (Hbytes : w_file (buf_spill (if cold_chk f then file_put w (enc_chk (lf_synced f)) else w)) =
                     lf_bytes f ++ enc_entries comp new).
    { unfold new. destruct (cold_chk f) eqn:EC.
      - specialize (Hcold EC). rewrite Hcold in Ew. cbn [write_recs] in Ew. injection Ew as <-.
        rewrite Hcold. cbn. now rewrite !app_nil_r.
      - cbn [buf_spill w_file]. rewrite Ef, app_nil_r. reflexivity. }
    rewrite Hbytes.
    assert (HSl : lf_synced f < 2 ^ 64).
    { destruct (inv_synced f es I) as [->|[H _]]; [reflexivity|]. unfold NIL in *. lia. }
    assert (Hrecs : recs_of (es ++ new ++ [EFlush (lf_synced f)]) =
       filter (fun r => le_synced (lf_max f) (r_seq r)) (lf_recs f)).
    { rewrite !recs_of_app, (inv_recs f es I). unfold new. rewrite recs_of_app, recs_of_entries_for.
      assert (HC : recs_of (if cold_chk f then [EChk (lf_synced f)] else []) = []) by (destruct (cold_chk f); reflexivity).
      rewrite HC. cbn [recs_of flat_map]. rewrite !app_nil_r, Hpend.
      rewrite (filter_all_true _ (fun r => le_synced (lf_max f) (r_seq r))).
      2:{ intros r Hr. rewrite le_synced_valid by exact Hmv. pose proof (inv_max_ge f es I r Hr). lia. }
      destruct (inv_synced f es I) as [HS|[HS1 _]].
      - rewrite HS. rewrite filter_all_false, filter_all_true; reflexivity.
      - rewrite <- (filter_split_sorted rec r_seq (lf_recs f) (lf_synced f)) at 3 by (apply seq_sorted_k, I).
        f_equal; apply filter_ext; intros r; rewrite le_synced_valid by lia; [reflexivity|lia]. }
    split.
    2:{ repeat split; auto. intros Hchk. rewrite !chks_of_app. unfold new.
        rewrite chks_of_app, chks_of_entries_for; [|apply I|exact HspP].
        change (chks_of [EFlush (lf_synced f)]) with (@nil N).
        assert (HC : chks_of (if cold_chk f then [EChk (lf_synced f)] else []) = (if cold_chk f then [lf_synced f] else [])) by (destruct (cold_chk f); reflexivity).
        rewrite HC, app_nil_r.
        rewrite (filter_all_true _ (le_synced (lf_max f))).
        2:{ intros c Hc. rewrite le_synced_valid by exact Hmv. pose proof (inv_chks_max f es I) as F.
            rewrite Forall_forall in F. destruct (F c Hc) as (r & Hr & <-).
            pose proof (inv_max_ge f es I r Hr). lia. }
        assert (HM : filter (fun c => existsb (fun r => c =? r_seq r) (pending f NIL)) (lf_chks f) =
                     filter (fun c => negb (le_synced (lf_synced f) c)) (lf_chks f)).
        { apply filter_ext_in. intros c Hc. pose proof (inv_chks_max f es I) as F.
          rewrite Forall_forall in F. destruct (F c Hc) as (r & Hr & Er).
          apply eq_true_iff_eq. rewrite existsb_exists. rewrite Hpend. split.
          - intros (r' & Hr' & Er'). apply filter_In in Hr' as [_ Hr']. apply N.eqb_eq in Er'. now rewrite Er'.
          - intros Hn. exists r. split; [apply filter_In; split; [exact Hr|now rewrite Er]|]. now apply N.eqb_eq. }
        assert (HE : filter (fun c => existsb (fun r => c =? r_seq r) (pending f NIL)) (lf_chks f) ++
                     (if cold_chk f then [lf_synced f] else []) =
                     (if cold_chk f then [lf_synced f] else []) ++
                     filter (fun c => existsb (fun r => c =? r_seq r) (pending f NIL)) (lf_chks f)).
        { destruct (cold_chk f) eqn:EC; [|now rewrite app_nil_r]. rewrite (Hcold EC). cbn [existsb].
          rewrite filter_all_false by reflexivity. reflexivity. }
        rewrite HE, app_assoc, Hchk, HM.
        destruct (inv_synced f es I) as [HS|[HS1 _]].
        - rewrite HS. rewrite filter_all_false, filter_all_true; reflexivity.
        - rewrite <- (filter_split_sorted N (fun c => c) (lf_chks f) (lf_synced f)) at 3 by apply I.
          f_equal; apply filter_ext; intros r; rewrite le_synced_valid by lia; [reflexivity|lia]. }
    constructor; cbn [lf_bytes lf_recs lf_max lf_synced lf_chks lf_dirty]; try apply I.
    + right. split; [lia|exact Hne].
    + rewrite (inv_bytes f es I). unfold log_file_bytes. rewrite !enc_entries_app, <- !app_assoc. reflexivity.
    + rewrite !Forall_app. split; [apply I|]. split; [|constructor; [exact HSl|constructor]].
      unfold new. rewrite Forall_app. split.
      * unfold entries_for. apply Forall_flat_map. eapply Forall_impl; [|exact HwfP]. intros r (H1 & H2 & H3 & H4).
        constructor; [split; assumption|]. apply Forall_forall. intros e He. apply in_map_iff in He as (c & <- & Hc).
        apply filter_In in Hc as [_ Hc]. cbn. apply N.eqb_eq in Hc. rewrite Hc. apply H1.
      * destruct (cold_chk f); constructor; [exact HSl|constructor].
    + exact Hrecs.
Qed.

(** *** API-level histories *)

Definition ChkInv (f : lfile) (es : list entry) : Prop :=
  chks_of es = filter (le_synced (lf_synced f)) (lf_chks f).

Definition Clean (f : lfile) : Prop := lf_dirty f = false.

Lemma clean_cold : forall f, Clean f -> cold_chk f = false.
Proof. intros f H. unfold cold_chk, Clean in *. rewrite H. destruct (lf_chks f); reflexivity. Qed.

Lemma recs_nil_chks_nil : forall f es, Inv f es -> lf_recs f = [] -> lf_chks f = [].
Proof.
  intros f es I E. pose proof (inv_chks_max f es I) as F. destruct (lf_chks f) as [|c l]; [reflexivity|].
  inversion F as [|? ? (r & Hr & _) _]; subst. rewrite E in Hr. destruct Hr.
Qed.

(** The state of the model against the specification. *)
Record Sim (f : lfile) (es : list entry) (d : dstate) : Prop := mkSim {
  sim_inv : Inv f es;
  sim_clean : Clean f;
  sim_chk : ChkInv f es;
  sim_all : lf_recs f = d_all d;
  sim_dur : recs_of es = d_dur d;
  sim_chks : lf_chks f = d_chk d;
  sim_chkdur : chks_of es = d_chk d }.

Lemma Sim_create : Sim lf_create [] dinit.
Proof. constructor; try reflexivity. apply Inv_create. Qed.

Lemma filter_max_all : forall f es, Inv f es -> lf_recs f <> [] ->
  filter (fun r => le_synced (lf_max f) (r_seq r)) (lf_recs f) = lf_recs f.
Proof.
  intros f es I Hne. apply filter_all_true. intros r Hr.
  rewrite le_synced_valid by (apply (inv_max_valid f es I Hne)).
  pose proof (inv_max_ge f es I r Hr). lia.
Qed.

Lemma filter_max_chks : forall f es, Inv f es ->
  filter (le_synced (lf_max f)) (lf_chks f) = lf_chks f.
Proof.
  intros f es I. apply filter_all_true. intros c Hc. pose proof (inv_chks_max f es I) as F.
  rewrite Forall_forall in F. destruct (F c Hc) as (r & Hr & <-).
  assert (Hne : lf_recs f <> []) by (intros E; rewrite E in Hr; destruct Hr).
  rewrite le_synced_valid by (apply (inv_max_valid f es I Hne)).
  pose proof (inv_max_ge f es I r Hr). lia.
Qed.

Lemma Sim_step_sync : forall f es d chks', 40 <= PL -> Inv f es -> cold_harmless f ->
  chks_of es ++ (if cold_chk f then [lf_synced f] else []) = filter (le_synced (lf_synced f)) (lf_chks f) ->
  lf_recs f = d_all d -> lf_chks f = chks' -> (lf_recs f = [] -> Clean f) ->
  exists f' es', lf_sync comp PL f NIL = Some f' /\ Sim f' (es ++ es') (mkD (d_all d) (d_all d) chks').
Proof.
  intros f es d chks' HP I Hcold Hchk Hall Hc Hcl.
  destruct (Inv_sync f es HP I Hcold) as (f' & es' & E & I' & R & M & C & S & D & K).
  specialize (K Hchk). exists f', es'. split; [exact E|].
  assert (Hd : lf_recs f' = [] \/ recs_of (es ++ es') = lf_recs f').
  { destruct (list_snoc_cases _ (lf_recs f')) as [E0|(l & x & E0)]; [now left|]. right.
    rewrite (inv_recs f' _ I'), S, <- M. apply (filter_max_all f' (es ++ es') I'). rewrite E0. destruct l; discriminate. }
  assert (Hd' : recs_of (es ++ es') = lf_recs f').
  { destruct Hd as [Hd|Hd]; [|exact Hd]. rewrite (inv_recs f' _ I'), Hd. reflexivity. }
  constructor.
  - exact I'.
  - destruct D as [D|D]; [exact D|]. unfold Clean.
    assert (lf_dirty f' = lf_dirty f) as ->; [|now apply Hcl].
    unfold lf_sync in E. rewrite (inv_max_nil f es I D) in E. cbn in E. now injection E as <-.
  - exact K.
  - cbn. congruence.
  - cbn. rewrite Hd'. congruence.
  - cbn. congruence.
  - cbn. unfold ChkInv in K. rewrite K, S, <- M. rewrite (filter_max_chks f' (es ++ es') I'). congruence.
Qed.

Lemma rev_snoc_inv : forall (A : Type) (l l' : list A) x, l = l' ++ [x] -> rev l = x :: rev l'.
Proof. intros A l l' x ->. now rewrite rev_app_distr. Qed.

Lemma Sim_step : forall f es d o, 40 <= PL -> Sim f es d ->
  (forall r, o = ASet r -> rec_ok comp decomp PL r /\ Forall (fun x => seq_lt x r) (lf_recs f)) ->
  exists f' es', lrun comp PL f (lops_of o) = Some f' /\ Sim f' (es ++ es') (dstep d o).
Proof.
  intros f es d o HP S Ho. pose proof (sim_inv f es d S) as I. pose proof (sim_clean f es d S) as Cl.
  pose proof (clean_cold f Cl) as NC.
  destruct o as [r| |]; cbn [lops_of lrun lstep dstep].
  - destruct (Ho r eq_refl) as [Hr Hlt]. exists (lf_append f r), []. rewrite app_nil_r. split; [reflexivity|].
    constructor; cbn [lf_append lf_recs lf_chks lf_dirty lf_synced d_all d_dur d_chk]; try apply S.
    + now apply Inv_append.
    + now rewrite (sim_all f es d S).
  - destruct (Sim_step_sync f es d (d_chk d) HP I) as (f' & es' & E & S').
    + intros H. rewrite NC in H. discriminate.
    + rewrite NC, app_nil_r. apply (sim_chk f es d S).
    + apply S.
    + apply S.
    + intros _. exact Cl.
    + exists f', es'. rewrite E. split; [reflexivity|exact S'].
  - (* checkpoint: mark then sync *)
    pose proof (Inv_mark f es I) as IM.
    set (chk' := match rev (d_all d) with
        | [] => d_chk d
        | r :: _ => match rev (d_chk d) with
            | c :: _ => if c =? r_seq r then d_chk d else d_chk d ++ [r_seq r]
            | [] => [r_seq r]
            end
        end).
    assert (HM : lf_recs (lf_mark f) = lf_recs f /\ lf_chks (lf_mark f) = chk' /\
       lf_synced (lf_mark f) = lf_synced f /\ lf_max (lf_mark f) = lf_max f /\
       (lf_mark f = f \/ (lf_recs f <> [] /\ lf_dirty (lf_mark f) = true /\ lf_chks (lf_mark f) = lf_chks f ++ [lf_max f]))).
    { unfold lf_mark, chk'. rewrite <- (sim_all f es d S), <- (sim_chks f es d S).
      destruct (list_snoc_cases _ (lf_recs f)) as [E|(l & x & E)].
      - pose proof (inv_max_nil f es I E) as Hm. rewrite Hm, E. cbn. repeat split; auto.
      - assert (Hne : lf_recs f <> []) by (rewrite E; destruct l; discriminate).
        rewrite (valid_lt _ (inv_max_valid f es I Hne)). cbn [negb].
        pose proof (inv_max f es I l x E) as Hm. rewrite (rev_snoc_inv _ _ _ _ E), Hm.
        destruct (list_snoc_cases _ (lf_chks f)) as [Ec|(lc & c & Ec)].
        + rewrite Ec. cbn. repeat split; auto.
        + rewrite (rev_snoc_inv _ _ _ _ Ec).
          destruct (lf_chks f) as [|c0 lc0] eqn:EC; [destruct lc; discriminate|]. rewrite Ec, last_last.
          destruct (c =? r_seq x) eqn:Ecx; cbn [lf_recs lf_chks lf_synced lf_max lf_dirty];
            [rewrite EC, Ec; repeat split; auto; apply (inv_max f es I l x E)|].
          repeat split; auto. }
    destruct HM as (HM1 & HM2 & HM3 & HM4 & HM5).
    destruct (Sim_step_sync (lf_mark f) es d chk' HP IM) as (f' & es' & E & S').
    + intros H. unfold pending. rewrite HM1, HM3.
      apply filter_all_false. intros r Hr. pose proof (inv_max_ge f es I r Hr) as Hle.
      destruct HM5 as [HM5|(Hne & HD & HC)]; [rewrite HM5, NC in H; discriminate|].
      unfold cold_chk in H. rewrite HC in H. destruct (lf_chks f ++ [lf_max f]) as [|q q'] eqn:EQ; [destruct (lf_chks f); discriminate|].
      rewrite <- EQ in H. rewrite last_last, HM3 in H. apply andb_true_iff in H as [H H2]. apply andb_true_iff in H as [_ H1].
      apply N.eqb_eq in H2. rewrite H1, <- H2. cbn [negb orb]. lia.
    + rewrite HM3. destruct HM5 as [HM5|(Hne & HD & HC)].
      * rewrite HM5, NC, app_nil_r. apply (sim_chk f es d S).
      * rewrite HC, filter_app. cbn [filter]. rewrite <- (sim_chk f es d S). f_equal.
        unfold cold_chk. rewrite HC. destruct (lf_chks f ++ [lf_max f]) as [|q q'] eqn:EQ; [destruct (lf_chks f); discriminate|].
        rewrite <- EQ. rewrite last_last, HD, HM3. cbn [andb]. unfold le_synced.
        destruct (inv_synced f es I) as [HS|[HS _]]; [rewrite HS; reflexivity|].
        destruct (valid_number (lf_synced f)); cbn [andb]; [|reflexivity].
        destruct (N.eqb_spec (lf_max f) (lf_synced f)) as [<-|Hn].
        -- now rewrite N.leb_refl.
        -- destruct (N.leb_spec (lf_max f) (lf_synced f)); [lia|reflexivity].
    + rewrite HM1. apply S.
    + exact HM2.
    + rewrite HM1. intros Hnil. destruct HM5 as [HM5|(Hne & _)]; [|contradiction]. rewrite HM5. exact Cl.
    + exists f', es'. rewrite E. split; [reflexivity|]. exact S'.
Qed.

Lemma lrun_app : forall a b f, lrun comp PL f (a ++ b) =
  match lrun comp PL f a with None => None | Some f' => lrun comp PL f' b end.
Proof.
  induction a as [|o a IH]; intros b f; [reflexivity|]. cbn [app lrun].
  destruct (lstep comp PL f o); [apply IH|reflexivity].
Qed.

Lemma Sim_run : forall ops f es d, 40 <= PL -> Sim f es d ->
  Forall (rec_ok comp decomp PL) (sets_of ops) -> StronglySorted seq_lt (d_all d ++ sets_of ops) ->
  exists f' es', api_run comp PL f ops = Some f' /\ Sim f' (es ++ es') (fold_left dstep ops d).
Proof.
  induction ops as [|o ops IH]; intros f es d HP S Hok Hso.
  - exists f, []. rewrite app_nil_r. split; [reflexivity|exact S].
  - unfold api_run. cbn [flat_map fold_left].
    destruct (Sim_step f es d o HP S) as (f1 & es1 & E1 & S1).
    { intros r ->. cbn [sets_of flat_map app] in Hok, Hso. inversion Hok as [|? ? Hr _]; subst.
      split; [exact Hr|]. rewrite (sim_all f es d S).
      clear -Hso. induction (d_all d) as [|a l IH]; [constructor|]. cbn in Hso.
      inversion Hso as [|? ? Hs Ha]; subst. apply Forall_app in Ha as [_ Ha]. inversion Ha; subst.
      constructor; [assumption|]. now apply IH. }
    rewrite lrun_app, E1.
    destruct (IH f1 (es ++ es1) (dstep d o) HP S1) as (f2 & es2 & E2 & S2).
    + destruct o; cbn in Hok; [now inversion Hok|exact Hok|exact Hok].
    + destruct o; cbn in Hso |- *; [rewrite <- app_assoc; exact Hso|exact Hso|exact Hso].
    + exists f2, (es1 ++ es2). rewrite app_assoc. split; [exact E2|exact S2].
Qed.

(** C41 for one log file: any sequence of calls; then a crash that keeps at least what
    was in the file at some earlier point. *)
Theorem api_run_durable : forall ops, 40 <= PL ->
  Forall (rec_ok comp decomp PL) (sets_of ops) -> StronglySorted seq_lt (sets_of ops) ->
  exists f es, api_run comp PL lf_create ops = Some f /\
    load_file decomp (lf_bytes f) = (es, L_OK) /\
    recs_of es = d_dur (drun ops) /\ chks_of es = d_chk (drun ops).
Proof.
  intros ops HP Hok Hso.
  destruct (Sim_run ops lf_create [] dinit HP Sim_create Hok Hso) as (f & es & E & S).
  exists f, es. cbn [app] in S. split; [exact E|].
  rewrite (inv_bytes f es (sim_inv _ _ _ S)), load_file_enc by apply (inv_es f es (sim_inv _ _ _ S)).
  split; [reflexivity|]. split; apply S.
Qed.

Lemma firstn_app_le : forall (A : Type) k (a b : list A), (length a <= k)%nat -> firstn k (a ++ b) = a ++ firstn (k - length a) b.
Proof. intros A k a b H. rewrite firstn_app, firstn_all2 by exact H. reflexivity. Qed.

Lemma recs_of_prefix : forall es k, exists j, recs_of (firstn k es) = firstn j (recs_of es).
Proof.
  intros es k. exists (length (recs_of (firstn k es))).
  rewrite <- (firstn_skipn k es) at 3. rewrite recs_of_app. now rewrite firstn_app_exact.
Qed.
Lemma chks_of_prefix : forall es k, exists j, chks_of (firstn k es) = firstn j (chks_of es).
Proof.
  intros es k. exists (length (chks_of (firstn k es))).
  rewrite <- (firstn_skipn k es) at 3. rewrite chks_of_app. now rewrite firstn_app_exact.
Qed.

Theorem api_run_crash : forall ops1 ops2 n, 40 <= PL ->
  Forall (rec_ok comp decomp PL) (sets_of (ops1 ++ ops2)) -> StronglySorted seq_lt (sets_of (ops1 ++ ops2)) ->
  exists f1 f2, api_run comp PL lf_create ops1 = Some f1 /\
    api_run comp PL lf_create (ops1 ++ ops2) = Some f2 /\
    ((length (lf_bytes f1) <= n <= length (lf_bytes f2))%nat ->
     let res := load_file decomp (firstn n (lf_bytes f2)) in
     (snd res = L_OK \/ snd res = L_INCOMPLETE) /\
     (exists more, recs_of (fst res) = d_dur (drun ops1) ++ more) /\
     (exists j, recs_of (fst res) = firstn j (sets_of (ops1 ++ ops2))) /\
     (exists more, chks_of (fst res) = d_chk (drun ops1) ++ more) /\
     (exists j, chks_of (fst res) = firstn j (d_chk (drun (ops1 ++ ops2))))).
Proof.
  intros ops1 ops2 n HP Hok Hso. unfold sets_of in Hok, Hso. rewrite flat_map_app in Hok, Hso.
  fold (sets_of ops1) in Hok, Hso. fold (sets_of ops2) in Hok, Hso.
  assert (Hall : forall ops d, d_all (fold_left dstep ops d) = d_all d ++ sets_of ops).
  { clear. induction ops as [|o ops IH]; intros d; cbn; [now rewrite app_nil_r|]. rewrite IH.
    destruct o; cbn; [now rewrite <- app_assoc|reflexivity|reflexivity]. }
  destruct (Sim_run ops1 lf_create [] dinit HP Sim_create) as (f1 & es1 & E1 & S1).
  { apply Forall_app in Hok. apply Hok. }
  { cbn. clear -Hso. induction (sets_of ops1) as [|a l IH]; [constructor|]. cbn in Hso.
    inversion Hso as [|? ? Hs Ha]; subst. apply Forall_app in Ha as [Ha _]. constructor; [now apply IH|exact Ha]. }
  cbn [app] in S1.
  destruct (Sim_run ops2 f1 es1 (drun ops1) HP S1) as (f2 & es2 & E2 & S2).
  { apply Forall_app in Hok. apply Hok. }
  { unfold drun. rewrite Hall. exact Hso. }
  exists f1, f2. split; [exact E1|]. split.
  { unfold api_run in *. rewrite flat_map_app, lrun_app, E1. exact E2. }
  intros [Hn1 Hn2]. pose proof (sim_inv _ _ _ S1) as I1. pose proof (sim_inv _ _ _ S2) as I2.
  rewrite (inv_bytes _ _ I1) in Hn1. rewrite (inv_bytes _ _ I2) in Hn2 |- *.
  destruct (load_file_trunc comp decomp (es1 ++ es2) n (inv_es _ _ I2) Hn2) as (k & Hk & Hf & Hle & Hmax & Hs).
  assert (Hkge : (length es1 <= k)%nat).
  { destruct (Nat.le_gt_cases (length es1) k) as [|Hlt]; [assumption|exfalso].
    specialize (Hmax (length es1)). rewrite app_length in Hmax. specialize (Hmax ltac:(lia)).
    rewrite firstn_app_exact in Hmax by reflexivity. lia. }
  cbv zeta. rewrite Hf.
  split.
  { destruct Hs as [Hs|[Hs|[Hn0 _]]]; [now left|now right|].
    unfold log_file_bytes in Hn1. rewrite app_length in Hn1. change (length log_header) with 12%nat in Hn1. lia. }
  split.
  { rewrite firstn_app_le by exact Hkge. rewrite recs_of_app. rewrite (sim_dur _ _ _ S1). eauto. }
  split.
  { destruct (recs_of_prefix (es1 ++ es2) k) as (j & Hj). rewrite Hj.
    rewrite (inv_recs _ _ I2). rewrite (sim_all _ _ _ S2). unfold drun. rewrite !Hall. cbn [d_all dinit app].
    unfold sets_of at 3. rewrite flat_map_app. fold (sets_of ops1) (sets_of ops2).
    set (L := sets_of ops1 ++ sets_of ops2) in *.
    assert (HP2 : exists j', filter (fun r => le_synced (lf_synced f2) (r_seq r)) L = firstn j' L).
    { clear -Hso. generalize (lf_synced f2). intros y. unfold le_synced. destruct (valid_number y); cbn [andb].
      - exists (length (filter (fun r => r_seq r <=? y) L)).
        pose proof (filter_split_sorted rec r_seq L y Hso) as HF.
        rewrite <- HF at 3. now rewrite firstn_app_exact.
      - exists 0%nat. apply filter_all_false. reflexivity. }
    destruct HP2 as (j' & Hj'). rewrite Hj', firstn_firstn. eauto. }
  split.
  { rewrite firstn_app_le by exact Hkge. rewrite chks_of_app. rewrite (sim_chkdur _ _ _ S1). eauto. }
  { destruct (chks_of_prefix (es1 ++ es2) k) as (j & Hj). rewrite Hj. exists j. f_equal.
    rewrite (sim_chkdur _ _ _ S2). unfold drun. now rewrite fold_left_app. }
Qed.

(** Interleaved steps, with the guard that a sync never finds both a cold checkpoint and
    pending records. *)
Fixpoint guarded (f : lfile) (os : list lop) : Prop :=
  match os with
  | [] => True
  | o :: os' => (o = LSync -> cold_harmless f) /\
      forall f', lstep comp PL f o = Some f' -> guarded f' os'
  end.

Definition appends_of (os : list lop) : list rec :=
  flat_map (fun o => match o with LAppend r => [r] | _ => [] end) os.

Lemma guarded_run : forall os f es, 40 <= PL -> Inv f es ->
  Forall (rec_ok comp decomp PL) (appends_of os) -> StronglySorted seq_lt (lf_recs f ++ appends_of os) ->
  guarded f os ->
  exists f' es', lrun comp PL f os = Some f' /\ Inv f' (es ++ es') /\
    lf_recs f' = lf_recs f ++ appends_of os.
Proof.
  induction os as [|o os IH]; intros f es HP I Hok Hso Hg.
  - exists f, []. rewrite !app_nil_r. split; [reflexivity|]. split; [exact I|reflexivity].
  - destruct Hg as [Hc Hg]. cbn [lrun].
    assert (HS : exists f1 es1, lstep comp PL f o = Some f1 /\ Inv f1 (es ++ es1) /\ lf_recs f1 = lf_recs f ++ appends_of [o]).
    { destruct o as [r| |]; cbn [lstep appends_of flat_map app] in *.
      - exists (lf_append f r), []. rewrite app_nil_r. split; [reflexivity|]. split; [|reflexivity].
        inversion Hok as [|? ? Hr _]; subst. apply Inv_append; [exact I|exact Hr|].
        clear -Hso. induction (lf_recs f) as [|a l IH]; [constructor|]. cbn in Hso.
        inversion Hso as [|? ? Hs Ha]; subst. apply Forall_app in Ha as [_ Ha]. inversion Ha; subst.
        constructor; [assumption|]. now apply IH.
      - exists (lf_mark f), []. rewrite !app_nil_r. split; [reflexivity|]. split; [now apply Inv_mark|].
        unfold lf_mark. destruct (negb _); [reflexivity|]. destruct (lf_chks f); [reflexivity|].
        destruct (_ =? _); reflexivity.
      - destruct (Inv_sync f es HP I (Hc eq_refl)) as (f1 & es1 & E & I1 & R & _).
        exists f1, es1. rewrite app_nil_r. auto. }
    destruct HS as (f1 & es1 & E1 & I1 & R1). rewrite E1.
    destruct (IH f1 (es ++ es1) HP I1) as (f2 & es2 & E2 & I2 & R2).
    + destruct o; cbn in Hok; [now inversion Hok|exact Hok|exact Hok].
    + rewrite R1, <- app_assoc. destruct o; exact Hso.
    + now apply Hg.
    + exists f2, (es1 ++ es2). rewrite app_assoc. split; [exact E2|]. split; [exact I2|].
      rewrite R2, R1, <- app_assoc. destruct o; reflexivity.
Qed.

Theorem guarded_durable : forall os, 40 <= PL ->
  Forall (rec_ok comp decomp PL) (appends_of os) -> StronglySorted seq_lt (appends_of os) ->
  guarded lf_create os ->
  exists f es, lrun comp PL lf_create os = Some f /\
    load_file decomp (lf_bytes f) = (es, L_OK) /\
    recs_of es = filter (fun r => valid_number (lf_synced f) && (r_seq r <=? lf_synced f)) (appends_of os).
Proof.
  intros os HP Hok Hso Hg.
  destruct (guarded_run os lf_create [] HP Inv_create Hok Hso Hg) as (f & es & E & I & R).
  exists f, es. cbn [app] in I. split; [exact E|].
  rewrite (inv_bytes f es I), load_file_enc by apply (inv_es f es I). split; [reflexivity|].
  rewrite (inv_recs f es I), R. reflexivity.
Qed.

End P.
