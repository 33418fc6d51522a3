(** The log section: sync, flush and checkpoint against the invariant. *)
From Verif Require Import Base KeyModel KeyProofs LogFormatModel BloomModel BloomProofs MemTableModel MemTableProofs
  LogMgrModel LogMgrProofs LogMgrProofs2.
From Coq Require Import Sorted.
Local Open Scope N_scope.

Section Proofs.
Variable hash : key -> N * N.
Notation GI := (GI hash).
Notation FI := (FI hash).

(** * Sync *)

Definition sync_after (bar : N) (f : lgf) : N :=
  if f_imm f && is_synced (f_mt f) then NIL else flush_out (if bar =? 0 then NIL else bar) (f_mt f).
Definition sync_file (to bar : N) (f : lgf) : lgf :=
  let f' := with_mt f (lf_set_synced (sync_after bar f) (f_mt f)) in
  if f_num f <? to then set_imm f' else f'.

Lemma sync_file_num : forall to bar f, f_num (sync_file to bar f) = f_num f.
Proof. intros to bar f; unfold sync_file; destruct (f_num f <? to); reflexivity. Qed.

Lemma sync_loop_spec : forall Q P n0 n to bar bad last fuel,
  nums_from n0 (P ++ Q) -> n = n0 + len P -> to + 1 = n + len Q -> (length Q <= fuel)%nat ->
  (exists last', sync_loop fuel n to bar bad last (P ++ Q) = (Ok last', P ++ map (sync_file to bar) Q) /\
     (last' = last \/ (exists f, In f Q /\ f_num f = last' /\ valid_number (sync_after bar f) = true))) \/
  (exists Q1 Q2, Q = Q1 ++ Q2 /\
     sync_loop fuel n to bar bad last (P ++ Q) = (Fail OPERATION_STOPPED, P ++ map (sync_file to bar) Q1 ++ Q2)).
Proof.
  induction Q as [|f Q IH]; intros P n0 n to bar bad last fuel HN En Et Hf.
  - left. exists last. cbn [map]. split; [|left; reflexivity]. unfold len in Et; cbn [length] in Et.
    destruct fuel as [|fuel]; cbn [sync_loop]; [reflexivity|]. replace (to <? n) with true by lia. reflexivity.
  - destruct fuel as [|fuel]; [cbn in Hf; lia|]. cbn [sync_loop].
    assert (L : len (f :: Q) = 1 + len Q) by (unfold len; cbn [length]; lia).
    replace (to <? n) with false by lia.
    assert (HA : file_at n (P ++ f :: Q) = Some f) by (rewrite En; apply file_at_app; exact HN). rewrite HA.
    assert (Fn : f_num f = n) by (assert (X := HN); apply nums_app in X; destruct X as [_ [X _]]; lia).
    destruct (bad n).
    + right. exists [], (f :: Q). split; reflexivity.
    + cbv zeta. fold (sync_after bar f).
      assert (Eu : upd_file n (fun _ => if n <? to then set_imm (with_mt f (lf_set_synced (sync_after bar f) (f_mt f)))
                 else with_mt f (lf_set_synced (sync_after bar f) (f_mt f))) (P ++ f :: Q) = (P ++ [sync_file to bar f]) ++ Q).
      { rewrite <- Fn, (upd_file_app P f Q n0 _ HN), <- app_assoc. reflexivity. }
      rewrite Eu.
      assert (HN' : nums_from n0 ((P ++ [sync_file to bar f]) ++ Q)).
      { eapply nums_same; [|exact HN]. rewrite <- app_assoc, !map_app. cbn [map app]. rewrite sync_file_num. reflexivity. }
      destruct (IH (P ++ [sync_file to bar f]) n0 (n + 1) to bar bad (if valid_number (sync_after bar f) then n else last) fuel HN')
        as [(last' & E & Hl)|(Q1 & Q2 & -> & E)].
      * unfold len. rewrite app_length. cbn [length]. unfold len in En. lia.
      * lia.
      * cbn in Hf; lia.
      * left. exists last'. rewrite E. split; [rewrite <- app_assoc; reflexivity|].
        destruct Hl as [Hl|(x & Hx & Ex)]; [|right; exists x; split; [right; exact Hx|exact Ex]].
        destruct (valid_number (sync_after bar f)) eqn:Ev; [right; exists f; subst last'; auto using in_eq|left; exact Hl].
      * right. exists (f :: Q1), Q2. split; [reflexivity|]. rewrite E. rewrite <- app_assoc. reflexivity.
Qed.

(** What a barrier must satisfy for a file: it is a record of the file or not below the file, and
    not below the flush mark. *)
Definition bar_ok (bar : N) (f : lgf) : Prop :=
  bar = 0 \/ m_max (f_mt f) = NIL \/
  ((m_max (f_mt f) <= bar \/ exists r, In r (fh f) /\ r_seq r = bar) /\ (m_flushed (f_mt f) <> NIL -> m_flushed (f_mt f) <= bar)).

Lemma sync_file_synced : forall to bar f, FI f -> bar < NIL ->
  m_synced (f_mt (sync_file to bar f)) =
    if negb (valid_number (m_max (f_mt f))) then m_synced (f_mt f)
    else if f_imm f && is_synced (f_mt f) then m_max (f_mt f)
    else if bar =? 0 then m_max (f_mt f) else N.min (m_max (f_mt f)) bar.
Proof.
  intros to bar f Hf Hb.
  assert (E : m_synced (f_mt (sync_file to bar f)) = m_synced (lf_set_synced (sync_after bar f) (f_mt f))).
  { unfold sync_file. destruct (f_num f <? to); reflexivity. }
  rewrite E. unfold lf_set_synced. destruct (negb (valid_number (m_max (f_mt f)))) eqn:Ev; [reflexivity|].
  assert (Hm := proj1 (mw_lim _ _ _ (fi_mw _ _ Hf))). unfold valid_number in Ev.
  destruct (m_max (f_mt f) =? NIL) eqn:En; [discriminate|].
  cbn [set_marks m_synced]. unfold sync_after. destruct (f_imm f && is_synced (f_mt f)).
  - replace (m_max (f_mt f) <? NIL) with true by lia. reflexivity.
  - unfold flush_out. destruct (m_min (f_mt f) =? NIL) eqn:Em.
    + assert (X := mw_mm _ _ _ (fi_mw _ _ Hf)). lia.
    + destruct (bar =? 0) eqn:Eb.
      * rewrite nil_invalid. cbn [andb]. replace (m_max (f_mt f) <? m_max (f_mt f)) with false by lia. reflexivity.
      * unfold valid_number. replace (bar =? NIL) with false by lia. cbn [negb andb].
        destruct (bar <? m_max (f_mt f)) eqn:E2.
        -- replace (m_max (f_mt f) <? bar) with false by lia. lia.
        -- replace (m_max (f_mt f) <? m_max (f_mt f)) with false by lia. lia.
Qed.

Lemma sync_file_same : forall to bar f, same_file f (sync_file to bar f).
Proof.
  intros to bar f. unfold sync_file, same_file, lf_set_synced, fh.
  destruct (f_num f <? to); destruct (negb (valid_number (m_max (f_mt f)))); cbn; auto 10.
Qed.

Lemma sync_file_max : forall to bar f, m_max (f_mt (sync_file to bar f)) = m_max (f_mt f) /\ m_min (f_mt (sync_file to bar f)) = m_min (f_mt f).
Proof.
  intros to bar f. unfold sync_file, lf_set_synced.
  destruct (f_num f <? to); destruct (negb (valid_number (m_max (f_mt f)))); split; reflexivity.
Qed.

Lemma fi_max_in : forall f, FI f -> fh f <> [] -> exists r, In r (fh f) /\ r_seq r = m_max (f_mt f).
Proof. intros f Hf Hne. rewrite (fi_max _ _ Hf Hne). apply lastseq_in; exact Hne. Qed.

Lemma sync_file_fi : forall to bar f, FI f -> bar < NIL -> bar_ok bar f -> FI (sync_file to bar f).
Proof.
  intros to bar f Hf Hb Hk. assert (Es := sync_file_synced to bar f Hf Hb).
  destruct (sync_file_same to bar f) as (S1 & S2 & S3 & S4 & S5). destruct (sync_file_max to bar f) as [S6 S7].
  assert (Hmw : MW hash (fh f) (f_mt (sync_file to bar f))).
  { unfold sync_file. destruct (f_num f <? to); apply mw_set_synced, (fi_mw _ _ Hf). }
  assert (Hval : negb (valid_number (m_max (f_mt f))) = true -> fh f = []).
  { intros E. apply (mw_emp _ _ _ (fi_mw _ _ Hf)). unfold valid_number in E. lia. }
  assert (Hmx := fi_max_in _ Hf).
  assert (Hne : negb (valid_number (m_max (f_mt f))) = false -> fh f <> []).
  { intros E A. destruct (fi_emp _ _ Hf A) as [A1 _]. rewrite A1, nil_invalid in E. discriminate. }
  constructor.
  - rewrite S2; exact Hmw.
  - rewrite S2, S6; apply (fi_max _ _ Hf).
  - rewrite S2, S6, S7; apply (fi_emp _ _ Hf).
  - rewrite S5; apply (fi_start _ _ Hf).
  - rewrite S2, Es. destruct (negb (valid_number (m_max (f_mt f)))) eqn:Ev; [apply (fi_syn _ _ Hf)|]. specialize (Hmx (Hne eq_refl)).
    intros _. destruct (f_imm f && is_synced (f_mt f)); [exact Hmx|].
    destruct (bar =? 0) eqn:Eb; [exact Hmx|].
    destruct Hk as [Hk|[Hk|[[Hk|(r & Hr & Er)] _]]]; [lia|rewrite Hk, nil_invalid in Ev; discriminate| |].
    + replace (N.min (m_max (f_mt f)) bar) with (m_max (f_mt f)) by lia. exact Hmx.
    + exists r. split; [exact Hr|]. assert (X := mr_bnd _ _ _ (mw_mr _ _ _ (fi_mw _ _ Hf)) r Hr). lia.
  - rewrite S2, S3; apply (fi_flu _ _ Hf).
  - rewrite S3, Es. intros A. destruct (fi_ord _ _ Hf A) as [B C]. destruct (fi_flu _ _ Hf A) as (r & Hr & Er).
    assert (X := mr_bnd _ _ _ (mw_mr _ _ _ (fi_mw _ _ Hf)) r Hr).
    destruct (negb (valid_number (m_max (f_mt f)))) eqn:Ev; [split; assumption|].
    unfold valid_number in Ev. destruct (m_max (f_mt f) =? NIL) eqn:En; [discriminate|].
    destruct (f_imm f && is_synced (f_mt f)); [lia|]. destruct (bar =? 0) eqn:Eb; [lia|].
    destruct Hk as [Hk|[Hk|[_ Hk]]]; [lia|lia|]. specialize (Hk A). lia.
  - rewrite S2, S4; apply (fi_low _ _ Hf).
  - rewrite S2, S7; apply (fi_min _ _ Hf).
Qed.

Lemma map_same : forall (h : lgf -> lgf) fs, (forall f, same_file f (h f)) -> Forall2 same_file fs (map h fs).
Proof. intros h fs H; induction fs; constructor; auto. Qed.

(** A sync keeps the contents; if it succeeds without a barrier every record of the log is on disk
    as far as the marks tell. *)
Lemma lm_sync_spec : forall n0 pre h F g bad, GI n0 pre h F g -> lastseq h + 1 < NIL -> g_bar g < NIL ->
  (forall f, In f (g_files g) -> bar_ok (g_bar g) f) ->
  (forall a f b, g_files g = a ++ f :: b -> b <> [] -> g_bar g = 0 \/ m_max (f_mt f) = NIL \/ m_max (f_mt f) <= g_bar g) ->
  exists o g', lm_sync bad g = (o, g') /\ GI n0 pre h F g' /\ g_bar g' = g_bar g /\ g_max g' = g_max g /\
    g_lf g' = g_lf g /\ Forall2 same_file (g_files g) (g_files g') /\
    (o = Ok tt \/ o = Fail OPERATION_STOPPED) /\
    (o = Ok tt -> g_bar g = 0 -> forall f, In f (g_files g') -> full_synced f).
Proof.
  intros n0 pre h F g bad H Hl Hb Hok Hmid. unfold lm_sync. rewrite (gi_max_num _ _ _ _ _ _ H Hl).
  assert (HN := gi_nums _ _ _ _ _ _ H). assert (HG := gi_gmax _ _ _ _ _ _ H). assert (HE := gi_ne _ _ _ _ _ _ H).
  assert (Hmin : min_num g = Some n0).
  { unfold min_num. destruct (g_files g) as [|f t]; [congruence|]. destruct HN as [HN _]. rewrite HN; reflexivity. }
  assert (Hfrom : exists from, match last_synced g with Some x => Some x | None => min_num g end = Some from /\
     n0 <= from <= g_max g /\ (forall f, In f (g_files g) -> f_num f < from -> full_synced f) /\
     (forall f, In f (g_files g) -> f_num f = from -> m_synced (f_mt f) = NIL -> from = n0) /\
     (g_ls g = NIL \/ from = g_ls g)).
  { unfold last_synced. destruct (gi_ls _ _ _ _ _ _ H) as [A|(A & B & B2)].
    - rewrite A, N.eqb_refl. exists n0. split; [exact Hmin|].
      assert (1 <= len (g_files g)) by (unfold len; destruct (g_files g); [congruence|cbn; lia]). split; [lia|]. split.
      + intros f Hf Hlt. assert (X := nums_in _ _ _ HN Hf). lia.
      + split; [reflexivity|auto].
    - destruct (g_ls g =? NIL) eqn:E.
      + assert (g_max g < NIL) by (assert (X := gi_few _ _ _ _ _ _ H); lia). lia.
      + exists (g_ls g). split; [reflexivity|]. split; [exact A|]. split; [exact B|]. split; [exact B2|right; reflexivity]. }
  destruct Hfrom as (from & -> & Hfr & Hfs & Hfn & Hls).
  destruct (file_at_split _ _ from HN) as (P & f0 & Q0 & E & Ef0 & LP); [lia|].
  set (Q := f0 :: Q0) in *.
  assert (HFI := gi_fi _ _ _ _ _ _ H).
  assert (Hlen : len (g_files g) = len P + len Q) by (rewrite E; unfold len; rewrite app_length; lia).
  assert (HnQ : nums_from from Q).
  { rewrite E in HN. apply nums_app in HN. replace from with (n0 + len P) by lia. tauto. }
  assert (Hfull : forall f, In f Q -> f_num f < g_max g \/ g_bar g = 0 -> full_synced (sync_file (g_max g) (g_bar g) f)).
  { intros f Hf Hlt. assert (Hf' : In f (g_files g)) by (rewrite E; apply in_or_app; right; exact Hf).
    unfold full_synced. rewrite (sync_file_synced _ _ _ (HFI f Hf') Hb).
    destruct (sync_file_max (g_max g) (g_bar g) f) as [-> _].
    destruct (negb (valid_number (m_max (f_mt f)))) eqn:Ev.
    - unfold valid_number in Ev. assert (m_max (f_mt f) = NIL) by lia.
      assert (Eh : fh f = []) by (apply (mw_emp _ _ _ (fi_mw _ _ (HFI f Hf'))); lia).
      destruct (N.eq_dec (m_synced (f_mt f)) NIL) as [e|n]; [congruence|].
      destruct (fi_syn _ _ (HFI f Hf') n) as (r & Hr & _). rewrite Eh in Hr. destruct Hr.
    - destruct (f_imm f && is_synced (f_mt f)); [reflexivity|]. destruct (g_bar g =? 0) eqn:Eb; [reflexivity|].
      destruct Hlt as [Hlt|Hlt]; [|lia].
      apply in_split in Hf'. destruct Hf' as (a & b & Eab).
      assert (Hbne : b <> []).
      { intros ->. rewrite Eab in HN. apply nums_app in HN. destruct HN as [_ [HN _]].
        rewrite Eab in HG. unfold len in *. rewrite app_length in HG. cbn [length] in HG. lia. }
      destruct (Hmid a f b Eab Hbne) as [X|[X|X]]; [lia|rewrite X, nil_invalid in Ev; discriminate|]. lia. }
  assert (Hrep : forall Q1 Q2, Q = Q1 ++ Q2 ->
     Forall2 same_file (g_files g) (P ++ map (sync_file (g_max g) (g_bar g)) Q1 ++ Q2) /\
     (forall f, In f (P ++ map (sync_file (g_max g) (g_bar g)) Q1 ++ Q2) -> FI f) /\
     (h = [] -> forall f, In f (P ++ map (sync_file (g_max g) (g_bar g)) Q1 ++ Q2) -> f_imm f = false)).
  { intros Q1 Q2 EQ. split; [|split].
    - rewrite E, EQ. apply Forall2_app; [apply same_files_refl|]. apply Forall2_app; [|apply same_files_refl].
      apply map_same. intros f; apply sync_file_same.
    - intros f Hf. apply in_app_or in Hf. destruct Hf as [Hf|Hf]; [apply HFI; rewrite E; apply in_or_app; left; exact Hf|].
      apply in_app_or in Hf. destruct Hf as [Hf|Hf].
      + apply in_map_iff in Hf. destruct Hf as (x & <- & Hx).
        assert (Hx' : In x (g_files g)) by (rewrite E, EQ; apply in_or_app; right; apply in_or_app; left; exact Hx).
        apply sync_file_fi; auto.
      + apply HFI. rewrite E, EQ. apply in_or_app; right; apply in_or_app; right; exact Hf.
    - intros Eh f Hf. assert (Hi := gi_noimm _ _ _ _ _ _ H Eh).
      assert (Hone : g_max g = 0) by (assert (X := gi_few _ _ _ _ _ _ H); rewrite Eh in X; cbn in X; lia).
      apply in_app_or in Hf. destruct Hf as [Hf|Hf]; [apply Hi; rewrite E; apply in_or_app; left; exact Hf|].
      apply in_app_or in Hf. destruct Hf as [Hf|Hf].
      + apply in_map_iff in Hf. destruct Hf as (x & <- & Hx).
        assert (Hx' : In x (g_files g)) by (rewrite E, EQ; apply in_or_app; right; apply in_or_app; left; exact Hx).
        unfold sync_file. rewrite Hone. replace (f_num x <? 0) with false by lia. cbn [with_mt f_imm]. apply Hi, Hx'.
      + apply Hi. rewrite E, EQ. apply in_or_app; right; apply in_or_app; right; exact Hf. }
  assert (Hfuel : (length Q <= S (N.to_nat (g_max g - from)))%nat) by (unfold len in *; lia).
  destruct (sync_loop_spec Q P n0 from (g_max g) (g_bar g) bad from (S (N.to_nat (g_max g - from)))) as [(last' & ES & HL)|(Q1 & Q2 & EQ & ES)].
  { rewrite <- E; exact HN. } { lia. } { lia. } { exact Hfuel. }
  - rewrite <- E in ES. rewrite ES.
    destruct (Hrep Q []) as (R1 & R2 & R3); [symmetry; apply app_nil_r|]. rewrite app_nil_r in R1, R2, R3.
    assert (Hrange : from <= last' <= g_max g).
    { destruct HL as [->|(f & Hf & <- & _)]; [lia|]. assert (X := nums_in _ _ _ HnQ Hf). lia. }
    eexists; eexists. split; [reflexivity|]. split; [|cbn [g_bar g_max g_lf g_files]; do 3 (split; [reflexivity|]); split; [exact R1|];
      split; [left; reflexivity|]].
    + apply (gi_replace hash n0 pre h F g); [exact H|exact R1|exact R2| |exact R3].
      right. split; [lia|]. split.
      * intros f Hf Hlt. apply in_app_or in Hf. destruct Hf as [Hf|Hf].
        -- apply Hfs; [rewrite E; apply in_or_app; left; exact Hf|].
           assert (HnP : nums_from n0 P) by (rewrite E in HN; apply nums_app in HN; tauto).
           assert (X := nums_in _ _ _ HnP Hf). lia.
        -- apply in_map_iff in Hf. destruct Hf as (x & <- & Hx). apply Hfull; [exact Hx|]. rewrite sync_file_num in Hlt. lia.
      * intros f Hf Hn Hs. apply in_app_or in Hf. destruct Hf as [Hf|Hf].
        -- exfalso. assert (HnP : nums_from n0 P) by (rewrite E in HN; apply nums_app in HN; tauto).
           assert (X := nums_in _ _ _ HnP Hf). lia.
        -- apply in_map_iff in Hf. destruct Hf as (x & <- & Hx). rewrite sync_file_num in Hn.
           assert (Hx' : In x (g_files g)) by (rewrite E; apply in_or_app; right; exact Hx).
           rewrite (sync_file_synced _ _ _ (HFI x Hx') Hb) in Hs.
           destruct (negb (valid_number (m_max (f_mt x)))) eqn:Ev.
           ++ destruct HL as [HL|(y & Hy & Ey & Vy)].
              ** rewrite <- Hn, HL in *. apply (Hfn x Hx'); [lia|exact Hs].
              ** exfalso. assert (y = x).
                 { assert (Hy' : In y (g_files g)) by (rewrite E; apply in_or_app; right; exact Hy).
                   apply in_split in Hx'. destruct Hx' as (a1 & b1 & E1). apply in_split in Hy'. destruct Hy' as (a2 & b2 & E2).
                   assert (A1 := file_at_num _ _ _ _ _ HN E1). assert (A2 := file_at_num _ _ _ _ _ HN E2).
                   rewrite Ey in A2. rewrite Hn in A1. congruence. }
                 subst y. unfold sync_after, flush_out in Vy. destruct (f_imm x && is_synced (f_mt x)); [rewrite nil_invalid in Vy; discriminate|].
                 assert (Eh : fh x = []) by (apply (mw_emp _ _ _ (fi_mw _ _ (HFI x Hx'))); unfold valid_number in Ev; lia).
                 destruct (fi_emp _ _ (HFI x Hx') Eh) as [_ Em]. rewrite Em, N.eqb_refl, nil_invalid in Vy. discriminate.
           ++ exfalso. unfold valid_number in Ev. destruct (f_imm x && is_synced (f_mt x)); [lia|]. destruct (g_bar g =? 0); lia.
    + intros _ Hb0 f Hf. apply in_app_or in Hf. destruct Hf as [Hf|Hf].
      * apply Hfs; [rewrite E; apply in_or_app; left; exact Hf|].
        assert (HnP : nums_from n0 P) by (rewrite E in HN; apply nums_app in HN; tauto).
        assert (X := nums_in _ _ _ HnP Hf). lia.
      * apply in_map_iff in Hf. destruct Hf as (x & <- & Hx). apply Hfull; [exact Hx|right; exact Hb0].
  - rewrite <- E in ES. rewrite ES.
    destruct (Hrep Q1 Q2 EQ) as (R1 & R2 & R3).
    eexists; eexists. split; [reflexivity|]. split; [|cbn [with_files g_bar g_max g_lf g_files]; do 3 (split; [reflexivity|]); split; [exact R1|];
      split; [right; reflexivity|discriminate]].
    unfold with_files. apply (gi_replace hash n0 pre h F g); [exact H|exact R1|exact R2| |exact R3].
    destruct (gi_ls _ _ _ _ _ _ H) as [A|(A & B & B2)]; [left; exact A|right]. split; [exact A|].
    destruct Hls as [Hls|Hls]; [assert (X := gi_few _ _ _ _ _ _ H); lia|]. rewrite <- Hls in *.
    assert (HnP : nums_from n0 P) by (rewrite E in HN; apply nums_app in HN; tauto).
    assert (HQ : forall f, In f (map (sync_file (g_max g) (g_bar g)) Q1 ++ Q2) -> exists x, In x Q /\ f_num f = f_num x /\
       (f = x \/ f = sync_file (g_max g) (g_bar g) x)).
    { intros f Hf. rewrite EQ. apply in_app_or in Hf. destruct Hf as [Hf|Hf].
      - apply in_map_iff in Hf. destruct Hf as (x & <- & Hx). exists x. rewrite sync_file_num.
        split; [apply in_or_app; left; exact Hx|auto].
      - exists f. split; [apply in_or_app; right; exact Hf|auto]. }
    split.
    + intros f Hf Hlt. apply in_app_or in Hf. destruct Hf as [Hf|Hf].
      * apply B; [rewrite E; apply in_or_app; left; exact Hf|exact Hlt].
      * destruct (HQ f Hf) as (x & Hx & Ex & _). assert (X := nums_in _ _ _ HnQ Hx). lia.
    + intros f Hf Hn Hs. apply in_app_or in Hf. destruct Hf as [Hf|Hf].
      * assert (X := nums_in _ _ _ HnP Hf). lia.
      * destruct (HQ f Hf) as (x & Hx & Ex & Hcase).
        assert (Hx' : In x (g_files g)) by (rewrite E; apply in_or_app; right; exact Hx).
        apply (B2 x Hx'); [lia|]. destruct Hcase as [->| ->]; [exact Hs|].
        rewrite (sync_file_synced _ _ _ (HFI x Hx') Hb) in Hs.
        destruct (negb (valid_number (m_max (f_mt x)))) eqn:Ev; [exact Hs|]. exfalso. unfold valid_number in Ev.
        destruct (f_imm x && is_synced (f_mt x)); [lia|]. destruct (g_bar g =? 0); lia.
Qed.


(** * Flush *)

Lemma gather_spec : forall L P R n0 n to s bey fuel F acc cs,
  nums_from n0 (P ++ L ++ R) -> n = n0 + len P -> to + 1 = n + len L -> (length L <= fuel)%nat ->
  (forall f, In f L -> FI f) -> (forall f, In f L -> fh f <> []) ->
  (bey = true \/ forall f, In f L -> m_synced (f_mt f) <> NIL) ->
  (forall f r, In f L -> In r (fh f) -> unflushed (m_flushed (f_mt f)) r = (F <? r_seq r)) ->
  (forall x r, In x acc -> In r (all_h L) -> r_seq x < r_seq r) -> sorted_seq (all_h L) ->
  (forall f, In f L -> m_flushed (f_mt f) <> NIL -> acc = []) ->
  (forall a f b, L = a ++ f :: b -> m_flushed (f_mt f) <> NIL -> a = []) ->
  gather fuel n to s bey (P ++ L ++ R) (acc, cs) =
    Some (acc ++ filter (fun r => (F <? r_seq r) && (r_seq r <=? s)) (all_h L),
          cs ++ flat_map (fun f => mt_checkpoints s (f_mt f)) L).
Proof.
  induction L as [|f L IH]; intros P R n0 n to s bey fuel F acc cs HN En Et Hfu HFI Hne Hsy Hu Hacc Hs Hfl Hfirst.
  - cbn [all_h flat_map filter]. rewrite !app_nil_r. unfold len in Et; cbn [length] in Et.
    destruct fuel as [|fuel]; cbn [gather]; [reflexivity|]. replace (to <? n) with true by lia. reflexivity.
  - destruct fuel as [|fuel]; [cbn in Hfu; lia|]. cbn [gather].
    assert (L1 : len (f :: L) = 1 + len L) by (unfold len; cbn [length]; lia).
    replace (to <? n) with false by lia.
    assert (HA : file_at n (P ++ (f :: L) ++ R) = Some f) by (rewrite En; apply file_at_app; exact HN). rewrite HA.
    cbn [fst snd].
    assert (Hfin : In f (f :: L)) by (left; reflexivity).
    assert (FIf := HFI f Hfin). assert (Hnef := Hne f Hfin).
    cbn [all_h flat_map] in *. fold (all_h L) in *.
    assert (Ef : match mt_to_flush s bey acc (f_mt f) with Ok l => l | _ => acc end =
                 acc ++ filter (fun r => (F <? r_seq r) && (r_seq r <=? s)) (fh f)).
    { assert (Ext : filter (fun r => unflushed (m_flushed (f_mt f)) r && (r_seq r <=? s)) (fh f) =
                    filter (fun r => (F <? r_seq r) && (r_seq r <=? s)) (fh f)).
      { apply filter_ext_in. intros r Hr. rewrite (Hu f r Hfin Hr). reflexivity. }
      rewrite <- Ext.
      assert (Hlim : m_flushed (f_mt f) <= NIL).
      { destruct (N.eq_dec (m_flushed (f_mt f)) NIL) as [e|n1]; [lia|]. destruct (fi_flu _ _ FIf n1) as (r & Hr & Er).
        assert (X := mr_bnd _ _ _ (mw_mr _ _ _ (fi_mw _ _ FIf)) r Hr). lia. }
      destruct (valid_number (m_flushed (f_mt f)) && (s <=? m_flushed (f_mt f))) eqn:Ep.
      - assert (Eq : match mt_to_flush s bey acc (f_mt f) with Ok l => l | _ => acc end = acc).
        { unfold mt_to_flush. destruct (negb bey && (m_synced (f_mt f) =? NIL)); [reflexivity|].
          unfold valid_number in Ep. rewrite Ep. reflexivity. }
        rewrite Eq. replace (filter _ (fh f)) with (@nil rec); [symmetry; apply app_nil_r|].
        symmetry. assert (Hno : forall r, In r (fh f) -> unflushed (m_flushed (f_mt f)) r && (r_seq r <=? s) = false).
        { intros r Hr. apply andb_true_iff in Ep. destruct Ep as [E1 E2]. unfold unflushed. rewrite E1. cbn [negb orb]. lia. }
        clear -Hno. induction (fh f) as [|r l IH]; [reflexivity|]. cbn [filter]. rewrite (Hno r (or_introl eq_refl)).
        apply IH. intros x Hx; apply Hno; right; exact Hx.
      - rewrite (mt_to_flush_spec hash (fh f) (f_mt f) s bey acc (fi_mw _ _ FIf) Hlim).
        + reflexivity.
        + destruct Hsy as [Hsy|Hsy]; [left; exact Hsy|right]. specialize (Hsy f Hfin). unfold valid_number. lia.
        + intros V. rewrite V in Ep. cbn [andb] in Ep. lia.
        + intros x Hx. destruct (m_flushed (f_mt f) =? NIL) eqn:E0.
          * destruct (fi_min _ _ FIf Hnef) as (r & Hr & <-). apply Hacc; [exact Hx|]. apply in_or_app; left; exact Hr.
          * rewrite (Hfl f Hfin) in Hx by lia. destruct Hx. }
    rewrite Ef.
    assert (S := Hs). unfold sorted_seq in S. rewrite map_app in S. apply SS_app_inv in S. destruct S as (S1 & S2 & S3).
    replace (P ++ (f :: L) ++ R) with ((P ++ [f]) ++ L ++ R) in * by (rewrite <- app_assoc; reflexivity).
    rewrite (IH (P ++ [f]) R n0 (n + 1) to s bey fuel F).
    + rewrite filter_app, !app_assoc. reflexivity.
    + exact HN.
    + unfold len in *. rewrite app_length. cbn [length]. lia.
    + lia.
    + cbn in Hfu; lia.
    + intros x Hx; apply HFI; right; exact Hx.
    + intros x Hx; apply Hne; right; exact Hx.
    + destruct Hsy as [Hsy|Hsy]; [left; exact Hsy|right; intros x Hx; apply Hsy; right; exact Hx].
    + intros x r Hx; apply Hu; right; exact Hx.
    + intros x r Hx Hr. apply in_app_or in Hx. destruct Hx as [Hx|Hx].
      * apply Hacc; [exact Hx|apply in_or_app; right; exact Hr].
      * apply filter_In in Hx. destruct Hx as [Hx _]. apply (S3 (r_seq x) (r_seq r)); apply in_map; assumption.
    + exact S2.
    + intros x Hx Hm. exfalso. apply in_split in Hx. destruct Hx as (a & b & El).
      assert (X := Hfirst (f :: a) x b). rewrite El in X. specialize (X eq_refl Hm). discriminate.
    + intros a x b El Hm. exfalso. assert (X := Hfirst (f :: a) x b). rewrite El in X. specialize (X eq_refl Hm). discriminate.
Qed.

Lemma mark_file_num : forall b s f, f_num (mark_file b s f) = f_num f.
Proof. reflexivity. Qed.

Lemma filter_none : forall {A} (p : A -> bool) l, (forall x, In x l -> p x = false) -> filter p l = [].
Proof.
  intros A p l; induction l as [|a l IH]; intros H; [reflexivity|]. cbn [filter]. rewrite (H a (or_introl eq_refl)).
  apply IH; intros x Hx; apply H; right; exact Hx.
Qed.
Lemma filter_all : forall {A} (p : A -> bool) l, (forall x, In x l -> p x = true) -> filter p l = l.
Proof.
  intros A p l; induction l as [|a l IH]; intros H; [reflexivity|]. cbn [filter]. rewrite (H a (or_introl eq_refl)).
  f_equal. apply IH; intros x Hx; apply H; right; exact Hx.
Qed.

(** The core of a flush: the files [A] and [ft] are gathered up to the record number [s] of [ft]. *)
Lemma flush_core : forall n0 pre h F g (bey : bool) s A ft B, GI n0 pre h F g -> g_files g = A ++ ft :: B ->
  (exists r, In r (fh ft) /\ r_seq r = s) -> F <= s ->
  (if bey then (g_ls g = NIL \/ g_ls g <= f_num ft \/ s = m_max (f_mt ft))
   else f_num ft <= g_ls g /\ g_ls g <> NIL /\ m_synced (f_mt ft) <> NIL /\ s <= m_synced (f_mt ft)) ->
  gather (S (N.to_nat (f_num ft - n0))) n0 (f_num ft) s bey (g_files g) ([], []) =
    Some (filter (fun r => (F <? r_seq r) && (r_seq r <=? s)) h, flat_map (fun f => mt_checkpoints s (f_mt f)) (A ++ [ft])) /\
  forall bar,
  GI (f_num ft) (pre ++ all_h A) h s
     (mkG (filter (fun f => negb (between n0 (f_num ft) (f_num f) && (f_num f <? f_num ft)))
              (map (fun f => if between n0 (f_num ft) (f_num f) then mark_file bey s f else f) (g_files g)))
          (g_max g) (f_num ft) (if bey && (g_ls g <? f_num ft) then f_num ft else g_ls g) bar).
Proof.
  intros n0 pre h F g bey s A ft B H E (r0 & Hr0 & Er0) HFs Hguard.
  assert (HN := gi_nums _ _ _ _ _ _ H). assert (HG := gi_gmax _ _ _ _ _ _ H). assert (HFI := gi_fi _ _ _ _ _ _ H).
  assert (Hft : In ft (g_files g)) by (rewrite E; apply in_or_app; right; left; reflexivity).
  assert (HN' := HN). rewrite E in HN'. apply nums_app in HN'. destruct HN' as (HNA & HNf & HNB).
  assert (Hr0h : In r0 h).
  { rewrite (gi_hist _ _ _ _ _ _ H). apply in_or_app; right. apply in_flat_map. exists ft; auto. }
  assert (Hne : h <> []) by (intros e; rewrite e in Hr0h; destruct Hr0h).
  assert (Hnonemp := gi_nonemp _ _ _ _ _ _ H Hne).
  assert (HsN : s < NIL) by (rewrite <- Er0; apply (mr_bnd _ _ _ (mw_mr _ _ _ (fi_mw _ _ (HFI ft Hft))) r0 Hr0)).
  assert (HinA : forall f, In f A -> In f (g_files g)) by (intros f Hf; rewrite E; apply in_or_app; left; exact Hf).
  assert (HinB : forall f, In f B -> In f (g_files g)) by (intros f Hf; rewrite E; apply in_or_app; right; right; exact Hf).
  assert (HS := gi_asc _ _ _ _ _ _ H). assert (HH := gi_hist _ _ _ _ _ _ H). rewrite E, all_h_app in HH.
  cbn [all_h flat_map] in HH. fold (all_h B) in HH.
  (* order of the pieces *)
  assert (HSS := HS). rewrite HH in HSS. unfold sorted_seq in HSS. rewrite !map_app in HSS.
  apply SS_app_inv in HSS. destruct HSS as (SP & SR & PR). apply SS_app_inv in SR. destruct SR as (SA & SFB & AFB).
  apply SS_app_inv in SFB. destruct SFB as (SF & SB & FB).
  assert (HleA : forall r, In r (all_h A) -> r_seq r < s).
  { intros r Hr. rewrite <- Er0. apply AFB; [apply in_map; exact Hr|apply in_or_app; left; apply in_map; exact Hr0]. }
  assert (HgtB : forall r, In r (all_h B) -> s < r_seq r).
  { intros r Hr. rewrite <- Er0. apply FB; apply in_map; assumption. }
  assert (Hsyn : bey = true \/ forall f, In f (A ++ [ft]) -> m_synced (f_mt f) <> NIL).
  { destruct bey; [left; reflexivity|right]. destruct Hguard as (G1 & G2 & G3 & G4).
    destruct (gi_ls _ _ _ _ _ _ H) as [X|(X & X1 & X2)]; [congruence|].
    intros f Hf. apply in_app_or in Hf. destruct Hf as [Hf|[<-|[]]]; [|exact G3].
    assert (Y := nums_in _ _ _ HNA Hf). assert (Z := X1 f (HinA f Hf)).
    unfold full_synced in Z. rewrite Z by lia. rewrite (fi_max _ _ (HFI f (HinA f Hf)) (Hnonemp f (HinA f Hf))).
    destruct (lastseq_in _ (Hnonemp f (HinA f Hf))) as (r & Hr & Er). rewrite <- Er.
    assert (Q := mr_bnd _ _ _ (mw_mr _ _ _ (fi_mw _ _ (HFI f (HinA f Hf)))) r Hr). lia. }
  split.
  - assert (Eq : g_files g = [] ++ (A ++ [ft]) ++ B) by (rewrite E, <- app_assoc; reflexivity).
    assert (LA : len (A ++ [ft]) = len A + 1) by (unfold len; rewrite app_length; cbn [length]; lia).
    rewrite Eq. rewrite (gather_spec (A ++ [ft]) [] B n0 n0 (f_num ft) s bey _ F [] []).
    + cbn [app]. f_equal. f_equal.
      rewrite HH, !filter_app, all_h_app, filter_app. cbn [all_h flat_map]. rewrite app_nil_r.
      rewrite (filter_none _ pre), (filter_none _ (all_h B)), app_nil_r; [reflexivity|..].
      * intros r Hr. specialize (HgtB r Hr). lia.
      * intros r Hr. assert (X := gi_pre _ _ _ _ _ _ H r Hr). lia.
    + rewrite <- Eq; exact HN.
    + unfold len; cbn; lia.
    + lia.
    + unfold len in *. lia.
    + intros f Hf. apply in_app_or in Hf. destruct Hf as [Hf|[<-|[]]]; auto.
    + intros f Hf. apply in_app_or in Hf. destruct Hf as [Hf|[<-|[]]]; auto.
    + exact Hsyn.
    + intros f r Hf. apply (gi_flu _ _ _ _ _ _ H). apply in_app_or in Hf. destruct Hf as [Hf|[<-|[]]]; auto.
    + intros x r [].
    + rewrite all_h_app. cbn [all_h flat_map]. rewrite app_nil_r. unfold sorted_seq. rewrite map_app.
      apply SS_app; [exact SA|exact SF|]. intros x y Hx Hy. apply AFB; [exact Hx|apply in_or_app; left; exact Hy].
    + reflexivity.
    + intros a f b Ea. apply (gi_first _ _ _ _ _ _ H a f (b ++ B)). rewrite Eq. cbn [app]. rewrite Ea, <- app_assoc. reflexivity.
  - intros bar.
    assert (Efs : filter (fun f => negb (between n0 (f_num ft) (f_num f) && (f_num f <? f_num ft)))
              (map (fun f => if between n0 (f_num ft) (f_num f) then mark_file bey s f else f) (g_files g)) = mark_file bey s ft :: B).
    { rewrite E, map_app, filter_app. cbn [map].
      rewrite (filter_none _ (map _ A)); [|].
      - unfold between at 2. replace ((n0 <=? f_num ft) && (f_num ft <=? f_num ft)) with true by lia.
        cbn [filter app]. rewrite mark_file_num. unfold between at 1. replace (f_num ft <? f_num ft) with false by lia.
        rewrite andb_false_r. cbn [negb]. f_equal.
        rewrite (filter_all _ (map _ B)).
        + rewrite <- (map_id B) at 2. apply map_ext_in. intros f Hf. assert (X := nums_in _ _ _ HNB Hf).
          unfold between. replace (f_num f <=? f_num ft) with false by lia. rewrite andb_false_r. reflexivity.
        + intros f Hf. apply in_map_iff in Hf. destruct Hf as (x & Ex & Hx). assert (X := nums_in _ _ _ HNB Hx).
          assert (En : f_num f = f_num x) by (rewrite <- Ex; destruct (between _ _ _); reflexivity).
          rewrite En. replace (f_num x <? f_num ft) with false by lia. rewrite andb_false_r. reflexivity.
      - intros f Hf. apply in_map_iff in Hf. destruct Hf as (x & Ex & Hx). assert (X := nums_in _ _ _ HNA Hx).
        assert (En : f_num f = f_num x) by (rewrite <- Ex; destruct (between _ _ _); reflexivity).
        rewrite En. unfold between. replace (n0 <=? f_num x) with true by lia. replace (f_num x <=? f_num ft) with true by lia.
        replace (f_num x <? f_num ft) with true by lia. reflexivity. }
    rewrite Efs.
    assert (FIf := HFI ft Hft).
    assert (Hmaxge := mr_bnd _ _ _ (mw_mr _ _ _ (fi_mw _ _ FIf)) r0 Hr0). rewrite Er0 in Hmaxge.
    assert (Hmv : m_max (f_mt ft) <> NIL).
    { rewrite (fi_max _ _ FIf (Hnonemp ft Hft)). destruct (lastseq_in _ (Hnonemp ft Hft)) as (r & Hr & <-).
      assert (Q := mr_bnd _ _ _ (mw_mr _ _ _ (fi_mw _ _ FIf)) r Hr). lia. }
    set (ft' := mark_file bey s ft).
    assert (Hm1 : m_flushed (f_mt ft') = s /\ m_synced (f_mt ft') = (if bey then s else m_synced (f_mt ft)) /\
                  fh ft' = fh ft /\ f_start ft' = f_start ft /\ m_start (f_mt ft') = m_start (f_mt ft) /\
                  m_max (f_mt ft') = m_max (f_mt ft) /\ m_min (f_mt ft') = m_min (f_mt ft) /\ f_num ft' = f_num ft).
    { unfold ft', mark_file, fh. cbn [with_mt f_mt f_num f_start].
      destruct bey.
      - unfold lf_set_synced, valid_number. replace (m_max (f_mt ft) =? NIL) with false by lia. cbn [negb].
        replace (m_max (f_mt ft) <? s) with false by lia. unfold lf_set_flushed, valid_number. cbn [set_marks m_synced m_max].
        replace (s =? NIL) with false by lia. cbn [negb]. replace (s <? s) with false by lia. cbn. auto 10.
      - destruct Hguard as (G1 & G2 & G3 & G4).
        unfold lf_set_flushed, valid_number. replace (m_synced (f_mt ft) =? NIL) with false by lia. cbn [negb].
        replace (m_synced (f_mt ft) <? s) with false by lia. cbn. auto 10. }
    destruct Hm1 as (M1 & M2 & M3 & M4 & M5 & M6 & M7 & M8).
    assert (HFI' : FI ft').
    { constructor; rewrite ?M1, ?M2, ?M3, ?M4, ?M5, ?M6, ?M7; try apply FIf.
      - unfold ft', mark_file. cbn [with_mt f_mt]. destruct bey; repeat first [apply mw_set_flushed|apply mw_set_synced]; apply (fi_mw _ _ FIf).
      - destruct bey; [intros _; exists r0; auto|apply (fi_syn _ _ FIf)].
      - intros _; exists r0; auto.
      - intros _. destruct bey; [lia|]. destruct Hguard as (G1 & G2 & G3 & G4). split; assumption. }
    assert (Hin : forall f, In f (ft' :: B) -> f = ft' \/ In f B) by (intros f [<-|Hf]; auto).
    constructor; cbn [g_files g_max g_lf g_ls].
    + discriminate.
    + cbn [nums_from]. split; [exact M8|]. cbn [nums_from] in HNB. rewrite HNf. exact HNB.
    + rewrite E in HG. unfold len in *. rewrite app_length in HG. cbn [length] in *. lia.
    + rewrite HH. cbn [all_h flat_map]. fold (all_h B). rewrite M3, <- app_assoc. reflexivity.
    + exact HS.
    + apply (gi_pos _ _ _ _ _ _ H).
    + intros f Hf. destruct (Hin f Hf) as [->|Hf']; auto.
    + intros _ f Hf. destruct (Hin f Hf) as [->|Hf']; [rewrite M3|]; auto.
    + congruence.
    + apply (gi_few _ _ _ _ _ _ H).
    + congruence.
    + congruence.
    + right; reflexivity.
    + assert (Hgb : f_num ft <= g_max g).
      { rewrite E in HG. unfold len in *. rewrite app_length in HG. cbn [length] in HG. lia. }
      destruct (bey && (g_ls g <? f_num ft)) eqn:Els.
      * right. split; [lia|]. split; [|reflexivity]. intros f Hf Hlt. destruct (Hin f Hf) as [->|Hf']; [lia|].
        assert (X := nums_in _ _ _ HNB Hf'). lia.
      * destruct (gi_ls _ _ _ _ _ _ H) as [X|(X & X1 & X2)]; [left; exact X|].
        destruct (N.eq_dec (g_ls g) NIL) as [e|nls]; [left; exact e|right].
        assert (Hge : f_num ft <= g_ls g) by (destruct bey; [cbn [andb] in Els; lia|tauto]).
        split; [lia|]. split.
        -- intros f Hf Hlt. destruct (Hin f Hf) as [->|Hf']; [|apply X1; auto].
           unfold full_synced. rewrite M2, M6. rewrite M8 in Hlt. destruct bey; [|apply (X1 ft Hft); exact Hlt].
           destruct Hguard as [G|[G|G]]; [congruence|lia|exact G].
        -- intros f Hf En Es. destruct (Hin f Hf) as [->|Hf'].
           ++ exfalso. rewrite M2 in Es. destruct bey; [lia|tauto].
           ++ exfalso. assert (Y := X2 f (HinB f Hf') En Es). assert (Z := nums_in _ _ _ HNB Hf'). lia.
    + intros f r Hf Hr. destruct (Hin f Hf) as [->|Hf'].
      * rewrite M1. unfold unflushed, valid_number. replace (s =? NIL) with false by lia. reflexivity.
      * assert (Hm : m_flushed (f_mt f) = NIL).
        { destruct (N.eq_dec (m_flushed (f_mt f)) NIL) as [e|n]; [exact e|exfalso].
          assert (Hf2 := Hf'). apply in_split in Hf2. destruct Hf2 as (a & b & Eb).
          assert (X := gi_first _ _ _ _ _ _ H (A ++ ft :: a) f b). rewrite E, Eb, <- app_assoc in X.
          specialize (X eq_refl n). apply app_eq_nil in X. destruct X; discriminate. }
        rewrite Hm. unfold unflushed. rewrite nil_invalid. cbn [negb orb]. symmetry. apply N.ltb_lt. apply HgtB.
        apply in_flat_map. exists f; auto.
    + intros r Hr. apply in_app_or in Hr. destruct Hr as [Hr|Hr].
      * assert (X := gi_pre _ _ _ _ _ _ H r Hr). lia.
      * specialize (HleA r Hr). lia.
    + intros _. exists r0. split; [|exact Er0]. cbn [all_h flat_map]. rewrite M3. apply in_or_app; left; exact Hr0.
    + intros a f b Eab Hm. destruct a as [|z a]; [reflexivity|]. exfalso. cbn [app] in Eab.
      assert (Eb : B = a ++ f :: b) by congruence.
      assert (X := gi_first _ _ _ _ _ _ H (A ++ ft :: a) f b). rewrite E, Eb, <- app_assoc in X.
      specialize (X eq_refl Hm). apply app_eq_nil in X. destruct X; discriminate.
    + intros a f b Eab r Hr. destruct a as [|z a]; [destruct Hr|]. cbn [app] in Eab.
      assert (Ez : z = ft') by congruence. assert (Eb : B = a ++ f :: b) by congruence. subst z.
      assert (X := gi_starts _ _ _ _ _ _ H (A ++ ft :: a) f b). rewrite E, Eb, <- app_assoc in X. specialize (X eq_refl).
      apply X. rewrite all_h_app. apply in_or_app; right. cbn [all_h flat_map] in *. rewrite M3 in Hr. exact Hr.
Qed.

(** ** The last file to flush *)

Definition flush_mark (bey : bool) (f : lgf) : N := if bey then m_max (f_mt f) else m_synced (f_mt f).

Lemma rewind_spec : forall bey from fs fuel to, nums_from from fs -> from <= to < from + len fs -> (N.to_nat to < fuel)%nat ->
  (exists A ft B, fs = A ++ ft :: B /\ f_num ft <= to /\ flush_mark bey ft <> NIL /\
     rewind_to fuel bey from to fs = Ok (flush_mark bey ft, f_num ft) /\
     (forall f, In f fs -> f_num ft < f_num f <= to -> flush_mark bey f = NIL)) \/
  (rewind_to fuel bey from to fs = Fail LOG_NOT_SYNCED /\ forall f, In f fs -> f_num f <= to -> flush_mark bey f = NIL).
Proof.
  intros bey from fs; induction fuel as [|fuel IH]; intros to HN Hto Hfu; [lia|]. cbn [rewind_to].
  destruct (file_at_split fs from to HN) as (A & ft & B & E & Ef & LA); [lia|].
  assert (HA := file_at_num _ _ _ _ _ HN E). rewrite Ef in HA. rewrite HA. fold (flush_mark bey ft).
  assert (Huniq : forall f, In f fs -> f_num f = to -> f = ft).
  { intros f Hf En. apply in_split in Hf. destruct Hf as (a & b & Eab). assert (X := file_at_num _ _ _ _ _ HN Eab).
    rewrite En in X. congruence. }
  destruct (flush_mark bey ft =? NIL) eqn:Em.
  - destruct (from <? to) eqn:Elt.
    + destruct (IH (to - 1) HN) as [(A' & ft' & B' & E' & Hle & Hm & Er & Hno)|(Er & Hno)]; [lia|lia| |].
      * left. exists A', ft', B'. repeat (split; [first [assumption|lia]|]). intros f Hf Hr.
        destruct (N.eq_dec (f_num f) to) as [e|n]; [rewrite (Huniq f Hf e); lia|apply Hno; [exact Hf|lia]].
      * right. split; [exact Er|]. intros f Hf Hr.
        destruct (N.eq_dec (f_num f) to) as [e|n]; [rewrite (Huniq f Hf e); lia|apply Hno; [exact Hf|lia]].
    + right. split; [reflexivity|]. intros f Hf Hr. assert (X := nums_in _ _ _ HN Hf).
      rewrite (Huniq f Hf) by lia. lia.
  - left. exists A, ft, B. split; [exact E|]. split; [lia|]. split; [lia|]. rewrite Ef. split; [reflexivity|].
    intros f Hf Hr. lia.
Qed.

(** When a flush up to [seq] is safe: everything; or a record that has been synced (with
    beyondLastSync: one not below the last synced number). *)
Definition flush_guard (h : list rec) (g : lmgr) (o : fopt) (seq : N) : Prop :=
  o_purge o = false /\
  (seq = NIL \/
   (exists r, In r h /\ r_seq r = seq) /\
   (if o_beyond o then forall s, lm_synced_seq g = Ok s -> s <= seq
    else exists s, lm_synced_seq g = Ok s /\ seq <= s)).

Lemma lm_flush_spec : forall n0 pre h F g o seq, GI n0 pre h F g -> lastseq h + 1 < NIL -> g_bar g = 0 ->
  flush_guard h g o seq ->
  exists ro g', lm_flush o seq g = (ro, g') /\
  match ro with
  | Ok (rs, cs) => exists n1 pre1 s, F <= s /\ 1 <= s /\ rs = filter (fun r => (F <? r_seq r) && (r_seq r <=? s)) h /\
      GI n1 pre1 h s g' /\ g_bar g' = 0 /\ g_max g' = g_max g /\
      (seq <> NIL -> s = seq) /\
      (seq = NIL -> o_limit o = 0 -> if o_beyond o then s = lastseq h else forall x, lm_synced_seq g = Ok x -> s = x) /\
      (exists A ft B, g_files g = A ++ ft :: B /\ n1 = f_num ft /\ pre1 = pre ++ all_h A /\
         cs = flat_map (fun f => mt_checkpoints s (f_mt f)) (A ++ [ft]) /\
         g_files g' = mark_file (o_beyond o) s ft :: B)
  | Fail _ => g' = g /\ (seq = NIL -> o_limit o = 0 -> (if o_beyond o then h = [] else forall x, lm_synced_seq g <> Ok x))
  | Undef => False
  end.
Proof.
  intros n0 pre h F g o seq H Hl Hbar (Hpurge & Hguard).
  assert (HN := gi_nums _ _ _ _ _ _ H). assert (HG := gi_gmax _ _ _ _ _ _ H). assert (HFI := gi_fi _ _ _ _ _ _ H).
  assert (Hfew := gi_few _ _ _ _ _ _ H). assert (HE := gi_ne _ _ _ _ _ _ H).
  assert (Hlen : 1 <= len (g_files g)) by (unfold len; destruct (g_files g); [congruence|cbn; lia]).
  assert (Hseq0 : seq <> 0).
  { destruct Hguard as [->|[(r & Hr & <-) _]]; [rewrite nil_val; lia|]. assert (X := gi_pos _ _ _ _ _ _ H r Hr). lia. }
  unfold lm_flush. replace (seq =? 0) with false by lia.
  set (to0 := if o_beyond o then g_max g else g_ls g).
  destruct (to0 =? NIL) eqn:Eto0.
  { eexists; eexists; split; [reflexivity|]. cbn beta iota. split; [reflexivity|]. intros _ _. unfold to0 in Eto0.
    destruct (o_beyond o); [lia|]. unfold lm_synced_seq, last_synced. rewrite Eto0. discriminate. }
  rewrite (gi_last_flushed _ _ _ _ _ _ H), Hbar, Hpurge. change (0 =? 0) with true. cbn [negb andb].
  assert (Hto0 : n0 <= to0 <= g_max g).
  { unfold to0 in *. destruct (o_beyond o); [lia|]. destruct (gi_ls _ _ _ _ _ _ H) as [X|(X & _)]; [lia|exact X]. }
  set (to1 := if negb (o_limit o =? 0) && (o_limit o <? to0 - n0 + 1) then n0 + o_limit o - 1 else to0).
  assert (Hto1 : n0 <= to1 <= to0).
  { unfold to1. destruct (negb (o_limit o =? 0) && (o_limit o <? to0 - n0 + 1)) eqn:E1; [|lia].
    apply andb_true_iff in E1. destruct E1 as [E1 E2]. lia. }
  assert (Hff : exists ff, file_at n0 (g_files g) = Some ff /\ In ff (g_files g)).
  { destruct (g_files g) as [|x t] eqn:Ex; [congruence|]. exists x. cbn [file_at find]. unfold file_at. cbn [find].
    destruct HN as [HN0 _]. rewrite HN0, N.eqb_refl. split; [reflexivity|left; reflexivity]. }
  destruct Hff as (ff & Hff & Hffin). rewrite Hff.
  assert (Hpos := gi_lastseq _ _ _ _ _ _ H).
  (* the common end *)
  assert (Hfin : forall A ft B s, g_files g = A ++ ft :: B -> (exists r, In r (fh ft) /\ r_seq r = s) -> F <= s ->
    (if o_beyond o then (g_ls g = NIL \/ g_ls g <= f_num ft \/ s = m_max (f_mt ft))
     else f_num ft <= g_ls g /\ g_ls g <> NIL /\ m_synced (f_mt ft) <> NIL /\ s <= m_synced (f_mt ft)) ->
    (seq <> NIL -> s = seq) ->
    (seq = NIL -> o_limit o = 0 -> if o_beyond o then s = lastseq h else forall x, lm_synced_seq g = Ok x -> s = x) ->
    exists ro g', match gather (S (N.to_nat (f_num ft - n0))) n0 (f_num ft) s (o_beyond o) (g_files g) ([], []) with
      | None => (Undef, g)
      | Some (rs, cs) =>
          (Ok (rs, cs), mkG (filter (fun f => negb (between n0 (f_num ft) (f_num f) && (f_num f <? f_num ft)))
              (map (fun f => if between n0 (f_num ft) (f_num f) then mark_file (o_beyond o) s f else f) (g_files g)))
          (g_max g) (f_num ft) (if o_beyond o && (g_ls g <? f_num ft) then f_num ft else g_ls g) 0)
      end = (ro, g') /\
      match ro with
      | Ok (rs, cs) => exists n1 pre1 s, F <= s /\ 1 <= s /\ rs = filter (fun r => (F <? r_seq r) && (r_seq r <=? s)) h /\
          GI n1 pre1 h s g' /\ g_bar g' = 0 /\ g_max g' = g_max g /\
          (seq <> NIL -> s = seq) /\
          (seq = NIL -> o_limit o = 0 -> if o_beyond o then s = lastseq h else forall x, lm_synced_seq g = Ok x -> s = x) /\
          (exists A ft B, g_files g = A ++ ft :: B /\ n1 = f_num ft /\ pre1 = pre ++ all_h A /\
             cs = flat_map (fun f => mt_checkpoints s (f_mt f)) (A ++ [ft]) /\
             g_files g' = mark_file (o_beyond o) s ft :: B)
      | Fail _ => g' = g /\ (seq = NIL -> o_limit o = 0 -> (if o_beyond o then h = [] else forall x, lm_synced_seq g <> Ok x))
      | Undef => False
      end).
  { intros A ft B s E Hr HF Hg Hs1 Hs2.
    destruct (flush_core n0 pre h F g (o_beyond o) s A ft B H E Hr HF Hg) as [E1 E2]. rewrite E1.
    eexists; eexists; split; [reflexivity|]. cbn beta iota. exists (f_num ft), (pre ++ all_h A), s.
    split; [exact HF|].
    split; [destruct Hr as (z & Hz & <-); apply (gi_pos _ _ _ _ _ _ H); rewrite (gi_hist _ _ _ _ _ _ H); apply in_or_app; right;
            apply in_flat_map; exists ft; split; [rewrite E; apply in_or_app; right; left; reflexivity|exact Hz]|].
    split; [reflexivity|]. split; [apply E2|]. split; [reflexivity|]. split; [reflexivity|].
    split; [exact Hs1|]. split; [exact Hs2|]. exists A, ft, B. repeat (split; [first [exact E|reflexivity]|]).
    cbn [g_files].
    assert (HN' := HN). rewrite E in HN'. apply nums_app in HN'. destruct HN' as (HNA & HNf & HNB).
    rewrite E, map_app, filter_app. cbn [map]. rewrite (filter_none _ (map _ A)).
    - unfold between at 2. replace ((n0 <=? f_num ft) && (f_num ft <=? f_num ft)) with true by lia.
      cbn [filter app]. rewrite mark_file_num. unfold between at 1. replace (f_num ft <? f_num ft) with false by lia.
      rewrite andb_false_r. cbn [negb]. f_equal.
      rewrite (filter_all _ (map _ B)).
      + rewrite <- (map_id B) at 2. apply map_ext_in. intros f Hf. assert (X := nums_in _ _ _ HNB Hf).
        unfold between. replace (f_num f <=? f_num ft) with false by lia. rewrite andb_false_r. reflexivity.
      + intros f Hf. apply in_map_iff in Hf. destruct Hf as (x & Ex & Hx). assert (X := nums_in _ _ _ HNB Hx).
        assert (En : f_num f = f_num x) by (rewrite <- Ex; destruct (between _ _ _); reflexivity).
        rewrite En. replace (f_num x <? f_num ft) with false by lia. rewrite andb_false_r. reflexivity.
    - intros f Hf. apply in_map_iff in Hf. destruct Hf as (x & Ex & Hx). assert (X := nums_in _ _ _ HNA Hx).
      assert (En : f_num f = f_num x) by (rewrite <- Ex; destruct (between _ _ _); reflexivity).
      rewrite En. unfold between. replace (n0 <=? f_num x) with true by lia. replace (f_num x <=? f_num ft) with true by lia.
      replace (f_num x <? f_num ft) with true by lia. reflexivity. }
  (* the flush mark of the first file is F *)
  assert (HFmark : F <> 0 -> m_flushed (f_mt ff) = F).
  { intros nF. destruct (gi_F _ _ _ _ _ _ H nF) as (r & Hr & Er). apply in_flat_map in Hr. destruct Hr as (f & Hf & Hr).
    assert (U := gi_flu _ _ _ _ _ _ H f r Hf Hr). replace (F <? r_seq r) with false in U by lia.
    assert (V : m_flushed (f_mt f) <> NIL).
    { intros e. unfold unflushed in U. rewrite e, nil_invalid in U. discriminate. }
    assert (Hf2 := Hf). apply in_split in Hf2. destruct Hf2 as (a & b & Eab).
    assert (a = []) as -> by (apply (gi_first _ _ _ _ _ _ H a f b Eab V)). cbn [app] in Eab.
    assert (ff = f) as ->.
    { assert (X := file_at_num _ _ [] _ _ HN Eab). rewrite Eab in HN. destruct HN as [HN0 _]. rewrite HN0 in X. congruence. }
    destruct (fi_flu _ _ (HFI f Hf) V) as (z & Hz & Ez).
    assert (U2 := gi_flu _ _ _ _ _ _ H f z Hf Hz).
    unfold unflushed in U, U2. assert (V2 : valid_number (m_flushed (f_mt f)) = true) by (unfold valid_number; lia).
    rewrite V2 in *. cbn [negb orb] in *. rewrite Ez in U2. replace (m_flushed (f_mt f) <? m_flushed (f_mt f)) with false in U2 by lia.
    lia. }
  assert (HFmark0 : m_flushed (f_mt ff) <> NIL -> m_flushed (f_mt ff) = F).
  { intros V. destruct (N.eq_dec F 0) as [e|n]; [|apply HFmark; exact n]. exfalso.
    destruct (fi_flu _ _ (HFI ff Hffin) V) as (z & Hz & Ez). assert (U2 := gi_flu _ _ _ _ _ _ H ff z Hffin Hz).
    unfold unflushed in U2. assert (V2 : valid_number (m_flushed (f_mt ff)) = true) by (unfold valid_number; lia).
    rewrite V2 in U2. cbn [negb orb] in U2. rewrite Ez in U2.
    assert (P : 1 <= r_seq z).
    { apply (gi_pos _ _ _ _ _ _ H). rewrite (gi_hist _ _ _ _ _ _ H). apply in_or_app; right. apply in_flat_map. exists ff; auto. }
    lia. }
  assert (HFlow : forall A ft B r, g_files g = A ++ ft :: B -> In r (fh ft) -> A <> [] -> F < r_seq r).
  { intros A ft B r E Hr HA. assert (Hf : In ft (g_files g)) by (rewrite E; apply in_or_app; right; left; reflexivity).
    assert (U := gi_flu _ _ _ _ _ _ H ft r Hf Hr).
    destruct (N.eq_dec (m_flushed (f_mt ft)) NIL) as [e|n].
    - unfold unflushed in U. rewrite e, nil_invalid in U. cbn [negb orb] in U. lia.
    - exfalso. apply HA. apply (gi_first _ _ _ _ _ _ H A ft B E n). }
  destruct Hguard as [Hseq|((r & Hr & Er) & Hsy)].
  - (* everything *)
    rewrite Hseq. rewrite N.eqb_refl.
    destruct (rewind_spec (o_beyond o) n0 (g_files g) (S (N.to_nat to1)) to1 HN) as [(A & ft & B & E & Hle & Hm & Erw & Hno)|(Erw & Hno)];
      [lia|lia| |].
    + rewrite Erw.
      assert (Eal : valid_number (m_flushed (f_mt ff)) && (NIL <=? m_flushed (f_mt ff)) = false).
      { destruct (N.eq_dec (m_flushed (f_mt ff)) NIL) as [e|n]; [rewrite e, nil_invalid; reflexivity|].
        destruct (fi_flu _ _ (HFI ff Hffin) n) as (z & Hz & Ez).
        assert (X := mr_bnd _ _ _ (mw_mr _ _ _ (fi_mw _ _ (HFI ff Hffin))) z Hz). lia. }
      rewrite Eal. rewrite Hseq in Hfin.
      assert (Hft : In ft (g_files g)) by (rewrite E; apply in_or_app; right; left; reflexivity).
      assert (FIf := HFI ft Hft).
      assert (Hnem : fh ft <> []).
      { intros e. destruct (fi_emp _ _ FIf e) as [X _]. unfold flush_mark in Hm. destruct (o_beyond o); [congruence|].
        destruct (fi_syn _ _ FIf Hm) as (z & Hz & _). rewrite e in Hz. destruct Hz. }
      assert (Hrec : exists z, In z (fh ft) /\ r_seq z = flush_mark (o_beyond o) ft).
      { unfold flush_mark in *. destruct (o_beyond o); [apply (fi_max_in _ FIf Hnem)|apply (fi_syn _ _ FIf Hm)]. }
      apply (Hfin A ft B (flush_mark (o_beyond o) ft) E Hrec).
      * destruct A as [|a0 A0].
        -- cbn [app] in E. assert (ff = ft).
           { assert (X := file_at_num _ _ [] _ _ HN E). rewrite E in HN. destruct HN as [HN0 _]. rewrite HN0 in X. congruence. }
           subst ft. destruct (N.eq_dec F 0) as [->|nF]; [lia|]. assert (X := HFmark nF).
           assert (V : m_flushed (f_mt ff) <> NIL).
           { destruct (gi_F _ _ _ _ _ _ H nF) as (z & Hz & Ez). assert (Y := gi_lt _ _ _ _ _ _ z H Hz). lia. }
           unfold flush_mark. destruct (fi_ord _ _ FIf V) as [O1 O2]. destruct (o_beyond o); [|lia].
           destruct (fi_syn _ _ FIf O1) as (z & Hz & Ez). assert (Y := mr_bnd _ _ _ (mw_mr _ _ _ (fi_mw _ _ FIf)) z Hz). lia.
        -- destruct Hrec as (z & Hz & <-). assert (X := HFlow _ _ _ z E Hz). assert (a0 :: A0 <> []) by discriminate. specialize (X H0). lia.
      * unfold flush_mark in *. unfold to0 in *. destruct (o_beyond o); [right; right; reflexivity|].
        split; [lia|]. split; [lia|]. split; [exact Hm|lia].
      * congruence.
      * intros _ Hlim. assert (Et : to1 = to0) by (unfold to1; rewrite Hlim; reflexivity).
        unfold flush_mark, to0 in *. destruct (o_beyond o).
        -- assert (Hne : h <> []).
           { intros e. apply Hnem. rewrite e in H. apply (gi_empty_h _ _ _ _ _ H ft Hft). }
           assert (f_num ft = g_max g).
           { destruct (N.eq_dec (f_num ft) (g_max g)) as [e|n]; [exact e|exfalso].
             assert (Hnf := newest_file_in _ _ _ _ _ _ H). assert (Hnn := proj2 (file_at_in _ _ _ (gi_newest _ _ _ _ _ _ H))).
             assert (X := Hno _ Hnf). rewrite (newest_file_max _ _ _ _ _ _ H) in X. destruct h; [congruence|].
             assert (lastseq (r :: h) = NIL) by (apply X; lia). lia. }
           assert (ft = newest_file g).
           { assert (X := gi_newest _ _ _ _ _ _ H). assert (Y := file_at_num _ _ _ _ _ HN E). rewrite H0 in Y. congruence. }
           subst ft. rewrite (newest_file_max _ _ _ _ _ _ H). destruct h; [congruence|reflexivity].
        -- intros x. unfold lm_synced_seq, last_synced. rewrite Eto0.
           destruct (file_at_split _ _ (g_ls g) HN) as (a & fl & b & El & Enl & _); [lia|].
           assert (Y := file_at_num _ _ _ _ _ HN El). rewrite Enl in Y. rewrite Y.
           destruct (valid_number (m_synced (f_mt fl))) eqn:Ev; [|discriminate]. intros Ex. injection Ex as <-.
           assert (ft = fl).
           { destruct (N.eq_dec (f_num ft) (g_ls g)) as [e|n].
             - assert (Z := file_at_num _ _ _ _ _ HN E). rewrite e in Z. congruence.
             - exfalso. assert (Hfl : In fl (g_files g)) by (rewrite El; apply in_or_app; right; left; reflexivity).
               assert (Z := Hno fl Hfl). unfold valid_number in Ev. lia. }
           subst fl. reflexivity.
    + rewrite Erw. eexists; eexists; split; [reflexivity|]. cbn beta iota. split; [reflexivity|].
      intros _ Hlim. assert (Et : to1 = to0) by (unfold to1; rewrite Hlim; reflexivity). unfold to0, flush_mark in *.
      destruct (o_beyond o).
      * destruct h as [|x t] eqn:Eh; [reflexivity|exfalso]. rewrite <- Eh in *.
        assert (X := Hno _ (newest_file_in _ _ _ _ _ _ H)). assert (Hnn := proj2 (file_at_in _ _ _ (gi_newest _ _ _ _ _ _ H))).
        rewrite (newest_file_max _ _ _ _ _ _ H) in X. rewrite Eh in X at 1. assert (lastseq h = NIL) by (apply X; lia). lia.
      * intros x. unfold lm_synced_seq, last_synced. rewrite Eto0.
        destruct (file_at_split _ _ (g_ls g) HN) as (a & fl & b & El & Enl & _); [lia|].
        assert (Y := file_at_num _ _ _ _ _ HN El). rewrite Enl in Y. rewrite Y.
        assert (Hfl : In fl (g_files g)) by (rewrite El; apply in_or_app; right; left; reflexivity).
        rewrite (Hno fl Hfl) by lia. rewrite nil_invalid. discriminate.
  - (* up to a record *)
    assert (HseqN : seq < NIL) by (assert (X := lastseq_ge _ _ (gi_asc _ _ _ _ _ _ H) Hr); lia).
    replace (seq =? NIL) with false by lia.
    destruct (valid_number (m_flushed (f_mt ff)) && (seq <=? m_flushed (f_mt ff))) eqn:Eal.
    + eexists; eexists; split; [reflexivity|]. cbn beta iota. split; [reflexivity|lia].
    + assert (HF : F < seq).
      { destruct (N.eq_dec F 0) as [->|nF]; [lia|]. assert (X := HFmark nF).
        assert (V : valid_number (m_flushed (f_mt ff)) = true).
        { rewrite X. unfold valid_number. destruct (gi_F _ _ _ _ _ _ H nF) as (z & Hz & Ez). assert (Y := gi_lt _ _ _ _ _ _ z H Hz). lia. }
        rewrite V in Eal. cbn [andb] in Eal. lia. }
      assert (Hrl : In r (all_h (g_files g))).
      { rewrite (gi_hist _ _ _ _ _ _ H) in Hr. apply in_app_or in Hr. destruct Hr as [Hr|Hr]; [|exact Hr].
        assert (X := gi_pre _ _ _ _ _ _ H r Hr). lia. }
      apply in_flat_map in Hrl. destruct Hrl as (ft & Hft & Hrf).
      rewrite <- Er, (file_by_seq_hit _ _ _ _ _ _ false ft r H Hft Hrf), Er.
      assert (E := Hft). apply in_split in E. destruct E as (A & B & E).
      apply (Hfin A ft B seq E); [exists r; auto|lia| |reflexivity|lia].
      destruct (o_beyond o) eqn:Eb.
      * destruct (gi_ls _ _ _ _ _ _ H) as [X|(X & X1 & X2)]; [left; exact X|]. right; left.
        destruct (g_ls g =? NIL) eqn:El0; [lia|].
        destruct (file_at_split _ _ (g_ls g) HN) as (a & fl & b & El & Enl & _); [lia|].
        assert (Hfl : In fl (g_files g)) by (rewrite El; apply in_or_app; right; left; reflexivity).
        assert (Y := file_at_num _ _ _ _ _ HN El). rewrite Enl in Y.
        destruct (N.eq_dec (m_synced (f_mt fl)) NIL) as [e|n].
        -- rewrite (X2 fl Hfl Enl e). assert (Z := nums_in _ _ _ HN Hft). lia.
        -- assert (Z : m_synced (f_mt fl) <= seq).
           { apply Hsy. unfold lm_synced_seq, last_synced. rewrite El0, Y.
             unfold valid_number. replace (m_synced (f_mt fl) =? NIL) with false by lia. reflexivity. }
           destruct (fi_syn _ _ (HFI fl Hfl) n) as (z & Hz & Ez).
           destruct (N.le_gt_cases (g_ls g) (f_num ft)) as [L|L]; [exact L|exfalso].
           assert (Hne : h <> []) by (intros e; rewrite e in Hr; destruct Hr).
           destruct (two_split _ _ _ _ _ _ _ E El) as [(c & d & Eq)|[(c & d & Eq)|(_ & Eq & _)]].
           ++ destruct (starts_order _ _ _ _ _ _ H Hne _ _ _ _ _ Eq) as [_ Q]. specialize (Q r Hrf).
              assert (W := fi_low _ _ (HFI fl Hfl) z Hz). lia.
           ++ rewrite Eq in HN. apply nums_app in HN. destruct HN as [_ HN]. cbn [nums_from] in HN. destruct HN as [HN1 HN2].
              apply nums_app in HN2. destruct HN2 as [_ [HN2 _]]. lia.
           ++ subst fl. lia.
      * destruct Hsy as (s & Hs & Hle).
        unfold lm_synced_seq, last_synced in Hs. unfold to0 in *. rewrite Eto0 in Hs.
        destruct (file_at_split _ _ (g_ls g) HN) as (a & fl & b & El & Enl & _); [lia|].
        assert (Hfl : In fl (g_files g)) by (rewrite El; apply in_or_app; right; left; reflexivity).
        assert (Y := file_at_num _ _ _ _ _ HN El). rewrite Enl in Y. rewrite Y in Hs.
        destruct (valid_number (m_synced (f_mt fl))) eqn:Ev; [|discriminate]. injection Hs as Hs.
        assert (Hne : h <> []) by (intros e; rewrite e in Hr; destruct Hr).
        assert (Hsv : m_synced (f_mt fl) <> NIL) by (unfold valid_number in Ev; lia).
        destruct (fi_syn _ _ (HFI fl Hfl) Hsv) as (z & Hz & Ez).
        destruct (gi_ls _ _ _ _ _ _ H) as [X|(X & X1 & X2)]; [lia|].
        destruct (two_split _ _ _ _ _ _ _ E El) as [(c & d & Eq)|[(c & d & Eq)|(_ & Eq & _)]].
        -- assert (Hlt : f_num ft < g_ls g).
           { rewrite Eq in HN. apply nums_app in HN. destruct HN as [_ HN]. cbn [nums_from] in HN. destruct HN as [HN1 HN2].
             apply nums_app in HN2. destruct HN2 as [_ [HN2 _]]. lia. }
           assert (FS := X1 ft Hft Hlt). unfold full_synced in FS.
           assert (W := mr_bnd _ _ _ (mw_mr _ _ _ (fi_mw _ _ (HFI ft Hft))) r Hrf).
           split; [lia|]. split; [lia|]. rewrite FS. split; [|lia].
           assert (Hnf := gi_nonemp _ _ _ _ _ _ H Hne ft Hft).
           rewrite (fi_max _ _ (HFI ft Hft) Hnf). destruct (lastseq_in _ Hnf) as (q & Hq & <-).
           assert (W2 := mr_bnd _ _ _ (mw_mr _ _ _ (fi_mw _ _ (HFI ft Hft))) q Hq). lia.
        -- exfalso. assert (Z := gi_starts _ _ _ _ _ _ H (a ++ fl :: c) ft d).
           rewrite Eq in Z. rewrite <- app_assoc in Z. specialize (Z eq_refl z).
           assert (Hzin : In z (all_h (a ++ fl :: c))).
           { rewrite all_h_app. apply in_or_app; right. cbn [all_h flat_map]. apply in_or_app; left; exact Hz. }
           specialize (Z Hzin). assert (W := fi_low _ _ (HFI ft Hft) r Hrf). lia.
        -- subst fl. split; [lia|]. split; [lia|]. split; [exact Hsv|lia].
Qed.

End Proofs.
