(** After any number of closes and crashes: reads by number, and snapshots. *)
From Verif Require Import Base KeyModel KeyProofs LogFormatModel LogManifestModel BloomModel BloomProofs MemTableModel MemTableProofs
  LogMgrModel LogMgrProofs LogMgrProofs2 LogMgrProofs3 DbModel DbProofs DbProofs2 RecoverModel RecoverProofs RecoverProofs2 RecoverProofs3
  RecoverProofs4 RecoverProofs5 RecoverProofs7.
From Coq Require Import Sorted ZifyBool.
Local Open Scope N_scope.

Section Proofs.
Variable hash : key -> N * N.

Lemma di_number : forall c h d r, DI hash c h d -> In r h -> ~ In r (d_tab d) -> lm_get_seq (r_seq r) (d_log d) = Ok r.
Proof.
  intros c h d r D Hr Ht. destruct (di_ex _ _ _ _ D) as (n0 & pre & F & part & H & Et & Hlast & _ & HFl & _ & Hb).
  assert (HF : F < r_seq r).
  { destruct (N.lt_ge_cases F (r_seq r)) as [X|X]; [exact X|]. exfalso. apply Ht. rewrite Et. apply filter_In. split; [exact Hr|]. apply N.leb_le, X. }
  assert (Hin : In r (h ++ part)) by (apply in_or_app; left; exact Hr).
  assert (Hle := lastseq_ge _ r (gi_asc _ _ _ _ _ _ H) Hin).
  destruct (d_bat d) as [[todo done]|].
  - destruct Hb as [_ (Hne & Eb & _)]. 
    assert (Hl : r_seq r <= lastseq h) by (apply lastseq_ge; [apply (gi_pre_part _ _ _ _ _ _ _ H)|exact Hr]).
    assert (Hlh := gi_lastseq_lt hash c h d _ _ _ _ H).
    apply (lm_get_seq_hit _ _ _ _ _ _ _ H Hin HF); [|lia].
    unfold visible, limit. rewrite Eb. destruct (lastseq h =? 0) eqn:E0; [reflexivity|]. apply Bool.orb_true_iff; right. apply N.leb_le, Hl.
  - destruct Hb as [_ Eb]. apply (lm_get_seq_hit _ _ _ _ _ _ _ H Hin HF); [|rewrite Eb, nil_val; lia].
    rewrite Eb. reflexivity.
Qed.

Lemma di_number_sound : forall c h d s r, DI hash c h d -> lm_get_seq s (d_log d) = Ok r -> In r h /\ r_seq r = s.
Proof.
  intros c h d s r D E. destruct (di_ex _ _ _ _ D) as (n0 & pre & F & part & H & Et & Hlast & _ & HFl & _ & Hb).
  destruct (lm_get_seq_sound _ _ _ _ _ _ _ _ H E) as (Hin & Es & HF & Hbar). split; [|exact Es].
  destruct (d_bat d) as [[todo done]|].
  - destruct Hb as [_ (Hne & Ebar & _)]. apply in_app_or in Hin. destruct Hin as [Hin|Hin]; [exact Hin|]. exfalso.
    destruct (lastseq_in h Hne) as (q & Hq & Eq).
    assert (X : r_seq q < r_seq r) by (destruct (proj2 (gi_pre_part _ _ _ _ _ _ _ H) r Hin) as [X|X]; [lia|congruence]).
    assert (Y := gi_pos _ _ _ _ _ _ H q ltac:(apply in_or_app; left; exact Hq)). lia.
  - destruct Hb as [-> _]. rewrite app_nil_r in Hin. exact Hin.
Qed.

Lemma preach_number : forall pw c h hs p r, cfg_ok c -> c_lso c = false -> preach hash pw c h hs p -> In r h -> ~ In r (d_tab (p_db p)) ->
  lm_get_seq (r_seq r) (d_log (p_db p)) = Ok r.
Proof.
  intros pw c h hs p r Cok Hlso R Hr Ht. apply (di_number c h (p_db p) r); [|exact Hr|exact Ht]. apply (pi_di _ _ _ _ _ _ (preach_inv hash pw c h hs p Cok Hlso R)).
Qed.

Lemma preach_number_sound : forall pw c h hs p s r, cfg_ok c -> c_lso c = false -> preach hash pw c h hs p ->
  lm_get_seq s (d_log (p_db p)) = Ok r -> In r h /\ r_seq r = s.
Proof.
  intros pw c h hs p s r Cok Hlso R E. apply (di_number_sound c h (p_db p) s r); [|exact E]. apply (pi_di _ _ _ _ _ _ (preach_inv hash pw c h hs p Cok Hlso R)).
Qed.

Lemma preach_snapshot : forall pw c h hs p h' d' k, cfg_ok c -> c_lso c = false -> preach hash pw c h hs p -> later hash c h (p_db p) h' d' ->
  exists sn, open_snap 0 (p_db p) = Ok sn /\ snap_get hash sn k d' = spec_get h k.
Proof.
  intros pw c h hs p h' d' k Cok Hlso R L. apply (snap_latest_di hash c h (p_db p) h' d' k Cok); [|exact L].
  apply (pi_di _ _ _ _ _ _ (preach_inv hash pw c h hs p Cok Hlso R)).
Qed.
End Proofs.
