(** Prefix search through a snapshot, as long as nothing with the prefix is written or flushed. *)
From Verif Require Import Base KeyModel KeyProofs LogFormatModel BloomModel MemTableModel MemTableProofs
  LogMgrModel LogMgrProofs LogMgrProofs2 DbModel DbProofs LsmModel LsmProofs LsmProofs2 LsmProofs5 FullModel FullProofs
  IterModel LeafIterModel DbIterModel NearestProofs PrefixModel PrefixSpec PrefixProofs.
From Coq Require Import Sorted Lia.
Local Open Scope N_scope.

Definition docs_of (R : list rec) : list rec := fold_left (fun l r => if is_cmd r then l else fd_set r l) R [].

Lemma docs_of_spec : forall R, docs_ok (docs_of R) /\ forall k, fd_get k (docs_of R) = newest_write R k.
Proof.
  intros R. induction R as [|r R IH] using rev_ind; [split; [constructor|reflexivity]|].
  unfold docs_of. rewrite fold_left_app. cbn [fold_left]. fold (docs_of R). destruct IH as [D G].
  destruct (is_cmd r) eqn:C.
  - split; [exact D|]. intros k. rewrite newest_write_app. unfold newest_write at 1. cbn [rev app find]. rewrite C, andb_false_r. apply G.
  - split; [now apply fd_set_spec|]. intros k. rewrite fd_get_set by exact D. rewrite newest_write_app. unfold newest_write at 1. cbn [rev app find].
    rewrite C. cbn [negb]. rewrite andb_true_r. destruct (keqb (r_key r) k); [reflexivity|apply G].
Qed.

Section Hash.
Variable hash : key -> N * N.

Theorem snap_prefix_quiet : forall c h d more d' sn p, cfg_ok c -> reach hash c h d -> open_snap 0 d = Ok sn -> reach hash c (h ++ more) d' ->
  (forall r, In r more -> ~ prefix_of p (r_key r)) -> (forall r, In r (d_tab d') -> prefix_of p (r_key r) -> In r (d_tab d)) ->
  exists n L, (forall fuel cb, (n <= fuel)%nat -> (forall x, cb x = false) -> snap_prefix fuel cb p sn d' = Some (match L with [] => Fail KEY_NOT_FOUND | _ => Ok tt end, L)) /\
    (forall r, In r L -> In r h /\ is_cmd r = false /\ prefix_of p (r_key r)) /\
    (forall a y, last_write h a = Some y -> prefix_of p a -> In y L).
Proof.
  intros c h d more d' sn p Cok R1 Hsn R2 Hm Ht.
  destruct (reach_inv hash c h d Cok R1) as [(m0 & mpre & F & mpt & HG0 & Et & _)].
  destruct (reach_inv hash c _ d' Cok R2) as [(n0 & pre & F' & pt & HG & Et' & Hl & _ & HF & _ & HB)].
  assert (HB' : (pt = [] /\ g_bar (d_log d') = 0) \/ (h ++ more <> [] /\ g_bar (d_log d') = lastseq (h ++ more))).
  { destruct (d_bat d') as [[todo done]|]; [right; destruct HB as [_ HB]; split; apply HB|left; exact HB]. }
  assert (Hs' : sorted_seq (h ++ more)). { pose proof (gi_asc _ _ _ _ _ _ HG) as S0. unfold sorted_seq in *. rewrite map_app in S0. apply SS_app_inv in S0. tauto. }
  assert (Hs : sorted_seq h). { unfold sorted_seq in *. rewrite map_app in Hs'. apply SS_app_inv in Hs'. tauto. }
  destruct (log_prefix_spec hash (fun _ => 0) n0 pre (h ++ more) pt F' (d_log d') p HG Hl HF HB') as (n & a & A0 & A1 & A2).
  assert (St : sn_tab sn = d_tab d) by (unfold open_snap in Hsn; cbn [N.eqb] in Hsn; injection Hsn as <-; reflexivity).
  destruct (docs_of_spec (d_tab d)) as [Dok Dget]. set (docs := docs_of (d_tab d)) in *.
  set (b := doc_prefix p docs). pose proof (doc_prefix_spec p docs Dok) as B. fold b in B.
  assert (HsR : sorted_seq (d_tab d)) by (rewrite Et; now apply sorted_seq_filter).
  assert (Rin : forall r, In r (d_tab d) <-> In r h /\ r_seq r <= F) by (intros r; rewrite Et, filter_In; split; intros [X Y]; split; auto; lia).
  assert (Rin' : forall r, In r (d_tab d') <-> In r (h ++ more) /\ r_seq r <= F') by (intros r; rewrite Et', filter_In; split; intros [X Y]; split; auto; lia).
  exists n, (a ++ b). split; [|split].
  - intros fuel cb Hf Hcb. unfold snap_prefix. rewrite (A0 fuel Hf), St. fold (docs_of (d_tab d)). fold docs. fold b. unfold prefix_end.
    rewrite (feed_all cb a [] Hcb). cbn [app]. rewrite (feed_all cb b a Hcb). destruct (a ++ b); reflexivity.
  - intros r Hr. apply in_app_iff in Hr as [Hr|Hr].
    + destruct (A1 r Hr) as (X1 & X2 & _ & X3). apply starts_iff in X3. split; [|now split].
      apply in_app_iff in X1 as [X1|X1]; [exact X1|]. destruct (Hm r X1 X3).
    + apply B in Hr as [X1 X2]. apply starts_iff in X2.
      assert (E : newest_write (d_tab d) (r_key r) = Some r) by (rewrite <- Dget; now apply fd_get_some).
      apply newest_write_in in E as (E1 & _ & E3). split; [now apply Rin|now split].
  - intros k y E Pk. assert (Pk' := Pk). apply starts_iff in Pk.
    assert (LW : In y h /\ r_key y = k /\ is_cmd y = false) by (assert (Q := E); rewrite <- newest_last_write in Q; apply newest_in in Q; tauto).
    destruct LW as (Y1 & Y2 & Y3). subst k. apply in_or_app. destruct (N.le_gt_cases (r_seq y) F) as [Ly|Ly].
    + right. apply B. split; [|exact Pk].
      assert (Q : newest_write (d_tab d) (r_key y) = Some y).
      { change (newest_write (d_tab d) (r_key y)) with (last_write (d_tab d) (r_key y)). apply (last_write_sorted hash); [exact HsR|now apply Rin|exact Y3|].
        intros z Hz Cz Kz. apply Rin in Hz as [Hz _]. rewrite <- newest_last_write in E. apply (newest_le hash h NIL (r_key y) y Hs E); [|reflexivity].
        apply filter_In. split; [exact Hz|]. now rewrite Kz, keqb_refl, Cz. }
      rewrite <- Dget in Q. now apply fd_get_in in Q.
    + left. apply A2; [| |exact Pk].
      * rewrite last_write_app. destruct (last_write more (r_key y)) as [z|] eqn:Z; [|exact E]. exfalso.
        rewrite <- newest_last_write in Z. apply newest_in in Z as (Z1 & Z2 & _). apply (Hm z Z1). now rewrite Z2.
      * destruct (N.lt_ge_cases F' (r_seq y)) as [L|L]; [exact L|]. exfalso.
        assert (Q : In y (d_tab d)) by (apply Ht; [apply Rin'; split; [apply in_or_app; now left|exact L]|exact Pk']).
        apply Rin in Q. lia.
Qed.
End Hash.
