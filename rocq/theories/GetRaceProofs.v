(** Invariants of a get with concurrent writers, batches and flushes. *)
From Coq Require Import Sorting.Sorted.
From Verif Require Import Base KeyModel LogFormatModel MemTableModel LogMgrModel DbModel MemTableProofs DbProofs GetRaceModel GetRaceSpec.
Local Open Scope N_scope.

(** The lookup of GetRaceModel.v is what the memtable does. *)
Lemma gf_get_mt : forall hash f m chk k, MR hash (gf_recs f) m -> m_flushed m = gf_mark f ->
  mt_get hash chk k false true m = gf_get chk k f.
Proof. intros hash f m chk k H E. rewrite (mt_get_spec hash _ _ _ _ _ _ H), E. reflexivity. Qed.

Definition blt (a b : rec) : Prop := r_seq a < r_seq b.
Definition flagged (f : gfile) (x : rec) : Prop := gf_mark f <> NIL /\ r_seq x <= gf_mark f.
Definition upto (F : N) (w : list rec) : list rec := filter (fun r => r_seq r <=? F) w.

Definition phase_ok (F : N) (fs : list gfile) (p : fphase) : Prop :=
  match p with
  | FIdle => forall f x, In f fs -> In x (gf_recs f) -> r_seq x <= F -> flagged f x
  | FTab from to s =>
      (forall f x, In f fs -> In x (gf_recs f) -> r_seq x <= F -> flagged f x) /\
      (forall f x, In f fs -> In x (gf_recs f) -> gf_num f < from -> flagged f x) /\
      F <= s /\ from <= to /\ exists f x, In f fs /\ In x (gf_recs f) /\ gf_num f = to /\ r_seq x = s
  | FMark from to s n =>
      F = s /\ (forall f x, In f fs -> In x (gf_recs f) -> gf_num f < n -> r_seq x <= s -> flagged f x) /\
      exists f x, In f fs /\ In x (gf_recs f) /\ gf_num f = to /\ r_seq x = s
  | FRem to s n =>
      F = s /\ (forall f x, In f fs -> In x (gf_recs f) -> r_seq x <= s -> flagged f x) /\
      (exists f x, In f fs /\ In x (gf_recs f) /\ gf_num f = to /\ r_seq x = s)
  end.

(** The files of a run: [w] the records written, [F] the largest number in the tables. *)
Record FS (w : list rec) (F : N) (s : gst) : Prop := mkFS {
  fs_w : flat_map gf_recs (s_files s) = w;
  fs_so : StronglySorted blt w;
  fs_val : forall x, In x w -> 0 < r_seq x < NIL;
  fs_num : StronglySorted (fun f g => gf_num f < gf_num g) (s_files s);
  fs_tab : s_tab s = upto F w;
  fs_F : F = 0 \/ exists x, In x w /\ r_seq x = F;
  fs_mF : forall f, In f (s_files s) -> gf_mark f <> NIL -> gf_mark f <= F;
  fs_down : forall f g x y, In f (s_files s) -> In g (s_files s) -> In x (gf_recs f) -> In y (gf_recs g) ->
    r_seq y <= r_seq x -> flagged f x -> flagged g y;
  fs_lf : forall l, s_lf s = Some l -> (exists f x, In f (s_files s) /\ In x (gf_recs f) /\ gf_num f = l /\ r_seq x <= F) /\
    forall f x, In f (s_files s) -> In x (gf_recs f) -> gf_num f < l -> flagged f x;
  fs_gone : forall f, In f (s_files s) -> gf_gone f = true -> exists l, s_lf s = Some l /\ gf_num f < l;
  fs_ne : s_files s <> [];
  fs_ph : phase_ok F (s_files s) (s_fl s)
}.

(** * Lists *)
Lemma ss_app : forall (A : Type) (R : A -> A -> Prop) a b, StronglySorted R (a ++ b) <->
  StronglySorted R a /\ StronglySorted R b /\ forall x y, In x a -> In y b -> R x y.
Proof.
  intros A R a b. induction a as [|h a IH]; cbn [app].
  - split; [intro H; split; [constructor|split; [exact H|intros x y []]]|tauto].
  - split.
    + intro H. inversion_clear H as [|? ? H1 H2]. apply IH in H1. destruct H1 as (H1 & H3 & H4).
      rewrite Forall_app in H2. destruct H2 as [H2 H5]. split; [constructor; assumption|]. split; [exact H3|].
      intros x y [<-|Hx] Hy; [rewrite Forall_forall in H5; apply H5; exact Hy|apply H4; assumption].
    + intros (H1 & H2 & H3). inversion_clear H1 as [|? ? H4 H5]. constructor.
      * apply IH. split; [exact H4|]. split; [exact H2|]. intros x y Hx Hy. apply H3; [right; exact Hx|exact Hy].
      * rewrite Forall_app. split; [exact H5|]. rewrite Forall_forall. intros y Hy. apply H3; [left; reflexivity|exact Hy].
Qed.

Lemma last_split : forall (A : Type) (l : list A), l <> [] -> exists a x, l = a ++ [x].
Proof. intros A l H. destruct (exists_last H) as (a & x & E). exists a, x. exact E. Qed.

Lemma add_last_app : forall r a f, add_last r (a ++ [f]) = a ++ [mkGF (gf_num f) (gf_recs f ++ [r]) (gf_mark f) (gf_gone f)].
Proof.
  intros r a f. induction a as [|x a IH]; [reflexivity|]. cbn [app add_last].
  destruct (a ++ [f]) eqn:E; [destruct a; discriminate|]. rewrite IH. reflexivity.
Qed.

Lemma newest_num_app : forall a f, newest_num (a ++ [f]) = gf_num f.
Proof. intros a f. unfold newest_num. rewrite rev_app_distr. reflexivity. Qed.

Lemma upto_app : forall F a b, upto F (a ++ b) = upto F a ++ upto F b.
Proof. intros F a b. apply filter_app. Qed.

Lemma upto_none : forall F b, (forall x, In x b -> F < r_seq x) -> upto F b = [].
Proof.
  intros F b H. unfold upto. induction b as [|x b IH]; [reflexivity|]. cbn [filter].
  destruct (r_seq x <=? F) eqn:E; [specialize (H x (or_introl eq_refl)); lia|]. apply IH. intros y Hy. apply H. right. exact Hy.
Qed.

(** * Where records are *)
Section W.
Variables (w : list rec) (F : N) (s : gst).
Hypothesis H : FS w F s.

Lemma in_w : forall f x, In f (s_files s) -> In x (gf_recs f) -> In x w.
Proof. intros f x Hf Hx. rewrite <- (fs_w _ _ _ H). apply in_flat_map. exists f. split; assumption. Qed.

Lemma w_in : forall x, In x w -> exists f, In f (s_files s) /\ In x (gf_recs f).
Proof. intros x Hx. rewrite <- (fs_w _ _ _ H) in Hx. apply in_flat_map in Hx. exact Hx. Qed.

(** Files in order of numbers hold records in order of numbers. *)
Lemma files_order : forall fs, StronglySorted (fun f g => gf_num f < gf_num g) fs -> StronglySorted blt (flat_map gf_recs fs) ->
  forall f g x y, In f fs -> In g fs -> In x (gf_recs f) -> In y (gf_recs g) -> gf_num f < gf_num g -> r_seq x < r_seq y.
Proof.
  clear H w F s. intros fs. induction fs as [|a fs IH]; intros Hn Hs f g x y Hf Hg Hx Hy E; [destruct Hf|].
  cbn [flat_map] in Hs. apply ss_app in Hs. destruct Hs as (S1 & S2 & S3). inversion_clear Hn as [|? ? N1 N2].
  rewrite Forall_forall in N2. destruct Hf as [->|Hf]; destruct Hg as [->|Hg].
  - lia.
  - apply S3; [exact Hx|]. apply in_flat_map. exists g. split; assumption.
  - specialize (N2 f Hf). cbn beta in N2. lia.
  - exact (IH N1 S2 f g x y Hf Hg Hx Hy E).
Qed.

Lemma order : forall f g x y, In f (s_files s) -> In g (s_files s) -> In x (gf_recs f) -> In y (gf_recs g) ->
  gf_num f < gf_num g -> r_seq x < r_seq y.
Proof. apply files_order; [exact (fs_num _ _ _ H)|]. rewrite (fs_w _ _ _ H). exact (fs_so _ _ _ H). Qed.

Lemma order_le : forall f g x y, In f (s_files s) -> In g (s_files s) -> In x (gf_recs f) -> In y (gf_recs g) ->
  r_seq x <= r_seq y -> gf_num f <= gf_num g.
Proof.
  intros f g x y Hf Hg Hx Hy E. destruct (N.le_gt_cases (gf_num f) (gf_num g)) as [L|L]; [exact L|].
  assert (O := order g f y x Hg Hf Hy Hx L). lia.
Qed.

Lemma num_eq : forall fs, StronglySorted (fun f g => gf_num f < gf_num g) fs ->
  forall f g, In f fs -> In g fs -> gf_num f = gf_num g -> f = g.
Proof.
  clear H w F s. intros fs. induction fs as [|a fs IH]; intros Hn f g Hf Hg E; [destruct Hf|]. inversion_clear Hn as [|? ? N1 N2].
  rewrite Forall_forall in N2. destruct Hf as [->|Hf]; destruct Hg as [->|Hg]; [reflexivity| | |apply IH; assumption].
  - specialize (N2 g Hg). cbn beta in N2. lia.
  - specialize (N2 f Hf). cbn beta in N2. lia.
Qed.

Lemma same_file : forall f g, In f (s_files s) -> In g (s_files s) -> gf_num f = gf_num g -> f = g.
Proof. exact (num_eq _ (fs_num _ _ _ H)). Qed.

Lemma gf_at_in : forall n f, gf_at n (s_files s) = Some f -> In f (s_files s) /\ gf_num f = n.
Proof. intros n f E. apply find_some in E. destruct E as [E1 E2]. split; [exact E1|apply N.eqb_eq; exact E2]. Qed.

Lemma flagged_F : forall f x, In f (s_files s) -> flagged f x -> r_seq x <= F.
Proof. intros f x Hf [Ha Hb]. assert (L := fs_mF _ _ _ H f Hf Ha). lia. Qed.

Lemma gone_flagged : forall f x, In f (s_files s) -> In x (gf_recs f) -> gf_gone f = true -> flagged f x.
Proof.
  intros f x Hf Hx Hg. destruct (fs_gone _ _ _ H f Hf Hg) as (l & E & L).
  exact (proj2 (fs_lf _ _ _ H l E) f x Hf Hx L).
Qed.

Lemma F_lt : forall r, (forall x, In x w -> r_seq x < r_seq r) -> 0 < r_seq r -> F < r_seq r.
Proof. intros r Hr H0. destruct (fs_F _ _ _ H) as [->|(x & Hx & <-)]; [exact H0|apply Hr; exact Hx]. Qed.

(** Everything in files below the first file of the next flush is flushed. *)
Lemma below_low : forall f x, In f (s_files s) -> In x (gf_recs f) -> gf_num f < low s -> flagged f x.
Proof.
  intros f x Hf Hx L. unfold low in L. destruct (s_lf s) as [l|] eqn:E.
  - exact (proj2 (fs_lf _ _ _ H l E) f x Hf Hx L).
  - destruct (gf_gone f) eqn:Eg; [apply gone_flagged; assumption|].
    assert (Hin : In f (filter live (s_files s))) by (apply filter_In; split; [exact Hf|unfold live; rewrite Eg; reflexivity]).
    destruct (filter live (s_files s)) as [|g t] eqn:Ef; [destruct Hin|].
    assert (Hs : StronglySorted (fun f g => gf_num f < gf_num g) (g :: t)).
    { rewrite <- Ef. clear -H. assert (Hs := fs_num _ _ _ H). induction (s_files s) as [|a l IH]; [constructor|].
      inversion_clear Hs as [|? ? S1 S2]. cbn [filter]. destruct (live a); [|apply IH; exact S1]. constructor; [apply IH; exact S1|].
      rewrite Forall_forall in *. intros y Hy. apply filter_In in Hy. apply S2. exact (proj1 Hy). }
    inversion_clear Hs as [|? ? S1 S2]. rewrite Forall_forall in S2. destruct Hin as [->|Hin]; [lia|].
    specialize (S2 f Hin). cbn beta in S2. lia.
Qed.
End W.
