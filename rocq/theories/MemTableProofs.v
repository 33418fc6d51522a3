(** Refinement of the memtable to the list of writes it received. *)
From Verif Require Import Base KeyModel KeyProofs LogFormatModel BloomModel BloomProofs MemTableModel.
From Coq Require Import Sorted.
Local Open Scope N_scope.

(** * Sorted lists *)

Definition sorted_keys (l : list (key * list rec)) : Prop := StronglySorted klt (map fst l).
Definition sorted_seq (l : list rec) : Prop := StronglySorted N.lt (map r_seq l).

(** The recList of a key; no node is the same as no records. *)
Definition lookup (k : key) (l : list (key * list rec)) : list rec :=
  match find (fun n => keqb (fst n) k) l with Some n => snd n | None => [] end.

Lemma SS_app_inv : forall {A} (R : A -> A -> Prop) l1 l2, StronglySorted R (l1 ++ l2) ->
  StronglySorted R l1 /\ StronglySorted R l2 /\ (forall x y, In x l1 -> In y l2 -> R x y).
Proof.
  intros A R l1; induction l1 as [|a l1 IH]; intros l2 H; cbn [app] in H.
  - repeat split; [constructor|exact H|intros x y []].
  - apply StronglySorted_inv in H; destruct H as [H1 H2].
    destruct (IH _ H1) as (Ha & Hb & Hc). rewrite Forall_app in H2; destruct H2 as [H2 H3].
    repeat split; [constructor; assumption|assumption|].
    intros x y [->|Hx] Hy; [rewrite Forall_forall in H3; apply H3; assumption|apply Hc; assumption].
Qed.
Lemma SS_app : forall {A} (R : A -> A -> Prop) l1 l2, StronglySorted R l1 -> StronglySorted R l2 ->
  (forall x y, In x l1 -> In y l2 -> R x y) -> StronglySorted R (l1 ++ l2).
Proof.
  intros A R l1; induction l1 as [|a l1 IH]; intros l2 H1 H2 H3; [assumption|].
  apply StronglySorted_inv in H1; destruct H1 as [H1 H4]. cbn [app]; constructor.
  - apply IH; [assumption..|]. intros x y Hx Hy; apply H3; [right|]; assumption.
  - rewrite Forall_app; split; [assumption|]. rewrite Forall_forall; intros y Hy; apply H3; [left; reflexivity|assumption].
Qed.
Lemma SS_filter : forall {A} (R : A -> A -> Prop) p l, StronglySorted R l -> StronglySorted R (filter p l).
Proof.
  intros A R p l H; induction H as [|a l H IH HF]; cbn [filter]; [constructor|].
  destruct (p a); [|assumption]. constructor; [assumption|].
  rewrite Forall_forall in *; intros x Hx; apply filter_In in Hx; apply HF, Hx.
Qed.
Lemma sorted_seq_filter : forall p l, sorted_seq l -> sorted_seq (filter p l).
Proof.
  unfold sorted_seq; intros p l; induction l as [|a l IH]; intros H; cbn [filter map] in *; [assumption|].
  apply StronglySorted_inv in H; destruct H as [H HF]. destruct (p a); [|auto].
  cbn [map]; constructor; [auto|]. rewrite Forall_forall in *; intros x Hx; apply HF.
  apply in_map_iff in Hx; destruct Hx as (y & <- & Hy); apply filter_In in Hy; apply in_map, Hy.
Qed.

(** * The key index *)

Lemma lookup_cons : forall k k' rs l, lookup k ((k', rs) :: l) = if keqb k' k then rs else lookup k l.
Proof. intros; unfold lookup; cbn [find fst]. destruct (keqb k' k); reflexivity. Qed.

Lemma lookup_absent : forall k l, ~ In k (map fst l) -> lookup k l = [].
Proof.
  intros k l; induction l as [|[k' rs] l IH]; intros H; [reflexivity|].
  rewrite lookup_cons. cbn [map fst In] in H.
  destruct (keqb k' k) eqn:E; [apply keqb_true in E; tauto|]. apply IH; tauto.
Qed.

Lemma sorted_keys_cons : forall k rs l, sorted_keys ((k, rs) :: l) ->
  sorted_keys l /\ (forall x, In x (map fst l) -> klt k x).
Proof.
  unfold sorted_keys; cbn [map fst]; intros k rs l H; apply StronglySorted_inv in H.
  destruct H as [H1 H2]; rewrite Forall_forall in H2; auto.
Qed.

Lemma key_push_fst : forall r l x, In x (map fst (fst (key_push r l))) <-> x = r_key r \/ In x (map fst l).
Proof.
  intros r l x; induction l as [|[k rs] l IH]; cbn [key_push].
  - cbn; intuition congruence.
  - destruct (kcmp (r_key r) k) eqn:E.
    + apply kcmp_eq in E. cbn [fst map In]. intuition congruence.
    + cbn [fst map In]; intuition congruence.
    + destruct (key_push r l) as [t b]. cbn [fst map In] in *. rewrite IH. tauto.
Qed.

Lemma key_push_ne : forall r l, (forall n, In n l -> snd n <> []) -> forall n, In n (fst (key_push r l)) -> snd n <> [].
Proof.
  intros r l; induction l as [|[k rs] l IH]; intros H n; cbn [key_push].
  - intros [<-|[]]. discriminate.
  - destruct (kcmp (r_key r) k).
    + intros [<-|Hn]; [cbn; destruct rs; discriminate|apply H; now right].
    + intros [<-|Hn]; [discriminate|now apply H].
    + specialize (IH (fun n0 H0 => H n0 (or_intror H0))). destruct (key_push r l) as [t b]. cbn [fst] in *.
      intros [<-|Hn]; [apply H; now left|now apply IH].
Qed.

Lemma key_push_sorted : forall r l, sorted_keys l -> sorted_keys (fst (key_push r l)).
Proof.
  intros r l; induction l as [|[k rs] l IH]; intros H; cbn [key_push].
  - unfold sorted_keys; cbn; repeat constructor.
  - destruct (sorted_keys_cons _ _ _ H) as [H1 H2].
    destruct (kcmp (r_key r) k) eqn:E.
    + unfold sorted_keys in *; cbn [fst map] in *; assumption.
    + unfold sorted_keys in *; cbn [fst map] in *. constructor; [assumption|].
      constructor; [exact E|]. rewrite Forall_forall; intros x Hx.
      apply klt_trans with k; [exact E|apply H2, Hx].
    + specialize (IH H1). destruct (key_push r l) as [t b] eqn:Ek.
      unfold sorted_keys in *; cbn [fst map] in *. constructor; [assumption|].
      rewrite Forall_forall; intros x Hx.
      assert (Hx' : x = r_key r \/ In x (map fst l)).
      { rewrite <- key_push_fst. rewrite Ek. exact Hx. }
      destruct Hx' as [->|Hx']; [apply kcmp_gt, E|apply H2, Hx'].
Qed.

Lemma key_push_lookup : forall r l k, sorted_keys l ->
  lookup k (fst (key_push r l)) = if keqb (r_key r) k then lookup k l ++ [r] else lookup k l.
Proof.
  intros r l; induction l as [|[k' rs] l IH]; intros k H; cbn [key_push].
  - cbn [fst]. rewrite lookup_cons. destruct (keqb (r_key r) k); reflexivity.
  - destruct (sorted_keys_cons _ _ _ H) as [H1 H2].
    destruct (kcmp (r_key r) k') eqn:E.
    + apply kcmp_eq in E. cbn [fst]. rewrite !lookup_cons. rewrite E.
      destruct (keqb k' k); reflexivity.
    + cbn [fst]. rewrite lookup_cons.
      destruct (keqb (r_key r) k) eqn:E2; [|reflexivity].
      apply keqb_true in E2; subst k. symmetry. rewrite lookup_absent; [reflexivity|].
      cbn [map fst In]. intros [Heq|Hin].
      * rewrite Heq in E. exact (klt_irrefl _ E).
      * exact (klt_irrefl _ (klt_trans _ _ _ (E : klt _ _) (H2 _ Hin))).
    + specialize (IH k H1). destruct (key_push r l) as [t b]. cbn [fst] in *.
      rewrite !lookup_cons, IH. destruct (keqb k' k) eqn:E1; [|reflexivity].
      destruct (keqb (r_key r) k) eqn:E2; [|reflexivity].
      apply keqb_true in E1, E2. subst k. subst k'. rewrite kcmp_refl in E; discriminate.
Qed.

(** A node is created exactly when the key was absent. *)
Lemma key_push_created : forall r l, sorted_keys l ->
  snd (key_push r l) = negb (existsb (keqb (r_key r)) (map fst l)).
Proof.
  intros r l; induction l as [|[k rs] l IH]; intros H; cbn [key_push]; [reflexivity|].
  destruct (sorted_keys_cons _ _ _ H) as [H1 H2]. cbn [map fst existsb].
  destruct (kcmp (r_key r) k) eqn:E.
  - apply kcmp_eq in E. rewrite E, keqb_refl. reflexivity.
  - unfold keqb at 1; rewrite E; cbn [snd orb].
    destruct (existsb (keqb (r_key r)) (map fst l)) eqn:E2; [|reflexivity].
    apply existsb_exists in E2; destruct E2 as (x & Hx & Ex); apply keqb_true in Ex.
    exfalso; apply (klt_irrefl x). rewrite <- Ex at 1. apply klt_trans with k; [exact E|auto].
  - unfold keqb at 1; rewrite E; cbn [orb]. rewrite <- (IH H1).
    destruct (key_push r l); reflexivity.
Qed.

(** * The sequence index *)

Lemma seq_insert_in : forall r l x, In x (seq_insert r l) <-> x = r \/ In x l.
Proof.
  intros r l x; induction l as [|y l IH]; cbn [seq_insert].
  - cbn [In]; intuition congruence.
  - destruct (r_seq y <? r_seq r); cbn [In]; [rewrite IH|]; intuition congruence.
Qed.

Lemma seq_insert_sorted : forall r l, sorted_seq l -> (forall x, In x l -> r_seq x <> r_seq r) ->
  sorted_seq (seq_insert r l).
Proof.
  unfold sorted_seq; intros r l; induction l as [|y l IH]; intros H Hn; cbn [seq_insert].
  - repeat constructor.
  - cbn [map] in H; apply StronglySorted_inv in H; destruct H as [H1 H2].
    assert (Hy : r_seq y <> r_seq r) by (apply Hn; left; reflexivity).
    destruct (r_seq y <? r_seq r) eqn:E.
    + cbn [map]; constructor; [apply IH; [assumption|intros x Hx; apply Hn; right; assumption]|].
      rewrite Forall_forall in *; intros x Hx; apply in_map_iff in Hx; destruct Hx as (z & <- & Hz).
      apply seq_insert_in in Hz; destruct Hz as [->|Hz]; [lia|]. apply H2, in_map, Hz.
    + cbn [map]; constructor; [constructor; assumption|].
      constructor; [lia|]. rewrite Forall_forall in *; intros x Hx; specialize (H2 x Hx); lia.
Qed.

Lemma sorted_seq_inj : forall l x y, sorted_seq l -> In x l -> In y l -> r_seq x = r_seq y -> x = y.
Proof.
  unfold sorted_seq; intros l; induction l as [|a l IH]; intros x y H Hx Hy E; [destruct Hx|].
  cbn [map] in H; apply StronglySorted_inv in H; destruct H as [H1 H2]; rewrite Forall_forall in H2.
  destruct Hx as [->|Hx], Hy as [->|Hy]; [reflexivity| | |apply IH; assumption].
  - specialize (H2 _ (in_map r_seq _ _ Hy)); lia.
  - specialize (H2 _ (in_map r_seq _ _ Hx)); lia.
Qed.

Lemma seq_find_in : forall s l r, seq_find s l = Some r -> In r l /\ r_seq r = s.
Proof. unfold seq_find; intros s l r H; apply find_some in H; destruct H as [H1 H2]; split; [assumption|lia]. Qed.
Lemma seq_find_none : forall s l, seq_find s l = None <-> (forall x, In x l -> r_seq x <> s).
Proof.
  unfold seq_find; intros s l; split.
  - intros H x Hx. assert (H' := find_none _ _ H x Hx); cbn in H'; lia.
  - intros H; destruct (find _ l) as [r|] eqn:E; [|reflexivity].
    apply find_some in E; destruct E as [E1 E2]; specialize (H _ E1); lia.
Qed.
Lemma seq_find_some : forall l r, sorted_seq l -> In r l -> seq_find (r_seq r) l = Some r.
Proof.
  intros l r H Hr. destruct (seq_find (r_seq r) l) as [x|] eqn:E.
  - apply seq_find_in in E; destruct E as [E1 E2]. f_equal; apply (sorted_seq_inj l); assumption.
  - rewrite seq_find_none in E; specialize (E _ Hr); congruence.
Qed.

Lemma seq_replace_map : forall r l, (exists x, In x l /\ r_seq x = r_seq r) ->
  map r_seq (seq_replace r l) = map r_seq l.
Proof.
  intros r l; induction l as [|y l IH]; intros (x & Hx & E); [destruct Hx|]; cbn [seq_replace].
  destruct (r_seq y =? r_seq r) eqn:Ey; cbn [map]; [f_equal; lia|].
  f_equal; apply IH. destruct Hx as [->|Hx]; [lia|exists x; auto].
Qed.
Lemma seq_replace_in : forall r l x, sorted_seq l -> In x (seq_replace r l) ->
  x = r \/ (In x l /\ r_seq x <> r_seq r).
Proof.
  intros r l; induction l as [|y l IH]; intros x H Hx; cbn [seq_replace] in Hx; [destruct Hx|].
  assert (H' := H). unfold sorted_seq in H'; cbn [map] in H'; apply StronglySorted_inv in H'.
  destruct H' as [H1 H2]; rewrite Forall_forall in H2.
  destruct (r_seq y =? r_seq r) eqn:Ey.
  - destruct Hx as [<-|Hx]; [left; reflexivity|right]. split; [right; assumption|].
    specialize (H2 _ (in_map r_seq _ _ Hx)); lia.
  - destruct Hx as [<-|Hx]; [right; split; [left; reflexivity|lia]|].
    destruct (IH x H1 Hx) as [->|[Ha Hb]]; [left; reflexivity|right; split; [right; assumption|assumption]].
Qed.
Lemma seq_replace_has : forall r l, (exists x, In x l /\ r_seq x = r_seq r) -> In r (seq_replace r l).
Proof.
  intros r l; induction l as [|y l IH]; intros (x & Hx & E); [destruct Hx|]; cbn [seq_replace].
  destruct (r_seq y =? r_seq r) eqn:Ey; [left; reflexivity|right].
  apply IH; destruct Hx as [->|Hx]; [lia|exists x; auto].
Qed.
Lemma seq_replace_keeps : forall r l x, In x l -> r_seq x <> r_seq r -> In x (seq_replace r l).
Proof.
  intros r l x; induction l as [|y l IH]; intros Hx E; [destruct Hx|]; cbn [seq_replace].
  destruct (r_seq y =? r_seq r) eqn:Ey.
  - destruct Hx as [->|Hx]; [lia|right; assumption].
  - destruct Hx as [->|Hx]; [left; reflexivity|right; apply IH; assumption].
Qed.

Lemma sorted_seq_ext : forall l l', map r_seq l = map r_seq l' -> sorted_seq l -> sorted_seq l'.
Proof. unfold sorted_seq; intros l l' E H; rewrite <- E; exact H. Qed.

(** Adding to the sequence index: sorted again, and exactly the new record is found at its number. *)
Lemma add_seq_spec : forall r max l, sorted_seq l -> (forall x, In x l -> r_seq x <= max) ->
  r_seq r < NIL ->
  sorted_seq (add_seq r max l) /\
  (forall x, In x (add_seq r max l) <-> x = r \/ (In x l /\ r_seq x <> r_seq r)).
Proof.
  intros r max l Hs Hm Hv. unfold add_seq.
  assert (Hins : (forall x, In x l -> r_seq x <> r_seq r) ->
    sorted_seq (seq_insert r l) /\
    (forall x, In x (seq_insert r l) <-> x = r \/ (In x l /\ r_seq x <> r_seq r))).
  { intros Hn; split; [apply seq_insert_sorted; assumption|].
    intros x; rewrite seq_insert_in; split; [|tauto].
    intros [->|Hx]; [tauto|right; auto]. }
  assert (Hnil : negb (r_seq r =? NIL) = true) by (apply negb_true_iff; lia).
  rewrite Hnil; cbn [andb].
  destruct (r_seq r <=? max) eqn:Em.
  - destruct (seq_find (r_seq r) l) as [y|] eqn:Ef; [|apply Hins; rewrite <- seq_find_none; exact Ef].
    apply seq_find_in in Ef.
    assert (Hex : exists x, In x l /\ r_seq x = r_seq r) by (exists y; exact Ef).
    split; [apply (sorted_seq_ext l); [symmetry; apply seq_replace_map|]; assumption|].
    intros x; split; [apply seq_replace_in; assumption|].
    intros [->|[Ha Hb]]; [apply seq_replace_has; assumption|apply seq_replace_keeps; assumption].
  - apply Hins; intros x Hx; specialize (Hm x Hx); lia.
Qed.

(** Appending a larger number keeps the list in write order. *)
Lemma seq_insert_app : forall r l, (forall x, In x l -> r_seq x < r_seq r) -> seq_insert r l = l ++ [r].
Proof.
  intros r l; induction l as [|y l IH]; intros H; [reflexivity|]; cbn [seq_insert app].
  assert (Hy := H y (or_introl eq_refl)). destruct (r_seq y <? r_seq r) eqn:E; [|lia].
  f_equal; apply IH; intros x Hx; apply H; right; assumption.
Qed.
Lemma add_seq_app : forall r max l, (forall x, In x l -> r_seq x < r_seq r) -> add_seq r max l = l ++ [r].
Proof.
  intros r max l H. unfold add_seq.
  assert (E : seq_find (r_seq r) l = None) by (apply seq_find_none; intros x Hx; specialize (H x Hx); lia).
  rewrite E. rewrite seq_insert_app by assumption. destruct (_ && _); reflexivity.
Qed.

(** * Abstract contents *)

(** Writes of a key that the key index must know, in write order. *)
Definition for_key (k : key) (h : list rec) : list rec :=
  filter (fun r => keqb (r_key r) k && negb (is_cmd r)) h.

Lemma for_key_app : forall k h1 h2, for_key k (h1 ++ h2) = for_key k h1 ++ for_key k h2.
Proof. intros; apply filter_app. Qed.

Section Proofs.
Variable hash : key -> N * N.

(** Every bit of a hash pair is set. *)
Definition bf_has (b : bloom) (hp : N * N) : Prop :=
  forall i, i < bl_count b -> bm_get (bl_map b) (gen_hash i hp mod bm_bits (bl_map b)) = Some true.

Lemma bf_has_check : forall b hp, wf_bl b -> bf_has b hp -> bl_check hp b = Some true.
Proof.
  intros b hp [_ Hp] H. unfold bl_check. apply bl_check_loop_true; [exact Hp|].
  intros k _ Hk. apply H. lia.
Qed.
Lemma bf_set_spec : forall b hp, wf_bl b ->
  exists b', bl_set hp b = Some b' /\ wf_bl b' /\ bf_has b' hp /\ (forall hp', bf_has b hp' -> bf_has b' hp').
Proof.
  intros b hp Hw. destruct (bl_set_loop_spec (N.to_nat (bl_count b)) 0 hp b Hw) as (b' & E & W & G & H).
  exists b'. split; [exact E|]. split; [exact W|]. destruct G as (G1 & G2 & G3 & G4). split.
  - intros i Hi. rewrite G2. apply H; lia.
  - intros hp' Hh i Hi. rewrite G2. apply G4; [apply N.mod_lt; destruct Hw as [_ Hp]; lia|].
    apply Hh; lia.
Qed.

(** [MR h m]: the memtable [m] holds the writes [h] (in write order). *)
Record MR (h : list rec) (m : mt) : Prop := {
  mr_ksort : sorted_keys (m_key m);
  mr_key : forall k, lookup k (m_key m) = for_key k h;
  mr_ssort : sorted_seq (m_seq m);
  mr_seq : forall s, seq_find s (m_seq m) = find (fun r => r_seq r =? s) (rev h);
  mr_bnd : forall r, In r h -> r_seq r <= m_max m /\ r_seq r < NIL;
  mr_wf : wf_bl (m_bf m);
  mr_bf : forall k, In k (map fst (m_key m)) -> bf_has (m_bf m) (hash k);
  mr_ne : forall n, In n (m_key m) -> snd n <> []
}.

Lemma mr_seq_in : forall h m x, MR h m -> In x (m_seq m) -> In x h.
Proof.
  intros h m x H Hx. assert (E := seq_find_some _ _ (mr_ssort _ _ H) Hx).
  rewrite (mr_seq _ _ H) in E. apply find_some in E. apply in_rev, E.
Qed.

Lemma mr_init : forall nbits start, 0 < nbits -> MR [] (mt_init nbits start).
Proof.
  intros nbits start H; constructor; cbn; try (constructor; fail); try (intros; reflexivity); try (intros ? []).
  apply bl_create_wf; exact H.
Qed.

(** Only the contents and the upper bound matter. *)
Lemma mr_marks : forall h m m', MR h m ->
  m_key m' = m_key m -> m_seq m' = m_seq m -> m_bf m' = m_bf m -> m_max m <= m_max m' -> MR h m'.
Proof.
  intros h m m' [A B C D E F I J] Hk Hs Hb Hm. constructor; rewrite ?Hk, ?Hs, ?Hb; auto.
  intros r Hr; specialize (E r Hr); lia.
Qed.

Lemma add_key_spec : forall r l bf, sorted_keys l -> wf_bl bf ->
  (forall k, In k (map fst l) -> bf_has bf (hash k)) ->
  exists l' bf', add_key hash r l bf = Ok (l', bf') /\ l' = fst (key_push r l) /\ wf_bl bf' /\
    (forall k, In k (map fst l') -> bf_has bf' (hash k)).
Proof.
  intros r l bf Hs Hw Hb. unfold add_key.
  assert (Hc := key_push_created r l Hs). assert (Hf := key_push_fst r l).
  destruct (key_push r l) as [l' c] eqn:E. cbn [fst snd] in *. destruct c.
  - destruct (bf_set_spec bf (hash (r_key r)) Hw) as (bf' & E1 & W & H1 & H2). rewrite E1.
    exists l', bf'. repeat (split; [solve [auto]|]). intros k Hk; apply Hf in Hk.
    destruct Hk as [->|Hk]; auto.
  - exists l', bf. repeat (split; [solve [auto]|]). intros k Hk; apply Hf in Hk.
    destruct Hk as [->|Hk]; [|auto]. apply Hb.
    symmetry in Hc; apply negb_false_iff in Hc; apply existsb_exists in Hc.
    destruct Hc as (x & Hx & Ex); apply keqb_true in Ex; subst; exact Hx.
Qed.

Lemma with_seq_eta : forall r, with_seq r (r_seq r) = r.
Proof. intros []; reflexivity. Qed.

(** Content effect of adding one record with number [r_seq r], common to writes and loading. *)
Lemma mr_add : forall h m r key' bf', MR h m -> r_seq r < NIL ->
  (if is_cmd r then key' = m_key m /\ bf' = m_bf m else add_key hash r (m_key m) (m_bf m) = Ok (key', bf')) ->
  forall m', m_key m' = key' -> m_bf m' = bf' -> m_seq m' = add_seq r (m_max m) (m_seq m) ->
  m_max m <= m_max m' \/ h = [] -> r_seq r <= m_max m' ->
  MR (h ++ [r]) m'.
Proof.
  intros h m r key' bf' H Hv Hk m' Ek Eb Es Hm Hr.
  assert (Hb : forall x, In x (m_seq m) -> r_seq x <= m_max m).
  { intros x Hx; apply (mr_bnd _ _ H), (mr_seq_in _ _ _ H Hx). }
  destruct (add_seq_spec r (m_max m) (m_seq m) (mr_ssort _ _ H) Hb Hv) as [Hs Hin].
  assert (HK : sorted_keys key' /\ (forall k, lookup k key' = for_key k (h ++ [r])) /\ wf_bl bf' /\
               (forall k, In k (map fst key') -> bf_has bf' (hash k)) /\ forall n, In n key' -> snd n <> []).
  { assert (Hfk : forall k, for_key k (h ++ [r]) = for_key k h ++ (if keqb (r_key r) k && negb (is_cmd r) then [r] else [])).
    { intros k. rewrite for_key_app. f_equal. }
    destruct (is_cmd r) eqn:Ec.
    - destruct Hk as [-> ->]. split; [apply (mr_ksort _ _ H)|]. split; [|split; [apply (mr_wf _ _ H)|split; [apply (mr_bf _ _ H)|apply (mr_ne _ _ H)]]].
      intros k; rewrite Hfk, andb_false_r, app_nil_r. apply (mr_key _ _ H).
    - destruct (add_key_spec r _ _ (mr_ksort _ _ H) (mr_wf _ _ H) (mr_bf _ _ H)) as (l' & b2 & E & El & W & Hh).
      rewrite E in Hk. assert (Q1 : l' = key') by congruence. assert (Q2 : b2 = bf') by congruence. rewrite <- Q1, <- Q2. clear Q1 Q2 Ek Eb.
      split; [rewrite El; apply key_push_sorted, (mr_ksort _ _ H)|]. split; [|split; [assumption|split; [assumption|rewrite El; apply key_push_ne, (mr_ne _ _ H)]]].
      intros k; rewrite Hfk, El, key_push_lookup by apply (mr_ksort _ _ H).
      cbn [negb]; rewrite andb_true_r, (mr_key _ _ H).
      destruct (keqb (r_key r) k); [reflexivity|rewrite app_nil_r; reflexivity]. }
  destruct HK as (K1 & K2 & K3 & K4 & K5).
  constructor; rewrite ?Ek, ?Eb, ?Es; auto.
  - intros s. rewrite rev_app_distr; cbn [rev app find].
    destruct (r_seq r =? s) eqn:E.
    + apply N.eqb_eq in E; subst s. apply seq_find_some; [assumption|]. apply Hin; left; reflexivity.
    + rewrite <- (mr_seq _ _ H).
      destruct (seq_find s (m_seq m)) as [x|] eqn:Ef.
      * apply seq_find_in in Ef; destruct Ef as [E1 E2]; subst s.
        apply seq_find_some; [assumption|]. apply Hin; right; split; [assumption|lia].
      * rewrite seq_find_none in *. intros x Hx; apply Hin in Hx; destruct Hx as [->|[Hx _]]; [lia|auto].
  - intros x Hx; apply in_app_or in Hx; destruct Hx as [Hx|[<-|[]]]; [|auto].
    assert (B := mr_bnd _ _ H x Hx). destruct Hm as [Hm| ->]; [lia|destruct Hx].
Qed.


(** * Reads *)

(** A record is visible at [chk]: written with a number up to it, or [chk] is no number. *)
Definition visible (chk : N) (r : rec) : bool := negb (valid_number chk) || (r_seq r <=? chk).

(** The newest write of a key visible at [chk]: last in write order. *)
Definition newest (h : list rec) (chk : N) (k : key) : option rec := find (visible chk) (rev (for_key k h)).

Lemma nil_invalid : valid_number NIL = false.
Proof. reflexivity. Qed.

Lemma latest_rec_newest : forall h chk k, latest_rec NIL chk (for_key k h) = newest h chk k.
Proof.
  intros h chk k. unfold latest_rec, newest, visible. rewrite nil_invalid.
  destruct (find _ _); reflexivity.
Qed.

Lemma newest_in : forall h chk k r, newest h chk k = Some r ->
  In r h /\ r_key r = k /\ is_cmd r = false /\ visible chk r = true.
Proof.
  intros h chk k r H; apply find_some in H; destruct H as [H V]. apply in_rev in H.
  apply filter_In in H; destruct H as [H1 H2]; apply andb_true_iff in H2; destruct H2 as [H2 H3].
  apply keqb_true in H2; apply negb_true_iff in H3. auto.
Qed.

Lemma find_node : forall k l, (exists n, find (fun n => keqb (fst n) k) l = Some n /\ lookup k l = snd n) \/
  (find (fun n => keqb (fst n) k) l = None /\ lookup k l = [] /\ ~ In k (map fst l)).
Proof.
  intros k l; unfold lookup; destruct (find _ l) as [n|] eqn:E; [left; exists n; auto|right].
  repeat (split; [reflexivity|]). intros H; apply in_map_iff in H; destruct H as (n & <- & Hn).
  assert (H := find_none _ _ E n Hn); cbn in H; rewrite keqb_refl in H; discriminate.
Qed.

(** What a point read answers, given the newest visible write. *)
Definition answer (flushed : N) (allow_flushed allow_tombstone : bool) (o : option rec) : res rec :=
  match o with
  | None => Fail KEY_NOT_FOUND
  | Some r =>
      if valid_number flushed && (r_seq r <=? flushed) && negb allow_flushed then Fail KEY_NOT_FOUND
      else if negb allow_tombstone && is_del r then Fail KEY_NOT_FOUND
      else Ok r
  end.

Lemma mt_get_spec : forall h m chk k af at_, MR h m ->
  mt_get hash chk k af at_ m = answer (m_flushed m) af at_ (newest h chk k).
Proof.
  intros h m chk k af at_ H. unfold mt_get, mt_search.
  assert (Hl := mr_key _ _ H k). cbn [seek_node].
  destruct (find_node k (m_key m)) as [(n & En & El)|(En & El & Hno)].
  - assert (Hin : In k (map fst (m_key m))).
    { apply find_some in En; destruct En as [E1 E2]; apply keqb_true in E2; subst k; apply in_map; exact E1. }
    rewrite (bf_has_check _ _ (mr_wf _ _ H) (mr_bf _ _ H k Hin)), En.
    rewrite <- El, Hl, latest_rec_newest. reflexivity.
  - assert (Hn : newest h chk k = None) by (unfold newest; rewrite <- Hl, El; reflexivity).
    rewrite Hn, En. cbn [answer].
    assert (Hc : exists b, bl_check (hash k) (m_bf m) = Some b).
    { destruct (mr_wf _ _ H) as [W P]. unfold bl_check.
      assert (Hg : forall n ii, exists b, bl_check_loop n ii (hash k) (m_bf m) = Some b).
      { induction n as [|n IH]; intros ii; cbn [bl_check_loop]; [eauto|]. unfold bl_index.
        destruct (bm_bits (bl_map (m_bf m)) =? 0) eqn:E0; [lia|].
        destruct (bm_get_some (bl_map (m_bf m)) (gen_hash ii (hash k) mod bm_bits (bl_map (m_bf m))) W) as [v Ev];
          [apply N.mod_lt; lia|].
        rewrite Ev; destruct v; eauto. }
      apply Hg. }
    destruct Hc as [[|] ->]; reflexivity.
Qed.

Lemma mt_get_seq_spec : forall h m s, MR h m ->
  mt_get_seq s m = if valid_number (m_flushed m) && (s <=? m_flushed m) then Fail ALREADY_PURGED
                   else match find (fun r => r_seq r =? s) (rev h) with
                        | Some r => Ok r
                        | None => Fail SEQNUM_NOT_FOUND
                        end.
Proof.
  intros h m s H. unfold mt_get_seq. rewrite (mr_seq _ _ H).
  unfold valid_number. destruct (_ && _); [reflexivity|]. destruct (find _ _); reflexivity.
Qed.

(** * Writes without overwriting *)

(** The stored form of a write: deletions drop the value. *)
Definition stored (r : rec) (s : N) : rec := with_seq (if is_del r then clear_val r else r) s.

(** [MW h m]: [m] received exactly the writes [h], numbers going up. *)
Record MW (h : list rec) (m : mt) : Prop := {
  mw_mr : MR h m;
  mw_seq : m_seq m = h;
  mw_asc : sorted_seq h;
  mw_alloc : m_alloc m = m_max m;
  mw_min : forall r, In r h -> m_min m <= r_seq r;
  mw_lim : m_max m <= NIL /\ m_min m <= NIL;
  mw_mm : m_max m <> NIL -> m_min m <= m_max m;
  mw_emp : m_max m = NIL -> h = []
}.

Lemma mw_init : forall nbits start, 0 < nbits -> MW [] (mt_init nbits start).
Proof.
  intros nbits start H; constructor; [apply mr_init; exact H|reflexivity|constructor|reflexivity|intros r []|..].
  - cbn; lia.
  - cbn; congruence.
  - reflexivity.
Qed.

Lemma nil_val : NIL = 18446744073709551615.
Proof. reflexivity. Qed.

Lemma is_cmd_stored : forall r s, is_cmd (stored r s) = is_cmd r.
Proof. intros [q t k me v] s; unfold stored, is_del, is_cmd, with_seq, clear_val; cbn. destruct (t =? DEL); reflexivity. Qed.
Lemma r_key_stored : forall r s, r_key (stored r s) = r_key r.
Proof. intros [q t k me v] s; unfold stored, is_del, with_seq, clear_val; cbn. destruct (t =? DEL); reflexivity. Qed.
Lemma r_seq_stored : forall r s, r_seq (stored r s) = s.
Proof. intros [q t k me v] s; unfold stored, is_del, with_seq, clear_val; cbn. destruct (t =? DEL); reflexivity. Qed.
Lemma r_type_stored : forall r s, r_type (stored r s) = r_type r.
Proof. intros [q t k me v] s; unfold stored, is_del, with_seq, clear_val; cbn. destruct (t =? DEL); reflexivity. Qed.

(** The number a write gets: [None] = rejected. *)
Definition next_seq (s : N) (m : mt) : option N :=
  if s =? NIL then
    (if m_max m =? NIL then Some (if m_start m =? 0 then 1 else m_start m) else Some (m_max m + 1))
  else if negb (m_max m =? NIL) && (s <=? m_max m) then None
  else if negb (m_min m =? NIL) && (s <? m_min m) then None
  else Some s.

Lemma assign_seq_spec : forall h m s, MW h m -> m_start m < NIL -> (m_max m = NIL \/ m_max m + 1 < NIL) -> s <= NIL ->
  assign_seq false s m =
    match next_seq s m with
    | None => Fail INVALID_SEQNUM
    | Some s' => Ok (s', s', if m_max m =? NIL then s' else m_min m)
    end.
Proof.
  intros h m s H Hst Hmx Hs. unfold assign_seq, next_seq. rewrite (mw_alloc _ _ H).
  destruct (s =? NIL) eqn:E1.
  - destruct (m_max m =? NIL) eqn:E2; [reflexivity|].
    rewrite N.mod_small by (rewrite nil_val in *; change (2 ^ 64) with 18446744073709551616; lia). reflexivity.
  - rewrite andb_true_r. destruct (_ && _); [reflexivity|]. destruct (_ && _); reflexivity.
Qed.

Lemma mt_put_spec : forall h m r0, MW h m -> m_start m < NIL -> (m_max m = NIL \/ m_max m + 1 < NIL) ->
  r_seq r0 <= NIL ->
  match next_seq (r_seq r0) m with
  | None => mt_put hash false r0 m = Fail INVALID_SEQNUM
  | Some s =>
      exists m', mt_put hash false r0 m = Ok (stored r0 s, m') /\ MW (h ++ [stored r0 s]) m' /\
        m_max m' = s /\ m_min m' = (if m_max m =? NIL then s else m_min m) /\ s < NIL /\
        m_start m' = m_start m /\ m_flushed m' = m_flushed m /\ m_synced m' = m_synced m /\ m_chks m' = m_chks m
  end.
Proof.
  intros h m r0 H Hst Hmx Hs.
  assert (Hq : r_seq (if is_del r0 then clear_val r0 else r0) = r_seq r0) by (destruct (is_del r0); reflexivity).
  unfold mt_put. rewrite Hq, (assign_seq_spec h) by assumption.
  destruct (next_seq (r_seq r0) m) as [s|] eqn:En; [|reflexivity].
  assert (Hemp := mw_emp _ _ H).
  assert (Hlim := mw_lim _ _ H).
  assert (Hgt : s < NIL /\ (m_max m <> NIL -> m_max m < s)).
  { unfold next_seq in En.
    destruct (r_seq r0 =? NIL) eqn:E1.
    - destruct (m_max m =? NIL) eqn:E2; injection En as <-.
      + split; [destruct (m_start m =? 0); [rewrite nil_val; lia|assumption]|lia].
      + lia.
    - destruct (negb (m_max m =? NIL) && (r_seq r0 <=? m_max m)) eqn:E2; [discriminate|].
      destruct (negb (m_min m =? NIL) && _); [discriminate|]. injection En as <-.
      split; [lia|]. intros Hm. destruct (m_max m =? NIL) eqn:E3; [lia|]. cbn [negb andb] in E2. lia. }
  destruct Hgt as [Hlt Hgt].
  assert (Hmn : m_max m <> NIL -> r_seq r0 <> NIL -> m_min m <> NIL -> m_min m <= s).
  { intros A B C. unfold next_seq in En. destruct (r_seq r0 =? NIL) eqn:E1; [lia|].
    destruct (negb (m_max m =? NIL) && (r_seq r0 <=? m_max m)) eqn:E2; [discriminate|].
    destruct (negb (m_min m =? NIL) && (r_seq r0 <? m_min m)) eqn:E3; [discriminate|]. injection En as <-.
    destruct (m_min m =? NIL) eqn:E4; [lia|]. cbn [negb andb] in E3. lia. }
  fold (stored r0 s). set (r := stored r0 s).
  assert (Hrs : r_seq r = s) by apply r_seq_stored.
  assert (Hlast : forall x, In x h -> r_seq x < s).
  { intros x Hx. assert (B := mr_bnd _ _ (mw_mr _ _ H) x Hx).
    destruct (N.eq_dec (m_max m) NIL) as [e|n]; [rewrite (Hemp e) in Hx; destruct Hx|]. specialize (Hgt n); lia. }
  assert (Hum : upd_max s (m_max m) = s).
  { unfold upd_max. destruct (m_max m =? NIL) eqn:E; [rewrite orb_true_r; reflexivity|].
    assert (m_max m < s) by (apply Hgt; lia). destruct (m_max m <? s) eqn:E2; [reflexivity|lia]. }
  assert (Hsq : add_seq r (m_max m) (m_seq m) = h ++ [r]).
  { rewrite (mw_seq _ _ H). apply add_seq_app. intros x Hx; rewrite Hrs; auto. }
  assert (Hall : forall key' bf',
    (if is_cmd r then key' = m_key m /\ bf' = m_bf m else add_key hash r (m_key m) (m_bf m) = Ok (key', bf')) ->
    let m' := mkMt (m_start m) (if m_max m =? NIL then s else m_min m) (m_flushed m) (m_synced m)
                   (upd_max s (m_max m)) s (add_seq r (m_max m) (m_seq m)) key' (m_chks m) bf' in
    MW (h ++ [r]) m' /\ m_max m' = s /\ m_min m' = (if m_max m =? NIL then s else m_min m) /\ s < NIL /\
    m_start m' = m_start m /\ m_flushed m' = m_flushed m /\ m_synced m' = m_synced m /\ m_chks m' = m_chks m).
  { intros key' bf' Hk m'. split; [|cbn [m' m_max m_min m_start m_flushed m_synced m_chks]; rewrite ?Hum; auto 10].
    constructor.
    - apply (mr_add h m r key' bf' (mw_mr _ _ H)); [lia|assumption|reflexivity|reflexivity|reflexivity| |].
      + cbn [m' m_max]. rewrite Hum. destruct (N.eq_dec (m_max m) NIL) as [e|n]; [right; apply Hemp, e|left; specialize (Hgt n); lia].
      + cbn [m' m_max]. rewrite Hum; lia.
    - cbn [m' m_seq]; exact Hsq.
    - unfold sorted_seq in *. rewrite map_app. apply SS_app; [apply (mw_asc _ _ H)|repeat constructor|].
      cbn [map In]. intros x y Hx [<-|[]]. apply in_map_iff in Hx; destruct Hx as (z & <- & Hz).
      rewrite Hrs; auto.
    - cbn [m' m_alloc m_max]; rewrite Hum; reflexivity.
    - cbn [m' m_min]. intros x Hx; apply in_app_or in Hx.
      destruct (m_max m =? NIL) eqn:E.
      + assert (h = []) by (apply Hemp; lia). subst h. destruct Hx as [[]|[<-|[]]]; lia.
      + destruct Hx as [Hx|[<-|[]]]; [apply (mw_min _ _ H), Hx|]. rewrite Hrs.
        assert (A := mw_mm _ _ H). assert (B := Hgt). lia.
    - cbn [m' m_max m_min]. rewrite Hum. destruct (m_max m =? NIL); lia.
    - cbn [m' m_max m_min]. rewrite Hum. intros _. destruct (m_max m =? NIL) eqn:E; [lia|].
      assert (A := mw_mm _ _ H). assert (B := Hgt). lia.
    - cbn [m' m_max]; rewrite Hum; lia. }
  destruct (is_cmd r) eqn:Ec.
  - eexists; split; [reflexivity|]. apply Hall; auto.
  - destruct (add_key_spec r _ _ (mr_ksort _ _ (mw_mr _ _ H)) (mr_wf _ _ (mw_mr _ _ H)) (mr_bf _ _ (mw_mr _ _ H)))
      as (l' & b2 & E & _). rewrite E.
    eexists; split; [reflexivity|]. apply Hall; exact E.
Qed.

(** * Marks *)

Lemma mw_set_marks : forall h m f s, MW h m -> MW h (set_marks f s m).
Proof.
  intros h m f s [A B C D E F G I]. constructor; cbn [set_marks m_seq m_alloc m_max m_min]; auto.
  apply (mr_marks h m); auto. cbn; lia.
Qed.

Lemma mw_set_synced : forall h m s, MW h m -> MW h (lf_set_synced s m).
Proof. intros h m s H; unfold lf_set_synced; destruct (negb _); [assumption|apply mw_set_marks; assumption]. Qed.
Lemma mw_set_flushed : forall h m s, MW h m -> MW h (lf_set_flushed s m).
Proof. intros h m s H; unfold lf_set_flushed; destruct (negb _); [assumption|apply mw_set_marks; assumption]. Qed.

Lemma mw_checkpoint : forall h m o, MW h m -> MW h (snd (mt_checkpoint o m)).
Proof.
  intros h m o [A B C D E F G I]; unfold mt_checkpoint. destruct (negb _); [constructor; auto|].
  assert (X : forall c, MW h (mkMt (m_start m) (m_min m) (m_flushed m) (m_synced m) (m_max m) (m_alloc m)
                      (m_seq m) (m_key m) c (m_bf m))).
  { intros c; constructor; cbn; auto. apply (mr_marks h m); auto. cbn; lia. }
  destruct (rev (m_chks m)) as [|c cs]; [apply X|]. destruct (c =? m_max m); [constructor; auto|apply X].
Qed.

(** * What a flush takes *)

Lemma take_upto_filter : forall u l, sorted_seq l -> take_upto u l = filter (fun x => r_seq x <=? u) l.
Proof.
  unfold sorted_seq; intros u l; induction l as [|a l IH]; intros H; [reflexivity|].
  cbn [map] in H; apply StronglySorted_inv in H; destruct H as [H1 H2]. cbn [take_upto filter].
  destruct (u <? r_seq a) eqn:E.
  - destruct (r_seq a <=? u) eqn:E2; [lia|]. rewrite Forall_forall in H2. symmetry.
    assert (Hn : forall x, In x l -> (r_seq x <=? u) = false).
    { intros x Hx; specialize (H2 _ (in_map r_seq _ _ Hx)). lia. }
    clear -Hn. induction l as [|b l IH]; [reflexivity|]. cbn [filter]. rewrite (Hn b (or_introl eq_refl)).
    apply IH; intros x Hx; apply Hn; right; assumption.
  - destruct (r_seq a <=? u) eqn:E2; [|lia]. f_equal; apply IH; assumption.
Qed.
Lemma drop_while_filter : forall i l, sorted_seq l ->
  drop_while (fun x => r_seq x <? i) l = filter (fun x => i <=? r_seq x) l.
Proof.
  unfold sorted_seq; intros i l; induction l as [|a l IH]; intros H; [reflexivity|].
  cbn [map] in H; apply StronglySorted_inv in H; destruct H as [H1 H2]. cbn [drop_while filter].
  destruct (r_seq a <? i) eqn:E.
  - destruct (i <=? r_seq a) eqn:E2; [lia|]. apply IH; assumption.
  - destruct (i <=? r_seq a) eqn:E2; [|lia]. f_equal. rewrite Forall_forall in H2. symmetry.
    assert (Hn : forall x, In x l -> (i <=? r_seq x) = true).
    { intros x Hx; specialize (H2 _ (in_map r_seq _ _ Hx)). lia. }
    clear -Hn. induction l as [|b l IH]; [reflexivity|]. cbn [filter]. rewrite (Hn b (or_introl eq_refl)).
    f_equal; apply IH; intros x Hx; apply Hn; right; assumption.
Qed.
Lemma filter_filter : forall {A} (p q : A -> bool) l, filter p (filter q l) = filter (fun x => q x && p x) l.
Proof.
  intros A p q l; induction l as [|a l IH]; [reflexivity|]; cbn [filter].
  destruct (q a); cbn [filter andb]; [|assumption]. destruct (p a); [f_equal|]; assumption.
Qed.
Lemma pop_dups_none : forall ii l, (forall x, In x l -> r_seq x < ii) -> pop_dups ii l = l.
Proof.
  intros ii [|a l] H; [reflexivity|]. cbn [pop_dups]. specialize (H a (or_introl eq_refl)).
  destruct (ii <=? r_seq a) eqn:E; [lia|reflexivity].
Qed.

(** Records above the flushed mark. *)
Definition unflushed (flushed : N) (r : rec) : bool := negb (valid_number flushed) || (flushed <? r_seq r).

Lemma mt_to_flush_spec : forall h m upto ig acc, MW h m -> m_flushed m <= NIL ->
  (ig = true \/ valid_number (m_synced m) = true) ->
  (valid_number (m_flushed m) = true -> m_flushed m < upto) ->
  (forall x, In x acc -> r_seq x < (if m_flushed m =? NIL then m_min m else m_flushed m + 1)) ->
  mt_to_flush upto ig acc m = Ok (acc ++ filter (fun r => unflushed (m_flushed m) r && (r_seq r <=? upto)) h).
Proof.
  intros h m upto ig acc H Hf Hs Hp Ha. unfold mt_to_flush.
  unfold valid_number in Hs, Hp.
  assert (E1 : negb ig && (m_synced m =? NIL) = false).
  { destruct Hs as [-> |Hs]; [reflexivity|]. apply negb_true_iff in Hs. rewrite Hs. apply andb_false_r. }
  rewrite E1.
  assert (E2 : negb (m_flushed m =? NIL) && (upto <=? m_flushed m) = false).
  { destruct (m_flushed m =? NIL); [reflexivity|]. cbn [negb andb] in *. specialize (Hp eq_refl); lia. }
  rewrite E2.
  set (ii := if m_flushed m =? NIL then m_min m else (m_flushed m + 1) mod 2 ^ 64).
  assert (Hii : ii = if m_flushed m =? NIL then m_min m else m_flushed m + 1).
  { unfold ii. destruct (m_flushed m =? NIL) eqn:E; [reflexivity|].
    rewrite N.mod_small; [reflexivity|]. change (2 ^ 64) with (NIL + 1). lia. }
  f_equal. rewrite pop_dups_none.
  - rewrite rev_involutive. f_equal. rewrite (mw_seq _ _ H).
    rewrite drop_while_filter by apply (mw_asc _ _ H).
    rewrite take_upto_filter by (apply sorted_seq_filter, (mw_asc _ _ H)).
    rewrite filter_filter. apply filter_ext_in. intros x Hx. f_equal.
    rewrite Hii. unfold unflushed, valid_number. destruct (m_flushed m =? NIL) eqn:E; cbn [negb orb].
    + apply N.leb_le, (mw_min _ _ H), Hx.
    + destruct (m_flushed m <? r_seq x) eqn:E3; lia.
  - intros x Hx. apply in_rev in Hx. rewrite Hii. apply Ha, Hx.
Qed.

End Proofs.
