(** Checkpoints (proofs; statements in CheckpointProps.v). *)
From Verif Require Import Base KeyModel KeyProofs LogFormatModel BloomModel BloomProofs MemTableModel MemTableProofs
  LogMgrModel LogMgrProofs LogMgrProofs2 LogMgrProofs3 DbModel DbProofs DbProofs2 CheckpointModel CheckpointSpec.
From Coq Require Import Sorted.
Local Open Scope N_scope.

(** * Lists *)

Notation SS := (StronglySorted N.lt).

Lemma SS_inj : forall (l1 l2 : list N), SS (l1 ++ l2) -> SS l1 /\ SS l2 /\ (forall x y, In x l1 -> In y l2 -> x < y).
Proof. intros l1 l2 H. apply SS_app_inv; exact H. Qed.

Lemma ins_in : forall c l x, In x (ins c l) <-> x = c \/ In x l.
Proof.
  intros c l x; induction l as [|y l IH]; cbn [ins In]; [intuition|].
  destruct (c <? y) eqn:E1; [cbn [In]; intuition|]. destruct (y <? c) eqn:E2; cbn [In]; [rewrite IH; intuition|].
  assert (y = c) by lia. subst. intuition.
Qed.
Lemma ins_sorted : forall c l, SS l -> SS (ins c l).
Proof.
  intros c l; induction l as [|y l IH]; intros H; cbn [ins]; [repeat constructor|].
  inversion H as [|? ? H1 H2]; subst. rewrite Forall_forall in H2. destruct (c <? y) eqn:E1.
  - constructor; [exact H|]. constructor; [lia|]. apply Forall_forall. intros z Hz. specialize (H2 z Hz). lia.
  - destruct (y <? c) eqn:E2; [|exact H]. constructor; [apply IH; exact H1|]. apply Forall_forall. intros z Hz.
    apply ins_in in Hz. destruct Hz as [->|Hz]; [lia|apply H2; exact Hz].
Qed.
Lemma sort_uniq_in : forall l x, In x (sort_uniq l) <-> In x l.
Proof. intros l x; induction l as [|y l IH]; cbn [sort_uniq fold_right In]; [tauto|]. rewrite ins_in. fold (sort_uniq l). rewrite IH. intuition. Qed.
Lemma sort_uniq_sorted : forall l, SS (sort_uniq l).
Proof. intros l; induction l as [|y l IH]; [constructor|]. apply ins_sorted; exact IH. Qed.

Lemma SS_nodup : forall l, SS l -> NoDup l.
Proof.
  intros l H; induction H as [|x l H IH HF]; constructor; [|exact IH]. intros Hx. rewrite Forall_forall in HF. specialize (HF x Hx). lia.
Qed.
Lemma sort_uniq_len : forall l, SS l -> length (sort_uniq l) = length l.
Proof.
  intros l H. apply Nat.le_antisymm; apply NoDup_incl_length.
  - apply SS_nodup, sort_uniq_sorted.
  - intros x Hx. apply sort_uniq_in; exact Hx.
  - apply SS_nodup; exact H.
  - intros x Hx. apply sort_uniq_in; exact Hx.
Qed.

Lemma last_n_split : forall {A} n (l : list A), exists a, l = a ++ last_n n l /\ (length (last_n n l) <= n)%nat /\
  (a <> [] -> length (last_n n l) = n).
Proof.
  intros A n l. exists (firstn (length l - n) l). unfold last_n. rewrite firstn_skipn. split; [reflexivity|].
  rewrite skipn_length. split; [lia|]. intros H. destruct (le_lt_dec (length l) n) as [L|L]; [|lia].
  exfalso. apply H. replace (length l - n)%nat with O by lia. reflexivity.
Qed.

Lemma newest_last : forall n (P : N -> Prop) l, SS l -> (forall c, In c l <-> P c) -> newest_n n P (last_n n l).
Proof.
  intros n P l H HP. destruct (last_n_split n l) as (a & E & L & F). unfold newest_n. rewrite E in H.
  assert (H' := SS_inj _ _ H). destruct H' as (S1 & S2 & S3).
  split; [exact S2|]. split; [exact L|]. split.
  - intros c Hc. apply HP. rewrite E. apply in_or_app; right; exact Hc.
  - intros c Hc. apply HP in Hc. rewrite E in Hc. apply in_app_or in Hc. destruct Hc as [Hc|Hc]; [right|left; exact Hc].
    split; [apply F; intros ->; destruct Hc|]. intros x Hx. apply S3; assumption.
Qed.

Lemma newest_unique : forall n P l1 l2, newest_n n P l1 -> newest_n n P l2 -> l1 = l2.
Proof.
  assert (Q : forall n P l1 l2, newest_n n P l1 -> newest_n n P l2 -> incl l1 l2).
  { intros n P l1 l2 (A1 & A2 & A3 & A4) (B1 & B2 & B3 & B4) x Hx. destruct (B4 x (A3 x Hx)) as [H|[H1 H2]]; [exact H|exfalso].
    assert (I : incl l2 l1).
    { intros b Hb. destruct (A4 b (B3 b Hb)) as [H|[_ H]]; [exact H|]. specialize (H x Hx). specialize (H2 b Hb). lia. }
    assert (L : (S (length l2) <= length l1)%nat).
    { change (length (x :: l2) <= length l1)%nat. apply NoDup_incl_length.
      - constructor; [intros Hb; specialize (H2 x Hb); lia|apply SS_nodup; exact B1].
      - intros z [<-|Hz]; [exact Hx|apply I; exact Hz]. }
    lia. }
  intros n P l1 l2 H1 H2. assert (I1 := Q _ _ _ _ H1 H2). assert (I2 := Q _ _ _ _ H2 H1).
  destruct H1 as (S1 & _). destruct H2 as (S2 & _). clear Q. revert l2 S2 I1 I2. induction S1 as [|x l1 S1 IH F1]; intros l2 S2 I1 I2.
  - destruct l2 as [|y l2]; [reflexivity|]. destruct (I2 y (or_introl eq_refl)).
  - destruct S2 as [|y l2 S2 F2]; [destruct (I1 x (or_introl eq_refl))|].
    rewrite Forall_forall in F1, F2.
    assert (x = y).
    { destruct (I1 x (or_introl eq_refl)) as [->|Hx]; [reflexivity|]. destruct (I2 y (or_introl eq_refl)) as [->|Hy]; [reflexivity|].
      specialize (F1 y Hy). specialize (F2 x Hx). lia. }
    subst y. f_equal. apply IH; [exact S2| |].
    + intros z Hz. destruct (I1 z (or_intror Hz)) as [<-|H]; [specialize (F1 x Hz); lia|exact H].
    + intros z Hz. destruct (I2 z (or_intror Hz)) as [<-|H]; [specialize (F2 x Hz); lia|exact H].
Qed.

(** * The map of a table *)

Notation keys t := (map fst (t_chk t)).

Lemma chk_insert_keys : forall c s l, map fst (chk_insert c s l) = ins c (map fst l).
Proof.
  intros c s l; induction l as [|[c0 s0] l IH]; cbn [chk_insert map ins fst]; [reflexivity|].
  destruct (c <? c0); [reflexivity|]. destruct (c0 <? c); [cbn [map fst]; rewrite IH; reflexivity|reflexivity].
Qed.
Lemma last_n_map : forall {A B} (f : A -> B) n l, map f (last_n n l) = last_n n (map f l).
Proof. intros A B f n l. unfold last_n. rewrite map_length. symmetry. apply skipn_map. Qed.
Lemma add_chk_keys : forall lim c t, keys (add_chk lim c t) = last_n lim (ins c (keys t)).
Proof. intros lim c t. cbn [add_chk t_chk]. rewrite last_n_map, chk_insert_keys. reflexivity. Qed.

(** [newest_n] of a growing set. *)
Lemma newest_add : forall lim P c l, newest_n lim P l -> newest_n lim (fun x => x = c \/ P x) (last_n lim (ins c l)).
Proof.
  intros lim P c l (A1 & A2 & A3 & A4). assert (X := newest_last lim (fun x => In x (ins c l)) (ins c l) (ins_sorted _ _ A1) (fun x => iff_refl _)).
  destruct X as (B1 & B2 & B3 & B4). split; [exact B1|]. split; [exact B2|]. split.
  - intros x Hx. apply B3, ins_in in Hx. destruct Hx as [->|Hx]; [left; reflexivity|right; apply A3; exact Hx].
  - assert (G : forall x, In x (ins c l) -> In x (last_n lim (ins c l)) \/ length (last_n lim (ins c l)) = lim /\ forall z, In z (last_n lim (ins c l)) -> x < z) by exact B4.
    intros x [->|Hx]; [apply G, ins_in; left; reflexivity|].
    destruct (A4 x Hx) as [H|[H1 H2]]; [apply G, ins_in; right; exact H|].
    (* the list was full with greater numbers *)
    assert (N : NoDup (ins c l)) by (apply SS_nodup, ins_sorted, A1).
    destruct (last_n_split lim (ins c l)) as (a & E & L & F).
    assert (Len : (lim <= length (ins c l))%nat).
    { rewrite <- H1. apply NoDup_incl_length; [apply SS_nodup; exact A1|]. intros z Hz. apply ins_in; right; exact Hz. }
    assert (Full : length (last_n lim (ins c l)) = lim) by (unfold last_n; rewrite skipn_length; lia).
    destruct (in_dec N.eq_dec x (last_n lim (ins c l))) as [Hin|Hout]; [left; exact Hin|right].
    split; [exact Full|]. intros z Hz. assert (Hz2 := proj1 (ins_in _ _ _) (B3 z Hz)). destruct Hz2 as [->|Hz2]; [|apply H2; exact Hz2].
    (* z = c *)
    destruct (N.lt_trichotomy x c) as [Hlt|[Heq|Hgt]]; [exact Hlt|exfalso; apply Hout; rewrite Heq; exact Hz|exfalso].
    destruct a as [|w a].
    + (* nothing was cut: the list has lim elements but c and l give one more *)
      assert (Nc : ~ In c l) by (intros H; specialize (H2 c H); lia).
      assert (L2 : (S (length l) <= length (ins c l))%nat).
      { change (length (c :: l) <= length (ins c l))%nat. apply NoDup_incl_length; [constructor; [exact Nc|apply SS_nodup; exact A1]|].
        intros u Hu. apply ins_in. destruct Hu as [<-|Hu]; [left|right]; auto. }
      cbn [app] in E. rewrite E, Full in L2. lia.
    + (* c is the smallest, so it was cut *)
      assert (S0 := ins_sorted c _ A1). rewrite E in S0. apply SS_inj in S0. destruct S0 as (_ & _ & S3).
      assert (W : w < c) by (apply S3; [left; reflexivity|exact Hz]).
      assert (Hw : In w (ins c l)) by (rewrite E; left; reflexivity). apply ins_in in Hw. destruct Hw as [->|Hw]; [lia|].
      specialize (H2 w Hw). lia.
Qed.

Lemma newest_ext : forall n (P Q : N -> Prop) l, (forall c, P c <-> Q c) -> newest_n n P l -> newest_n n Q l.
Proof.
  intros n P Q l E (A1 & A2 & A3 & A4). split; [exact A1|]. split; [exact A2|]. split; [intros c Hc; apply E, A3, Hc|]. intros c Hc. apply A4, E, Hc.
Qed.

(** The checkpoints that setCheckpoint adds. *)
Definition hits (rs : option N) (prev : N) (all : bool) (c : N) : Prop :=
  prev = c \/ (prev < c /\ exists s, rs = Some s /\ c < s) \/ (prev <= c /\ all = true).

Lemma set_chk_spec : forall lim rs prev all cs P t, newest_n lim P (keys t) -> SS cs ->
  (rs <> None -> all = false) ->
  exists Q, newest_n lim Q (keys (set_chk lim rs prev all cs t)) /\
    (forall c, P c -> Q c) /\ (forall c, Q c -> P c \/ In c cs) /\ (forall c, In c cs -> hits rs prev all c -> Q c).
Proof.
  intros lim rs prev all cs. induction cs as [|c cs IH]; intros P t H Hs Hp; cbn [set_chk].
  - exists P. split; [exact H|]. split; [tauto|]. split; [tauto|]. intros c [].
  - set (hit := (prev =? c) || ((prev <? c) && match rs with Some s => c <? s | None => false end) || ((prev <=? c) && all)).
    assert (Hh : hit = true <-> hits rs prev all c).
    { unfold hit, hits. rewrite !orb_true_iff, !andb_true_iff. destruct rs as [s|].
      - split; intros X.
        + destruct X as [[X|[X1 X2]]|[X1 X2]]; [left; lia|right; left; split; [lia|exists s; split; [reflexivity|lia]]|right; right; split; [lia|exact X2]].
        + destruct X as [X|[[X1 (s' & E & X2)]|[X1 X2]]]; [left; left; lia|injection E as <-; left; right; split; lia|right; split; [lia|exact X2]].
      - split; intros X.
        + destruct X as [[X|[X1 X2]]|[X1 X2]]; [left; lia|discriminate|right; right; split; [lia|exact X2]].
        + destruct X as [X|[[X1 (s' & E & X2)]|[X1 X2]]]; [left; left; lia|discriminate|right; split; [lia|exact X2]]. }
    inversion Hs as [|? ? Hs1 Hs2]; subst. rewrite Forall_forall in Hs2.
    set (t1 := if hit then add_chk lim c t else t).
    assert (H1 : exists P1, newest_n lim P1 (keys t1) /\ (forall x, P x -> P1 x) /\ (forall x, P1 x -> P x \/ x = c) /\ (hit = true -> P1 c)).
    { unfold t1. destruct hit.
      - exists (fun x => x = c \/ P x). rewrite add_chk_keys. split; [apply newest_add; exact H|]. split; [tauto|]. split; [tauto|]. auto.
      - exists P. split; [exact H|]. split; [tauto|]. split; [tauto|]. discriminate. }
    destruct H1 as (P1 & H1 & I1 & I2 & I3). clearbody t1.
    destruct ((prev <? c) && match rs with Some s => s <? c | None => false end) eqn:Eb.
    + exists P1. split; [exact H1|]. split; [exact I1|]. split; [intros x Hx; destruct (I2 x Hx) as [Y|Y]; [left; exact Y|right; left; symmetry; exact Y]|].
      intros x Hx Hhit. destruct rs as [s|]; [|apply andb_true_iff in Eb; destruct Eb; discriminate].
      assert (Hx2 : c <= x) by (destruct Hx as [<-|Hx]; [lia|specialize (Hs2 x Hx); lia]).
      destruct Hhit as [Y|[[Y1 (s' & E & Y2)]|[Y1 Y2]]].
      * exfalso. apply andb_true_iff in Eb. destruct Eb. lia.
      * injection E as <-. exfalso. apply andb_true_iff in Eb. destruct Eb. lia.
      * rewrite Hp in Y2; discriminate.
    + destruct (IH P1 t1 H1 Hs1 Hp) as (Q & J1 & J2 & J3 & J4). exists Q. split; [exact J1|]. split; [intros x Hx; apply J2, I1, Hx|].
      split.
      * intros x Hx. destruct (J3 x Hx) as [Y|Y]; [|right; right; exact Y]. destruct (I2 x Y) as [Z|Z]; [left; exact Z|right; left; symmetry; exact Z].
      * intros x [<-|Hx] Hhit; [apply J2, I3, Hh, Hhit|apply J4; assumption].
Qed.

(** What setBatch does to the map of the table: every checkpoint handed over is added. *)
Lemma set_docs_spec : forall lim mine cs b prev P t, newest_n lim P (keys t) -> SS cs ->
  exists Q, newest_n lim Q (keys (set_docs lim mine prev cs b t)) /\
    (forall c, P c -> Q c) /\ (forall c, Q c -> P c \/ In c cs) /\ (forall c, In c cs -> prev <= c -> Q c).
Proof.
  intros lim mine cs b. induction b as [|r b IH]; intros prev P t H Hs; cbn [set_docs].
  - destruct (set_chk_spec lim None prev true cs P t H Hs) as (Q & J1 & J2 & J3 & J4); [congruence|].
    exists Q. split; [exact J1|]. split; [exact J2|]. split; [exact J3|]. intros c Hc Hp. apply J4; [exact Hc|]. right; right; split; [exact Hp|reflexivity].
  - destruct (mine (r_key r)); [|apply IH; assumption].
    destruct (set_chk_spec lim (Some (r_seq r)) prev false cs P t H Hs) as (Q1 & J1 & J2 & J3 & J4); [reflexivity|].
    set (t1 := set_chk lim (Some (r_seq r)) prev false cs t) in *.
    assert (W : forall prev' t2 (P2 : N -> Prop), newest_n lim P2 (keys t2) -> (forall c, Q1 c -> P2 c) -> (forall c, P2 c -> Q1 c) ->
      (prev' = prev \/ prev' = r_seq r) ->
      exists Q, newest_n lim Q (keys (set_docs lim mine prev' cs b t2)) /\
        (forall c, P c -> Q c) /\ (forall c, Q c -> P c \/ In c cs) /\ (forall c, In c cs -> prev <= c -> Q c)).
    { intros prev' t2 P2 H2 E1 E2 Hp'. destruct (IH prev' P2 t2 H2 Hs) as (Q & K1 & K2 & K3 & K4). exists Q. split; [exact K1|].
      split; [intros c Hc; apply K2, E1, J2, Hc|]. split; [intros c Hc; destruct (K3 c Hc) as [Y|Y]; [apply J3, E2, Y|right; exact Y]|].
      intros c Hc Hp. destruct Hp' as [->| ->]; [apply K4; assumption|].
      destruct (N.le_gt_cases (r_seq r) c) as [L|L]; [apply K4; assumption|].
      apply K2, E1, J4; [exact Hc|]. destruct (N.eq_dec prev c) as [e|n]; [left; exact e|right; left]. split; [lia|]. exists (r_seq r). split; [reflexivity|exact L]. }
    destruct (is_cmd r); [apply (W prev t1 Q1); auto|]. apply (W (r_seq r) (put_doc r t1) Q1); auto.
Qed.

Lemma filter_sorted : forall (p : N * N -> bool) l, SS (map fst l) -> SS (map fst (filter p l)).
Proof.
  intros p l; induction l as [|e l IH]; intros H; [constructor|]. cbn [map] in H. inversion H as [|? ? H1 H2]; subst. cbn [filter].
  destruct (p e); [|apply IH; exact H1]. cbn [map]. constructor; [apply IH; exact H1|]. rewrite Forall_forall in *.
  intros x Hx. apply H2. apply in_map_iff in Hx. destruct Hx as (y & <- & Hy). apply filter_In in Hy. apply in_map, Hy.
Qed.
Lemma filter_len : forall {A} (p : A -> bool) l, (length (filter p l) <= length l)%nat.
Proof. intros A p l; induction l as [|x l IH]; [reflexivity|]. cbn [filter]. destruct (p x); cbn [length]; lia. Qed.

(** * The table section *)

(** Any table of the partitions: sorted, within the limit, and only checkpoints of [K]. *)
Definition tab_ok (lim : nat) (K : N -> Prop) (t : ct) : Prop :=
  SS (keys t) /\ (length (t_chk t) <= lim)%nat /\ forall c, In c (keys t) -> K c.
Definition parts_ok (lim : nat) (K : N -> Prop) (ps : list (list ct)) : Prop :=
  forall q t, In q ps -> In t q -> tab_ok lim K t.

Lemma tab_batch_ok : forall lim mine mark cs b (K K' : N -> Prop) t, tab_ok lim K t -> SS cs ->
  (forall c, K c -> K' c) -> (forall c, In c cs -> K' c) -> tab_ok lim K' (tab_batch lim mine mark cs b t).
Proof.
  intros lim mine mark cs b K K' t (A1 & A2 & A3) Hs E1 E2.
  assert (N0 : newest_n lim (fun c => In c (keys t)) (keys t)).
  { split; [exact A1|]. split; [rewrite map_length; exact A2|]. split; [tauto|]. intros c Hc; left; exact Hc. }
  destruct (set_docs_spec lim mine cs b 0 _ t N0 Hs) as (Q & (J1 & J2 & J3 & J4) & _ & Q2 & _).
  set (t1 := set_docs lim mine 0 cs b t) in *. unfold tab_batch. fold t1. unfold tab_ok. cbn [drop_old t_chk].
  split; [apply filter_sorted; exact J1|]. rewrite map_length in J2.
  split; [eapply Nat.le_trans; [apply filter_len|exact J2]|].
  intros c Hc. apply in_map_iff in Hc. destruct Hc as (e & <- & He). apply filter_In in He. destruct He as [He _].
  destruct (Q2 (fst e) (J3 _ (in_map fst _ _ He))) as [Y|Y]; [apply E1, A3, Y|apply E2, Y].
Qed.

Lemma set_parts_ok : forall lim mine mark cs b (K K' : N -> Prop) ps p, parts_ok lim K ps -> SS cs ->
  (forall c, K c -> K' c) -> (forall c, In c cs -> K' c) -> parts_ok lim K' (set_parts lim mine mark cs b p ps).
Proof.
  intros lim mine mark cs b K K' ps. induction ps as [|q ps IH]; intros p H Hs E1 E2 q' t Hq Ht; cbn [set_parts] in Hq; [destruct Hq|].
  assert (W : forall t, tab_ok lim K t -> tab_ok lim K' t).
  { intros t0 (A1 & A2 & A3). split; [exact A1|]. split; [exact A2|]. auto. }
  destruct Hq as [<-|Hq].
  - assert (Hq0 := H q). destruct q as [|t0 q]; [destruct Ht|]. destruct Ht as [<-|Ht].
    + apply tab_batch_ok with (K := K); auto. apply Hq0; left; reflexivity.
    + apply W, Hq0; [left; reflexivity|right; exact Ht].
  - apply (IH (p + 1)) with (q := q'); auto. intros q2 t2 H2 H3. apply (H q2); [right; exact H2|exact H3].
Qed.
Lemma set_parts_len : forall lim mine mark cs b ps p, length (set_parts lim mine mark cs b p ps) = length ps.
Proof. intros lim mine mark cs b ps; induction ps as [|q ps IH]; intros p; cbn [set_parts length]; [reflexivity|]. rewrite IH; reflexivity. Qed.

Lemma upd_in_list : forall {A} n f (l : list A) x, In x (upd n f l) -> In x l \/ exists y, nth_error l n = Some y /\ x = f y.
Proof.
  intros A n f; induction n as [|n IH]; intros [|y l] x Hx; cbn [upd] in Hx; try destruct Hx as [Hx|Hx]; try tauto.
  - right. exists y. split; [reflexivity|congruence].
  - left; right; exact Hx.
  - left; left; exact Hx.
  - destruct (IH _ _ Hx) as [H|H]; [left; right; exact H|right; exact H].
Qed.
Lemma upd_length : forall {A} n f (l : list A), length (upd n f l) = length l.
Proof. intros A n f; induction n as [|n IH]; intros [|y l]; cbn [upd length]; auto. Qed.

(** The checkpoints of the table section. *)
Lemma tab_has_spec : forall c q, tab_has c q = true <-> exists t s, In t q /\ In (c, s) (t_chk t).
Proof.
  intros c q. unfold tab_has. rewrite existsb_exists. split.
  - intros (t & Ht & H). apply existsb_exists in H. destruct H as ([a s] & He & E). cbn [fst] in E. assert (a = c) by lia. subst. eauto.
  - intros (t & s & Ht & H). exists t. split; [exact Ht|]. apply existsb_exists. exists (c, s). split; [exact H|apply N.eqb_refl].
Qed.
Lemma tm_checkpoints_spec : forall ps c, ps <> [] -> c <> 0 ->
  (In c (tm_checkpoints ps) <-> forall q, In q ps -> exists t s, In t q /\ In (c, s) (t_chk t)).
Proof.
  intros [|q ps] c Hne Hc; [congruence|]. cbn [tm_checkpoints]. rewrite filter_In, andb_true_iff, forallb_forall, in_flat_map. split.
  - intros ((t & Ht & H) & _ & H2) q' [<-|Hq].
    + apply in_map_iff in H. destruct H as ([a s] & E & He). cbn [fst] in E. subst a. eauto.
    + apply tab_has_spec, H2, Hq.
  - intros H. split.
    + destruct (H q (or_introl eq_refl)) as (t & s & Ht & He). exists t. split; [exact Ht|]. apply in_map_iff. exists (c, s). split; [reflexivity|exact He].
    + split; [lia|]. intros q' Hq. apply tab_has_spec, H. right; exact Hq.
Qed.

(** * The log *)
Section Proofs.
Variable hash : key -> N * N.
Variable part : key -> N -> N.
Notation GI := (GI hash).
Notation FI := (FI hash).
Notation DI := (DI hash).
Notation step := (step hash).
Notation reach := (reach hash).
Notation creach := (creach hash part).
Notation qreach := (qreach hash part).
Notation c_step := (c_step hash part).

(** The lists of the files in order give an ascending list. *)
Lemma chks_sorted : forall u fs, sorted_seq (all_h fs) -> each (chk_ok) fs -> each (fun m => SS (m_chks m)) fs ->
  SS (flat_map (fun f => mt_checkpoints u (f_mt f)) fs).
Proof.
  intros u fs. induction fs as [|f fs IH]; intros Hs Hc Hl; cbn [flat_map]; [constructor|].
  unfold sorted_seq in Hs. cbn [all_h flat_map] in Hs. fold (all_h fs) in Hs. rewrite map_app in Hs. apply SS_app_inv in Hs. destruct Hs as (S1 & S2 & S3).
  apply SS_app.
  - assert (X := Hl f (or_introl eq_refl)). unfold mt_checkpoints. cbn beta in X. clear - X. induction X as [|a l X IH F]; [constructor|].
    cbn [filter]. destruct (_ && _); [|exact IH]. constructor; [exact IH|]. rewrite Forall_forall in *. intros z Hz. apply filter_In in Hz. apply F, Hz.
  - apply IH; [exact S2|intros g Hg; apply Hc; right; exact Hg|intros g Hg; apply Hl; right; exact Hg].
  - intros a b Ha Hb. unfold mt_checkpoints in Ha. apply filter_In in Ha. destruct Ha as [Ha _].
    apply in_flat_map in Hb. destruct Hb as (g & Hg & Hb). apply filter_In in Hb. destruct Hb as [Hb _].
    destruct (Hc f (or_introl eq_refl) a Ha) as (ra & Hra & <-). destruct (Hc g (or_intror Hg) b Hb) as (rb & Hrb & <-).
    apply S3; [apply in_map; exact Hra|]. apply in_map. apply in_flat_map. exists g. split; assumption.
Qed.

Definition G_ok (G : N -> Prop) (m : mt) : Prop := SS (m_chks m) /\ forall c, In c (m_chks m) -> G c.
Lemma gok_put : forall G, put_stable hash (G_ok G).
Proof. intros G m r o m' H E. destruct (lf_set_eff _ _ _ _ _ E) as (E1 & _). unfold G_ok. rewrite E1. exact H. Qed.
Lemma gok_synced : forall G m s, G_ok G m -> G_ok G (lf_set_synced s m).
Proof. intros G m s H. unfold lf_set_synced. destruct (negb _); exact H. Qed.
Lemma gok_flushed : forall G m s, G_ok G m -> G_ok G (lf_set_flushed s m).
Proof. intros G m s H. unfold lf_set_flushed. destruct (negb _); exact H. Qed.

(** What checkpoint() adds. *)
Definition new_chk (o : op) (d : db) : list N :=
  match o with OChk out0 => match lm_checkpoint out0 (d_log d) with (Ok s, _) => [s] | _ => [] end | _ => [] end.

Lemma chks_step : forall c h d o x d' G, cfg_ok c -> reach c h d -> allowed c h d o -> step c o d = Some (x, d') ->
  each (G_ok G) (g_files (d_log d)) -> each (G_ok (fun k => G k \/ In k (new_chk o d))) (g_files (d_log d')).
Proof.
  intros c h d o x d' G Cok R A E H. assert (Ho := co_ow _ Cok).
  assert (W : forall (L : list N) fs, each (G_ok G) fs -> each (G_ok (fun k => G k \/ In k L)) fs).
  { intros L fs Hf f Hfi. destruct (Hf f Hfi) as [H1 H2]. split; [exact H1|]. intros k Hk. left; apply H2, Hk. }
  assert (D := reach_inv _ _ _ _ Cok R). assert (X := reach_extra _ _ _ _ Cok R).
  destruct D as [(n0 & pre & F & pt & HG & Ht & Hl & HF & HFl & HGo & HB)].
  assert (Hll := gi_lastseq_lt hash c h d _ _ _ _ HG).
  destruct o as [full r|b| | |bad|fo seq|out0]; unfold DbModel.step in E.
  - destruct (d_bat d); [discriminate|]. destruct (lm_set hash c full r (d_log d)) as [y g] eqn:Es. injection E as _ <-. apply W. cbn [d_log].
    apply (lm_set_keeps hash (G_ok G) c full r (d_log d) y g (gok_put G)); [intros; split; [constructor|intros ? []]|exact Ho|exact H|exact Es].
  - destruct (d_bat d); [discriminate|]. destruct (c_ro c); [injection E as _ <-; apply W, H|]. destruct b; [injection E as _ <-; apply W, H|].
    destruct (batch_valid _ _ _); injection E as _ <-; apply W, H.
  - destruct (d_bat d) as [[[|r t] done]|]; try discriminate. destruct (batch_put hash c r (d_log d)) as [y g] eqn:Ep. unfold batch_put in Ep.
    assert (Q : each (G_ok G) (g_files g)).
    { destruct (max_num (d_log d)); [|injection Ep as _ <-; exact H]. apply (file_set_keeps _ _ _ _ _ _ _ _ (gok_put G) Ho H Ep). }
    destruct y; injection E as _ <-; apply W, Q.
  - destruct (d_bat d) as [[[|r t] done]|]; try discriminate. injection E as _ <-. apply W, H.
  - destruct (lm_sync bad (d_log d)) as [y g] eqn:Es. injection E as _ <-. apply W. cbn [d_log].
    apply (lm_sync_keeps (G_ok G) bad (d_log d) y g H); [intros m s Hm _; apply gok_synced; exact Hm|exact Es].
  - destruct (lm_flush fo seq (d_log d)) as [y g] eqn:Ef.
    assert (Hbar : g_bar (d_log d) < NIL).
    { destruct (d_bat d) as [[todo done]|]; [destruct HB as [_ (_ & -> & _)]; exact Hll|destruct HB as [_ ->]; rewrite nil_val; lia]. }
    destruct (lm_flush_keeps (G_ok G) fo seq (d_log d) y g H (fun m s => gok_flushed G m s) (fun _ m => gok_synced G m seq) (or_intror (gok_synced G)) Hbar Ef) as [Y1 _].
    destruct y as [[rs cs]|e|]; injection E as _ <-; apply W, Y1.
  - destruct (lm_checkpoint out0 (d_log d)) as [y g] eqn:Ec. injection E as _ <-. cbn [d_log].
    unfold new_chk. rewrite Ec. unfold lm_checkpoint in Ec. destruct (max_num (d_log d)) as [mx|]; [|injection Ec as <- <-; apply W, H].
    destruct (file_at mx (g_files (d_log d))) as [f|] eqn:Ea; [|injection Ec as <- <-; apply W, H].
    destruct (mt_checkpoint out0 (f_mt f)) as [s m'] eqn:Em. injection Ec as <- <-. cbn [with_files g_files].
    apply file_at_in in Ea. destruct Ea as [Ea _]. assert (FIf := gi_fi _ _ _ _ _ _ HG f Ea).
    apply each_upd; [intros z Hz; destruct (H z Hz) as [H1 H2]; split; [exact H1|intros k Hk; left; apply H2, Hk]|].
    intros w0 w1 w2. cbn [with_mt f_mt]. destruct (H f Ea) as [H1 H2].
    unfold mt_checkpoint in Em. destruct (negb (valid_number (m_max (f_mt f)))) eqn:Ev;
      [injection Em as <- <-; split; [exact H1|intros k Hk; left; apply H2, Hk]|].
    destruct (match rev _ with [] => false | _ => _ end) eqn:Er; injection Em as <- <-;
      [split; [exact H1|intros k Hk; left; apply H2, Hk]|].
    split; cbn [m_chks].
    + apply SS_app; [exact H1|repeat constructor|]. intros a b Ha [<-|[]].
      destruct (xi_chk _ X f Ea a Ha) as (r & Hr & Er2).
      assert (Hne : fh f <> []) by (intros e; unfold fh in e; rewrite e in Hr; destruct Hr).
      assert (Hle : a <= m_max (f_mt f)).
      { rewrite (fi_max _ _ FIf Hne), <- Er2. apply lastseq_ge; [|exact Hr].
        assert (Y := gi_asc _ _ _ _ _ _ HG). rewrite (gi_hist _ _ _ _ _ _ HG) in Y. unfold sorted_seq in *. rewrite map_app in Y. apply SS_app_inv in Y.
        destruct Y as (_ & Y & _). apply in_split in Ea. destruct Ea as (a1 & b1 & Ef). rewrite Ef in Y. rewrite all_h_app in Y. cbn [all_h flat_map] in Y.
        rewrite !map_app in Y. apply SS_app_inv in Y. destruct Y as (_ & Y & _). apply SS_app_inv in Y. apply Y. }
      destruct (exists_last (l := m_chks (f_mt f))) as (u & z & Eu); [intros e; rewrite e in Ha; destruct Ha|].
      rewrite Eu, rev_app_distr in Er. cbn [rev app] in Er. rewrite Eu in Ha, H1. apply SS_inj in H1. destruct H1 as (_ & _ & H3).
      assert (Hz : z <= m_max (f_mt f)).
      { destruct (xi_chk _ X f Ea z) as (r2 & Hr2 & Er3); [rewrite Eu; apply in_or_app; right; left; reflexivity|].
        rewrite (fi_max _ _ FIf Hne), <- Er3. apply lastseq_ge; [|exact Hr2].
        assert (Y := gi_asc _ _ _ _ _ _ HG). rewrite (gi_hist _ _ _ _ _ _ HG) in Y. unfold sorted_seq in *. rewrite map_app in Y. apply SS_app_inv in Y.
        destruct Y as (_ & Y & _). apply in_split in Ea. destruct Ea as (a1 & b1 & Ef). rewrite Ef in Y. rewrite all_h_app in Y. cbn [all_h flat_map] in Y.
        rewrite !map_app in Y. apply SS_app_inv in Y. destruct Y as (_ & Y & _). apply SS_app_inv in Y. apply Y. }
      apply in_app_or in Ha. destruct Ha as [Ha|[<-|[]]]; [assert (a < z) by (apply H3; [exact Ha|left; reflexivity]); lia|lia].
    + intros k Hk. apply in_app_or in Hk. destruct Hk as [Hk|[<-|[]]]; [left; apply H2, Hk|right; left; reflexivity].
Qed.

(** The flushed mark. *)
Lemma flushed_is : forall n0 pre h F g, GI n0 pre h F g -> F < NIL -> match lm_flushed_seq g with Ok s => s | _ => 0 end = F.
Proof.
  intros n0 pre h F g H HF. assert (M := flushed_mark hash _ _ _ _ _ H HF). destruct (F =? 0) eqn:E; rewrite M; [lia|reflexivity].
Qed.

(** What a flush hands over. *)
Lemma flush_checkpoints : forall c h d fo seq rs cs g', cfg_ok c -> reach c h d -> allowed c h d (OFlush fo seq) ->
  lm_flush fo seq (d_log d) = (Ok (rs, cs), g') -> each (fun m => SS (m_chks m)) (g_files (d_log d)) ->
  exists s, flushed_of (mkCD d 0 [] (mkCT 0 [] [])) <= s /\ match lm_flushed_seq g' with Ok y => y | _ => 0 end = s /\
  SS cs /\
  (forall k, In k cs <-> (exists f, In f (g_files (d_log d)) /\ In k (m_chks (f_mt f))) /\
                        match lm_flushed_seq (d_log d) with Ok y => y | _ => 0 end < k <= s) /\
  (forall k, In k cs -> exists r, In r rs /\ r_seq r = k) /\
  (forall r, In r (d_tab d) -> r_seq r <= match lm_flushed_seq (d_log d) with Ok y => y | _ => 0 end) /\
  (forall r, In r (d_tab d ++ rs) -> r_seq r <= s) /\
  (forall f k, In f (g_files (d_log d)) -> In k (m_chks (f_mt f)) -> s < k ->
     exists f', In f' (g_files g') /\ In k (m_chks (f_mt f'))).
Proof.
  intros c h d fo seq rs cs g' Cok R Al E Hss. assert (D := reach_inv _ _ _ _ Cok R). assert (X := reach_extra _ _ _ _ Cok R).
  destruct D as [(n0 & pre & F & pt & H & Ht & Hl & HF & HFl & HG & HB)].
  destruct (flush_facts hash c h d fo seq n0 pre F pt H Hl HB Al) as (ro & g1 & Efl & R1).
  assert (Hll := gi_lastseq_lt hash c h d _ _ _ _ H). rewrite Efl in E. injection E as -> <-.
  destruct R1 as (n1 & pre1 & s & Hs & Hs1 & Hsl & Ers & H1 & Hseq & Hseq2 & (A & ft & B & EA & En1 & Ecs & EB)).
  assert (HFn := flushed_is _ _ _ _ _ H ltac:(lia)).
  exists s. unfold flushed_of. cbn [cd_db]. rewrite HFn. split; [exact Hs|].
  split; [apply (flushed_is _ _ _ _ _ (gi_bar _ _ _ _ _ _ (g_bar (d_log d)) H1)); lia|].
  assert (Hasc := gi_asc _ _ _ _ _ _ H). rewrite (gi_hist _ _ _ _ _ _ H) in Hasc. unfold sorted_seq in Hasc. rewrite map_app in Hasc. apply SS_app_inv in Hasc.
  destruct Hasc as (_ & Hasc & _). rewrite EA, all_h_app in Hasc.
  assert (Hsub : forall f, In f (A ++ [ft]) -> In f (g_files (d_log d))).
  { intros f Hf. rewrite EA. apply in_app_or in Hf. apply in_or_app. destruct Hf as [Hf|[<-|[]]]; [left; exact Hf|right; left; reflexivity]. }
  assert (Hrec : forall f k, In f (g_files (d_log d)) -> In k (m_chks (f_mt f)) -> exists r, In r (fh f) /\ r_seq r = k /\ In r (h ++ pt)).
  { intros f k Hf Hk. destruct (xi_chk _ X f Hf k Hk) as (r & Hr & Er). exists r. split; [exact Hr|]. split; [exact Er|].
    rewrite (gi_hist _ _ _ _ _ _ H). apply in_or_app; right. apply in_flat_map. exists f; auto. }
  assert (Hpos : forall f k, In f (g_files (d_log d)) -> In k (m_chks (f_mt f)) -> negb (valid_number (m_flushed (f_mt f)) && (k <=? m_flushed (f_mt f))) = (F <? k)).
  { intros f k Hf Hk. destruct (Hrec f k Hf Hk) as (r & Hr & <- & _). rewrite <- (gi_flu _ _ _ _ _ _ H f r Hf Hr). unfold unflushed.
    destruct (valid_number (m_flushed (f_mt f))); cbn [negb andb orb]; [|reflexivity]. lia. }
  (* files after the flushed one hold greater numbers *)
  assert (Hafter : forall f k, In f B -> In k (m_chks (f_mt f)) -> s < k).
  { intros f k Hf Hk. assert (Hf2 : In f (g_files (d_log d))) by (rewrite EA; apply in_or_app; right; right; exact Hf).
    destruct (Hrec f k Hf2 Hk) as (r & Hr & <- & _).
    destruct (gi_F _ _ _ _ _ _ H1) as (z & Hz & Ez); [lia|]. rewrite EB in Hz. cbn [all_h flat_map] in Hz.
    unfold sorted_seq in Hasc. rewrite !map_app in Hasc. apply SS_app_inv in Hasc. destruct Hasc as (_ & Hasc & _).
    cbn [all_h flat_map] in Hasc. rewrite map_app in Hasc. apply SS_app_inv in Hasc. destruct Hasc as (_ & _ & Hasc).
    assert (Hv : exists v, In v (fh ft) /\ s <= r_seq v).
    { apply in_app_or in Hz. destruct Hz as [Hz|Hz]; [exists z; split; [rewrite <- (mark_file_h (o_beyond fo) s ft); exact Hz|lia]|].
      (* z in B: its file would be marked as flushed *)
      exfalso. apply in_flat_map in Hz. destruct Hz as (fz & Hfz & Hz).
      assert (U := gi_flu _ _ _ _ _ _ H1 fz z). rewrite EB in U. specialize (U (or_intror Hfz) Hz). rewrite Ez in U. replace (s <? s) with false in U by lia.
      assert (Hfz2 := Hfz). apply in_split in Hfz2. destruct Hfz2 as (b1 & b2 & Eb).
      assert (V := gi_first _ _ _ _ _ _ H1 (mark_file (o_beyond fo) s ft :: b1) fz b2). rewrite EB, Eb in V. specialize (V eq_refl).
      assert (m_flushed (f_mt fz) <> NIL) by (intros e; unfold unflushed in U; rewrite e in U; discriminate). specialize (V H0). discriminate. }
    destruct Hv as (v & Hv & Hvs). assert (Y := Hasc (r_seq v) (r_seq r) (in_map _ _ _ Hv)). specialize (Y (in_map r_seq _ _ ltac:(apply in_flat_map; exists f; split; [exact Hf|exact Hr]))). lia. }
  assert (Hcs : forall k, In k cs <-> (exists f, In f (g_files (d_log d)) /\ In k (m_chks (f_mt f))) /\ F < k <= s).
  { intros k. rewrite Ecs, in_flat_map. split.
    - intros (f & Hf & Hk). unfold mt_checkpoints in Hk. apply filter_In in Hk. destruct Hk as [Hk Hc]. apply andb_true_iff in Hc. destruct Hc as [Hc1 Hc2].
      rewrite (Hpos f k (Hsub f Hf) Hk) in Hc1. split; [exists f; split; [apply Hsub; exact Hf|exact Hk]|]. split; [lia|].
      unfold valid_number in Hc2. apply orb_true_iff in Hc2. destruct Hc2 as [Hc2|Hc2]; [lia|]. exfalso. lia.
    - intros ((f & Hf & Hk) & HFk & Hks). assert (Hf2 := Hf). rewrite EA in Hf2. apply in_app_or in Hf2.
      assert (Hin : In f (A ++ [ft])).
      { apply in_or_app. destruct Hf2 as [Hf2|[<-|Hf2]]; [left; exact Hf2|right; left; reflexivity|].
        exfalso. assert (Y := Hafter f k Hf2 Hk). lia. }
      exists f. split; [exact Hin|]. unfold mt_checkpoints. apply filter_In. split; [exact Hk|]. apply andb_true_iff. split; [rewrite (Hpos f k Hf Hk); lia|].
      apply orb_true_iff. left. lia. }
  split.
  { rewrite Ecs. apply chks_sorted.
    - unfold sorted_seq in *. rewrite all_h_app. cbn [all_h flat_map] in *. rewrite app_nil_r. rewrite !map_app in Hasc |- *.
      apply SS_app_inv in Hasc. destruct Hasc as (Z1 & Z2 & Z3). rewrite map_app in Z2; apply SS_app_inv in Z2. destruct Z2 as (Z4 & _).
      apply SS_app; [exact Z1|exact Z4|]. intros a b Ha Hb. apply Z3; [exact Ha|rewrite map_app; apply in_or_app; left; exact Hb].
    - intros f Hf. apply (xi_chk _ X f), Hsub, Hf.
    - intros f Hf. apply Hss, Hsub, Hf. }
  split; [exact Hcs|].
  split.
  { intros k Hk. apply Hcs in Hk. destruct Hk as ((f & Hf & Hk) & HFk & Hks). destruct (Hrec f k Hf Hk) as (r & _ & Er & Hr). exists r. split; [|exact Er].
    rewrite Ers. apply filter_In. split; [exact Hr|]. lia. }
  assert (Htab : forall r, In r (d_tab d) -> r_seq r <= F).
  { intros r Hr. rewrite Ht in Hr. apply filter_In in Hr. destruct Hr as [_ Hr]. lia. }
  split; [exact Htab|]. split.
  { intros r Hr. apply in_app_or in Hr. destruct Hr as [Hr|Hr]; [specialize (Htab r Hr); lia|]. rewrite Ers in Hr. apply filter_In in Hr. destruct Hr as [_ Hr]. lia. }
  intros f k Hf Hk Hsk. cbn [with_bar g_files]. rewrite EB. rewrite EA in Hf. apply in_app_or in Hf. destruct Hf as [Hf|[<-|Hf]].
  - exfalso. assert (Hf2 : In f (g_files (d_log d))) by (rewrite EA; apply in_or_app; left; exact Hf).
    destruct (xi_chk _ X f Hf2 k Hk) as (r & Hr & <-).
    destruct (gi_F _ _ _ _ _ _ H1) as (z & Hz & Ez); [lia|]. rewrite EB in Hz. cbn [all_h flat_map] in Hz.
    unfold sorted_seq in Hasc. rewrite !map_app in Hasc. apply SS_app_inv in Hasc. destruct Hasc as (_ & _ & Hasc).
    assert (r_seq r < r_seq z); [|lia]. apply Hasc; [apply in_map, in_flat_map; exists f; split; [exact Hf|exact Hr]|].
    apply in_map. cbn [all_h flat_map]. fold (fh ft). rewrite mark_file_h in Hz. exact Hz.
  - exists (mark_file (o_beyond fo) s ft). split; [left; reflexivity|]. unfold mark_file. cbn [with_mt f_mt].
    assert (Y : forall m, m_chks (lf_set_flushed s m) = m_chks m) by (intros m; unfold lf_set_flushed; destruct (negb _); reflexivity).
    rewrite Y. destruct (o_beyond fo); [|exact Hk]. unfold lf_set_synced. destruct (negb _); exact Hk.
  - exists f. split; [right; exact Hf|exact Hk].
Qed.

End Proofs.
