(** Checkpoints, third part: snapshots that read correctly (proofs; statements in CheckpointProps.v). *)
From Verif Require Import Base KeyModel KeyProofs LogFormatModel BloomModel BloomProofs MemTableModel MemTableProofs
  LogMgrModel LogMgrProofs LogMgrProofs2 LogMgrProofs3 DbModel DbProofs DbProofs2 CheckpointModel CheckpointSpec CheckpointProofs CheckpointProofs2.
From Coq Require Import Sorted.
Local Open Scope N_scope.

(** * One table *)

Definition upto (c : N) (l : list rec) : list rec := filter (fun r => r_seq r <=? c) l.
Definition taken (mine : key -> bool) (b : list rec) : list rec := filter (fun r => mine (r_key r) && negb (is_cmd r)) b.

Lemma upto_all : forall c l, (forall r, In r l -> r_seq r <= c) -> upto c l = l.
Proof. intros c l H. unfold upto. apply filter_all. intros r Hr. specialize (H r Hr). lia. Qed.
Lemma upto_none : forall c l, (forall r, In r l -> c < r_seq r) -> upto c l = [].
Proof.
  intros c l; induction l as [|x l IH]; intros H; [reflexivity|]. cbn [upto filter].
  replace (r_seq x <=? c) with false by (specialize (H x (or_introl eq_refl)); lia). apply IH. intros r Hr. apply H. right; exact Hr.
Qed.
Lemma upto_app : forall c a b, upto c (a ++ b) = upto c a ++ upto c b.
Proof. intros; apply filter_app. Qed.

Lemma chk_insert_in : forall c s l e, In e (chk_insert c s l) -> In e l \/ e = (c, s).
Proof.
  intros c s l; induction l as [|[c0 s0] l IH]; intros e He; cbn [chk_insert] in He; [destruct He as [<-|[]]; auto|].
  destruct (c <? c0); [destruct He as [<-|He]; auto|]. destruct (c0 <? c); [|auto]. destruct He as [<-|He]; [left; left; reflexivity|].
  destruct (IH e He) as [X|X]; [left; right; exact X|auto].
Qed.
Lemma last_n_in : forall {A} n (l : list A) e, In e (last_n n l) -> In e l.
Proof. intros A n l e H. unfold last_n in H. rewrite <- (firstn_skipn (length l - n) l). apply in_or_app; right; exact H. Qed.

Lemma set_chk_entries : forall lim rs prev all cs t, 
  t_id (set_chk lim rs prev all cs t) = t_id t /\ t_docs (set_chk lim rs prev all cs t) = t_docs t /\
  forall e, In e (t_chk (set_chk lim rs prev all cs t)) -> In e (t_chk t) \/
    exists c, In c cs /\ hits rs prev all c /\ e = (c, kvs_seq (t_docs t)).
Proof.
  intros lim rs prev all cs; induction cs as [|c cs IH]; intros t; cbn [set_chk]; [auto|].
  set (hit := (prev =? c) || ((prev <? c) && match rs with Some s => c <? s | None => false end) || ((prev <=? c) && all)).
  assert (Hh : hit = true -> hits rs prev all c).
  { unfold hit, hits. intros H. apply orb_true_iff in H. destruct H as [H|H]; [apply orb_true_iff in H; destruct H as [H|H]|].
    - left. lia.
    - right; left. apply andb_true_iff in H. destruct H as [H1 H2]. split; [lia|]. destruct rs as [s|]; [|discriminate]. exists s. split; [reflexivity|lia].
    - right; right. apply andb_true_iff in H. destruct H as [H1 H2]. split; [lia|exact H2]. }
  assert (T : t_id (if hit then add_chk lim c t else t) = t_id t /\ t_docs (if hit then add_chk lim c t else t) = t_docs t /\
    forall e, In e (t_chk (if hit then add_chk lim c t else t)) -> In e (t_chk t) \/ exists c', In c' (c :: cs) /\ hits rs prev all c' /\ e = (c', kvs_seq (t_docs t))).
  { destruct hit eqn:Eh; [|auto]. split; [reflexivity|]. split; [reflexivity|]. intros e He. cbn [add_chk t_chk] in He. apply last_n_in in He.
    apply chk_insert_in in He. destruct He as [He|He]; [auto|]. right. exists c. split; [left; reflexivity|]. auto. }
  destruct T as (T1 & T2 & T3).
  destruct ((prev <? c) && match rs with Some s => s <? c | None => false end); [split; [exact T1|]; split; [exact T2|]; exact T3|].
  destruct (IH (if hit then add_chk lim c t else t)) as (I1 & I2 & I3). split; [congruence|]. split; [congruence|].
  intros e He. destruct (I3 e He) as [X|(c' & X1 & X2 & X3)]; [apply T3; exact X|]. right. exists c'. split; [right; exact X1|]. rewrite T2 in X3. auto.
Qed.

(** A flush of [b], all with numbers above [F], into a table whose documents are not above [F]. *)
Lemma set_docs_entries : forall lim mine cs b F prev t,
  (forall c, In c cs -> F < c) -> sorted_seq b -> (forall r, In r b -> F < r_seq r /\ prev < r_seq r) ->
  (forall r, In r (t_docs t) -> r_seq r <= F \/ r_seq r <= prev) ->
  t_id (set_docs lim mine prev cs b t) = t_id t /\ t_docs (set_docs lim mine prev cs b t) = t_docs t ++ taken mine b /\
  forall c s, In (c, s) (t_chk (set_docs lim mine prev cs b t)) -> In (c, s) (t_chk t) \/
    In c cs /\ s = kvs_seq (upto c (t_docs t ++ taken mine b)).
Proof.
  intros lim mine cs b F; induction b as [|r b IH]; intros prev t Hcs Hs Hb Ht; cbn [set_docs].
  - destruct (set_chk_entries lim None prev true cs t) as (E1 & E2 & E3). cbn [taken filter]. rewrite app_nil_r. split; [exact E1|]. split; [exact E2|].
    intros c s He. destruct (E3 _ He) as [X|(c' & X1 & X2 & X3)]; [auto|]. right. injection X3 as <- ->. split; [exact X1|]. rewrite upto_all; [reflexivity|].
    intros r Hr. specialize (Hcs c X1). destruct X2 as [X2|[[X2 _]|[X2 _]]]; destruct (Ht r Hr); lia.
  - assert (Hs' : sorted_seq b) by (unfold sorted_seq in *; cbn [map] in Hs; inversion Hs; assumption).
    assert (Hr' : forall x, In x b -> r_seq r < r_seq x).
    { unfold sorted_seq in Hs. cbn [map] in Hs. inversion Hs as [|? ? _ HF]; subst. rewrite Forall_forall in HF. intros x Hx. apply HF, in_map, Hx. }
    destruct (Hb r (or_introl eq_refl)) as [Hb1 Hb2]. unfold taken. cbn [filter]. fold (taken mine b).
    destruct (mine (r_key r)); cbn [andb]; [|apply (IH prev t Hcs Hs'); [intros x Hx; apply Hb; right; exact Hx|exact Ht]].
    destruct (set_chk_entries lim (Some (r_seq r)) prev false cs t) as (E1 & E2 & E3). set (t1 := set_chk lim (Some (r_seq r)) prev false cs t) in *.
    assert (E4 : forall rest c s, (forall x, In x rest -> r_seq r <= r_seq x) -> In (c, s) (t_chk t1) -> In (c, s) (t_chk t) \/ In c cs /\ s = kvs_seq (upto c (t_docs t ++ rest))).
    { intros rest c s Hrest He. destruct (E3 _ He) as [X|(c' & X1 & X2 & X3)]; [auto|]. right. injection X3 as <- ->. split; [exact X1|].
      specialize (Hcs c X1). rewrite upto_app, (upto_all c (t_docs t)), upto_none, app_nil_r; [reflexivity| |].
      - intros x Hx. specialize (Hrest x Hx). destruct X2 as [X2|[(X2 & s0 & X3 & X4)|[_ X2]]]; [lia|injection X3 as <-; lia|discriminate].
      - intros x Hx. destruct X2 as [X2|[[X2 _]|[_ X2]]]; [| |discriminate]; destruct (Ht x Hx); lia. }
    destruct (is_cmd r); cbn [negb].
    + destruct (IH prev t1 Hcs Hs') as (I1 & I2 & I3); [intros x Hx; apply Hb; right; exact Hx|rewrite E2; exact Ht|].
      rewrite E2 in *. split; [congruence|]. split; [exact I2|]. intros c s He. destruct (I3 c s He) as [X|X]; [|right; exact X].
      apply E4; [|exact X]. intros x Hx. apply filter_In in Hx. destruct Hx as [Hx _]. specialize (Hr' x Hx). lia.
    + destruct (IH (r_seq r) (put_doc r t1) Hcs Hs') as (I1 & I2 & I3).
      { intros x Hx. split; [apply (Hb x); right; exact Hx|apply Hr'; exact Hx]. }
      { cbn [put_doc t_docs]. intros x Hx. apply in_app_or in Hx. destruct Hx as [Hx|[<-|[]]]; [|right; lia]. rewrite E2 in Hx. destruct (Ht x Hx); [left; lia|right; lia]. }
      cbn [put_doc t_docs t_id t_chk] in *. rewrite E2 in *. rewrite <- app_assoc in I2, I3. cbn [app] in I2, I3. split; [congruence|]. split; [exact I2|].
      intros c s He. destruct (I3 c s He) as [X|[X1 X2]]; [|right; split; [exact X1|]].
      * apply E4; [|exact X]. intros x [<-|Hx]; [lia|]. apply filter_In in Hx. destruct Hx as [Hx _]. specialize (Hr' x Hx). lia.
      * exact X2.
Qed.

Lemma tab_batch_entries : forall lim mine mark cs b F t,
  (forall c, In c cs -> F < c) -> sorted_seq b -> (forall r, In r b -> F < r_seq r) -> (forall r, In r (t_docs t) -> r_seq r <= F) ->
  t_id (tab_batch lim mine mark cs b t) = t_id t /\ t_docs (tab_batch lim mine mark cs b t) = t_docs t ++ taken mine b /\
  forall c s, In (c, s) (t_chk (tab_batch lim mine mark cs b t)) -> In (c, s) (t_chk t) \/
    In c cs /\ s = kvs_seq (upto c (t_docs t ++ taken mine b)).
Proof.
  intros lim mine mark cs b F t Hcs Hs Hb Ht. destruct (set_docs_entries lim mine cs b F 0 t Hcs Hs) as (E1 & E2 & E3).
  - intros r Hr. specialize (Hb r Hr). lia.
  - intros r Hr. left. apply Ht, Hr.
  - unfold tab_batch, drop_old. cbn [t_id t_docs t_chk]. split; [exact E1|]. split; [exact E2|]. intros c s He. apply filter_In in He. apply E3, He.
Qed.

Lemma SS_join : forall a b : list N, SS a -> SS b -> (forall x y, In x a -> In y b -> x < y) -> SS (a ++ b).
Proof.
  intros a b Ha Hb H. induction Ha as [|x a Ha IH HF]; [exact Hb|]. cbn [app]. constructor.
  - apply IH. intros y z Hy Hz. apply H; [right; exact Hy|exact Hz].
  - apply Forall_forall. intros y Hy. apply in_app_or in Hy. destruct Hy as [Hy|Hy]; [rewrite Forall_forall in HF; apply HF, Hy|]. apply H; [left; reflexivity|exact Hy].
Qed.
Lemma sorted_filter : forall (P : rec -> bool) l, sorted_seq l -> sorted_seq (filter P l).
Proof.
  intros P l; induction l as [|x l IH]; intros H; [constructor|]. unfold sorted_seq in *. cbn [map] in H. inversion H as [|? ? H1 H2]; subst. cbn [filter].
  destruct (P x); [|apply IH; exact H1]. cbn [map]. constructor; [apply IH; exact H1|].
  rewrite Forall_forall in *. intros z Hz. apply in_map_iff in Hz. destruct Hz as (u & <- & Hu). apply filter_In in Hu. apply H2, in_map, Hu.
Qed.

(** * Lists of partitions *)

Lemma upd_nth : forall {A} n f (l : list A) m, nth_error (upd n f l) m = if Nat.eqb m n then option_map f (nth_error l m) else nth_error l m.
Proof.
  intros A n f; induction n as [|n IH]; intros [|x l] [|m]; cbn [upd nth_error Nat.eqb option_map]; try reflexivity.
  - destruct (Nat.eqb m n); reflexivity.
  - apply IH.
Qed.
Lemma set_parts_nth : forall lim mine mark cs b ps p m, nth_error (set_parts lim mine mark cs b p ps) m =
  option_map (fun q => match q with t :: q' => tab_batch lim (mine (p + N.of_nat m)) (mark (p + N.of_nat m)) cs b t :: q' | [] => [] end) (nth_error ps m).
Proof.
  intros lim mine mark cs b ps; induction ps as [|q ps IH]; intros p [|m]; cbn [set_parts nth_error option_map]; try reflexivity.
  - replace (p + N.of_nat 0) with p by lia. reflexivity.
  - rewrite IH. replace (p + 1 + N.of_nat m) with (p + N.of_nat (S m)) by lia. reflexivity.
Qed.
Lemma new_parts_nth : forall n id m q, nth_error (new_parts n id) m = Some q -> q = [mkCT (id + N.of_nat m) [] []] /\ (m < n)%nat.
Proof.
  induction n as [|n IH]; intros id [|m] q H; cbn [new_parts nth_error] in H; try discriminate.
  - injection H as <-. split; [|lia]. replace (id + N.of_nat 0) with id by lia. reflexivity.
  - destruct (IH _ _ _ H) as [-> L]. split; [|lia]. replace (id + 1 + N.of_nat m) with (id + N.of_nat (S m)) by lia. reflexivity.
Qed.

Section Proofs.
Variable hash : key -> N * N.
Variable part : key -> N -> N.
Notation GI := (GI hash).
Notation step := (step hash).
Notation reach := (reach hash).
Notation creach := (creach hash part).
Notation c_step := (c_step hash part).
Notation flushed d := (match lm_flushed_seq (d_log d) with Ok F => F | _ => 0 end).

(** * Where the records are *)

Record TI (np : nat) (x : cdb) : Prop := {
  ti_shape : forall p q, nth_error (cd_parts x) p = Some q -> (exists t, q = [t]) \/ exists t o, q = [t; o];
  ti_next : forall p q t, nth_error (cd_parts x) p = Some q -> In t q -> t_id t < cd_next x /\ t_id t <> t_id (cd_low x);
  ti_lown : t_id (cd_low x) < cd_next x;
  ti_uniq : forall p1 q1 t1 p2 q2 t2, nth_error (cd_parts x) p1 = Some q1 -> In t1 q1 -> nth_error (cd_parts x) p2 = Some q2 -> In t2 q2 ->
    t_id t1 = t_id t2 -> p1 = p2;
  ti_two : forall p t o, nth_error (cd_parts x) p = Some [t; o] -> t_id t <> t_id o;
  ti_mine : forall p q t r, nth_error (cd_parts x) p = Some q -> In t q -> In r (t_docs t) ->
    part (r_key r) (N.of_nat np) = N.of_nat p /\ is_cmd r = false;
  ti_lowcmd : forall r, In r (t_docs (cd_low x)) -> is_cmd r = false;
  ti_docs : forall k q, nth_error (cd_parts x) (N.to_nat (part k (N.of_nat np))) = Some q ->
    for_key k (t_docs (cd_low x) ++ flat_map t_docs (rev q)) = for_key k (d_tab (cd_db x));
  ti_low : t_chk (cd_low x) = [];
  ti_ent : forall p q t c s, nth_error (cd_parts x) p = Some q -> In t q -> In (c, s) (t_chk t) ->
    s = kvs_seq (upto c (t_docs t)) /\ forall r, In r (t_docs (cd_low x)) -> part (r_key r) (N.of_nat np) = N.of_nat p -> r_seq r <= c;
  ti_sort : forall p q t, nth_error (cd_parts x) p = Some q -> In t q -> sorted_seq (t_docs t);
  ti_ent2 : forall p t o c s, nth_error (cd_parts x) p = Some [t; o] -> In (c, s) (t_chk t) -> forall r, In r (t_docs o) -> r_seq r <= c
}.

Lemma ti_new : forall c np, TI np (cdb_new c np).
Proof.
  intros c np. constructor; cbn [cdb_new cd_parts cd_next cd_low cd_db t_id t_docs t_chk].
  - intros p q H. apply new_parts_nth in H. destruct H as [-> _]. left. eexists; reflexivity.
  - intros p q t H Ht. apply new_parts_nth in H. destruct H as [-> L]. destruct Ht as [<-|[]]. cbn [t_id]. lia.
  - lia.
  - intros p1 q1 t1 p2 q2 t2 H1 I1 H2 I2 E. apply new_parts_nth in H1, H2. destruct H1 as [-> _], H2 as [-> _].
    destruct I1 as [<-|[]], I2 as [<-|[]]. cbn [t_id] in E. lia.
  - intros p t o H. apply new_parts_nth in H. destruct H as [H _]. discriminate.
  - intros p q t r H Ht Hr. apply new_parts_nth in H. destruct H as [-> _]. destruct Ht as [<-|[]]. destruct Hr.
  - intros r [].
  - intros k q H. apply new_parts_nth in H. destruct H as [-> _]. reflexivity.
  - reflexivity.
  - intros p q t c0 s H Ht He. apply new_parts_nth in H. destruct H as [-> _]. destruct Ht as [<-|[]]. destruct He.
  - intros p q t H Ht. apply new_parts_nth in H. destruct H as [-> _]. destruct Ht as [<-|[]]. constructor.
  - intros p t o c0 s H. apply new_parts_nth in H. destruct H as [H _]. discriminate.
Qed.

Lemma ti_same : forall np d d' nx ps lw, TI np (mkCD d nx ps lw) -> d_tab d' = d_tab d -> TI np (mkCD d' nx ps lw).
Proof.
  intros np d d' nx ps lw [] E. constructor; cbn [cd_db cd_parts cd_low cd_next] in *; auto. rewrite E. assumption.
Qed.

(** Everything in a table has been flushed. *)
Lemma ti_in : forall np x p q t r, TI np x -> nth_error (cd_parts x) p = Some q -> In t q -> In r (t_docs t) -> In r (d_tab (cd_db x)).
Proof.
  intros np x p q t r T Hq Ht Hr. destruct (ti_mine _ _ T p q t r Hq Ht Hr) as [M1 M2].
  assert (E := ti_docs _ _ T (r_key r) q). rewrite M1, Nat2N.id in E. specialize (E Hq).
  assert (I : In r (for_key (r_key r) (d_tab (cd_db x)))).
  { rewrite <- E. apply filter_In. split; [|rewrite M2, keqb_refl; reflexivity]. apply in_or_app; right. apply in_flat_map. exists t.
    split; [apply in_rev in Ht; exact Ht|exact Hr]. }
  apply filter_In in I. apply I.
Qed.
Lemma ti_in_low : forall np x r, TI np x -> length (cd_parts x) = np -> part (r_key r) (N.of_nat np) < N.of_nat np ->
  In r (t_docs (cd_low x)) -> In r (d_tab (cd_db x)).
Proof.
  intros np x r T L Hp Hr. destruct (nth_error (cd_parts x) (N.to_nat (part (r_key r) (N.of_nat np)))) as [q|] eqn:Hq; [|apply nth_error_None in Hq; lia].
  assert (E := ti_docs _ _ T (r_key r) q Hq).
  assert (I : In r (for_key (r_key r) (d_tab (cd_db x)))).
  { rewrite <- E. apply filter_In. split; [apply in_or_app; left; exact Hr|rewrite (ti_lowcmd _ _ T r Hr), keqb_refl; reflexivity]. }
  apply filter_In in I. apply I.
Qed.

Lemma taken_for_key : forall mine k b, mine k = true -> for_key k (taken mine b) = for_key k b.
Proof.
  intros mine k b M. unfold for_key, taken. induction b as [|r b IH]; [reflexivity|]. cbn [filter].
  destruct (keqb (r_key r) k) eqn:Ek.
  - apply keqb_true in Ek. rewrite Ek, M. cbn [andb]. destruct (is_cmd r) eqn:Ec; cbn [negb andb]; [exact IH|].
    cbn [filter]. rewrite Ek, keqb_refl, Ec. cbn [negb andb]. rewrite IH. reflexivity.
  - cbn [andb]. destruct (mine (r_key r) && negb (is_cmd r)); [|exact IH]. cbn [filter]. rewrite Ek. exact IH.
Qed.

Lemma ti_flush : forall lim np d d' nx ps lw mark cs rs F, TI np (mkCD d nx ps lw) -> length ps = np ->
  (forall k, part k (N.of_nat np) < N.of_nat np) ->
  (forall r, In r (d_tab d) -> r_seq r <= F) -> (forall c, In c cs -> F < c) -> sorted_seq rs -> (forall r, In r rs -> F < r_seq r) ->
  (forall q t c s, In q ps -> In t q -> In (c, s) (t_chk t) -> c <= F) ->
  d_tab d' = d_tab d ++ rs -> TI np (mkCD d' nx (set_parts lim (mine_of part (N.of_nat (length ps))) mark cs rs 0 ps) lw).
Proof.
  intros lim np d d' nx ps lw mark cs rs F T L Hpt HF Hcs Hs Hrs Hold Ed.
  assert (HD : forall p q t r, nth_error ps p = Some q -> In t q -> In r (t_docs t) -> r_seq r <= F).
  { intros p q t r H1 H2 H3. apply HF. exact (ti_in np _ p q t r T H1 H2 H3). }
  assert (HL : forall r, In r (t_docs lw) -> r_seq r <= F).
  { intros r Hr. apply HF. exact (ti_in_low np _ r T L (Hpt _) Hr). }
  rewrite L.
  assert (N1 : forall p q, nth_error (set_parts lim (mine_of part (N.of_nat np)) mark cs rs 0 ps) p = Some q ->
    exists t q0 t', nth_error ps p = Some (t :: q0) /\ q = t' :: q0 /\ t_id t' = t_id t /\
      t_docs t' = t_docs t ++ taken (mine_of part (N.of_nat np) (N.of_nat p)) rs /\
      forall c s, In (c, s) (t_chk t') -> In (c, s) (t_chk t) \/ In c cs /\ s = kvs_seq (upto c (t_docs t'))).
  { intros p q H. rewrite set_parts_nth in H. destruct (nth_error ps p) as [q0|] eqn:Eq; [|discriminate]. cbn [option_map] in H. injection H as <-.
    destruct q0 as [|t q0]; [destruct (ti_shape _ _ T p [] Eq) as [(? & X)|(? & ? & X)]; discriminate|]. rewrite N.add_0_l.
    destruct (tab_batch_entries lim (mine_of part (N.of_nat np) (N.of_nat p)) (mark (N.of_nat p)) cs rs F t Hcs Hs Hrs) as (E1 & E2 & E3).
    { intros r Hr. apply (HD p _ t r Eq (or_introl eq_refl) Hr). }
    do 3 eexists. split; [reflexivity|]. split; [reflexivity|]. split; [exact E1|]. split; [exact E2|]. rewrite E2. exact E3. }
  constructor; cbn [cd_parts cd_next cd_low cd_db].
  - intros p q H. destruct (N1 p q H) as (t & q0 & t' & E1 & -> & _). destruct (ti_shape _ _ T p _ E1) as [(u & X)|(u & o & X)]; injection X as -> ->; eauto.
  - intros p q u H Hu. destruct (N1 p q H) as (t & q0 & t' & E1 & -> & E2 & _). destruct Hu as [<-|Hu].
    + rewrite E2. exact (ti_next _ _ T p _ t E1 (or_introl eq_refl)).
    + exact (ti_next _ _ T p _ u E1 (or_intror Hu)).
  - exact (ti_lown _ _ T).
  - intros p1 q1 t1 p2 q2 t2 H1 I1 H2 I2 E. destruct (N1 p1 q1 H1) as (t & q0 & t' & E1 & -> & E2 & _). destruct (N1 p2 q2 H2) as (u & w0 & u' & D1 & -> & D2 & _).
    assert (A : exists z1, In z1 (t :: q0) /\ t_id z1 = t_id t1) by (destruct I1 as [<-|I1]; [exists t; split; [left; reflexivity|congruence]|exists t1; split; [right; exact I1|reflexivity]]).
    assert (B : exists z2, In z2 (u :: w0) /\ t_id z2 = t_id t2) by (destruct I2 as [<-|I2]; [exists u; split; [left; reflexivity|congruence]|exists t2; split; [right; exact I2|reflexivity]]).
    destruct A as (z1 & A1 & A2), B as (z2 & B1 & B2). apply (ti_uniq _ _ T p1 _ z1 p2 _ z2 E1 A1 D1 B1). congruence.
  - intros p u o H. destruct (N1 p _ H) as (t & q0 & t' & E1 & X & E2 & _). injection X as -> <-. rewrite E2. exact (ti_two _ _ T p t o E1).
  - intros p q u r H Hu Hr. destruct (N1 p q H) as (t & q0 & t' & E1 & -> & E2 & E3 & _). destruct Hu as [<-|Hu].
    + rewrite E3 in Hr. apply in_app_or in Hr. destruct Hr as [Hr|Hr]; [exact (ti_mine _ _ T p _ t r E1 (or_introl eq_refl) Hr)|].
      apply filter_In in Hr. destruct Hr as [_ Hr]. apply andb_true_iff in Hr. destruct Hr as [M C]. unfold mine_of in M. split; [lia|].
      destruct (is_cmd r); [discriminate|reflexivity].
    + exact (ti_mine _ _ T p _ u r E1 (or_intror Hu) Hr).
  - exact (ti_lowcmd _ _ T).
  - intros k q H. destruct (N1 _ q H) as (t & q0 & t' & E1 & -> & E2 & E3 & _). assert (X := ti_docs _ _ T k _ E1). cbn [cd_low cd_db] in X.
    cbn [rev] in X |- *. rewrite flat_map_app in X |- *. cbn [flat_map] in X |- *. rewrite app_nil_r in X |- *. rewrite E3, Ed.
    rewrite !app_assoc. rewrite (for_key_app k _ (taken _ rs)), (for_key_app k (d_tab d) rs), <- X, !app_assoc. f_equal.
    apply taken_for_key. unfold mine_of. rewrite N2Nat.id. apply N.eqb_refl.
  - exact (ti_low _ _ T).
  - intros p q u c s H Hu He. destruct (N1 p q H) as (t & q0 & t' & E1 & -> & E2 & E3 & E4). destruct Hu as [<-|Hu].
    + destruct (E4 c s He) as [X|[X1 X2]].
      * destruct (ti_ent _ _ T p _ t c s E1 (or_introl eq_refl) X) as [Y1 Y2]. split; [|exact Y2]. rewrite E3, upto_app, (upto_none c (taken _ _)), app_nil_r; [exact Y1|].
        intros r Hr. apply filter_In in Hr. destruct Hr as [Hr _]. specialize (Hrs r Hr).
        assert (Z := Hold _ t c s (nth_error_In _ _ E1) (or_introl eq_refl) X). lia.
      * split; [exact X2|]. intros r Hr _. specialize (HL r Hr). specialize (Hcs c X1). lia.
    + exact (ti_ent _ _ T p _ u c s E1 (or_intror Hu) He).
  - intros p q u H Hu. destruct (N1 p q H) as (t & q0 & t' & E1 & -> & E2 & E3 & E4). destruct Hu as [<-|Hu]; [|exact (ti_sort _ _ T p _ u E1 (or_intror Hu))].
    rewrite E3. unfold sorted_seq. rewrite map_app. apply SS_join; [exact (ti_sort _ _ T p _ t E1 (or_introl eq_refl))|apply sorted_filter; exact Hs|].
    intros a b Ha Hb. apply in_map_iff in Ha, Hb. destruct Ha as (ra & <- & Ha), Hb as (rb & <- & Hb). apply filter_In in Hb. destruct Hb as [Hb _].
    specialize (Hrs rb Hb). assert (Z := HD p _ t ra E1 (or_introl eq_refl) Ha). lia.
  - intros p u o c s H He r Hr. destruct (N1 p _ H) as (t & q0 & t' & E1 & X & E2 & E3 & E4). injection X as -> <-.
    destruct (E4 c s He) as [X|[X1 X2]]; [exact (ti_ent2 _ _ T p t o c s E1 X r Hr)|]. specialize (Hcs c X1). 
    assert (Z := HD p _ o r E1 (or_intror (or_introl eq_refl)) Hr). lia.
Qed.

Lemma ti_roll : forall np d nx ps lw p t, TI np (mkCD d nx ps lw) -> nth_error ps p = Some [t] ->
  TI np (mkCD d (nx + 1) (upd p (fun q => mkCT nx [] [] :: q) ps) lw).
Proof.
  intros np d nx ps lw p t T Ep.
  assert (N1 : forall m q, nth_error (upd p (fun q => mkCT nx [] [] :: q) ps) m = Some q ->
    (m = p /\ q = [mkCT nx [] []; t]) \/ (m <> p /\ nth_error ps m = Some q)).
  { intros m q H. rewrite upd_nth in H. destruct (Nat.eqb m p) eqn:Em; [apply Nat.eqb_eq in Em; subst m|apply Nat.eqb_neq in Em; auto].
    rewrite Ep in H. cbn [option_map] in H. injection H as <-. auto. }
  assert (N2 : forall m q u, nth_error (upd p (fun q => mkCT nx [] [] :: q) ps) m = Some q -> In u q ->
    (m = p /\ u = mkCT nx [] []) \/ exists q0, nth_error ps m = Some q0 /\ In u q0).
  { intros m q u H Hu. destruct (N1 m q H) as [(-> & ->)|(_ & H')]; [|right; eauto]. destruct Hu as [<-|Hu]; [left; auto|]. right. exists [t]. auto. }
  assert (L := ti_lown _ _ T). constructor; cbn [cd_parts cd_next cd_low cd_db] in *.
  - intros m q H. destruct (N1 m q H) as [(-> & ->)|(_ & H')]; [right; eauto|exact (ti_shape _ _ T m q H')].
  - intros m q u H Hu. destruct (N2 m q u H Hu) as [(-> & ->)|(q0 & H' & Hu')]; [cbn [t_id]; lia|]. destruct (ti_next _ _ T m q0 u H' Hu') as [X Y]. cbn [cd_next cd_low] in *. lia.
  - lia.
  - intros p1 q1 t1 p2 q2 t2 H1 I1 H2 I2 E.
    destruct (N2 _ _ _ H1 I1) as [(-> & ->)|(z1 & A1 & B1)], (N2 _ _ _ H2 I2) as [(-> & ->)|(z2 & A2 & B2)]; [reflexivity| | |].
    + destruct (ti_next _ _ T p2 z2 t2 A2 B2) as [X _]. cbn [cd_next t_id] in *. lia.
    + destruct (ti_next _ _ T p1 z1 t1 A1 B1) as [X _]. cbn [cd_next t_id] in *. lia.
    + exact (ti_uniq _ _ T p1 z1 t1 p2 z2 t2 A1 B1 A2 B2 E).
  - intros m u o H. destruct (N1 m _ H) as [(-> & X)|(_ & H')]; [|exact (ti_two _ _ T m u o H')]. injection X as -> ->.
    destruct (ti_next _ _ T p _ t Ep (or_introl eq_refl)) as [X _]. cbn [cd_next t_id] in *. lia.
  - intros m q u r H Hu Hr. destruct (N2 m q u H Hu) as [(-> & ->)|(q0 & H' & Hu')]; [destruct Hr|exact (ti_mine _ _ T m q0 u r H' Hu' Hr)].
  - exact (ti_lowcmd _ _ T).
  - intros k q H. destruct (N1 _ q H) as [(Em & ->)|(_ & H')]; [|exact (ti_docs _ _ T k q H')].
    assert (X := ti_docs _ _ T k [t]). cbn [cd_parts cd_low cd_db] in X. rewrite <- X; [reflexivity|]. rewrite Em. exact Ep.
  - exact (ti_low _ _ T).
  - intros m q u c s H Hu He. destruct (N2 m q u H Hu) as [(-> & ->)|(q0 & H' & Hu')]; [destruct He|exact (ti_ent _ _ T m q0 u c s H' Hu' He)].
  - intros m q u H Hu. destruct (N2 m q u H Hu) as [(-> & ->)|(q0 & H' & Hu')]; [constructor|exact (ti_sort _ _ T m q0 u H' Hu')].
  - intros m u o c s H He r Hr. destruct (N1 m _ H) as [(-> & X)|(_ & H')]; [injection X as -> ->; destruct He|exact (ti_ent2 _ _ T m u o c s H' He r Hr)].
Qed.

Lemma for_key_none : forall k l, (forall r, In r l -> r_key r <> k) -> for_key k l = [].
Proof.
  intros k l H. unfold for_key. induction l as [|r l IH]; [reflexivity|]. cbn [filter].
  rewrite (proj2 (keqb_false (r_key r) k) (H r (or_introl eq_refl))). apply IH. intros x Hx. apply H. right; exact Hx.
Qed.

Lemma ti_drop : forall np d nx ps lw p t o (fresh : bool), TI np (mkCD d nx ps lw) -> nth_error ps p = Some [t; o] ->
  TI np (mkCD d (if fresh then nx + 1 else nx) (upd p (fun _ => [t]) ps) (mkCT (if fresh then nx else t_id lw) (t_docs lw ++ t_docs o) (t_chk lw))).
Proof.
  intros np d nx ps lw p t o fresh T Ep.
  assert (N1 : forall m q, nth_error (upd p (fun _ => [t]) ps) m = Some q -> (m = p /\ q = [t]) \/ (m <> p /\ nth_error ps m = Some q)).
  { intros m q H. rewrite upd_nth in H. destruct (Nat.eqb m p) eqn:Em; [apply Nat.eqb_eq in Em; subst m|apply Nat.eqb_neq in Em; auto].
    rewrite Ep in H. cbn [option_map] in H. injection H as <-. auto. }
  assert (N2 : forall m q u, nth_error (upd p (fun _ => [t]) ps) m = Some q -> In u q -> exists q0, nth_error ps m = Some q0 /\ In u q0).
  { intros m q u H Hu. destruct (N1 m q H) as [(-> & ->)|(_ & H')]; [|eauto]. destruct Hu as [<-|[]]. exists [t; o]. split; [exact Ep|left; reflexivity]. }
  assert (L := ti_lown _ _ T). constructor; cbn [cd_parts cd_next cd_low cd_db t_id t_docs t_chk] in *.
  - intros m q H. destruct (N1 m q H) as [(-> & ->)|(_ & H')]; [left; eauto|exact (ti_shape _ _ T m q H')].
  - intros m q u H Hu. destruct (N2 m q u H Hu) as (q0 & H' & Hu'). destruct (ti_next _ _ T m q0 u H' Hu') as [X Y]. cbn [cd_next cd_low] in *.
    destruct fresh; lia.
  - destruct fresh; lia.
  - intros p1 q1 t1 p2 q2 t2 H1 I1 H2 I2 E.
    destruct (N2 _ _ _ H1 I1) as (z1 & A1 & B1), (N2 _ _ _ H2 I2) as (z2 & A2 & B2). exact (ti_uniq _ _ T p1 z1 t1 p2 z2 t2 A1 B1 A2 B2 E).
  - intros m u o' H. destruct (N1 m _ H) as [(-> & X)|(_ & H')]; [discriminate|exact (ti_two _ _ T m u o' H')].
  - intros m q u r H Hu Hr. destruct (N2 m q u H Hu) as (q0 & H' & Hu'). exact (ti_mine _ _ T m q0 u r H' Hu' Hr).
  - intros r Hr. apply in_app_or in Hr. destruct Hr as [Hr|Hr]; [exact (ti_lowcmd _ _ T r Hr)|].
    exact (proj2 (ti_mine _ _ T p _ o r Ep (or_intror (or_introl eq_refl)) Hr)).
  - intros k q H. destruct (N1 _ q H) as [(Em & ->)|(Nm & H')].
    + assert (X := ti_docs _ _ T k [t; o]). cbn [cd_parts cd_low cd_db] in X. rewrite <- X; [|rewrite Em; exact Ep]. cbn [rev app flat_map]. rewrite !app_nil_r, <- app_assoc. reflexivity.
    + assert (X0 := ti_docs _ _ T k q H'). cbn [cd_low cd_db] in X0. rewrite <- X0,  !for_key_app, (for_key_none k (t_docs o)), app_nil_r; [reflexivity|].
      intros r Hr <-. apply Nm. destruct (ti_mine _ _ T p _ o r Ep (or_intror (or_introl eq_refl)) Hr) as [X _]. lia.
  - exact (ti_low _ _ T).
  - intros m q u c s H Hu He. destruct (N2 m q u H Hu) as (q0 & H' & Hu'). destruct (ti_ent _ _ T m q0 u c s H' Hu' He) as [X Y]. split; [exact X|].
    intros r Hr Hp. apply in_app_or in Hr. destruct Hr as [Hr|Hr]; [exact (Y r Hr Hp)|].
    destruct (ti_mine _ _ T p _ o r Ep (or_intror (or_introl eq_refl)) Hr) as [Z _]. assert (m = p) by lia. subst m.
    destruct (N1 p q H) as [(_ & ->)|(F & _)]; [|congruence]. destruct Hu as [<-|[]]. exact (ti_ent2 _ _ T p t o c s Ep He r Hr).
  - intros m q u H Hu. destruct (N2 m q u H Hu) as (q0 & H' & Hu'). exact (ti_sort _ _ T m q0 u H' Hu').
  - intros m u o' c s H He r Hr. destruct (N1 m _ H) as [(-> & X)|(_ & H')]; [discriminate|exact (ti_ent2 _ _ T m u o' c s H' He r Hr)].
Qed.

Lemma tab_same : forall c o d y d', step c o d = Some (y, d') -> (forall fo seq, o <> OFlush fo seq) -> d_tab d' = d_tab d.
Proof.
  intros c o d y d' Es Hno. destruct o as [full r|b| | |bad|fo seq|out0]; unfold DbModel.step in Es.
  - destruct (d_bat d); [discriminate|]. destruct (lm_set hash c full r (d_log d)) as [z g]. injection Es as _ <-. reflexivity.
  - destruct (d_bat d); [discriminate|]. destruct (c_ro c); [injection Es as _ <-; reflexivity|]. destruct b; [injection Es as _ <-; reflexivity|].
    destruct (batch_valid _ _ _); injection Es as _ <-; reflexivity.
  - destruct (d_bat d) as [[[|r t] done]|]; try discriminate. destruct (batch_put hash c r (d_log d)) as [z g]. destruct z; injection Es as _ <-; reflexivity.
  - destruct (d_bat d) as [[[|r t] done]|]; try discriminate. injection Es as _ <-. reflexivity.
  - destruct (lm_sync bad (d_log d)) as [z g]. injection Es as _ <-. reflexivity.
  - exfalso. apply (Hno fo seq). reflexivity.
  - destruct (lm_checkpoint out0 (d_log d)) as [z g]. injection Es as _ <-. reflexivity.
Qed.

Lemma ti_step : forall lim c np h ks x o y x', cfg_ok c -> (forall k, part k (N.of_nat np) < N.of_nat np) ->
  CI hash lim c np h ks x -> callowed c h x o -> c_step lim c o x = Some (y, x') -> TI np x -> TI np x'.
Proof.
  intros lim c np h ks [d nx ps lw] o y x' Cok Hpt I A E T. destruct o as [o mark|p|p fresh].
  - cbn [callowed cd_db] in A. destruct I as [R L Le Tb]. cbn [cd_db cd_parts] in *. unfold CheckpointModel.c_step in E. cbn [cd_db cd_next cd_parts cd_low] in E.
    destruct o as [full r|b| | |bad|fo seq|out0];
      match type of E with context [DbModel.step hash c ?o d] => destruct (DbModel.step hash c o d) as [[y0 d']|] eqn:Es; [|discriminate] end;
      injection E as <- <-; try (apply (ti_same np d d' nx ps lw T); apply (tab_same c _ d y0 d' Es); intros; discriminate).
    assert (Es' := Es). unfold DbModel.step in Es. destruct (lm_flush fo seq (d_log d)) as [z g] eqn:Ef. cbn [fst].
    destruct z as [[[|r rs] cs]|e|]; injection Es as _ <-; try (apply (ti_same np d _ nx ps lw T); cbn [d_tab]; rewrite ?app_nil_r; reflexivity).
    assert (Hss : each (fun m => SS (m_chks m)) (g_files (d_log d))) by (intros f Hf; apply (L f Hf)).
    destruct (flush_checkpoints hash part c h d fo seq (r :: rs) cs g Cok R A Ef Hss) as (s & S0 & Es2 & S1 & S2 & S3 & S4 & S5 & S6).
    destruct (reach_inv _ _ _ _ Cok R) as [(n0 & pre & F & pt & H & Ht & Hl & HF & HFl & HG & HB)].
    destruct (flush_facts hash c h d fo seq n0 pre F pt H Hl HB A) as (ro & g1 & Efl & R1). rewrite Ef in Efl. injection Efl as <- ->.
    destruct R1 as (n1 & pre1 & s1 & Hs & Hs1 & Hsl & Ers & H1 & _).
    apply ti_flush with (d := d) (F := flushed d); [exact T|exact Le|exact Hpt|exact S4| | | | |reflexivity].
    + intros k Hk. apply S2 in Hk. apply Hk.
    + rewrite Ers. apply sorted_filter. exact (gi_asc _ _ _ _ _ _ H).
    + intros x Hx. rewrite Ers in Hx. apply filter_In in Hx. destruct Hx as [_ Hx].
      rewrite (flushed_is hash part _ _ _ _ _ H (di_F_lt hash c h d _ _ _ _ H HFl)). lia.
    + intros q t k s2 Hq Htq He. destruct (Tb q t Hq Htq) as (_ & _ & X). destruct (X k) as [_ (z & Hz & Ez)]; [apply in_map_iff; exists (k, s2); auto|].
      rewrite <- Ez. apply (tab_le hash part c h d z Cok R Hz).
  - unfold CheckpointModel.c_step in E. cbn [cd_db cd_next cd_parts cd_low] in E.
    destruct (nth_error ps p) as [[|t [|? ?]]|] eqn:En; try discriminate. injection E as <- <-. apply (ti_roll np d nx ps lw p t T En).
  - unfold CheckpointModel.c_step in E. cbn [cd_db cd_next cd_parts cd_low] in E.
    destruct (nth_error ps p) as [[|t [|o0 [|? ?]]]|] eqn:En; try discriminate. injection E as <- <-. apply (ti_drop np d nx ps lw p t o0 fresh T En).
Qed.

Lemma creach_ti : forall lim c np h ks x, cfg_ok c -> (forall k, part k (N.of_nat np) < N.of_nat np) -> creach lim c np h ks x -> TI np x.
Proof.
  intros lim c np h ks x Cok Hpt R. induction R as [|h ks x o y x' R IH A E]; [apply ti_new|].
  apply (ti_step lim c np h ks x o y x' Cok Hpt (creach_inv hash part lim c np h ks x Cok R) A E IH).
Qed.
End Proofs.
