(** Proofs for C136. *)
From Verif Require Import Base KeyModel VictimModel VictimSpec.
From Coq Require Import Lia.
Local Open Scope N_scope.

Lemma stats_free : forall ts t w tot, In t ts -> stats_of t = Some (w, tot) -> free_table ts t w tot.
Proof. intros ts t w tot I H. unfold stats_of in H. destruct (v_locked t) eqn:L; [discriminate|]. repeat split; assumption. Qed.
Lemma free_stats : forall ts t w tot, free_table ts t w tot -> stats_of t = Some (w, tot).
Proof. intros ts t w tot (_ & L & S). unfold stats_of. rewrite L. exact S. Qed.

Lemma ratio_plain : forall w tot, 100 * tot < 2 ^ 64 -> ratio w tot = 100 * tot / w.
Proof. intros w tot H. unfold ratio. rewrite N.mul_comm, N.mod_small by exact H. reflexivity. Qed.
Lemma ratio_ge : forall f w tot, 0 < w -> (f <= 100 * tot / w <-> f * w <= 100 * tot).
Proof.
  intros f w tot W. split; intro H.
  - apply N.le_trans with (100 * tot / w * w); [apply N.mul_le_mono_r; exact H|]. rewrite N.mul_comm. apply N.mul_div_le. lia.
  - apply N.div_le_lower_bound; [lia|]. rewrite N.mul_comm. exact H.
Qed.

(** ** The most stale table *)

Definition eligible (c : vcfg) (honor : bool) (t : vtab) : option N :=
  match stats_of t with
  | Some (w, tot) => if (w =? 0) || (tot <? vc_file c) || (honor && (ratio w tot <? vc_factor c)) then None else Some (ratio w tot)
  | None => None
  end.
Lemma pick_stale_step : forall c h t r b v, pick_stale c h (t :: r) b v =
  match eligible c h t with Some q => if b <? q then pick_stale c h r q (Some t) else pick_stale c h r b v | None => pick_stale c h r b v end.
Proof.
  intros. cbn [pick_stale]. unfold eligible. destruct (stats_of t) as [[w tot]|]; [|reflexivity].
  destruct ((w =? 0) || (tot <? vc_file c) || (h && (ratio w tot <? vc_factor c))); reflexivity.
Qed.
Lemma pick_stale_best : forall c h ts b v t, pick_stale c h ts b v = Some t ->
  (v = Some t /\ forall u q, In u ts -> eligible c h u = Some q -> q <= b) \/
  (In t ts /\ exists q, eligible c h t = Some q /\ b < q /\ forall u q', In u ts -> eligible c h u = Some q' -> q' <= q).
Proof.
  induction ts as [|x ts IH]; intros b v t H.
  - left. split; [exact H|]. intros u q [].
  - rewrite pick_stale_step in H. destruct (eligible c h x) as [q|] eqn:E.
    + destruct (b <? q) eqn:L.
      * apply N.ltb_lt in L. right. apply IH in H. destruct H as [[V A]|(I & q2 & E2 & L2 & A)].
        -- injection V as <-. split; [left; reflexivity|]. exists q. split; [exact E|]. split; [exact L|].
           intros u q' [<-|I] Eu; [rewrite E in Eu; injection Eu as <-; lia|exact (A u q' I Eu)].
        -- split; [right; exact I|]. exists q2. split; [exact E2|]. split; [lia|].
           intros u q' [<-|I'] Eu; [rewrite E in Eu; injection Eu as <-; lia|exact (A u q' I' Eu)].
      * apply N.ltb_ge in L. apply IH in H. destruct H as [[V A]|(I & q2 & E2 & L2 & A)].
        -- left. split; [exact V|]. intros u q' [<-|I] Eu; [rewrite E in Eu; injection Eu as <-; lia|exact (A u q' I Eu)].
        -- right. split; [right; exact I|]. exists q2. split; [exact E2|]. split; [exact L2|].
           intros u q' [<-|I'] Eu; [rewrite E in Eu; injection Eu as <-; lia|exact (A u q' I' Eu)].
    + apply IH in H. destruct H as [[V A]|(I & q2 & E2 & L2 & A)].
      * left. split; [exact V|]. intros u q' [<-|I] Eu; [congruence|exact (A u q' I Eu)].
      * right. split; [right; exact I|]. exists q2. split; [exact E2|]. split; [exact L2|].
        intros u q' [<-|I'] Eu; [congruence|exact (A u q' I' Eu)].
Qed.
Lemma pick_stale_some : forall c h ts b t, pick_stale c h ts b (Some t) <> None.
Proof.
  induction ts as [|x ts IH]; intros b t; [discriminate|]. rewrite pick_stale_step.
  destruct (eligible c h x) as [q|]; [destruct (b <? q)|]; apply IH.
Qed.
Lemma pick_stale_none : forall c h ts b, pick_stale c h ts b None = None -> forall u q, In u ts -> eligible c h u = Some q -> q <= b.
Proof.
  induction ts as [|x ts IH]; intros b H u q I E; [destruct I|]. rewrite pick_stale_step in H. destruct I as [->|I].
  - rewrite E in H. destruct (b <? q) eqn:L; [|apply N.ltb_ge; exact L]. exfalso. exact (pick_stale_some _ _ _ _ _ H).
  - destruct (eligible c h x) as [q'|]; [destruct (b <? q') eqn:L|].
    + exfalso. exact (pick_stale_some _ _ _ _ _ H).
    + exact (IH _ H _ _ I E).
    + exact (IH _ H _ _ I E).
Qed.
Lemma eligible_stale : forall c ts t q, sizes_ok ts -> In t ts -> eligible c true t = Some q ->
  exists w tot, free_table ts t w tot /\ stale c w tot /\ q = 100 * tot / w.
Proof.
  intros c ts t q S I E. unfold eligible in E. destruct (stats_of t) as [[w tot]|] eqn:St; [|discriminate].
  assert (F := stats_free ts t w tot I St). exists w, tot. split; [exact F|].
  rewrite (ratio_plain w tot (S t w tot I (proj2 (proj2 F)))) in E.
  destruct ((w =? 0) || (tot <? vc_file c) || (true && (100 * tot / w <? vc_factor c))) eqn:B; [discriminate|].
  injection E as <-. apply orb_false_iff in B. destruct B as [B B3]. apply orb_false_iff in B. destruct B as [B1 B2].
  apply N.eqb_neq in B1. apply N.ltb_ge in B2. cbn [andb] in B3. apply N.ltb_ge in B3.
  split; [|reflexivity]. split; [lia|]. split; [exact B2|]. apply ratio_ge; [lia|exact B3].
Qed.
Lemma stale_eligible : forall c ts t w tot, sizes_ok ts -> free_table ts t w tot -> stale c w tot -> eligible c true t = Some (100 * tot / w).
Proof.
  intros c ts t w tot S F (W & A & B). unfold eligible. rewrite (free_stats ts t w tot F).
  rewrite (ratio_plain w tot (S t w tot (proj1 F) (proj2 (proj2 F)))).
  apply ratio_ge in B; [|exact W].
  rewrite (proj2 (N.eqb_neq w 0)) by lia. rewrite (proj2 (N.ltb_ge tot (vc_file c))) by exact A.
  rewrite (proj2 (N.ltb_ge _ _) B). reflexivity.
Qed.

(** ** The oldest candidate *)
Lemma oldest_least : forall ts l v t, oldest ts l v = Some t ->
  (v = Some t /\ forall u, In u ts -> l <= v_num u) \/ (In t ts /\ v_num t < l /\ forall u, In u ts -> v_num t <= v_num u).
Proof.
  induction ts as [|x ts IH]; intros l v t H; cbn [oldest] in H.
  - left. split; [exact H|]. intros u [].
  - destruct (v_num x <? l) eqn:L.
    + apply N.ltb_lt in L. right. apply IH in H. destruct H as [[V A]|(I & L2 & A)].
      * injection V as <-. split; [left; reflexivity|]. split; [exact L|]. intros u [<-|I]; [lia|exact (A u I)].
      * split; [right; exact I|]. split; [lia|]. intros u [<-|I']; [lia|exact (A u I')].
    + apply N.ltb_ge in L. apply IH in H. destruct H as [[V A]|(I & L2 & A)].
      * left. split; [exact V|]. intros u [<-|I]; [exact L|exact (A u I)].
      * right. split; [right; exact I|]. split; [exact L2|]. intros u [<-|I']; [lia|exact (A u I')].
Qed.
Lemma oldest_some : forall ts l t, oldest ts l (Some t) <> None.
Proof. induction ts as [|x ts IH]; intros l t; [discriminate|]. cbn [oldest]. destruct (v_num x <? l); apply IH. Qed.
Lemma oldest_none : forall ts l, oldest ts l None = None -> forall u, In u ts -> l <= v_num u.
Proof.
  induction ts as [|x ts IH]; intros l H u I; [destruct I|]. cbn [oldest] in H. destruct (v_num x <? l) eqn:L.
  - exfalso. exact (oldest_some _ _ _ H).
  - apply N.ltb_ge in L. destruct I as [<-|I]; [exact L|exact (IH _ H u I)].
Qed.
Lemma split_iff : forall c ts t, In t ts -> (over_limit c true true t = true <-> exists w tot, free_table ts t w tot /\ too_big c w).
Proof.
  intros c ts t I. unfold over_limit. destruct (stats_of t) as [[w tot]|] eqn:S.
  - cbn [negb andb]. split; intro H.
    + exists w, tot. split; [apply stats_free; assumption|]. unfold too_big. apply N.ltb_lt. exact H.
    + destruct H as (w' & tot' & F & B). rewrite (free_stats _ _ _ _ F) in S. injection S as <- <-. apply N.ltb_lt. exact B.
  - split; [discriminate|]. intros (w & tot & F & _). rewrite (free_stats _ _ _ _ F) in S. discriminate.
Qed.
Lemma urgent_iff : forall c ts t, vc_urgent c <> 0 -> In t ts ->
  (over_limit c false true t = true <-> exists w tot, free_table ts t w tot /\ v_num t <= vc_urgent c).
Proof.
  intros c ts t U I. unfold over_limit. destruct (stats_of t) as [[w tot]|] eqn:S.
  - cbn [negb andb]. rewrite (proj2 (N.eqb_neq _ _) U). cbn [negb]. split; intro H.
    + exists w, tot. split; [apply stats_free; assumption|]. apply N.leb_le. exact H.
    + destruct H as (w' & tot' & F & B). apply N.leb_le. exact B.
  - split; [discriminate|]. intros (w & tot & F & _). rewrite (free_stats _ _ _ _ F) in S. discriminate.
Qed.

(** ** Choices *)
Lemma chosen_stale : forall c over ts t, sizes_ok ts -> vc_urgent c = 0 -> choose c over ts = Some (InPlace t) ->
  exists w tot, free_table ts t w tot /\ stale c w tot /\
    forall u w' tot', free_table ts u w' tot' -> stale c w' tot' -> 100 * tot' / w' <= 100 * tot / w.
Proof.
  intros c over ts t S U H. unfold choose in H. rewrite U, N.eqb_refl in H. destruct over; [discriminate|].
  destruct (pick_fix ts); [discriminate|]. destruct (pick_wss c true true ts); [discriminate|].
  destruct (pick_stale c true ts 0 None) as [x|] eqn:P; [|destruct (pick_small c true ts); discriminate].
  injection H as ->. apply pick_stale_best in P. destruct P as [[V _]|(I & q & E & _ & A)]; [discriminate|].
  destruct (eligible_stale c ts t q S I E) as (w & tot & F & St & ->).
  exists w, tot. split; [exact F|]. split; [exact St|]. intros u w' tot' F' St'.
  apply (A u); [exact (proj1 F')|]. exact (stale_eligible c ts u w' tot' S F' St').
Qed.

Lemma chosen_split : forall c over ts t, choose c over ts = Some (Split t) ->
  exists w tot, free_table ts t w tot /\ too_big c w /\
    forall u w' tot', free_table ts u w' tot' -> too_big c w' -> v_num t <= v_num u.
Proof.
  intros c over ts t H. unfold choose in H. destruct over; [discriminate|].
  destruct (if vc_urgent c =? 0 then None else pick_wss c false true ts); [discriminate|].
  destruct (pick_fix ts); [discriminate|]. destruct (pick_wss c true true ts) as [x|] eqn:P.
  - injection H as ->. unfold pick_wss in P. apply oldest_least in P. destruct P as [[V _]|(I & _ & A)]; [discriminate|].
    apply filter_In in I. destruct I as [I O]. apply (split_iff c ts t I) in O. destruct O as (w & tot & F & B).
    exists w, tot. split; [exact F|]. split; [exact B|]. intros u w' tot' F' B'. apply A. apply filter_In.
    split; [exact (proj1 F')|]. apply (split_iff c ts u (proj1 F')). exists w', tot'. split; assumption.
  - destruct (pick_stale c true ts 0 None); [discriminate|]. destruct (pick_small c true ts); discriminate.
Qed.

Lemma chosen_urgent : forall c ts, numbers_ok ts -> vc_urgent c <> 0 ->
  (exists u w tot, free_table ts u w tot /\ v_num u <= vc_urgent c) ->
  exists t w tot, choose c false ts = Some (InPlace t) /\ free_table ts t w tot /\ v_num t <= vc_urgent c /\
    forall u w' tot', free_table ts u w' tot' -> v_num u <= vc_urgent c -> v_num t <= v_num u.
Proof.
  intros c ts N U (u & w & tot & F & L). unfold choose. rewrite (proj2 (N.eqb_neq _ _) U).
  assert (I : In u (filter (over_limit c false true) ts)).
  { apply filter_In. split; [exact (proj1 F)|]. apply (urgent_iff c ts u U (proj1 F)). exists w, tot. split; assumption. }
  destruct (pick_wss c false true ts) as [t|] eqn:P.
  - unfold pick_wss in P. apply oldest_least in P. destruct P as [[V _]|(It & _ & A)]; [discriminate|].
    apply filter_In in It. destruct It as [It O]. apply (urgent_iff c ts t U It) in O. destruct O as (w1 & tot1 & F1 & B1).
    exists t, w1, tot1. split; [reflexivity|]. split; [exact F1|]. split; [exact B1|].
    intros u' w' tot' F' B'. apply A. apply filter_In. split; [exact (proj1 F')|]. apply (urgent_iff c ts u' U (proj1 F')). exists w', tot'. split; assumption.
  - exfalso. assert (Hx := oldest_none _ _ P u I). assert (Hy := N u (proj1 F)). apply N.lt_nge in Hy. exact (Hy Hx).
Qed.

Lemma chosen_fix : forall c over ts t, choose c over ts = Some (Fix t) -> In t ts /\ v_locked t = false /\ v_fix t = true.
Proof.
  intros c over ts t H. unfold choose in H. destruct over; [discriminate|].
  destruct (if vc_urgent c =? 0 then None else pick_wss c false true ts); [discriminate|].
  destruct (pick_fix ts) as [x|] eqn:P.
  - injection H as ->. unfold pick_fix in P. apply find_some in P. destruct P as [I B]. apply andb_true_iff in B. destruct B as [B1 B2].
    apply negb_true_iff in B1. auto.
  - destruct (pick_wss c true true ts); [discriminate|]. destruct (pick_stale c true ts 0 None); [discriminate|]. destruct (pick_small c true ts); discriminate.
Qed.

Lemma nothing_missed : forall c ts o, sizes_ok ts -> numbers_ok ts -> choose c false ts = o -> (o = None \/ exists t, o = Some (Merge t)) ->
  (forall t, In t ts -> v_locked t = false -> v_fix t = false) /\
  (forall t w tot, free_table ts t w tot -> ~ too_big c w) /\
  (0 < vc_factor c -> forall t w tot, free_table ts t w tot -> ~ stale c w tot).
Proof.
  intros c ts o S N H O.
  assert (A : pick_fix ts = None /\ pick_wss c true true ts = None /\ pick_stale c true ts 0 None = None).
  { subst o. unfold choose in O. destruct (if vc_urgent c =? 0 then None else pick_wss c false true ts); [destruct O as [O|[t O]]; discriminate|].
    destruct (pick_fix ts); [destruct O as [O|[t O]]; discriminate|]. destruct (pick_wss c true true ts); [destruct O as [O|[t O]]; discriminate|].
    destruct (pick_stale c true ts 0 None); [destruct O as [O|[t O]]; discriminate|]. auto. }
  destruct A as (A & B & C). split; [|split].
  - intros t I L. unfold pick_fix in A. assert (X := find_none _ _ A t I). cbn in X. rewrite L in X. exact X.
  - intros t w tot F G. assert (X : In t (filter (over_limit c true true) ts)).
    { apply filter_In. split; [exact (proj1 F)|]. apply (split_iff c ts t (proj1 F)). exists w, tot. split; assumption. }
    assert (Hx := oldest_none _ _ B t X). assert (Hy := N t (proj1 F)). apply N.lt_nge in Hy. exact (Hy Hx).
  - intros P t w tot F G. assert (X := stale_eligible c ts t w tot S F G).
    assert (Y := pick_stale_none _ _ _ _ C t _ (proj1 F) X). destruct G as (W & _ & G). apply ratio_ge in G; [|exact W]. lia.
Qed.

(** ** Merges *)
Lemma sum_big_spec : forall c ts s n, sum_big c ts s n = (s + fold_right N.add 0 (big_sizes c ts), n + N.of_nat (length (big_sizes c ts))).
Proof.
  induction ts as [|t ts IH]; intros s n; cbn [sum_big big_sizes flat_map].
  - cbn. f_equal; lia.
  - unfold stats_of. destruct (v_locked t); [rewrite IH; reflexivity|]. destruct (v_stats t) as [[w tot]|]; [|rewrite IH; reflexivity].
    destruct (vc_file c <? tot); [|rewrite IH; reflexivity]. rewrite IH. cbn [app fold_right length]. fold (big_sizes c ts). f_equal; lia.
Qed.
Lemma average_mean : forall c ts, average c ts = mean (big_sizes c ts).
Proof.
  intros c ts. unfold average, mean. rewrite sum_big_spec. rewrite !N.add_0_l. destruct (big_sizes c ts) as [|x l]; [reflexivity|].
  destruct (N.of_nat (length (x :: l)) =? 0) eqn:E; [apply N.eqb_eq in E; cbn [length] in E; lia|reflexivity].
Qed.

Lemma smallest_spec : forall ts l v l' t, smallest ts l v = (l', Some t) ->
  (l' = l /\ v = Some t) \/
  (exists pre post, ts = pre ++ t :: post /\ post <> [] /\ v_min t <> [] /\ exists tot, v_locked t = false /\ v_stats t = Some (l', tot)).
Proof.
  induction ts as [|x ts IH]; intros l v l' t H; cbn [smallest] in H.
  - injection H as <- <-. left. auto.
  - assert (K : forall l v, smallest ts l v = (l', Some t) -> (l' = l /\ v = Some t) \/
      exists pre post, x :: ts = pre ++ t :: post /\ post <> [] /\ v_min t <> [] /\ exists tot, v_locked t = false /\ v_stats t = Some (l', tot)).
    { intros l0 v0 H0. apply IH in H0. destruct H0 as [H0|(pre & post & -> & R)]; [left; exact H0|]. right. exists (x :: pre), post. split; [reflexivity|exact R]. }
    destruct (stats_of x) as [[w tot]|] eqn:S; [|apply K; exact H].
    destruct (v_min x) as [|k0 k] eqn:M; cbn [negb andb] in H; [apply K; exact H|].
    destruct ts as [|y ts]; cbn [negb andb] in H; [apply K; exact H|].
    destruct (w <? l); [|apply K; exact H]. apply K in H. destruct H as [[-> V]|H]; [|right; exact H].
    injection V as <-. right. exists [], (y :: ts). split; [reflexivity|]. split; [discriminate|]. split; [congruence|].
    destruct (stats_free [x] x w tot (or_introl eq_refl) S) as (_ & L & St). exists tot. auto.
Qed.
Lemma by_average_spec : forall c avg ts dst t, by_average c avg ts dst = Some t ->
  (exists d post, dst = Some d /\ ts = t :: post /\ post <> [] /\ v_min t <> [] /\ merges c avg d t = true) \/
  (exists pre d post, ts = pre ++ d :: t :: post /\ post <> [] /\ v_min t <> [] /\ merges c avg d t = true).
Proof.
  induction ts as [|x ts IH]; intros dst t H; cbn [by_average] in H; [discriminate|].
  assert (K : by_average c avg ts (Some x) = Some t ->
     exists pre d post, x :: ts = pre ++ d :: t :: post /\ post <> [] /\ v_min t <> [] /\ merges c avg d t = true).
  { intro H0. apply IH in H0. destruct H0 as [(d & post & E & -> & R)|(pre & d & post & -> & R)].
    - injection E as <-. exists [], x, post. split; [reflexivity|exact R].
    - exists (x :: pre), d, post. split; [reflexivity|exact R]. }
  destruct dst as [d|]; [|right; apply K; exact H].
  destruct (v_min x) as [|k0 k] eqn:M; cbn [negb andb] in H; [right; apply K; exact H|].
  destruct ts as [|y ts]; cbn [negb andb] in H; [right; apply K; exact H|].
  destruct (merges c avg d x) eqn:G; [|right; apply K; exact H].
  injection H as <-. left. exists d, (y :: ts). split; [reflexivity|]. split; [reflexivity|]. split; [discriminate|]. split; [congruence|exact G].
Qed.

Lemma not_first : forall (ts pre post : list vtab) t, match ts with x :: _ => v_min x = [] | [] => True end -> ts = pre ++ t :: post -> v_min t <> [] ->
  exists pre' d, ts = pre' ++ d :: t :: post.
Proof.
  intros ts pre post t F E M. destruct pre as [|y pre] using rev_ind.
  - subst ts. cbn in F. contradiction.
  - exists pre, y. rewrite E, <- app_assoc. reflexivity.
Qed.

Lemma chosen_merge : forall c over ts t, match ts with x :: _ => v_min x = [] | [] => True end -> choose c over ts = Some (Merge t) ->
  vc_tables c < N.of_nat (length ts) /\
  (exists pre d post, ts = pre ++ d :: t :: post /\ post <> []) /\
  exists w tot, v_stats t = Some (w, tot) /\ (w <= mean (big_sizes c ts) \/ w <= vc_merge c).
Proof.
  intros c over ts t F H. unfold choose in H. destruct over; [discriminate|].
  destruct (if vc_urgent c =? 0 then None else pick_wss c false true ts); [discriminate|].
  destruct (pick_fix ts); [discriminate|]. destruct (pick_wss c true true ts); [discriminate|].
  destruct (pick_stale c true ts 0 None); [discriminate|].
  destruct (pick_small c true ts) as [x|] eqn:P; [|discriminate]. injection H as ->.
  unfold pick_small in P. destruct (N.of_nat (length ts) <=? vc_tables c) eqn:C; [discriminate|]. apply N.leb_gt in C.
  split; [exact C|]. rewrite average_mean in P. set (avg := mean (big_sizes c ts)) in *.
  destruct (smallest ts (2 ^ 64 - 1) None) as [least v] eqn:Sm.
  destruct (least <? 2 ^ 64 - 1) eqn:L; [|discriminate].
  destruct (if 10 * avg <=? 4 * vc_max c then by_average c avg ts None else None) as [y|] eqn:B.
  - injection P as ->. destruct (10 * avg <=? 4 * vc_max c); [|discriminate].
    apply by_average_spec in B. destruct B as [(d & post & E & _)|(pre & d & post & E & Pn & _ & M)]; [discriminate|].
    split; [exists pre, d, post; auto|].
    unfold merges in M. destruct (raw d) as [dw dt]. unfold raw in M.
    destruct (v_stats t) as [[w tot]|]; [|cbn in M; discriminate].
    exists w, tot. split; [reflexivity|].
    apply andb_true_iff in M. destruct M as [_ M]. apply orb_true_iff in M. destruct M as [M|M]; apply andb_true_iff in M; destruct M as [M1 M2].
    + left. apply N.leb_le. exact M1.
    + right. apply N.leb_le. exact M2.
  - destruct (10 * least <=? 2 * avg) eqn:Q; [|discriminate]. subst v. apply N.leb_le in Q.
    apply smallest_spec in Sm. destruct Sm as [[_ V]|(pre & post & E & Pn & M & tot & Lk & St)]; [discriminate|].
    split.
    + destruct (not_first ts pre post t F E M) as (pre' & d & E'). exists pre', d, post. auto.
    + exists least, tot. split; [exact St|]. left. lia.
Qed.
