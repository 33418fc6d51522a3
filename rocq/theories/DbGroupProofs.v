(** Proofs about groups of named databases. *)
From Verif Require Import Base Crc32Model Crc32Proofs KeyModel KeyProofs FileModel FileProofs DbGroupModel DbGroupSpec.
Local Open Scope N_scope.

Fixpoint number (i : N) (l : list name) : list (N * name) :=
  match l with
  | [] => []
  | n :: t => (i, n) :: number (i + 1) t
  end.
Definition swap (e : N * name) : name * N := (snd e, fst e).
Definition mk (l : list name) : dbm := mkDbm (1 + blen (map blen l)) (map swap (number 1 l)) (number 1 l).

Lemma len_map {A} (f : A -> N) l : blen (map f l) = N.of_nat (length l).
Proof. unfold blen. now rewrite map_length. Qed.
Lemma mk_nil : mk [] = dbm_new.
Proof. reflexivity. Qed.

Lemma number_app i a b : number i (a ++ b) = number i a ++ number (i + N.of_nat (length a)) b.
Proof.
  revert i. induction a as [|n a IH]; intros i; cbn [number app length]; [now rewrite N.add_0_r|].
  rewrite IH. do 3 f_equal. lia.
Qed.
Lemma number_len i l : length (number i l) = length l.
Proof. revert i. induction l; intros; cbn; auto. Qed.

Lemma find_none n l : forall i, n2i_find n (map swap (number i l)) = None <-> ~ In n l.
Proof.
  induction l as [|m l IH]; intros i; cbn [number map swap n2i_find fst snd]; [intuition|].
  destruct (keqb m n) eqn:E.
  - apply keqb_true in E. subst. split; [discriminate | intros H; exfalso; apply H; now left].
  - rewrite IH. split; [intros H [->|H']; [rewrite keqb_refl in E; discriminate | auto] | intros H H'; apply H; now right].
Qed.
Lemma find_some n l : forall i j, NoDup l -> n2i_find n (map swap (number i l)) = Some j ->
  i <= j /\ nth_error l (N.to_nat (j - i)) = Some n.
Proof.
  induction l as [|m l IH]; intros i j D; cbn [number map swap n2i_find fst snd]; [discriminate|].
  destruct (keqb m n) eqn:E.
  - intros H. injection H as <-. apply keqb_true in E. subst. rewrite N.sub_diag. split; [lia | reflexivity].
  - intros H. inversion D; subst. destruct (IH (i + 1) j H3 H) as (A & B). split; [lia|].
    replace (N.to_nat (j - i)) with (S (N.to_nat (j - (i + 1)))) by lia. exact B.
Qed.

Lemma i2n_last l : forall i k n, k = i + N.of_nat (length l) -> i2n_insert k n (number i l) = number i (l ++ [n]).
Proof.
  induction l as [|m l IH]; intros i k n K; cbn [number i2n_insert app length] in *.
  - f_equal. f_equal. lia.
  - destruct (N.ltb_spec k i); [lia|]. destruct (N.eqb_spec k i); [lia|]. f_equal. apply IH. lia.
Qed.
Lemma add_mk l n : ~ In n l -> add_kvs n (mk l) = mk (l ++ [n]).
Proof.
  intros H. unfold add_kvs, mk. cbn [d_max d_n2i d_i2n]. unfold n2i_insert.
  rewrite (proj2 (find_none n l 1) H). rewrite !len_map, app_length. cbn [length].
  f_equal; [lia | | apply i2n_last; reflexivity].
  rewrite number_app. cbn [number]. rewrite map_app. reflexivity.
Qed.

(** ** round trip *)
Lemma cstr_good n : Forall (fun b => 0 < b < 256) n -> cstr n = n.
Proof.
  induction 1 as [|b n H F IH]; cbn; [reflexivity|]. destruct (N.eqb_spec b 0); [lia | now rewrite IH].
Qed.
Lemma good_bytes n : good n -> is_bytes n.
Proof. intros (_ & _ & F). eapply Forall_impl; [|exact F]. intros b H. cbn in H. unfold is_byte. lia. Qed.

Definition entry (e : N * name) : list N := u64 (fst e) ++ u32 (blen (snd e)) ++ snd e.

Lemma load_kvs_app l : forall pre a c mx, Forall good l -> NoDup (pre ++ l) ->
  N.of_nat (length pre + length l) + 1 < 2 ^ 32 ->
  load_kvs (length l) {| ms_buf := a ++ flat_map entry (number (1 + N.of_nat (length pre)) l) ++ c; ms_pos := length a; ms_bad := false |}
           (mkDbm mx (map swap (number 1 pre)) (number 1 pre)) =
  LOk (mkDbm mx (map swap (number 1 (pre ++ l))) (number 1 (pre ++ l))).
Proof.
  induction l as [|n l IH]; intros pre a c mx G D B; cbn [load_kvs length number flat_map].
  - now rewrite app_nil_r.
  - inversion G as [|? ? Gn Gl]; subst. destruct Gn as (Gn & Ln & Fn). cbn [length] in B.
    unfold entry at 1. cbn [fst snd]. rewrite <- !app_assoc.
    unfold u64. rewrite ms_getU_app by (cbn; lia). cbv beta iota zeta.
    rewrite app_assoc. unfold u32. rewrite (ms_getU_app (a ++ put_be 8 _)) by (cbn; lia). cbv beta iota zeta.
    destruct (N.ltb_spec 255 (blen n)); [lia|].
    rewrite (app_assoc (a ++ _)). rewrite ms_get_app by (unfold blen; lia). cbv beta iota zeta.
    rewrite cstr_good by exact Fn. cbn [d_max d_n2i d_i2n].
    assert (NI : ~ In n pre). { apply NoDup_remove_2 in D. intros H'. apply D, in_or_app. now left. }
    unfold n2i_insert. rewrite (proj2 (find_none n pre 1) NI).
    rewrite (i2n_last pre 1) by reflexivity.
    replace (map swap (number 1 pre) ++ [(n, 1 + N.of_nat (length pre))]) with (map swap (number 1 (pre ++ [n]))).
    2: { rewrite number_app. cbn [number]. rewrite map_app. reflexivity. }
    rewrite (app_assoc ((a ++ _) ++ _)).
    replace (1 + N.of_nat (length pre) + 1) with (1 + N.of_nat (length (pre ++ [n]))) by (rewrite app_length; cbn [length]; lia).
    rewrite IH; auto.
    + now rewrite <- !app_assoc.
    + now rewrite <- app_assoc.
    + rewrite app_length. cbn [length]. lia.
Qed.

Lemma entries_bytes i l : Forall good l -> is_bytes (flat_map entry (number i l)).
Proof.
  intros G. revert i. induction G as [|n l H G IH]; intros i; cbn [number flat_map]; [constructor|].
  unfold entry at 1. apply Forall_app. split; [|apply IH]. apply Forall_app. split; [apply put_be_bytes|].
  apply Forall_app. split; [apply put_be_bytes | now apply good_bytes].
Qed.
Lemma body_bytes l : Forall good l -> is_bytes (dbm_body (mk l)).
Proof.
  intros G. unfold dbm_body. repeat (apply Forall_app; split); try apply put_be_bytes.
  - now apply entries_bytes.
  - unfold DBMANI_FOOTER. repeat constructor; unfold is_byte; lia.
Qed.

Lemma body_split l : dbm_body (mk l) =
  u64 (1 + N.of_nat (length l)) ++ u32 (N.of_nat (length l)) ++ flat_map entry (number 1 l) ++ DBMANI_FOOTER ++ u32 DBMANI_VERSION.
Proof. unfold dbm_body, mk. cbn [d_max d_i2n]. rewrite !len_map, number_len. reflexivity. Qed.

Lemma round_trip l : Forall good l -> NoDup l -> N.of_nat (length l) + 1 < 2 ^ 32 ->
  dbm_load (dbm_encode (mk l)) = LOk (mk l).
Proof.
  intros G D B. unfold dbm_load, dbm_encode.
  set (crc := u32 (crc32_8 (dbm_body (mk l)) 0)).
  assert (LC : length crc = 4%nat) by apply u32_len.
  assert (LB : (24 <= length (dbm_body (mk l)))%nat).
  { rewrite body_split, !app_length, u64_len, !u32_len. cbn. lia. }
  rewrite app_length, LC.
  destruct (Nat.ltb_spec (length (dbm_body (mk l)) + 4) 16); [lia|].
  assert (S8 : firstn 8 (skipn (length (dbm_body (mk l)) + 4 - 16) (dbm_body (mk l) ++ crc)) = DBMANI_FOOTER).
  { assert (E : dbm_body (mk l) ++ crc =
       (u64 (1 + N.of_nat (length l)) ++ u32 (N.of_nat (length l)) ++ flat_map entry (number 1 l)) ++ DBMANI_FOOTER ++ u32 DBMANI_VERSION ++ crc).
    { rewrite body_split, <- !app_assoc. reflexivity. }
    rewrite E. rewrite skipn_app_exact; [now rewrite firstn_app_exact|].
    rewrite body_split, !app_length, u64_len, !u32_len. cbn [length DBMANI_FOOTER]. lia. }
  rewrite S8, keqb_refl. cbn [negb].
  replace (length (dbm_body (mk l)) + 4 - 4)%nat with (length (dbm_body (mk l))) by lia.
  rewrite firstn_app_exact, skipn_app_exact by reflexivity.
  unfold crc at 1. unfold u32. rewrite get_put_be_small by (apply crc32_8_lt; [now apply body_bytes | lia]).
  rewrite N.eqb_refl. cbn [negb].
  rewrite body_split. rewrite <- !app_assoc.
  pose proof (ms_getU_app [] (1 + N.of_nat (length l)) (u32 (N.of_nat (length l)) ++ flat_map entry (number 1 l) ++ DBMANI_FOOTER ++ u32 DBMANI_VERSION ++ crc) 8) as G1.
  cbn [app length] in G1. unfold u64. rewrite G1 by (cbn; lia). cbv beta iota zeta.
  unfold u32 at 1 2. rewrite ms_getU_app by (cbn; lia). cbv beta iota zeta.
  rewrite Nnat.Nat2N.id. rewrite app_assoc.
  pose proof (load_kvs_app l [] (put_be 8 (1 + N.of_nat (length l)) ++ put_be 4 (N.of_nat (length l))) (DBMANI_FOOTER ++ u32 DBMANI_VERSION ++ crc) (1 + N.of_nat (length l)) G D) as L.
  cbn [number map app length] in L. rewrite N.add_0_r in L. etransitivity; [exact (L ltac:(lia))|].
  unfold mk. now rewrite len_map.
Qed.

Lemma store_encode f m : dbm_store f m = dbm_encode m.
Proof.
  unfold dbm_store. apply ftruncate_prefix.
  assert (X := pwrite_prefix f [] (dbm_encode m)). cbn [length firstn app] in X. apply X. reflexivity.
Qed.

(** ** histories *)
Definition Inv (l : list name) (g : gst) : Prop :=
  Forall good l /\ NoDup l /\ g_mem g = mk l /\
  (if g_sync g then g_file g = dbm_encode (mk l) else l = [] /\ (g_file g = [] \/ g_file g = dbm_encode (mk []))).

Lemma inv_create : Inv [] g_create.
Proof. split; [constructor|]. split; [constructor|]. split; [reflexivity|]. cbn [g_create g_sync g_file]. split; [reflexivity|]. right. rewrite store_encode. reflexivity. Qed.

Lemma load_empty : dbm_load [] = LErr.
Proof. reflexivity. Qed.

Lemma inv_step o g l g' r : plain o -> Inv l g -> N.of_nat (length l) + 2 < 2 ^ 32 -> gstep o g = Some (g', r) ->
  exists l', Inv (l ++ l') g' /\ (length l' <= 1)%nat /\
    match o, r with
    | OpenDb n, Some i => 1 <= i /\ nth_error (l ++ l') (N.to_nat (i - 1)) = Some n
    | OpenDb n, None => n = []
    | _, _ => True
    end.
Proof.
  intros P I B. pose proof I as (G & D & M & F). unfold gstep. destruct o as [n| |lost|n x].
  - destruct n as [|b n].
    { intros H. injection H as <- <-. exists []. rewrite app_nil_r. split; [exact I|]. split; [cbn; lia | reflexivity]. }
    destruct P as [P|P]; [discriminate|]. set (nn := b :: n) in *. rewrite M. cbn [mk d_n2i].
    destruct (n2i_find nn (map swap (number 1 l))) as [i|] eqn:E; intros H; injection H as <- <-.
    + exists []. rewrite app_nil_r. split; [exact I|]. split; [cbn; lia|]. now apply find_some with (i := 1).
    + exists [nn]. apply find_none in E. change (mkDbm _ _ _) with (mk l). rewrite add_mk by exact E.
      assert (D' : NoDup (l ++ [nn])).
      { clear - D E. induction l as [|a l IH]; cbn; [repeat constructor; auto|].
        inversion D; subst. constructor.
        - intros H. apply in_app_or in H as [H|[H|[]]]; [contradiction | subst; apply E; now left].
        - apply IH; auto. intros H. apply E. now right. }
      split; [|split; [cbn; lia|]].
      * split; [apply Forall_app; auto|]. split; [exact D'|]. split; [reflexivity|]. cbn [g_sync g_file]. apply store_encode.
      * cbn [mk d_n2i d_max add_kvs].
        assert (Q : n2i_insert nn (1 + blen (map blen l)) (map swap (number 1 l)) = map swap (number 1 (l ++ [nn])))
          by exact (f_equal d_n2i (add_mk l nn E)).
        rewrite ?Q. destruct (n2i_find nn (map swap (number 1 (l ++ [nn])))) as [i|] eqn:E2.
        { now apply find_some with (i := 1). }
        { exfalso. apply find_none in E2. apply E2, in_or_app. right. now left. }
  - rewrite store_encode, M. unfold reload. rewrite round_trip by (auto; lia). intros H. injection H as <- <-.
    exists []. rewrite app_nil_r. split; [|split; [cbn; lia | exact Logic.I]].
    split; [exact G|]. split; [exact D|]. split; [reflexivity|]. reflexivity.
  - unfold reload. destruct (g_sync g) eqn:S.
    + rewrite andb_false_r. rewrite F, round_trip by (auto; lia). intros H. injection H as <- <-.
      exists []. rewrite app_nil_r. split; [|split; [cbn; lia | exact Logic.I]].
      split; [exact G|]. split; [exact D|]. split; [reflexivity|]. reflexivity.
    + rewrite andb_true_r. destruct F as (-> & F).
      assert (E : exists f, (if lost then [] else g_file g) = f /\ (f = [] \/ f = dbm_encode (mk []))).
      { destruct lost; eauto. }
      destruct E as (f & -> & [-> | ->]).
      * rewrite load_empty. intros H. injection H as <- <-. exists []. split; [|split; [cbn; lia | exact Logic.I]].
        split; [constructor|]. split; [constructor|]. split; [reflexivity|]. cbn [g_sync g_file app]. auto.
      * rewrite round_trip by (auto; constructor). intros H. injection H as <- <-. exists []. split; [|split; [cbn; lia | exact Logic.I]].
        split; [constructor|]. split; [constructor|]. split; [reflexivity|]. cbn [g_sync g_file app]. auto.
  - contradiction.
Qed.

Lemma step_total o g l : plain o -> Inv l g -> N.of_nat (length l) + 2 < 2 ^ 32 -> gstep o g <> None.
Proof.
  intros P (G & D & M & F) B. unfold gstep. destruct o as [n| |lost|n x].
  - destruct n; [discriminate|]. destruct (n2i_find _ _); discriminate.
  - rewrite store_encode, M. unfold reload. rewrite round_trip by (auto; lia). discriminate.
  - unfold reload. destruct (g_sync g).
    + rewrite andb_false_r. rewrite F, round_trip by (auto; lia). discriminate.
    + rewrite andb_true_r. destruct F as (-> & F). destruct lost; [discriminate|].
      destruct F as [-> | ->]; [discriminate | rewrite round_trip by (auto; constructor); discriminate].
  - contradiction.
Qed.

Definition traced (l : list name) (tr : list (name * N)) : Prop :=
  forall n i, In (n, i) tr -> 1 <= i /\ nth_error l (N.to_nat (i - 1)) = Some n.

Lemma run_traced os : forall g l tr, Forall plain os -> Inv l g -> traced l tr ->
  N.of_nat (length l + length os) + 2 < 2 ^ 32 ->
  exists g' l' tr', grun os g tr = Some (g', tr') /\ Inv (l ++ l') g' /\ traced (l ++ l') tr' /\ (exists t, tr' = t ++ tr).
Proof.
  induction os as [|o os IH]; intros g l tr P I T B; cbn [grun].
  - exists g, [], tr. rewrite app_nil_r. split; [reflexivity|]. split; [exact I|]. split; [exact T|]. now exists [].
  - inversion P; subst. cbn [length] in B.
    destruct (gstep o g) as [[g1 r]|] eqn:S; [|exfalso; eapply step_total; eauto; lia].
    destruct (inv_step o g l g1 r H1 I ltac:(lia) S) as (l1 & I1 & L1 & X).
    assert (T1 : traced (l ++ l1) (match o, r with OpenDb n, Some i => (n, i) :: tr | _, _ => tr end)).
    { assert (T0 : traced (l ++ l1) tr).
      { intros n i H. destruct (T n i H) as (A & E). split; [exact A|]. rewrite nth_error_app1; [exact E|].
        apply nth_error_Some. congruence. }
      destruct o; auto. destruct r; auto. intros n' i' [H|H]; [injection H as <- <-; exact X | now apply T0]. }
    destruct (IH g1 (l ++ l1) _ H2 I1 T1) as (g' & l' & tr' & R & I' & T' & (t & E)).
    { rewrite app_length. lia. }
    exists g', (l1 ++ l'), tr'. rewrite app_assoc. split; [exact R|]. split; [exact I'|]. split; [exact T'|].
    destruct o; eauto. destruct r; eauto. exists (t ++ [(n, n0)]). rewrite <- app_assoc. exact E.
Qed.

Lemma stable_numbers os g tr : Forall plain os -> N.of_nat (length os) + 2 < 2 ^ 32 ->
  grun os g_create [] = Some (g, tr) ->
  forall n1 i1 n2 i2, In (n1, i1) tr -> In (n2, i2) tr -> (n1 = n2 <-> i1 = i2) /\ 1 <= i1.
Proof.
  intros P B R n1 i1 n2 i2 H1 H2.
  destruct (run_traced os g_create [] [] P inv_create) as (g' & l & tr' & R' & (G & D & _) & T & _); [intros ? ? [] | cbn [length]; lia |].
  rewrite R in R'. injection R' as <- <-. cbn [app] in *.
  destruct (T _ _ H1) as (A1 & E1), (T _ _ H2) as (A2 & E2). split; [|exact A1]. split.
  - intros ->. assert (N.to_nat (i1 - 1) = N.to_nat (i2 - 1)).
    { apply (proj1 (NoDup_nth_error l) D); [apply nth_error_Some; congruence | congruence]. }
    lia.
  - intros ->. congruence.
Qed.
Lemma never_wild os : Forall plain os -> N.of_nat (length os) + 2 < 2 ^ 32 -> grun os g_create [] <> None.
Proof.
  intros P B. destruct (run_traced os g_create [] [] P inv_create) as (g' & l & tr' & R' & _); [intros ? ? [] | cbn [length]; lia | congruence].
Qed.

Lemma fold_mk l : forall pre, NoDup (pre ++ l) -> fold_left (fun m n => add_kvs n m) l (mk pre) = mk (pre ++ l).
Proof.
  induction l as [|n l IH]; intros pre D; cbn [fold_left]; [now rewrite app_nil_r|].
  rewrite add_mk. 2: { apply NoDup_remove_2 in D. intros H. apply D, in_or_app. now left. }
  rewrite IH; now rewrite <- app_assoc.
Qed.
Lemma names_round_trip : forall l f, Forall good l -> NoDup l -> N.of_nat (length l) + 1 < 2 ^ 32 ->
  let m := fold_left (fun m n => add_kvs n m) l dbm_new in
  dbm_load (dbm_store f m) = LOk m /\ (forall n, n2i_find n (d_n2i m) <> None <-> In n l).
Proof.
  intros l f G D B m. assert (E : m = mk l). { unfold m. rewrite <- mk_nil. now rewrite (fold_mk l []). }
  rewrite E, store_encode. split; [apply round_trip; auto; exact B|].
  intros n. cbn [mk d_n2i]. rewrite find_none. split; [|tauto].
  intros H. destruct (in_dec (list_eq_dec N.eq_dec) n l); [assumption | contradiction].
Qed.
Lemma one_to_one_run : forall os, Forall plain os -> N.of_nat (length os) + 2 < 2 ^ 32 ->
  exists g tr, grun os g_create [] = Some (g, tr) /\ one_to_one tr /\ (forall n i, In (n, i) tr -> 1 <= i).
Proof.
  intros os P B. destruct (grun os g_create []) as [[g tr]|] eqn:R; [|exfalso; eapply never_wild; eauto].
  exists g, tr. split; [reflexivity|]. pose proof (stable_numbers os g tr P B R) as S. split.
  - intros a i b j H1 H2. apply (S a i b j H1 H2).
  - intros n i H. apply (S n i n i H H).
Qed.
