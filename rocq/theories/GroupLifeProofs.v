(** Proofs about the life of the handles of a group. *)
From Coq Require Import Arith List Bool Lia.
Import ListNotations.
From Verif Require Import GroupLifeModel GroupLifeSpec.
Local Open Scope nat_scope.

Definition obj (h : handle) : nat := match h with HG _ o => o | HN _ o => o | HO o => o end.
Definition cnt (o : nat) (l : list handle) : nat := count (fun h => obj h =? o) l.

Definition fits (h : handle) (b : db) : Prop :=
  d_id b = obj h /\
  match h with
  | HG g _ => d_name b = 0 /\ d_grp b = Some g
  | HN n _ => d_name b = n /\ n <> 0
  | HO _ => d_name b = 0
  end.

Record J (s : st) : Prop := {
  j_id : NoDup (map d_id (s_dbs s));
  j_nm : NoDup (map d_name (s_dbs s));
  j_lt : forall b, In b (s_dbs s) -> d_id b < s_next s;
  j_ref : forall b, In b (s_dbs s) -> 1 <= d_ref b /\ cnt (d_id b) (s_held s) <= d_ref b;
  j_held : forall h, In h (s_held s) -> exists b, In b (s_dbs s) /\ fits h b;
  j_grp : forall g o, In (g, o) (s_grps s) <-> exists b, In b (s_dbs s) /\ d_id b = o /\ d_grp b = Some g;
  j_g0 : forall b g, In b (s_dbs s) -> d_grp b = Some g -> d_name b = 0 /\ g < s_next s;
  j_gn : NoDup (map fst (s_grps s)) }.

Record K (s : st) : Prop := {
  k_ref : forall b, In b (s_dbs s) -> d_ref b = cnt (d_id b) (s_held s);
  k_log : forall b, In b (s_dbs s) -> exists c, In c (s_dbs s) /\ d_id c = d_log b /\ d_name c = 0;
  k_ex : forall b g, In b (s_dbs s) -> d_grp b = Some g -> count is_direct (s_held s) = 0;
  k_ng : 1 <= count is_named (s_held s) -> 1 <= count is_group (s_held s) }.

(** Lists. *)
Lemma count_cons : forall f h l, count f (h :: l) = (if f h then 1 else 0) + count f l.
Proof. intros. unfold count. cbn. destruct (f h); reflexivity. Qed.

Lemma count_take : forall f h l, In h l -> count f l = (if f h then 1 else 0) + count f (take h l).
Proof.
  induction l as [|x l IH]; intros H; [easy|].
  cbn [take]. destruct (handle_eq x h) as [->|E].
  - apply count_cons.
  - rewrite !count_cons. destruct H as [->|H]; [congruence|]. rewrite (IH H). lia.
Qed.

Lemma in_take : forall x h l, In x (take h l) -> In x l.
Proof.
  induction l as [|y l IH]; cbn; [easy|]. destruct (handle_eq y h); cbn; [auto|]. intros [->|H]; auto.
Qed.

Lemma count_in : forall f l, 1 <= count f l <-> exists h, In h l /\ f h = true.
Proof.
  intros. unfold count. split.
  - intros H. destruct (filter f l) as [|h r] eqn:E; [cbn in H; lia|].
    exists h. apply filter_In. rewrite E. now left.
  - intros [h H]. apply filter_In in H. destruct (filter f l); [easy|cbn; lia].
Qed.

Lemma cnt_in : forall h l, In h l -> 1 <= cnt (obj h) l.
Proof. intros. apply count_in. exists h. rewrite Nat.eqb_refl. auto. Qed.

Lemma id_inj : forall l b c, NoDup (map d_id l) -> In b l -> In c l -> d_id b = d_id c -> b = c.
Proof.
  induction l as [|x l IH]; cbn; intros b c N B C E; [easy|].
  apply NoDup_cons_iff in N as [N1 N2]. destruct B as [->|B], C as [->|C]; auto.
  - exfalso. apply N1. rewrite E. now apply in_map.
  - exfalso. apply N1. rewrite <- E. now apply in_map.
Qed.

Lemma nm_inj : forall l b c, NoDup (map d_name l) -> In b l -> In c l -> d_name b = d_name c -> b = c.
Proof.
  induction l as [|x l IH]; cbn; intros b c N B C E; [easy|].
  apply NoDup_cons_iff in N as [N1 N2]. destruct B as [->|B], C as [->|C]; auto.
  - exfalso. apply N1. rewrite E. now apply in_map.
  - exfalso. apply N1. rewrite <- E. now apply in_map.
Qed.

Lemma find_name_some : forall n l b, find_name n l = Some b -> In b l /\ d_name b = n.
Proof. intros n l b H. apply find_some in H as [H E]. apply Nat.eqb_eq in E. auto. Qed.
Lemma find_name_none : forall n l b, find_name n l = None -> In b l -> d_name b <> n.
Proof. intros n l b H I. apply find_none with (x := b) in H; auto. now apply Nat.eqb_neq in H. Qed.
Lemma find_id_in : forall l b, NoDup (map d_id l) -> In b l -> find_id (d_id b) l = Some b.
Proof.
  intros l b N I. destruct (find_id (d_id b) l) as [c|] eqn:E.
  - apply find_some in E as [E1 E2]. apply Nat.eqb_eq in E2. f_equal. now apply (id_inj l).
  - apply find_none with (x := b) in E; auto. now rewrite Nat.eqb_refl in E.
Qed.
Lemma find_grp_in : forall l g o, NoDup (map fst l) -> In (g, o) l -> find_grp g l = Some (g, o).
Proof.
  induction l as [|[x y] l IH]; cbn; intros g o N I; [easy|].
  apply NoDup_cons_iff in N as [N1 N2]. destruct I as [E|I].
  - injection E as -> ->. now rewrite Nat.eqb_refl.
  - destruct (x =? g) eqn:X; [|now apply IH]. apply Nat.eqb_eq in X as ->.
    exfalso. apply N1. apply in_map_iff. now exists (g, o).
Qed.

Definition reref (o k : nat) (b : db) : db :=
  if d_id b =? o then mkDb (d_id b) (d_name b) k (d_grp b) (d_log b) else b.
Lemma reref_id : forall o k b, d_id (reref o k b) = d_id b.
Proof. intros. unfold reref. now destruct (_ =? _). Qed.
Lemma reref_name : forall o k b, d_name (reref o k b) = d_name b.
Proof. intros. unfold reref. now destruct (_ =? _). Qed.
Lemma reref_grp : forall o k b, d_grp (reref o k b) = d_grp b.
Proof. intros. unfold reref. now destruct (_ =? _). Qed.
Lemma reref_log : forall o k b, d_log (reref o k b) = d_log b.
Proof. intros. unfold reref. now destruct (_ =? _). Qed.
Lemma reref_ref : forall o k b, d_ref (reref o k b) = if d_id b =? o then k else d_ref b.
Proof. intros. unfold reref. now destruct (_ =? _). Qed.
Lemma set_ref_map : forall o k l, set_ref o k l = map (reref o k) l.
Proof. reflexivity. Qed.
Lemma ids_set : forall o k l, map d_id (set_ref o k l) = map d_id l.
Proof. intros. rewrite set_ref_map, map_map. apply map_ext. apply reref_id. Qed.
Lemma names_set : forall o k l, map d_name (set_ref o k l) = map d_name l.
Proof. intros. rewrite set_ref_map, map_map. apply map_ext. apply reref_name. Qed.
Lemma fits_reref : forall h o k b, fits h (reref o k b) <-> fits h b.
Proof. intros. unfold fits. now rewrite reref_id, reref_name, reref_grp. Qed.

(** A change of a count, and of the handles held. *)
Lemma J_set : forall s o k held bad,
  J s ->
  (forall b, In b (s_dbs s) -> 1 <= (if d_id b =? o then k else d_ref b) /\
                               cnt (d_id b) held <= (if d_id b =? o then k else d_ref b)) ->
  (forall h, In h held -> exists b, In b (s_dbs s) /\ fits h b) ->
  J (mkS (set_ref o k (s_dbs s)) (s_grps s) (s_next s) held bad).
Proof.
  intros s o k held bad HJ HR HH. destruct HJ as [A1 A2 A3 A4 A5 A6 A7 A8].
  constructor; cbn [s_dbs s_grps s_next s_held].
  - now rewrite ids_set.
  - now rewrite names_set.
  - rewrite set_ref_map. intros b I. apply in_map_iff in I as (c & <- & I). rewrite reref_id. auto.
  - rewrite set_ref_map. intros b I. apply in_map_iff in I as (c & <- & I). rewrite reref_id, reref_ref. auto.
  - intros h I. destruct (HH h I) as (b & B & F). exists (reref o k b). split.
    + rewrite set_ref_map. now apply in_map.
    + now apply fits_reref.
  - intros g x. rewrite A6. rewrite set_ref_map. split.
    + intros (b & B & X & G). exists (reref o k b). rewrite reref_id, reref_grp. split; auto. now apply in_map.
    + intros (b & B & X & G). apply in_map_iff in B as (c & <- & B). rewrite reref_id in X. rewrite reref_grp in G. eauto.
  - rewrite set_ref_map. intros b g I. apply in_map_iff in I as (c & <- & I). rewrite reref_grp, reref_name. eauto.
  - exact A8.
Qed.

Lemma K_set : forall s o k held bad,
  K s ->
  (forall b, In b (s_dbs s) -> (if d_id b =? o then k else d_ref b) = cnt (d_id b) held) ->
  (forall b g, In b (s_dbs s) -> d_grp b = Some g -> count is_direct held = 0) ->
  (1 <= count is_named held -> 1 <= count is_group held) ->
  K (mkS (set_ref o k (s_dbs s)) (s_grps s) (s_next s) held bad).
Proof.
  intros s o k held bad HK HR HX HG. destruct HK as [A1 A2 A3 A4].
  constructor; cbn [s_dbs s_grps s_next s_held].
  - rewrite set_ref_map. intros b I. apply in_map_iff in I as (c & <- & I). rewrite reref_id, reref_ref. auto.
  - rewrite set_ref_map. intros b I. apply in_map_iff in I as (c & <- & I). rewrite reref_log.
    destruct (A2 c I) as (e & E & E1 & E2). exists (reref o k e). rewrite reref_id, reref_name. split; auto. now apply in_map.
  - rewrite set_ref_map. intros b g I. apply in_map_iff in I as (c & <- & I). rewrite reref_grp. eauto.
  - exact HG.
Qed.

(** One more handle of a database that is open. *)
Lemma J_more : forall s b h bad, J s -> In b (s_dbs s) -> fits h b ->
  J (mkS (set_ref (d_id b) (S (d_ref b)) (s_dbs s)) (s_grps s) (s_next s) (h :: s_held s) bad).
Proof.
  intros s b h bad HJ B F. apply J_set; auto.
  - intros c C. unfold cnt. rewrite count_cons. fold (cnt (d_id c) (s_held s)).
    destruct (j_ref s HJ c C) as [R1 R2]. destruct F as [F _]. rewrite <- F.
    destruct (d_id c =? d_id b) eqn:E.
    + apply Nat.eqb_eq in E. assert (c = b) by (apply (id_inj (s_dbs s)); auto; apply HJ). subst c.
      rewrite Nat.eqb_refl. lia.
    + rewrite Nat.eqb_sym, E. lia.
  - intros x [<-|X]; [now exists b|now apply (j_held s HJ)].
Qed.

Lemma K_more : forall s b h bad, J s -> K s -> In b (s_dbs s) -> fits h b ->
  (is_direct h = true -> count is_group (s_held s) = 0) ->
  (is_named h = true -> 1 <= count is_group (s_held s)) ->
  K (mkS (set_ref (d_id b) (S (d_ref b)) (s_dbs s)) (s_grps s) (s_next s) (h :: s_held s) bad).
Proof.
  intros s b h bad HJ HK B F HD HN. apply K_set; auto.
  - intros c C. unfold cnt. rewrite count_cons. fold (cnt (d_id c) (s_held s)).
    rewrite <- (k_ref s HK c C). destruct F as [F _]. rewrite <- F.
    destruct (d_id c =? d_id b) eqn:E.
    + apply Nat.eqb_eq in E. assert (c = b) by (apply (id_inj (s_dbs s)); auto; apply HJ). subst c.
      now rewrite Nat.eqb_refl.
    + now rewrite Nat.eqb_sym, E.
  - intros c g C G. rewrite count_cons, (k_ex s HK c g C G). destruct (is_direct h) eqn:D; auto.
    exfalso. specialize (HD eq_refl).
    (* the default database has a group: someone holds it *)
    destruct (j_g0 s HJ c g C G) as [N0 _].
    pose proof (k_ref s HK c C) as R. destruct (j_ref s HJ c C) as [R1 _]. rewrite R in R1.
    apply count_in in R1 as (x & X & E). apply Nat.eqb_eq in E.
    destruct (j_held s HJ x X) as (e & I & FE & M). assert (e = c) by (apply (id_inj (s_dbs s)); auto; [apply HJ|congruence]). subst e.
    destruct x as [gx ox|nx ox|ox].
    + assert (1 <= count is_group (s_held s)) by (apply count_in; exists (HG gx ox); auto). lia.
    + destruct M. congruence.
    + assert (1 <= count is_direct (s_held s)) by (apply count_in; exists (HO ox); auto).
      rewrite (k_ex s HK c g C G) in H. lia.
  - rewrite !count_cons. pose proof (k_ng s HK). destruct h; cbn [is_named is_group] in *; try lia; specialize (HN eq_refl); lia.
Qed.

(** A new database. *)
Lemma held_lt : forall s h, J s -> In h (s_held s) -> obj h < s_next s.
Proof. intros s h HJ H. destruct (j_held s HJ h H) as (b & B & F & _). rewrite <- F. now apply (j_lt s HJ). Qed.
Lemma cnt_fresh : forall s, J s -> cnt (s_next s) (s_held s) = 0.
Proof.
  intros s HJ. destruct (cnt (s_next s) (s_held s)) eqn:E; auto. exfalso.
  assert (H : 1 <= cnt (s_next s) (s_held s)) by lia. apply count_in in H as (h & H & X).
  apply Nat.eqb_eq in X. pose proof (held_lt s h HJ H). lia.
Qed.

Lemma J_new : forall s n log grp h nxt bad,
  J s -> find_name n (s_dbs s) = None ->
  fits h (mkDb (s_next s) n 1 grp log) ->
  match grp with Some g => n = 0 /\ s_next s <= g < nxt | None => True end ->
  s_next s < nxt ->
  J (mkS (mkDb (s_next s) n 1 grp log :: s_dbs s) (match grp with Some g => [(g, s_next s)] | None => [] end ++ s_grps s) nxt (h :: s_held s) bad).
Proof.
  intros s n log grp h nxt bad HJ HN F HG HX. pose proof (cnt_fresh s HJ) as CF.
  assert (O : obj h = s_next s) by (destruct F as [F _]; now rewrite <- F).
  destruct HJ as [A1 A2 A3 A4 A5 A6 A7 A8].
  constructor; cbn [s_dbs s_grps s_next s_held].
  - cbn [map d_id]. constructor; auto. intros I. apply in_map_iff in I as (b & E & I). apply A3 in I. lia.
  - cbn [map d_name]. constructor; auto. intros I. apply in_map_iff in I as (b & E & I).
    now apply (find_name_none n (s_dbs s) b).
  - intros b [<-|I]; cbn [d_id]; [lia|]. apply A3 in I. lia.
  - intros b [<-|I]; cbn [d_id d_ref]; unfold cnt; rewrite count_cons, O.
    + rewrite Nat.eqb_refl. fold (cnt (s_next s) (s_held s)). lia.
    + fold (cnt (d_id b) (s_held s)). pose proof (A3 b I). replace (s_next s =? d_id b) with false by (symmetry; apply Nat.eqb_neq; lia).
      apply A4 in I. lia.
  - intros x [<-|X].
    + eexists. split; [now left|exact F].
    + destruct (A5 x X) as (b & B & FB). exists b. split; auto. now right.
  - intros g o. rewrite in_app_iff, A6. split.
    + intros [I|(b & B & E)].
      * destruct grp as [g'|]; [|easy]. destruct I as [E|[]]. injection E as <- <-. eexists. split; [now left|]. auto.
      * exists b. split; auto. now right.
    + intros (b & [<-|B] & E & G); cbn [d_id d_grp] in *.
      * left. subst grp o. now left.
      * right. eauto.
  - intros b g [<-|I] G; cbn [d_grp d_name] in *.
    + subst grp. lia.
    + destruct (A7 b g I G). lia.
  - destruct grp as [g'|]; cbn [app]; auto. cbn [map fst]. constructor; auto.
    intros I. apply in_map_iff in I as ([g o] & E & I). cbn in E. subst g. apply A6 in I as (b & B & _ & G).
    apply (A7 b) in G; auto. lia.
Qed.

Lemma K_new : forall s n log grp h nxt grps bad,
  J s -> K s -> fits h (mkDb (s_next s) n 1 grp log) ->
  (n = 0 /\ log = s_next s \/ exists c, In c (s_dbs s) /\ d_id c = log /\ d_name c = 0) ->
  (forall b, In b (s_dbs s) -> d_grp b <> None -> is_direct h = false) ->
  (grp <> None -> count is_direct (s_held s) = 0 /\ is_direct h = false) ->
  (is_named h = true -> 1 <= count is_group (s_held s)) ->
  K (mkS (mkDb (s_next s) n 1 grp log :: s_dbs s) grps nxt (h :: s_held s) bad).
Proof.
  intros s n log grp h nxt grps bad HJ HK F HL HD HG HNm. pose proof (cnt_fresh s HJ) as CF.
  assert (O : obj h = s_next s) by (destruct F as [F _]; now rewrite <- F).
  constructor; cbn [s_dbs s_grps s_next s_held].
  - intros b [<-|I]; cbn [d_id d_ref]; unfold cnt; rewrite count_cons, O.
    + rewrite Nat.eqb_refl. fold (cnt (s_next s) (s_held s)). lia.
    + fold (cnt (d_id b) (s_held s)). pose proof (j_lt s HJ b I). replace (s_next s =? d_id b) with false by (symmetry; apply Nat.eqb_neq; lia).
      now apply (k_ref s HK).
  - intros b [<-|I]; cbn [d_log].
    + destruct HL as [[-> ->]|(c & C & E)].
      * eexists. split; [now left|]. auto.
      * exists c. split; auto. now right.
    + destruct (k_log s HK b I) as (c & C & E). exists c. split; auto. now right.
  - intros b g [<-|I] G; cbn [d_grp] in G; rewrite count_cons.
    + destruct (HG ltac:(congruence)) as [-> ->]. reflexivity.
    + rewrite (HD b I) by congruence. now rewrite (k_ex s HK b g I G).
  - rewrite !count_cons. pose proof (k_ng s HK). destruct h; cbn [is_named is_group] in *; try lia; specialize (HNm eq_refl); lia.
Qed.

(** A handle is given back and DBMgr::close is called. *)
Lemma in_erase : forall o l b, In b (erase o l) <-> In b l /\ d_id b <> o.
Proof. intros. unfold erase. rewrite filter_In, negb_true_iff, Nat.eqb_neq. reflexivity. Qed.

Lemma nodup_erase {A} (f : db -> A) o l : NoDup (map f l) -> NoDup (map f (erase o l)).
Proof.
  induction l as [|x l IH]; cbn; intros N; auto. apply NoDup_cons_iff in N as [N1 N2].
  destruct (negb _); cbn; auto. constructor; auto.
  intros I. apply N1. apply in_map_iff in I as (b & E & I). apply in_erase in I as [I _]. rewrite <- E. now apply in_map.
Qed.

Lemma nodup_grps g l : NoDup (map fst l) -> NoDup (map fst (erase_grp g l)).
Proof.
  destruct g as [g|]; cbn; auto. induction l as [|x l IH]; cbn; intros N; auto.
  apply NoDup_cons_iff in N as [N1 N2]. destruct (negb _); cbn; auto. constructor; auto.
  intros I. apply N1. apply in_map_iff in I as (b & E & I). apply filter_In in I as [I _]. rewrite <- E. now apply in_map.
Qed.

Lemma J_bad : forall s b, J s -> J (bad_if b s).
Proof. intros s b [A1 A2 A3 A4 A5 A6 A7 A8]. now constructor. Qed.
Lemma K_bad : forall s b, K s -> K (bad_if b s).
Proof. intros s b [A1 A2 A3 A4]. now constructor. Qed.

Lemma rest_fits : forall s h, J s -> forall x, In x (take h (s_held s)) -> exists b, In b (s_dbs s) /\ fits x b.
Proof. intros s h HJ x X. apply (j_held s HJ). now apply in_take in X. Qed.

Lemma cnt_take_le : forall o h l, In h l -> cnt o (take h l) <= cnt o l.
Proof. intros o h l H. unfold cnt. rewrite (count_take _ h l H). lia. Qed.

Lemma J_close : forall s h, J s -> In h (s_held s) -> J (give_back h (mgr_close (obj h) s)).
Proof.
  intros s h HJ H. destruct (j_held s HJ h H) as (b & B & F).
  assert (O : d_id b = obj h) by apply F.
  unfold mgr_close. rewrite <- O, (find_id_in _ b (j_id s HJ) B).
  destruct (j_ref s HJ b B) as [R1 R2].
  assert (C : forall o, cnt o (s_held s) = (if obj h =? o then 1 else 0) + cnt o (take h (s_held s))) by (intros; now apply (count_take (fun h => obj h =? o) h)).
  replace (d_ref b =? 0) with false by (symmetry; apply Nat.eqb_neq; lia).
  destruct (d_ref b =? 1) eqn:E1.
  - apply Nat.eqb_eq in E1. unfold give_back. cbn [s_dbs s_grps s_next s_held s_bad].
    assert (Z : cnt (d_id b) (take h (s_held s)) = 0).
    { specialize (C (d_id b)). rewrite <- O, Nat.eqb_refl in C. lia. }
    destruct HJ as [A1 A2 A3 A4 A5 A6 A7 A8].
    constructor; cbn [s_dbs s_grps s_next s_held].
    + now apply nodup_erase.
    + now apply nodup_erase.
    + intros c I. apply in_erase in I as [I _]. auto.
    + intros c I. apply in_erase in I as [I _]. apply A4 in I as [I1 I2]. pose proof (cnt_take_le (d_id c) h _ H). lia.
    + intros x X. destruct (A5 x (in_take _ _ _ X)) as (c & CI & FC). exists c. split; auto. apply in_erase. split; auto.
      intros E. pose proof (cnt_in x _ X) as Q. destruct FC as [FC _]. rewrite <- FC, E in Q. lia.
    + intros g o. destruct (d_grp b) as [gb|] eqn:GB; cbn [erase_grp].
      * rewrite filter_In, A6. cbn [fst]. rewrite negb_true_iff, Nat.eqb_neq. split.
        -- intros [(c & CI & CE & CG) NE]. exists c. rewrite in_erase. repeat split; auto.
           intros E. assert (c = b) by now apply (id_inj (s_dbs s)). subst c. congruence.
        -- intros (c & CI & CE & CG). apply in_erase in CI as [CI NE]. split; [eauto|].
           intros ->. apply NE. destruct (A7 b gb B GB), (A7 c gb CI CG).
           f_equal. apply (nm_inj (s_dbs s)); auto. congruence.
      * rewrite A6. split.
        -- intros (c & CI & CE & CG). exists c. rewrite in_erase. repeat split; auto.
           intros E. assert (c = b) by now apply (id_inj (s_dbs s)). subst c. congruence.
        -- intros (c & CI & CE & CG). apply in_erase in CI as [CI _]. eauto.
    + intros c g I. apply in_erase in I as [I _]. eauto.
    + now apply nodup_grps.
  - apply Nat.eqb_neq in E1. unfold give_back, with_dbs. cbn [s_dbs s_grps s_next s_held s_bad].
    apply J_set; auto.
    + intros c CI. specialize (C (d_id c)). destruct (j_ref s HJ c CI) as [Q1 Q2].
      destruct (d_id c =? d_id b) eqn:E.
      * apply Nat.eqb_eq in E. rewrite E, <- O, Nat.eqb_refl in *. lia.
      * rewrite <- O, Nat.eqb_sym, E in C. lia.
    + now apply rest_fits.
Qed.

(** The handle that may go. *)
Definition may_go (h : handle) (l : list handle) : Prop :=
  match h with HG _ _ => 2 <= count is_group l \/ count is_named l = 0 | _ => True end.

Lemma groups_at : forall s, J s -> forall g o, In (HG g o) (s_held s) -> count is_group (s_held s) <= cnt o (s_held s).
Proof.
  intros s HJ g o H. destruct (j_held s HJ _ H) as (b & B & F & N & G). cbn [obj] in F.
  assert (Q : forall l, incl l (s_held s) -> count is_group l <= cnt o l).
  { induction l as [|x l IH]; intros I; [cbn; lia|]. unfold cnt. rewrite !count_cons. fold (cnt o l).
    assert (I' : incl l (s_held s)) by (intros y Y; apply I; now right). specialize (IH I').
    destruct x as [gx ox|nx ox|ox]; cbn [is_group]; try lia.
    destruct (j_held s HJ (HG gx ox) (I _ (or_introl eq_refl))) as (c & C & FC & NC & GC). cbn [obj] in FC.
    assert (c = b) by (apply (nm_inj (s_dbs s)); auto; [apply HJ|congruence]). subst c.
    cbn [obj]. replace (ox =? o) with true by (symmetry; apply Nat.eqb_eq; congruence). lia. }
  apply Q. intros x X. exact X.
Qed.

Lemma K_close : forall s h, J s -> K s -> In h (s_held s) -> may_go h (s_held s) -> K (give_back h (mgr_close (obj h) s)).
Proof.
  intros s h HJ HK H HM. destruct (j_held s HJ h H) as (b & B & F).
  assert (O : d_id b = obj h) by apply F.
  unfold mgr_close. rewrite <- O, (find_id_in _ b (j_id s HJ) B).
  destruct (j_ref s HJ b B) as [R1 _]. pose proof (k_ref s HK b B) as R.
  assert (C : forall f, count f (s_held s) = (if f h then 1 else 0) + count f (take h (s_held s))) by (intros; now apply (count_take _ h)).
  assert (NG : 1 <= count is_named (take h (s_held s)) -> 1 <= count is_group (take h (s_held s))).
  { intros Q. pose proof (C is_named) as C1. pose proof (C is_group) as C2. pose proof (k_ng s HK) as C3.
    destruct h; cbn [is_named is_group may_go] in *; lia. }
  assert (DZ : forall c g, In c (s_dbs s) -> d_grp c = Some g -> count is_direct (take h (s_held s)) = 0).
  { intros c g CI CG. pose proof (k_ex s HK c g CI CG) as Q. rewrite C in Q. lia. }
  replace (d_ref b =? 0) with false by (symmetry; apply Nat.eqb_neq; lia).
  destruct (d_ref b =? 1) eqn:E1.
  - apply Nat.eqb_eq in E1. unfold give_back. cbn [s_dbs s_grps s_next s_held s_bad].
    constructor; cbn [s_dbs s_grps s_next s_held].
    + intros c I. apply in_erase in I as [I NE]. rewrite (k_ref s HK c I). unfold cnt. rewrite C.
      rewrite <- O. replace (d_id b =? d_id c) with false by (symmetry; apply Nat.eqb_neq; congruence). reflexivity.
    + intros c I. apply in_erase in I as [I NE]. destruct (k_log s HK c I) as (e & EI & EL & EN).
      exists e. split; auto. apply in_erase. split; auto. intros EB.
      assert (e = b) by (apply (id_inj (s_dbs s)); auto; apply HJ). subst e.
      (* the default database goes: nothing else may be open *)
      assert (c = b); [|congruence].
      apply (nm_inj (s_dbs s)); auto; [apply HJ|]. rewrite EN.
      destruct (d_name c) eqn:NC; auto. exfalso.
      assert (HNm : 1 <= count is_named (s_held s)).
      { pose proof (k_ref s HK c I) as RC. destruct (j_ref s HJ c I) as [RC1 _]. rewrite RC in RC1.
        apply count_in in RC1 as (x & X & XE). apply Nat.eqb_eq in XE.
        destruct (j_held s HJ x X) as (e & EI' & FE & M). assert (e = c) by (apply (id_inj (s_dbs s)); auto; [apply HJ|congruence]). subst e.
        apply count_in. exists x. split; auto. destruct x; cbn [is_named]; auto; [destruct M|]; congruence. }
      pose proof (k_ng s HK HNm) as HG1.
      destruct h as [g o|n' o|o]; cbn [may_go obj] in *.
      * destruct HM as [HM|HM]; [|lia]. pose proof (groups_at s HJ g o H). subst o. lia.
      * destruct F as [_ [F1 F2]]. congruence.
      * apply count_in in HG1 as (x & X & XG). destruct x as [gx ox| |]; try discriminate.
        destruct (j_held s HJ _ X) as (e & EI' & FE & M1 & M2).
        pose proof (k_ex s HK e gx EI' M2) as Q.
        assert (1 <= count is_direct (s_held s)) by (apply count_in; exists (HO o); auto). lia.
    + intros c g I G. apply in_erase in I as [I _]. eauto.
    + exact NG.
  - apply Nat.eqb_neq in E1. unfold give_back, with_dbs. cbn [s_dbs s_grps s_next s_held s_bad].
    apply K_set; auto.
    intros c CI. pose proof (k_ref s HK c CI) as Q. unfold cnt in Q. rewrite C in Q. fold (cnt (d_id c) (take h (s_held s))) in Q.
    rewrite <- O in Q. rewrite Nat.eqb_sym in Q. destruct (d_id c =? d_id b) eqn:E.
    + apply Nat.eqb_eq in E. assert (c = b) by (apply (id_inj (s_dbs s)); auto; apply HJ). subst c. lia.
    + lia.
Qed.

(** Nothing that is read has been deleted. *)
Lemma in_not_gone : forall s b, J s -> In b (s_dbs s) -> gone (d_id b) s = false.
Proof. intros s b HJ B. unfold gone. now rewrite (find_id_in _ b (j_id s HJ) B). Qed.

Definition ok_log (lg : bool) (s : st) : Prop := lg = true -> K s.

Lemma log_ok : forall lg s b, J s -> ok_log lg s -> In b (s_dbs s) -> log_gone lg (d_id b) s = false.
Proof.
  intros lg s b HJ HK B. unfold log_gone. rewrite (find_id_in _ b (j_id s HJ) B).
  destruct lg; auto. destruct (k_log s (HK eq_refl) b B) as (c & C & E & _). cbn [andb]. rewrite <- E. now apply in_not_gone.
Qed.

Lemma bad_false : forall s, bad_if false s = s.
Proof. intros []. unfold bad_if. cbn. now rewrite orb_false_r. Qed.

Lemma holds_in : forall h s, holds h s = true -> In h (s_held s).
Proof. intros h s. unfold holds. destruct (in_dec _ _ _); [auto|discriminate]. Qed.

Lemma close_bad : forall s h, J s -> In h (s_held s) -> s_bad (mgr_close (obj h) s) = s_bad s.
Proof.
  intros s h HJ H. destruct (j_held s HJ h H) as (b & B & F & _).
  unfold mgr_close. rewrite <- F, (find_id_in _ b (j_id s HJ) B). now destruct (d_ref b =? 0), (d_ref b =? 1).
Qed.

(** DBGroup::open refused: nothing changes. *)
Lemma set_set : forall o k k' l, set_ref o k' (set_ref o k l) = set_ref o k' l.
Proof.
  intros. rewrite !set_ref_map, map_map. apply map_ext. intros b. unfold reref.
  destruct (d_id b =? o) eqn:E; cbn [d_id]; now rewrite E.
Qed.
Lemma set_same : forall l b, NoDup (map d_id l) -> In b l -> set_ref (d_id b) (d_ref b) l = l.
Proof.
  intros l b N B. rewrite set_ref_map. rewrite <- (map_id l) at 2. apply map_ext_in. intros c C. unfold reref.
  destruct (d_id c =? d_id b) eqn:E; auto. apply Nat.eqb_eq in E. assert (c = b) by now apply (id_inj l). subst c. now destruct b.
Qed.
Lemma refused : forall s b, J s -> In b (s_dbs s) ->
  mgr_close (d_id b) (with_dbs (set_ref (d_id b) (S (d_ref b)) (s_dbs s)) s) = s.
Proof.
  intros s b HJ B. unfold mgr_close, with_dbs. cbn [s_dbs s_grps s_next s_held s_bad].
  assert (I : In (reref (d_id b) (S (d_ref b)) b) (set_ref (d_id b) (S (d_ref b)) (s_dbs s))) by (rewrite set_ref_map; now apply in_map).
  assert (N : NoDup (map d_id (set_ref (d_id b) (S (d_ref b)) (s_dbs s)))) by (rewrite ids_set; apply HJ).
  pose proof (find_id_in _ _ N I) as Q. rewrite reref_id in Q. rewrite Q, reref_ref, Nat.eqb_refl.
  destruct (j_ref s HJ b B) as [R _].
  replace (S (d_ref b) =? 0) with false by (symmetry; apply Nat.eqb_neq; lia).
  replace (S (d_ref b) =? 1) with false by (symmetry; apply Nat.eqb_neq; lia).
  rewrite set_set. replace (S (d_ref b) - 1) with (d_ref b) by lia. rewrite (set_same _ b (j_id s HJ) B). now destruct s.
Qed.

Lemma group_open_new : forall s, J s -> find_name 0 (s_dbs s) = None ->
  group_open s = (Some (S (s_next s), s_next s),
                  mkS (mkDb (s_next s) 0 1 (Some (S (s_next s))) (s_next s) :: s_dbs s)
                      ((S (s_next s), s_next s) :: s_grps s) (S (S (s_next s))) (s_held s) (s_bad s)).
Proof.
  intros s HJ E. unfold group_open, db_open. rewrite E. cbn [s_dbs s_grps s_next s_held s_bad].
  unfold set_grp. cbn [map d_id]. rewrite Nat.eqb_refl. cbn [d_id d_name d_ref d_log].
  do 3 f_equal. rewrite <- (map_id (s_dbs s)) at 2. apply map_ext_in. intros c C.
  pose proof (j_lt s HJ c C). now replace (d_id c =? s_next s) with false by (symmetry; apply Nat.eqb_neq; lia).
Qed.

Lemma no_direct : forall s, J s -> find_name 0 (s_dbs s) = None -> count is_direct (s_held s) = 0.
Proof.
  intros s HJ E. destruct (count is_direct (s_held s)) eqn:Q; auto. exfalso.
  assert (H : 1 <= count is_direct (s_held s)) by lia. apply count_in in H as (h & H & D).
  destruct h as [| |o]; try discriminate. destruct (j_held s HJ _ H) as (b & B & _ & N).
  now apply (find_name_none 0 (s_dbs s) b).
Qed.

Lemma grp_find : forall s g o, J s -> In (HG g o) (s_held s) -> find_grp g (s_grps s) = Some (g, o).
Proof.
  intros s g o HJ H. apply find_grp_in; [apply HJ|]. apply (j_grp s HJ).
  destruct (j_held s HJ _ H) as (b & B & F & N & G). exists b. auto.
Qed.

(** One call. *)
Lemma J_step : forall lg a s s', J s -> step lg a s = Some s' -> J s'.
Proof.
  intros lg a s s' HJ E. destruct a as [|g o|g o|g o n| |h|h]; cbn [step] in E.
  - destruct (find_name 0 (s_dbs s)) as [b|] eqn:FN.
    + unfold group_open in E. rewrite FN in E. apply find_name_some in FN as [B N].
      destruct (d_grp b) as [g|] eqn:G; injection E as <-.
      * unfold give, with_dbs. cbn [s_dbs s_grps s_next s_held s_bad]. apply J_more; auto. repeat split; auto.
      * rewrite (refused s b HJ B). exact HJ.
    + rewrite (group_open_new s HJ FN) in E. injection E as <-. unfold give. cbn [s_dbs s_grps s_next s_held s_bad].
      apply (J_new s 0 (s_next s) (Some (S (s_next s))) (HG (S (s_next s)) (s_next s))); auto; repeat split; auto.
  - destruct (holds (HG g o) s) eqn:H; [|discriminate]. apply holds_in in H. injection E as <-.
    unfold group_close. rewrite (grp_find s g o HJ H). now apply (J_close s (HG g o)).
  - destruct (holds (HG g o) s) eqn:H; [|discriminate]. apply holds_in in H. injection E as <-.
    unfold use_default. rewrite (grp_find s g o HJ H). unfold db_close, log_line.
    destruct (j_held s HJ _ H) as (b & B & F & N & G). cbn [obj] in F. subst o.
    cbn [s_dbs bad_if]. rewrite (find_id_in _ b (j_id s HJ) B), G. now apply J_bad, J_bad.
  - destruct (holds (HG g o) s) eqn:H; [|discriminate]. apply holds_in in H.
    unfold group_named in E. rewrite (grp_find s g o HJ H) in E. unfold touch in E. cbn [s_dbs bad_if] in E.
    destruct (find_name (S n) (s_dbs s)) as [b|] eqn:FN; injection E as <-.
    + apply find_name_some in FN as [B N]. unfold give, with_dbs, bad_if. cbn [s_dbs s_grps s_next s_held s_bad].
      apply J_more; auto. repeat split; auto.
    + unfold give, bad_if. cbn [s_dbs s_grps s_next s_held s_bad].
      apply (J_new s (S n) o None (HN (S n) (s_next s))); auto. repeat split; auto.
  - unfold db_open in E. destruct (find_name 0 (s_dbs s)) as [b|] eqn:FN; injection E as <-.
    + apply find_name_some in FN as [B N]. unfold give, with_dbs. cbn [s_dbs s_grps s_next s_held s_bad].
      apply J_more; auto. repeat split; auto.
    + unfold give. cbn [s_dbs s_grps s_next s_held s_bad].
      apply (J_new s 0 (s_next s) None (HO (s_next s))); auto. repeat split; auto.
  - destruct (target h) as [o|]; [|discriminate]. destruct (holds h s); [|discriminate]. injection E as <-. now apply J_bad.
  - destruct (target h) as [o|] eqn:T; [|discriminate]. destruct (holds h s) eqn:H; [|discriminate]. apply holds_in in H. injection E as <-.
    assert (O : obj h = o) by (destruct h; cbn in T |- *; congruence).
    destruct (j_held s HJ h H) as (b & B & F & M). unfold db_close, log_line. cbn [s_dbs bad_if].
    rewrite <- O, <- F, (find_id_in _ b (j_id s HJ) B). rewrite F.
    destruct (d_grp b) as [g|] eqn:G.
    + apply (J_bad _ (log_gone lg (obj h) s)) in HJ. destruct HJ as [A1 A2 A3 A4 A5 A6 A7 A8].
      constructor; auto; cbn [s_dbs s_held give_back bad_if] in *.
      * intros c C. apply A4 in C as [C1 C2]. pose proof (cnt_take_le (d_id c) h _ H). lia.
      * intros x X. apply A5. now apply in_take in X.
    + apply (J_close (bad_if _ s)); auto. now apply J_bad.
Qed.

Lemma K_step : forall lg a s s', J s -> K s -> careful_act a (s_held s) = true -> step lg a s = Some s' -> K s'.
Proof.
  intros lg a s s' HJ HK HC E. destruct a as [|g o|g o|g o n| |h|h]; cbn [step careful_act] in *.
  - destruct (find_name 0 (s_dbs s)) as [b|] eqn:FN.
    + unfold group_open in E. rewrite FN in E. apply find_name_some in FN as [B N].
      destruct (d_grp b) as [g|] eqn:G; injection E as <-.
      * unfold give, with_dbs. cbn [s_dbs s_grps s_next s_held s_bad]. apply K_more; auto; try discriminate. repeat split; auto.
      * rewrite (refused s b HJ B). exact HK.
    + rewrite (group_open_new s HJ FN) in E. injection E as <-. unfold give. cbn [s_dbs s_grps s_next s_held s_bad].
      pose proof (no_direct s HJ FN). apply K_new; auto; try discriminate. repeat split; auto.
  - destruct (holds (HG g o) s) eqn:H; [|discriminate]. apply holds_in in H. injection E as <-.
    unfold group_close. rewrite (grp_find s g o HJ H). apply (K_close s (HG g o)); auto.
    cbn [may_go]. apply orb_true_iff in HC as [HC|HC]; [left; now apply Nat.leb_le|right; now apply Nat.eqb_eq].
  - destruct (holds (HG g o) s) eqn:H; [|discriminate]. apply holds_in in H. injection E as <-.
    unfold use_default. rewrite (grp_find s g o HJ H). unfold db_close, log_line.
    destruct (j_held s HJ _ H) as (b & B & F & N & G). cbn [obj] in F. subst o.
    cbn [s_dbs bad_if]. rewrite (find_id_in _ b (j_id s HJ) B), G. now apply K_bad, K_bad.
  - destruct (holds (HG g o) s) eqn:H; [|discriminate]. apply holds_in in H.
    assert (H1 : 1 <= count is_group (s_held s)) by (apply count_in; exists (HG g o); auto).
    unfold group_named in E. rewrite (grp_find s g o HJ H) in E. unfold touch in E. cbn [s_dbs bad_if] in E.
    destruct (find_name (S n) (s_dbs s)) as [b|] eqn:FN; injection E as <-.
    + apply find_name_some in FN as [B N]. unfold give, with_dbs, bad_if. cbn [s_dbs s_grps s_next s_held s_bad].
      apply K_more; auto; try discriminate. repeat split; auto.
    + unfold give, bad_if. cbn [s_dbs s_grps s_next s_held s_bad].
      apply K_new; auto; try congruence; [repeat split; auto|].
      right. destruct (j_held s HJ _ H) as (b & B & F & N & G). exists b. auto.
  - apply Nat.eqb_eq in HC.
    unfold db_open in E. destruct (find_name 0 (s_dbs s)) as [b|] eqn:FN; injection E as <-.
    + apply find_name_some in FN as [B N]. unfold give, with_dbs. cbn [s_dbs s_grps s_next s_held s_bad].
      apply K_more; auto; try discriminate. repeat split; auto.
    + unfold give. cbn [s_dbs s_grps s_next s_held s_bad].
      apply K_new; auto; try congruence; try discriminate; [repeat split; auto|].
      intros b B G. destruct (d_grp b) eqn:GB; [|easy]. destruct (j_g0 s HJ b n B GB). now apply (find_name_none 0 (s_dbs s) b) in B.
  - destruct (target h) as [o|]; [|discriminate]. destruct (holds h s); [|discriminate]. injection E as <-. now apply K_bad.
  - destruct (target h) as [o|] eqn:T; [|discriminate]. destruct (holds h s) eqn:H; [|discriminate]. apply holds_in in H. injection E as <-.
    assert (O : obj h = o) by (destruct h; cbn in T |- *; congruence).
    destruct (j_held s HJ h H) as (b & B & F & M). unfold db_close, log_line. cbn [s_dbs bad_if].
    rewrite <- O, <- F, (find_id_in _ b (j_id s HJ) B). rewrite F.
    destruct (d_grp b) as [g|] eqn:G.
    + exfalso. destruct h as [|n' o'|o']; [discriminate| |].
      * destruct (j_g0 s HJ b g B G). destruct M. congruence.
      * assert (1 <= count is_direct (s_held s)) by (apply count_in; exists (HO o'); auto).
        rewrite (k_ex s HK b g B G) in *. lia.
    + apply (K_close (bad_if _ s)); auto; [now apply J_bad|now apply K_bad|]. destruct h; cbn; auto. discriminate.
Qed.

Lemma bad_step : forall lg a s s', J s -> ok_log lg s -> step lg a s = Some s' -> s_bad s' = s_bad s.
Proof.
  intros lg a s s' HJ HK E. destruct a as [|g o|g o|g o n| |h|h]; cbn [step] in E.
  - destruct (find_name 0 (s_dbs s)) as [b|] eqn:FN.
    + unfold group_open in E. rewrite FN in E. apply find_name_some in FN as [B N].
      destruct (d_grp b) as [g|] eqn:G; injection E as <-; auto. now rewrite (refused s b HJ B).
    + rewrite (group_open_new s HJ FN) in E. now injection E as <-.
  - destruct (holds (HG g o) s) eqn:H; [|discriminate]. apply holds_in in H. injection E as <-.
    unfold group_close. rewrite (grp_find s g o HJ H). unfold give_back. cbn [s_bad]. now apply (close_bad s (HG g o)).
  - destruct (holds (HG g o) s) eqn:H; [|discriminate]. apply holds_in in H. injection E as <-.
    unfold use_default. rewrite (grp_find s g o HJ H). unfold db_close, log_line.
    destruct (j_held s HJ _ H) as (b & B & F & N & G). cbn [obj] in F. subst o.
    rewrite (log_ok lg s b HJ HK B), bad_false, (log_ok lg s b HJ HK B), bad_false.
    now rewrite (find_id_in _ b (j_id s HJ) B), G.
  - destruct (holds (HG g o) s) eqn:H; [|discriminate]. apply holds_in in H.
    unfold group_named in E. rewrite (grp_find s g o HJ H) in E. unfold touch in E.
    destruct (j_held s HJ _ H) as (b & B & F & N & G). cbn [obj] in F. subst o.
    rewrite (in_not_gone s b HJ B), bad_false in E.
    destruct (find_name (S n) (s_dbs s)) as [c|] eqn:FN; now injection E as <-.
  - unfold db_open in E. destruct (find_name 0 (s_dbs s)) as [b|] eqn:FN; now injection E as <-.
  - destruct (target h) as [o|] eqn:T; [|discriminate]. destruct (holds h s) eqn:H; [|discriminate]. apply holds_in in H. injection E as <-.
    assert (O : obj h = o) by (destruct h; cbn in T |- *; congruence).
    destruct (j_held s HJ h H) as (b & B & F & M). unfold log_line. rewrite <- O, <- F.
    now rewrite (log_ok lg s b HJ HK B), bad_false.
  - destruct (target h) as [o|] eqn:T; [|discriminate]. destruct (holds h s) eqn:H; [|discriminate]. apply holds_in in H. injection E as <-.
    assert (O : obj h = o) by (destruct h; cbn in T |- *; congruence).
    destruct (j_held s HJ h H) as (b & B & F & M). unfold db_close, log_line. rewrite <- O, <- F.
    rewrite (log_ok lg s b HJ HK B), bad_false, (find_id_in _ b (j_id s HJ) B).
    destruct (d_grp b); unfold give_back; cbn [s_bad]; auto. rewrite F. now apply close_bad.
Qed.

Lemma J_init : J init.
Proof.
  constructor; cbn.
  - constructor.
  - constructor.
  - easy.
  - easy.
  - easy.
  - intros g o. split; [easy|]. now intros (b & B & _).
  - easy.
  - constructor.
Qed.
Lemma K_init : K init.
Proof. constructor; cbn; try easy. Qed.

Lemma J_run : forall lg l s s', J s -> run lg l s = Some s' -> J s'.
Proof.
  induction l as [|a l IH]; cbn [run]; intros s s' HJ E; [now injection E as <-|].
  destruct (step lg a s) as [s1|] eqn:S1; [|discriminate]. apply (IH s1); auto. now apply (J_step lg a s).
Qed.

Lemma K_run : forall lg l s s', J s -> K s -> careful lg l s = true -> run lg l s = Some s' -> K s' /\ s_bad s' = s_bad s.
Proof.
  induction l as [|a l IH]; cbn [run careful]; intros s s' HJ HK HC E; [injection E as <-; auto|].
  apply andb_true_iff in HC as [HC1 HC2].
  destruct (step lg a s) as [s1|] eqn:S1; [|discriminate].
  destruct (IH s1 s') as [Q1 Q2]; auto; [now apply (J_step lg a s)|now apply (K_step lg a s)|].
  split; auto. rewrite Q2. apply (bad_step lg a s); auto. now intros _.
Qed.

Lemma quiet_run : forall l s s', J s -> run false l s = Some s' -> s_bad s' = s_bad s.
Proof.
  induction l as [|a l IH]; cbn [run]; intros s s' HJ E; [now injection E as <-|].
  destruct (step false a s) as [s1|] eqn:S1; [|discriminate].
  rewrite (IH s1 s'); auto; [|now apply (J_step false a s)]. apply (bad_step false a s); auto. now intros Q.
Qed.

(** The statements. *)
Lemma safe : forall lg l s, careful lg l init = true -> run lg l init = Some s -> s_bad s = false.
Proof. intros lg l s HC E. now destruct (K_run lg l init s J_init K_init HC E). Qed.

Lemma quiet : forall l s, run false l init = Some s -> s_bad s = false.
Proof. intros l s E. apply (quiet_run l init s J_init E). Qed.

Lemma exists_while_held : forall lg l s h, run lg l init = Some s -> In h (s_held s) ->
  exists b, In b (s_dbs s) /\ d_id b = obj h.
Proof.
  intros lg l s h E H. pose proof (J_run lg l init s J_init E) as HJ. destruct (j_held s HJ h H) as (b & B & F & _). eauto.
Qed.

Lemma one_per_name : forall lg l s n m o p, run lg l init = Some s ->
  In (HN n o) (s_held s) -> In (HN m p) (s_held s) -> (n = m <-> o = p).
Proof.
  intros lg l s n m o p E H1 H2. pose proof (J_run lg l init s J_init E) as HJ.
  destruct (j_held s HJ _ H1) as (b & B & F & N & _), (j_held s HJ _ H2) as (c & C & G & M & _). cbn [obj] in *.
  split; intros Q.
  - assert (b = c) by (apply (nm_inj (s_dbs s)); [apply HJ|auto|auto|congruence]). congruence.
  - assert (b = c) by (apply (id_inj (s_dbs s)); [apply HJ|auto|auto|congruence]). congruence.
Qed.

Lemma all_closed : forall lg l s, careful lg l init = true -> run lg l init = Some s -> s_held s = [] ->
  s_dbs s = [] /\ s_grps s = [].
Proof.
  intros lg l s HC E H. pose proof (J_run lg l init s J_init E) as HJ.
  destruct (K_run lg l init s J_init K_init HC E) as [HK _].
  assert (D : s_dbs s = []).
  { destruct (s_dbs s) as [|b r] eqn:D; auto. exfalso.
    assert (B : In b (s_dbs s)) by (rewrite D; now left).
    pose proof (k_ref s HK b B) as R. destruct (j_ref s HJ b B) as [R1 _]. rewrite R, H in R1. cbn in R1. lia. }
  split; auto. destruct (s_grps s) as [|[g o] r] eqn:G; auto. exfalso.
  assert (I : In (g, o) (s_grps s)) by (rewrite G; now left). apply (j_grp s HJ) in I as (b & B & _). now rewrite D in B.
Qed.

Lemma group_refused : forall lg l s, careful lg l init = true -> run lg l init = Some s ->
  (fst (group_open s) = None <-> 1 <= count is_direct (s_held s)).
Proof.
  intros lg l s HC E. pose proof (J_run lg l init s J_init E) as HJ.
  destruct (K_run lg l init s J_init K_init HC E) as [HK _].
  destruct (find_name 0 (s_dbs s)) as [b|] eqn:FN.
  - unfold group_open. rewrite FN. apply find_name_some in FN as [B N].
    destruct (d_grp b) as [g|] eqn:G; cbn [fst].
    + rewrite (k_ex s HK b g B G). split; [discriminate|lia].
    + split; auto. intros _. pose proof (k_ref s HK b B) as R. destruct (j_ref s HJ b B) as [R1 _]. rewrite R in R1.
      apply count_in in R1 as (x & X & XE). apply Nat.eqb_eq in XE.
      destruct (j_held s HJ x X) as (c & C & FC & M). assert (c = b) by (apply (id_inj (s_dbs s)); auto; [apply HJ|congruence]). subst c.
      apply count_in. exists x. split; auto. destruct x; auto; [destruct M|destruct M]; congruence.
  - rewrite (group_open_new s HJ FN). cbn [fst]. rewrite (no_direct s HJ FN). split; [discriminate|lia].
Qed.
