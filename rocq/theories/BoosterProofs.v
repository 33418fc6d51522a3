(** Proofs about the lookup booster (BoosterModel.v). *)
From Verif Require Import Base KeyModel KeyProofs LogFormatModel BoosterModel BoosterSpec.
From Coq Require Import Lia.
Local Open Scope N_scope.

(** ** The file *)

Lemma doc_at_app : forall off f g d, doc_at off f = Some d -> doc_at off (f ++ g) = Some d.
Proof.
  unfold doc_at. intros off f g d H. destruct (off =? 0) eqn:E; [discriminate|].
  rewrite nth_error_app1; [exact H|]. apply nth_error_Some. congruence.
Qed.
Lemma doc_at_last : forall f r, doc_at (N.of_nat (length f) + 1) (f ++ [r]) = Some r.
Proof.
  intros f r. unfold doc_at.
  destruct (N.eqb_spec (N.of_nat (length f) + 1) 0) as [E|E]; [lia|].
  replace (N.to_nat (N.of_nat (length f) + 1 - 1)) with (length f) by lia.
  rewrite nth_error_app2 by lia. rewrite Nat.sub_diag. reflexivity.
Qed.
Lemma doc_at_in : forall off f d, doc_at off f = Some d -> In d f.
Proof. unfold doc_at. intros off f d H. destruct (off =? 0); [discriminate|]. eapply nth_error_In; exact H. Qed.

Lemma last_doc_spec : forall k f n,
  match last_doc k n f with
  | Some (d, off) => exists a b, f = a ++ d :: b /\ off = n + N.of_nat (length a) /\ r_key d = k /\ forall q, In q b -> r_key q <> k
  | None => forall q, In q f -> r_key q <> k
  end.
Proof.
  intros k. induction f as [|r f IH]; intros n; cbn [last_doc].
  - intros q [].
  - specialize (IH (n + 1)). destruct (last_doc k (n + 1) f) as [[d off]|].
    + destruct IH as (a & b & -> & -> & Hk & Hb). exists (r :: a), b.
      split; [reflexivity|]. split; [cbn [length]; lia|]. split; assumption.
    + destruct (keqb (r_key r) k) eqn:E.
      * apply keqb_true in E. exists [], f. split; [reflexivity|]. split; [cbn [length]; lia|]. split; [exact E|exact IH].
      * apply keqb_false in E. intros q [<-|Hq]; [exact E|apply IH; exact Hq].
Qed.
Lemma find_doc_spec : forall k f,
  match find_doc k f with
  | Some (d, off) => doc_at off f = Some d /\ r_key d = k /\ (rising f -> forall q, In q f -> r_key q = k -> r_seq q <= r_seq d)
  | None => forall q, In q f -> r_key q <> k
  end.
Proof.
  intros k f. unfold find_doc. pose proof (last_doc_spec k f 1) as H.
  destruct (last_doc k 1 f) as [[d off]|]; [|exact H].
  destruct H as (a & b & Hf & -> & Hk & Hb).
  split; [|split; [exact Hk|]].
  - unfold doc_at. destruct (N.eqb_spec (1 + N.of_nat (length a)) 0) as [E|E]; [lia|].
    replace (N.to_nat (1 + N.of_nat (length a) - 1)) with (length a) by lia.
    rewrite Hf, nth_error_app2 by lia. rewrite Nat.sub_diag. reflexivity.
  - intros Hr q Hq Hqk. rewrite Hf in Hq. apply in_app_or in Hq. destruct Hq as [Hq|[<-|Hq]].
    + apply in_split in Hq. destruct Hq as (a1 & a2 & ->).
      apply (Hr a1 q (a2 ++ d :: b)); [rewrite Hf, <- app_assoc; reflexivity| |congruence].
      apply in_or_app. right. left. reflexivity.
    + lia.
    + exfalso. apply (Hb q Hq). exact Hqk.
Qed.
Lemma rising_app : forall f g, rising (f ++ g) -> rising f.
Proof.
  intros f g H a r b q Hf Hq. apply (H a r (b ++ g) q).
  - rewrite Hf, <- app_assoc. reflexivity.
  - apply in_or_app. left. exact Hq.
Qed.

Section Table.
Variable khash : key -> N.
Variable size : N.
Notation bstep := (bstep khash size).
Notation bruns := (bruns khash size).
Notation b_get := (b_get size).
Notation set_if_new := (set_if_new size).
Notation slot_of := (slot_of size).

Lemma bruns_app : forall a b s, bruns (a ++ b) s = match bruns a s with Some s' => bruns b s' | None => None end.
Proof.
  induction a as [|e a IH]; intros b s; cbn [app BoosterModel.bruns]; [reflexivity|].
  destruct (bstep e s); [apply IH|reflexivity].
Qed.

(** An element: unused, or the hash, number and place of a document. *)
Definition points (f : list rec) (e : elem) : Prop :=
  e = elem0 \/ exists d, doc_at (e_off e) f = Some d /\ e_seq e = r_seq d /\ e_hash e = khash (r_key d).
Definition elems_ok (s : bst) : Prop :=
  forall i, points (b_file s) (b_elems s i) /\ (b_elems s i <> elem0 -> i = slot_of (e_hash (b_elems s i))).
Definition pc_ok (f : list rec) (p : pc) : Prop :=
  match p with
  | RFill k d off => doc_at off f = Some d /\ r_key d = k
  | WPut r off => doc_at off f = Some r
  | WDone r => In r f
  | RHint k (Some off) => off = 0 \/ exists d, doc_at off f = Some d
  | _ => True
  end.
Definition all_ok (s : bst) : Prop := elems_ok s /\ forall t, pc_ok (b_file s) (b_pc s t).

Lemma points_app : forall f g e, points f e -> points (f ++ g) e.
Proof.
  intros f g e [H|(d & H & H2)]; [left; exact H|]. right. exists d. split; [apply doc_at_app; exact H|exact H2].
Qed.
Lemma pc_ok_app : forall f g p, pc_ok f p -> pc_ok (f ++ g) p.
Proof.
  intros f g p. destruct p as [|k [off|]|k|k r off|k res|r off|r]; cbn [pc_ok]; try tauto.
  - intros [H|(d & H)]; [left; exact H|right; exists d; apply doc_at_app; exact H].
  - intros [H1 H2]. split; [apply doc_at_app; exact H1|exact H2].
  - apply doc_at_app.
  - intros H. apply in_or_app. left. exact H.
Qed.

Lemma set_if_new_ok : forall s e, elems_ok s -> (exists d, doc_at (e_off e) (b_file s) = Some d /\ e_seq e = r_seq d /\ e_hash e = khash (r_key d)) ->
  elems_ok (with_elems (set_if_new e (b_elems s)) s).
Proof.
  intros s e H He i. cbn [b_file b_elems with_elems]. unfold BoosterModel.set_if_new.
  destruct ((e_hash (b_elems s (slot_of (e_hash e))) =? e_hash e) && (e_seq e <=? e_seq (b_elems s (slot_of (e_hash e))))); [apply H|].
  cbn beta. destruct (N.eqb_spec i (slot_of (e_hash e))) as [E|E]; [|apply H].
  split; [right; exact He|intros _; exact E].
Qed.

Lemma set_pc_ok : forall t p s, all_ok s -> pc_ok (b_file s) p -> all_ok (set_pc t p s).
Proof.
  intros t p s [H1 H2] Hp. split; [exact H1|]. intros u. cbn [set_pc b_pc b_file].
  destruct (Nat.eqb u t); [exact Hp|apply H2].
Qed.

Lemma bstep_ok : forall e s s', all_ok s -> bstep e s = Some s' -> all_ok s' /\ exists g, b_file s' = b_file s ++ g.
Proof.
  intros e s s' H Hs.
  assert (Hsame : forall x, b_file x = b_file s -> exists g, b_file x = b_file s ++ g) by (intros x Hx; exists []; rewrite app_nil_r; exact Hx).
  destruct e as [t k|t|t|t|t r|t|t]; cbn [BoosterModel.bstep] in Hs; pose proof (proj2 H t) as Hp; destruct (b_pc s t) as [|k1 h|k1|k1 r1 off|k1 res|r1 off|r1] eqn:Ep; try discriminate Hs.
  - injection Hs as <-. split; [|apply Hsame; reflexivity]. apply set_pc_ok; [exact H|].
    unfold BoosterModel.b_get. destruct (e_hash _ =? khash k); [|exact I]. cbn [pc_ok].
    destruct (proj1 (proj1 H (slot_of (khash k)))) as [->|(d & Hd & _)]; [left; reflexivity|right; exists d; exact Hd].
  - destruct h as [off|].
    + destruct (doc_at off (b_file s)) as [d|]; [destruct (keqb (r_key d) k1)|]; injection Hs as <-;
        (split; [|apply Hsame; reflexivity]; apply set_pc_ok; [exact H|exact I]).
    + injection Hs as <-. split; [|apply Hsame; reflexivity]. apply set_pc_ok; [exact H|exact I].
  - pose proof (find_doc_spec k1 (b_file s)) as F. destruct (find_doc k1 (b_file s)) as [[d off]|]; injection Hs as <-;
      (split; [|apply Hsame; reflexivity]; apply set_pc_ok; [exact H|]); [|exact I].
    destruct F as (F1 & F2 & _). split; assumption.
  - injection Hs as <-. split; [|apply Hsame; reflexivity]. apply set_pc_ok; [|exact I].
    cbn [pc_ok] in Hp. destruct Hp as [Hd Hk].
    split; [|exact (proj2 H)]. apply set_if_new_ok; [exact (proj1 H)|]. cbn [e_off e_seq e_hash].
    exists r1. split; [exact Hd|]. split; [reflexivity|rewrite Hk; reflexivity].
  - injection Hs as <-. split; [|exists [r]; reflexivity].
    apply set_pc_ok.
    + split.
      * intros i. cbn [b_file b_elems]. destruct (proj1 H i) as [Ha Hb]. split; [apply points_app; exact Ha|exact Hb].
      * intros u. cbn [b_file b_pc]. apply pc_ok_app. apply (proj2 H).
    + cbn [pc_ok b_file]. apply doc_at_last.
  - injection Hs as <-. cbn [pc_ok] in Hp. split; [|apply Hsame; reflexivity]. apply set_pc_ok.
    + split; [|exact (proj2 H)]. apply set_if_new_ok; [exact (proj1 H)|]. cbn [e_off e_seq e_hash].
      exists r1. split; [exact Hp|]. split; reflexivity.
    + cbn [pc_ok b_file with_elems]. eapply doc_at_in; exact Hp.
  - injection Hs as <-. split; [|apply Hsame; reflexivity]. apply set_pc_ok; [exact H|exact I].
  - injection Hs as <-. split; [|apply Hsame; reflexivity]. apply set_pc_ok; [exact H|exact I].
Qed.
Lemma new_ok : all_ok b_new.
Proof.
  split; [|intros t; exact I]. intros i. split; [left; reflexivity|]. cbn [b_new b_elems]. intros []. reflexivity.
Qed.
Lemma bruns_ok : forall es s s', all_ok s -> bruns es s = Some s' -> all_ok s' /\ exists g, b_file s' = b_file s ++ g.
Proof.
  induction es as [|e es IH]; intros s s' H Hs; cbn [BoosterModel.bruns] in Hs.
  - injection Hs as <-. split; [exact H|exists []; rewrite app_nil_r; reflexivity].
  - destruct (bstep e s) as [s1|] eqn:E; [|discriminate].
    destruct (bstep_ok e s s1 H E) as [H1 (g1 & F1)]. destruct (IH s1 s' H1 Hs) as [H2 (g2 & F2)].
    split; [exact H2|]. exists (g1 ++ g2). rewrite F2, F1, app_assoc. reflexivity.
Qed.

(** ** No two hashes in one slot *)

(** The keys of the documents and of the threads are among [used]. *)
Variable used : key -> Prop.
Hypothesis apart : forall a b, used a -> used b -> slot_of (khash a) = slot_of (khash b) -> khash a = khash b.

Definition pc_used (p : pc) : Prop :=
  match p with
  | RHint k _ | RSearch k | RDone k _ => used k
  | RFill k d _ => used k
  | WPut r _ | WDone r => used (r_key r)
  | Idle => True
  end.
Definition ev_used (e : bev) : Prop :=
  match e with BRead _ k => used k | BWrite _ r => used (r_key r) | _ => True end.
Definition st_used (s : bst) : Prop :=
  (forall r, In r (b_file s) -> used (r_key r)) /\ forall t, pc_used (b_pc s t).

Lemma set_pc_used : forall t p s, st_used s -> pc_used p -> st_used (set_pc t p s).
Proof.
  intros t p s [H1 H2] Hp. split; [exact H1|]. intros u. cbn [set_pc b_pc]. destruct (Nat.eqb u t); [exact Hp|apply H2].
Qed.
Lemma bstep_used : forall e s s', st_used s -> ev_used e -> bstep e s = Some s' -> st_used s'.
Proof.
  intros e s s' H He Hs.
  destruct e as [t k|t|t|t|t r|t|t]; cbn [BoosterModel.bstep ev_used] in Hs, He; pose proof (proj2 H t) as Hp; destruct (b_pc s t) as [|k1 h|k1|k1 r1 off|k1 res|r1 off|r1] eqn:Ep; cbn [pc_used] in Hp; try discriminate Hs;
    repeat match type of Hs with
           | context [match ?x with _ => _ end] => destruct x
           end; try discriminate Hs; injection Hs as <-; try (apply set_pc_used; [|first [assumption | exact I]]); try exact H.
  split; [|exact (proj2 H)]. cbn [b_file]. intros q Hq. apply in_app_or in Hq. destruct Hq as [Hq|[<-|[]]]; [apply H; exact Hq|exact He].
Qed.
Lemma bruns_used : forall es s s', st_used s -> (forall e, In e es -> ev_used e) -> bruns es s = Some s' -> st_used s'.
Proof.
  induction es as [|e es IH]; intros s s' H He Hs; cbn [BoosterModel.bruns] in Hs; [injection Hs as <-; exact H|].
  destruct (bstep e s) as [s1|] eqn:E; [|discriminate].
  apply (IH s1 s'); [|intros x Hx; apply He; right; exact Hx|exact Hs].
  apply (bstep_used e s s1 H); [apply He; left; reflexivity|exact E].
Qed.

(** The element of [h] is at least as new as [n]. *)
Definition reached (h n : N) (es : N -> elem) : Prop :=
  e_hash (es (slot_of h)) = h /\ n <= e_seq (es (slot_of h)) /\ es (slot_of h) <> elem0.
Lemma reached_set : forall s k n e d, elems_ok s -> used k -> reached (khash k) n (b_elems s) ->
  used d -> e_hash e = khash d -> 1 <= e_seq e -> reached (khash k) n (set_if_new e (b_elems s)).
Proof.
  intros s k n e d Hok Hk H Hd He He1. unfold BoosterModel.set_if_new.
  destruct ((e_hash (b_elems s (slot_of (e_hash e))) =? e_hash e) && (e_seq e <=? e_seq (b_elems s (slot_of (e_hash e))))) eqn:E; [exact H|].
  unfold reached. cbn beta. destruct (N.eqb_spec (slot_of (khash k)) (slot_of (e_hash e))) as [Q|Q]; [|exact H].
  rewrite He in Q. pose proof (apart k d Hk Hd Q) as Eh.
  destruct H as (H1 & H2 & H3). rewrite He, <- Eh, H1, N.eqb_refl in E. cbn [andb] in E. apply N.leb_gt in E.
  split; [congruence|]. split; [lia|]. intros ->. cbn in He1. lia.
Qed.
Lemma reached_own : forall s e, 1 <= e_seq e -> reached (e_hash e) (e_seq e) (set_if_new e (b_elems s)).
Proof.
  intros s e H1. unfold BoosterModel.set_if_new.
  destruct ((e_hash (b_elems s (slot_of (e_hash e))) =? e_hash e) && (e_seq e <=? e_seq (b_elems s (slot_of (e_hash e))))) eqn:E.
  - apply andb_true_iff in E. destruct E as [E1 E2]. apply N.eqb_eq in E1. apply N.leb_le in E2.
    split; [exact E1|]. split; [exact E2|]. intros Q. rewrite Q in E2. cbn in E2. lia.
  - unfold reached. cbn beta. rewrite N.eqb_refl. split; [reflexivity|]. split; [lia|]. intros ->. cbn in H1. lia.
Qed.

(** All documents have a number above 0. *)
Definition positive (f : list rec) : Prop := forall r, In r f -> 1 <= r_seq r.

Lemma bstep_reached : forall e s s' k n, all_ok s -> st_used s -> positive (b_file s) -> used k ->
  reached (khash k) n (b_elems s) -> bstep e s = Some s' -> reached (khash k) n (b_elems s').
Proof.
  intros e s s' k n Hok Hu Hpos Hk H Hs.
  destruct e as [t kk|t|t|t|t r|t|t]; cbn [BoosterModel.bstep] in Hs; pose proof (proj2 Hok t) as Hp; pose proof (proj2 Hu t) as Hup; destruct (b_pc s t) as [|k1 h|k1|k1 r1 off|k1 res|r1 off|r1] eqn:Ep; cbn [pc_used pc_ok] in Hp, Hup; try discriminate Hs;
    repeat match type of Hs with
           | context [match ?x with _ => _ end] => destruct x
           end; try discriminate Hs; injection Hs as <-; cbn [set_pc b_elems with_elems]; try exact H.
  - destruct Hp as [Hd Hk1]. apply (reached_set s k n _ k1 (proj1 Hok) Hk H Hup); [reflexivity|].
    cbn [e_seq]. apply Hpos. eapply doc_at_in; exact Hd.
  - apply (reached_set s k n _ (r_key r1) (proj1 Hok) Hk H Hup); [reflexivity|].
    cbn [e_seq]. apply Hpos. eapply doc_at_in; exact Hp.
Qed.

(** A read of [k] that is to return something as new as [r]. *)
Definition good_read (r : rec) (f : list rec) (p : pc) : Prop :=
  match p with
  | RHint k (Some off) => k = r_key r /\ exists d, doc_at off f = Some d /\ (r_key d = k -> r_seq r <= r_seq d)
  | RHint k None | RSearch k => k = r_key r
  | RFill k d _ => k = r_key r /\ r_seq r <= r_seq d
  | RDone k res => k = r_key r /\ as_new r res
  | _ => False
  end.
Definition ev_thread (e : bev) : nat :=
  match e with BRead t _ | BHint t | BFind t | BFill t | BWrite t _ | BPut t | BEnd t => t end.
Lemma bstep_read : forall r t e s s', all_ok s -> In r (b_file s) -> rising (b_file s) -> e <> BEnd t ->
  good_read r (b_file s) (b_pc s t) -> bstep e s = Some s' -> good_read r (b_file s') (b_pc s' t).
Proof.
  intros r t e s s' Hok Hin Hr He H Hs.
  destruct (bstep_ok e s s' Hok Hs) as [_ (g & Hf)].
  assert (Hmono : good_read r (b_file s') (b_pc s t)).
  { rewrite Hf. destruct (b_pc s t) as [|k [off|]|k|k d off|k res|x off|x]; cbn [good_read] in H |- *; try exact H.
    destruct H as (H1 & d & H2 & H3). split; [exact H1|]. exists d. split; [apply doc_at_app; exact H2|exact H3]. }
  assert (Hother : forall u p x, b_pc s' = b_pc (set_pc u p x) -> b_pc x t = b_pc s t -> u <> t -> good_read r (b_file s') (b_pc s' t)).
  { intros u p x E Ex Hne. rewrite E. cbn [set_pc b_pc]. destruct (Nat.eqb_spec t u) as [Q|Q]; [congruence|]. rewrite Ex. exact Hmono. }
  destruct (Nat.eq_dec (ev_thread e) t) as [Et|Hne].
  2: { destruct e as [u k|u|u|u|u q|u|u]; cbn [BoosterModel.bstep ev_thread] in Hs, Hne;
         destruct (b_pc s u) as [|k1 h|k1|k1 r1 off|k1 res|r1 off|r1]; try discriminate Hs;
         repeat match type of Hs with context [match ?x with _ => _ end] => destruct x end; try discriminate Hs;
         injection Hs as <-; eapply Hother; first [exact Hne | reflexivity]. }
  destruct e as [u k|u|u|u|u q|u|u]; cbn [BoosterModel.bstep ev_thread] in Hs, Et; subst u;
    destruct (b_pc s t) as [|k1 h|k1|k1 r1 off|k1 res|r1 off|r1] eqn:Ep; try discriminate Hs; cbn [good_read] in H; try contradiction H.
  - destruct h as [off|].
    + destruct H as (Hk & d & Hd & Hle). rewrite Hd in Hs. destruct (keqb (r_key d) k1) eqn:Ek; injection Hs as <-; cbn [set_pc b_pc]; rewrite Nat.eqb_refl; cbn [good_read].
      * apply keqb_true in Ek. split; [exact Hk|]. exists d. split; [reflexivity|]. split; [congruence|apply Hle; exact Ek].
      * exact Hk.
    + injection Hs as <-. cbn [set_pc b_pc]. rewrite Nat.eqb_refl. exact H.
  - pose proof (find_doc_spec k1 (b_file s)) as F. destruct (find_doc k1 (b_file s)) as [[d off]|].
    + destruct F as (F1 & F2 & F3). injection Hs as <-. cbn [set_pc b_pc]. rewrite Nat.eqb_refl. cbn [good_read].
      split; [exact H|]. apply F3; [exact Hr|exact Hin|congruence].
    + exfalso. apply (F r Hin). congruence.
  - destruct H as [Hk Hle]. pose proof (proj2 Hok t) as Hp. rewrite Ep in Hp. cbn [pc_ok] in Hp. destruct Hp as [_ Hdk].
    injection Hs as <-. cbn [set_pc b_pc]. rewrite Nat.eqb_refl. cbn [good_read].
    split; [exact Hk|]. exists r1. split; [reflexivity|]. split; [congruence|exact Hle].
  - contradiction (He eq_refl).
Qed.
Lemma bruns_read : forall es r t s s', all_ok s -> In r (b_file s) -> rising (b_file s') -> ~ In (BEnd t) es ->
  good_read r (b_file s) (b_pc s t) -> bruns es s = Some s' -> good_read r (b_file s') (b_pc s' t).
Proof.
  induction es as [|e es IH]; intros r t s s' Hok Hin Hr He H Hs; cbn [BoosterModel.bruns] in Hs; [injection Hs as <-; exact H|].
  destruct (bstep e s) as [s1|] eqn:E; [|discriminate].
  destruct (bstep_ok e s s1 Hok E) as [Hok1 (g & Hf)]. destruct (bruns_ok es s1 s' Hok1 Hs) as [_ (g2 & Hf2)].
  apply (IH r t s1 s' Hok1).
  - rewrite Hf. apply in_or_app. left. exact Hin.
  - exact Hr.
  - intros Q. apply He. right. exact Q.
  - apply (bstep_read r t e s s1 Hok Hin); [|intros Q; apply He; left; exact Q|exact H|exact E].
    apply (rising_app (b_file s) (g ++ g2)). rewrite app_assoc, <- Hf, <- Hf2. exact Hr.
  - exact Hs.
Qed.

Lemma bruns_reached : forall es s s' k n, all_ok s -> st_used s -> positive (b_file s') -> (forall e, In e es -> ev_used e) -> used k ->
  reached (khash k) n (b_elems s) -> bruns es s = Some s' -> reached (khash k) n (b_elems s').
Proof.
  induction es as [|e es IH]; intros s s' k n Hok Hu Hpos He Hk H Hs; cbn [BoosterModel.bruns] in Hs; [injection Hs as <-; exact H|].
  destruct (bstep e s) as [s1|] eqn:E; [|discriminate].
  destruct (bstep_ok e s s1 Hok E) as [Hok1 (g & Hf)]. destruct (bruns_ok es s1 s' Hok1 Hs) as [_ (g2 & Hf2)].
  apply (IH s1 s' k n Hok1).
  - apply (bstep_used e s s1 Hu); [apply He; left; reflexivity|exact E].
  - exact Hpos.
  - intros x Hx. apply He. right. exact Hx.
  - exact Hk.
  - apply (bstep_reached e s s1 k n Hok Hu); [|exact Hk|exact H|exact E].
    intros q Hq. apply Hpos. rewrite Hf2, Hf. apply in_or_app. left. apply in_or_app. left. exact Hq.
  - exact Hs.
Qed.

Theorem never_stale : forall es1 s1 w r off es2 t es3 s k res,
  bruns es1 b_new = Some s1 -> b_pc s1 w = WPut r off ->
  bruns (BPut w :: es2 ++ BRead t k :: es3) s1 = Some s -> k = r_key r -> ~ In (BEnd t) es3 ->
  b_pc s t = RDone k res ->
  (forall e, In e (es1 ++ BPut w :: es2 ++ BRead t k :: es3) -> ev_used e) ->
  rising (b_file s) -> positive (b_file s) -> as_new r res.
Proof.
  intros es1 s1 w r off es2 t es3 s k res H1 Hw H2 Hk Hend Hres Hu Hrise Hpos.
  destruct (bruns_ok es1 b_new s1 new_ok H1) as [Ok1 _].
  assert (U1 : st_used s1).
  { apply (bruns_used es1 b_new s1); [|intros e He; apply Hu; apply in_or_app; left; exact He|exact H1].
    split; [intros q []|intros u; exact I]. }
  cbn [BoosterModel.bruns BoosterModel.bstep] in H2. rewrite Hw in H2.
  set (s2 := set_pc w (WDone r) (with_elems (set_if_new (mkE (khash (r_key r)) (r_seq r) off) (b_elems s1)) s1)) in *.
  assert (E2 : bstep (BPut w) s1 = Some s2) by (cbn [BoosterModel.bstep]; rewrite Hw; reflexivity).
  rewrite bruns_app in H2. destruct (bruns es2 s2) as [s3|] eqn:H3; [|discriminate].
  cbn [BoosterModel.bruns] in H2. destruct (bstep (BRead t k) s3) as [s4|] eqn:E4; [|discriminate].
  destruct (bstep_ok _ _ _ Ok1 E2) as [Ok2 _]. destruct (bruns_ok _ _ _ Ok2 H3) as [Ok3 (g3 & F3)].
  destruct (bstep_ok _ _ _ Ok3 E4) as [Ok4 (g4 & F4)]. destruct (bruns_ok _ _ _ Ok4 H2) as [Ok5 (g5 & F5)].
  assert (U2 : st_used s2) by (apply (bstep_used (BPut w) s1 s2 U1 I E2)).
  pose proof (proj2 Ok1 w) as Hpw. rewrite Hw in Hpw. cbn [pc_ok] in Hpw.
  assert (Hin2 : In r (b_file s2)) by (eapply doc_at_in; exact Hpw).
  assert (Hin3 : In r (b_file s3)) by (rewrite F3; apply in_or_app; left; exact Hin2).
  assert (Pos : forall x, (exists g, b_file s = b_file x ++ g) -> positive (b_file x)).
  { intros x (g & Fx) q Hq. apply Hpos. rewrite Fx. apply in_or_app. left. exact Hq. }
  assert (P3 : positive (b_file s3)) by (apply Pos; exists (g4 ++ g5); rewrite F5, F4, app_assoc; reflexivity).
  assert (Huk : used (r_key r)).
  { pose proof (proj2 U1 w) as Q. rewrite Hw in Q. exact Q. }
  assert (R2 : reached (khash (r_key r)) (r_seq r) (b_elems s2)).
  { apply (reached_own s1 (mkE (khash (r_key r)) (r_seq r) off)). cbn [e_seq]. apply P3. exact Hin3. }
  assert (R3 : reached (khash (r_key r)) (r_seq r) (b_elems s3)).
  { apply (bruns_reached es2 s2 s3 (r_key r) (r_seq r) Ok2 U2 P3); [|exact Huk|exact R2|exact H3].
    intros e He. apply Hu. apply in_or_app. right. right. apply in_or_app. left. exact He. }
  assert (G4 : good_read r (b_file s4) (b_pc s4 t)).
  { cbn [BoosterModel.bstep] in E4. destruct (b_pc s3 t); try discriminate E4. injection E4 as <-.
    cbn [set_pc b_pc b_file]. rewrite Nat.eqb_refl. unfold BoosterModel.b_get. rewrite Hk.
    destruct R3 as (Ra & Rb & Rc). rewrite Ra, N.eqb_refl. cbn [good_read]. split; [reflexivity|].
    destruct (proj1 (proj1 Ok3 (slot_of (khash (r_key r))))) as [Q|(d & D1 & D2 & D3)]; [contradiction (Rc Q)|].
    exists d. split; [exact D1|]. intros _. rewrite <- D2. exact Rb. }
  assert (G5 : good_read r (b_file s) (b_pc s t)).
  { apply (bruns_read es3 r t s4 s Ok4); [rewrite F4; apply in_or_app; left; exact Hin3|exact Hrise|exact Hend|exact G4|exact H2]. }
  rewrite Hres in G5. cbn [good_read] in G5. exact (proj2 G5).
Qed.
End Table.

(** ** One operation at a time *)

Section Alone.
Variable khash : key -> N.
Variable size : N.
Notation bstep := (bstep khash size).
Notation bruns := (bruns khash size).

(** Every element in use points to a newest document of its key. *)
Definition fresh (s : bst) : Prop :=
  forall i d, doc_at (e_off (b_elems s i)) (b_file s) = Some d -> forall q, In q (b_file s) -> r_key q = r_key d -> r_seq q <= r_seq d.

Lemma fresh_set : forall s e d, fresh s -> doc_at (e_off e) (b_file s) = Some d ->
  (forall q, In q (b_file s) -> r_key q = r_key d -> r_seq q <= r_seq d) ->
  fresh (with_elems (set_if_new size e (b_elems s)) s).
Proof.
  intros s e d H Hd Hq i. cbn [b_file b_elems with_elems]. unfold set_if_new.
  destruct ((e_hash (b_elems s (slot_of size (e_hash e))) =? e_hash e) && (e_seq e <=? e_seq (b_elems s (slot_of size (e_hash e))))); [apply H|].
  cbn beta. destruct (i =? slot_of size (e_hash e)); [|apply H].
  intros d' Hd'. rewrite Hd in Hd'. injection Hd' as <-. exact Hq.
Qed.

Definition calm (s : bst) : Prop := all_ok khash size s /\ fresh s /\ b_pc s 0%nat = Idle.

Lemma read_alone : forall s k p es s', calm s -> rising (b_file s) ->
  es = [BHint 0] \/ es = [BHint 0; BFind 0] \/ es = [BHint 0; BFind 0; BFill 0] ->
  bruns (BRead 0 k :: es) s = Some s' -> p = b_pc s' 0%nat -> (exists res, p = RDone k res) ->
  (exists res, p = RDone k res /\ forall r, In r (b_file s) -> r_key r = k -> as_new r res) /\
  all_ok khash size s' /\ fresh s' /\ b_file s' = b_file s.
Proof.
  intros s k p es s' (Hok & Hf & Hidle) Hr He Hs -> (res0 & Hres).
  destruct (bruns_ok khash size _ _ _ Hok Hs) as [Hok' _].
  cbn [BoosterModel.bruns BoosterModel.bstep] in Hs. rewrite Hidle in Hs.
  set (h := b_get size (khash k) (b_elems s)) in *.
  assert (Hh : forall off, h = Some off -> off = e_off (b_elems s (slot_of size (khash k)))).
  { intros off. unfold h, b_get. destruct (e_hash _ =? khash k); [congruence|discriminate]. }
  clearbody h.
  assert (Hhint : forall s2, bstep (BHint 0) (set_pc 0 (RHint k h) s) = Some s2 ->
    (b_pc s2 0%nat = RSearch k \/ exists d, b_pc s2 0%nat = RDone k (Some d) /\ (forall r, In r (b_file s) -> r_key r = k -> as_new r (Some d))) /\
    b_file s2 = b_file s /\ b_elems s2 = b_elems s).
  { intros s2 E. cbn [BoosterModel.bstep set_pc b_pc Nat.eqb b_file] in E. destruct h as [off|].
    - destruct (doc_at off (b_file s)) as [d|] eqn:Ed; [destruct (keqb (r_key d) k) eqn:Ek|]; injection E as <-; (split; [|split; reflexivity]); cbn [set_pc b_pc Nat.eqb]; try (left; reflexivity).
      right. exists d. split; [reflexivity|]. apply keqb_true in Ek. intros r Hin Hk. exists d. split; [reflexivity|]. split; [congruence|].
      apply (Hf (slot_of size (khash k)) d); [rewrite <- (Hh off eq_refl); exact Ed|exact Hin|congruence].
    - injection E as <-. split; [left; reflexivity|split; reflexivity]. }
  destruct He as [He|[He|He]]; subst es; cbn [BoosterModel.bruns] in Hs.
  - destruct (bstep (BHint 0) (set_pc 0 (RHint k h) s)) as [s2|] eqn:E2; [|discriminate Hs]. injection Hs as <-.
    destruct (Hhint s2 eq_refl) as ([Q|(d & Q1 & Q2)] & Ff & Fe); [congruence|].
    split; [exists (Some d); split; assumption|]. split; [exact Hok'|]. split; [|exact Ff]. unfold fresh. rewrite Ff, Fe. exact Hf.
  - destruct (bstep (BHint 0) (set_pc 0 (RHint k h) s)) as [s2|] eqn:E2; [|discriminate Hs].
    destruct (Hhint s2 eq_refl) as ([Q|(d & Q1 & Q2)] & Ff & Fe); cbn [BoosterModel.bstep] in Hs; [|rewrite Q1 in Hs; discriminate].
    rewrite Q in Hs. pose proof (find_doc_spec k (b_file s2)) as F. destruct (find_doc k (b_file s2)) as [[d off]|]; injection Hs as <-.
    + cbn [set_pc b_pc Nat.eqb] in Hres. discriminate Hres.
    + split.
      * exists None. split; [reflexivity|]. intros r Hin Hk. rewrite <- Ff in Hin. contradiction (F r Hin Hk).
      * split; [exact Hok'|]. split; [|exact Ff]. unfold fresh. cbn [set_pc b_file b_elems]. rewrite Ff, Fe. exact Hf.
  - destruct (bstep (BHint 0) (set_pc 0 (RHint k h) s)) as [s2|] eqn:E2; [|discriminate Hs].
    destruct (Hhint s2 eq_refl) as ([Q|(d & Q1 & Q2)] & Ff & Fe); cbn [BoosterModel.bstep] in Hs; [|rewrite Q1 in Hs; discriminate].
    rewrite Q in Hs. pose proof (find_doc_spec k (b_file s2)) as F. destruct (find_doc k (b_file s2)) as [[d off]|]; cbn [set_pc b_pc Nat.eqb] in Hs; [|discriminate Hs].
    injection Hs as <-. destruct F as (F1 & F2 & F3). rewrite Ff in F1, F3. specialize (F3 Hr). split.
    + exists (Some d). split; [reflexivity|]. intros r Hin Hk. exists d. split; [reflexivity|]. split; [congruence|]. apply F3; assumption.
    + split; [exact Hok'|]. split; [|exact Ff].
      assert (Q3 : fresh (with_elems (set_if_new size (mkE (khash k) (r_seq d) off) (b_elems s)) s)).
      { apply (fresh_set s _ d Hf); [exact F1|]. intros q Hq Hqk. apply F3; [exact Hq|congruence]. }
      unfold fresh. cbn [set_pc with_elems b_file b_elems]. rewrite Ff, Fe. exact Q3.
Qed.

Lemma bend_calm : forall s s', all_ok khash size s -> fresh s -> bstep (BEnd 0) s = Some s' -> calm s' /\ b_file s' = b_file s.
Proof.
  intros s s' Hok Hf Hs. destruct (bstep_ok khash size _ _ _ Hok Hs) as [Hok' _].
  cbn [BoosterModel.bstep] in Hs. destruct (b_pc s 0%nat) as [|k1 h|k1|k1 r1 off|k1 res|r1 off|r1]; try discriminate Hs; injection Hs as <-;
    (split; [|reflexivity]; split; [exact Hok'|split; [exact Hf|reflexivity]]).
Qed.

(** Where an element can be that points to a document of key [k]. *)
Lemma elem_place : forall s i d, all_ok khash size s -> doc_at (e_off (b_elems s i)) (b_file s) = Some d ->
  i = slot_of size (khash (r_key d)) /\ e_hash (b_elems s i) = khash (r_key d) /\ e_seq (b_elems s i) = r_seq d.
Proof.
  intros s i d [He _] Hd. destruct (He i) as [[Q|(d' & D1 & D2 & D3)] Hi].
  - rewrite Q in Hd. cbn in Hd. discriminate Hd.
  - rewrite Hd in D1. injection D1 as <-.
    assert (N0 : b_elems s i <> elem0) by (intros Q; rewrite Q in Hd; cbn in Hd; discriminate Hd).
    specialize (Hi N0). rewrite D3 in Hi. split; [exact Hi|split; assumption].
Qed.

Lemma doc_at_snoc : forall off f r d, doc_at off (f ++ [r]) = Some d -> doc_at off f = Some d \/ off = N.of_nat (length f) + 1.
Proof.
  unfold doc_at. intros off f r d H. destruct (N.eqb_spec off 0) as [E|E]; [discriminate|].
  destruct (Nat.lt_ge_cases (N.to_nat (off - 1)) (length f)) as [L|L].
  - left. rewrite nth_error_app1 in H by exact L. exact H.
  - right. rewrite nth_error_app2 in H by exact L.
    destruct (N.to_nat (off - 1) - length f)%nat as [|n] eqn:En; [lia|]. cbn in H. destruct n; discriminate H.
Qed.

Lemma write_alone : forall s r s', calm s -> rising (b_file s') ->
  bruns [BWrite 0 r; BPut 0; BEnd 0] s = Some s' -> calm s' /\ b_file s' = b_file s ++ [r].
Proof.
  intros s r s' (Hok & Hf & Hidle) Hr Hs.
  cbn [BoosterModel.bruns] in Hs. destruct (bstep (BWrite 0 r) s) as [s1|] eqn:E1; [|discriminate Hs].
  destruct (bstep_ok khash size _ _ _ Hok E1) as [Hok1 _].
  cbn [BoosterModel.bstep] in E1. rewrite Hidle in E1. injection E1 as <-.
  match type of Hs with context [bstep (BPut 0) ?x] => set (s1 := x) in *; destruct (bstep (BPut 0) s1) as [s2|] eqn:E2; [|discriminate Hs] end.
  destruct (bstep_ok khash size _ _ _ Hok1 E2) as [Hok2 _].
  destruct (bstep (BEnd 0) s2) as [s3|] eqn:E3; [|discriminate Hs]. injection Hs as <-.
  assert (F2 : b_file s2 = b_file s ++ [r] /\ b_elems s2 = set_if_new size (mkE (khash (r_key r)) (r_seq r) (N.of_nat (length (b_file s)) + 1)) (b_elems s)).
  { cbn [BoosterModel.bstep] in E2. unfold s1 in E2. cbn [set_pc b_pc Nat.eqb] in E2. injection E2 as <-. split; reflexivity. }
  destruct F2 as [F2 G2].
  assert (E3' : b_file s3 = b_file s2) by (cbn [BoosterModel.bstep] in E3; destruct (b_pc s2 0%nat); try discriminate E3; injection E3 as <-; reflexivity).
  assert (Hr2 : forall q, In q (b_file s) -> r_key q = r_key r -> r_seq q <= r_seq r).
  { intros q Hq Hk. apply in_split in Hq. destruct Hq as (a & b & Eq).
    apply (Hr a q (b ++ [r]) r); [rewrite E3', F2, Eq, <- app_assoc; reflexivity|apply in_or_app; right; left; reflexivity|congruence]. }
  assert (Hnew : forall q, In q (b_file s ++ [r]) -> r_key q = r_key r -> r_seq q <= r_seq r).
  { intros q Hq Hk. apply in_app_or in Hq. destruct Hq as [Hq|[<-|[]]]; [apply Hr2; assumption|lia]. }
  assert (Hf2 : fresh s2).
  { intros i d. rewrite F2, G2. unfold set_if_new. cbn [e_hash e_seq].
    set (j := slot_of size (khash (r_key r))).
    assert (Old : forall i d, (e_hash (b_elems s i) <> khash (r_key r) \/ r_seq r <= e_seq (b_elems s i) \/ i <> j) ->
      doc_at (e_off (b_elems s i)) (b_file s ++ [r]) = Some d -> forall q, In q (b_file s ++ [r]) -> r_key q = r_key d -> r_seq q <= r_seq d).
    { clear i d. intros i d Hi Hd.
      assert (Hd0 : doc_at (e_off (b_elems s i)) (b_file s) = Some d).
      { destruct (proj1 (proj1 Hok i)) as [Q|(d0 & D0 & _)].
        - rewrite Q in Hd. cbn in Hd. discriminate Hd.
        - pose proof (doc_at_app _ _ [r] _ D0) as Q. rewrite Hd in Q. injection Q as ->. exact D0. }
      destruct (elem_place s i d Hok Hd0) as (P1 & P2 & P3).
      intros q Hq Hk. apply in_app_or in Hq. destruct Hq as [Hq|[<-|[]]]; [apply (Hf i d Hd0 q Hq Hk)|].
      destruct Hi as [Hi|[Hi|Hi]].
      - contradiction Hi. congruence.
      - lia.
      - contradiction Hi. rewrite P1. unfold j. congruence. }
    destruct ((e_hash (b_elems s j) =? khash (r_key r)) && (r_seq r <=? e_seq (b_elems s j))) eqn:E.
    - apply andb_true_iff in E. destruct E as [Ea Eb]. apply N.eqb_eq in Ea. apply N.leb_le in Eb.
      apply Old. destruct (N.eq_dec i j) as [->|Hne]; [right; left; exact Eb|right; right; exact Hne].
    - cbn beta. destruct (N.eqb_spec i j) as [->|Hne].
      + cbn [e_off]. rewrite doc_at_last. intros Hd. injection Hd as <-. exact Hnew.
      + apply Old. right. right. exact Hne. }
  destruct (bend_calm s2 s3 Hok2 Hf2 E3) as [C F]. split; [exact C|]. rewrite F. exact F2.
Qed.

Inductive one_by_one : list one -> bst -> Prop :=
| ob_nil : one_by_one [] b_new
| ob_snoc : forall os o es s s', one_by_one os s -> alone o es -> bruns es s = Some s' -> one_by_one (os ++ [o]) s'.

Lemma last_done : forall s s', bstep (BEnd 0) s = Some s' -> (exists k res, b_pc s 0%nat = RDone k res) \/ exists r, b_pc s 0%nat = WDone r.
Proof.
  intros s s' H. cbn [BoosterModel.bstep] in H. destruct (b_pc s 0%nat) as [|k1 h|k1|k1 r1 off|k1 res|r1 off|r1]; try discriminate H; [left; exists k1, res; reflexivity|right; exists r1; reflexivity].
Qed.
Lemma hint_key : forall es k s s' p, b_pc s 0%nat = Idle ->
  es = [BHint 0] \/ es = [BHint 0; BFind 0] \/ es = [BHint 0; BFind 0; BFill 0] ->
  bruns (BRead 0 k :: es) s = Some s' -> p = b_pc s' 0%nat -> (exists k2 res, p = RDone k2 res) \/ (exists r, p = WDone r) -> exists res, p = RDone k res.
Proof.
  intros es k s s' p Hidle He Hs -> Hp. cbn [BoosterModel.bruns BoosterModel.bstep] in Hs. rewrite Hidle in Hs.
  destruct He as [He|[He|He]]; subst es; cbn [BoosterModel.bruns BoosterModel.bstep set_pc b_pc b_file Nat.eqb] in Hs;
    repeat (match type of Hs with context [b_get ?a ?b ?c] => destruct (b_get a b c) | context [doc_at ?a ?b] => destruct (doc_at a b) | context [keqb ?a ?b] => destruct (keqb a b) | context [find_doc ?a ?b] => destruct (find_doc a b) as [[? ?]|] end; cbn [set_pc with_elems b_pc b_file b_elems Nat.eqb] in Hs); try discriminate Hs; injection Hs as <-; cbn [set_pc with_elems b_pc Nat.eqb] in Hp |- *;
    first [eexists; reflexivity | destruct Hp as [(k2 & r2 & Q)|(r2 & Q)]; discriminate Q].
Qed.

Lemma one_by_one_calm : forall os s, one_by_one os s -> rising (b_file s) -> calm s.
Proof.
  intros os s H. induction H as [|os o es s s' Hos IH Ha Hs]; intros Hr.
  - split; [apply new_ok|]. split; [|reflexivity]. intros i d Hd. cbn in Hd. discriminate Hd.
  - assert (exists g, b_file s' = b_file s ++ g) as (g & Hg).
    { clear - Hs. revert s Hs. induction es as [|e es IH]; intros s Hs; cbn [BoosterModel.bruns] in Hs; [injection Hs as <-; exists []; rewrite app_nil_r; reflexivity|].
      destruct (bstep e s) as [s1|] eqn:E; [|discriminate]. destruct (IH s1 Hs) as (g & Hg).
      assert (exists g1, b_file s1 = b_file s ++ g1) as (g1 & Hg1).
      { destruct e as [t k|t|t|t|t r|t|t]; cbn [BoosterModel.bstep] in E;
          repeat match type of E with context [match ?x with _ => _ end] => destruct x end; try discriminate E; injection E as <-;
          first [exists []; cbn [set_pc with_elems b_file]; rewrite app_nil_r; reflexivity | eexists; reflexivity]. }
      exists (g1 ++ g). rewrite Hg, Hg1, app_assoc. reflexivity. }
    assert (Hr0 : rising (b_file s)) by (apply (rising_app (b_file s) g); rewrite <- Hg; exact Hr).
    specialize (IH Hr0). destruct o as [k|r]; cbn [alone] in Ha.
    + assert (exists es1, es = (BRead 0 k :: es1) ++ [BEnd 0] /\ (es1 = [BHint 0] \/ es1 = [BHint 0; BFind 0] \/ es1 = [BHint 0; BFind 0; BFill 0])) as (es1 & -> & He1).
      { destruct Ha as [->|[->| ->]]; [exists [BHint 0]|exists [BHint 0; BFind 0]|exists [BHint 0; BFind 0; BFill 0]]; (split; [reflexivity|]); tauto. }
      rewrite bruns_app in Hs. destruct (bruns (BRead 0 k :: es1) s) as [s1|] eqn:E1; [|discriminate Hs].
      cbn [BoosterModel.bruns] in Hs. destruct (bstep (BEnd 0) s1) as [s2|] eqn:E2; [|discriminate Hs]. injection Hs as <-.
      pose proof (hint_key es1 k s s1 _ (proj2 (proj2 IH)) He1 E1 eq_refl (last_done s1 s2 E2)) as Hres.
      destruct (read_alone s k _ es1 s1 IH Hr0 He1 E1 eq_refl Hres) as (_ & Hok1 & Hf1 & _).
      apply (bend_calm s1 s2 Hok1 Hf1 E2).
    + subst es. apply (write_alone s r s' IH Hr Hs).
Qed.

Theorem newest_alone : forall os s k es s' res, one_by_one os s -> rising (b_file s) ->
  alone (OneRead k) (es ++ [BEnd 0]) -> bruns es s = Some s' -> b_pc s' 0%nat = RDone k res ->
  forall r, In r (b_file s) -> r_key r = k -> as_new r res.
Proof.
  intros os s k es s' res Hos Hr Ha Hs Hres r Hin Hk.
  assert (exists es1, es = BRead 0 k :: es1 /\ (es1 = [BHint 0] \/ es1 = [BHint 0; BFind 0] \/ es1 = [BHint 0; BFind 0; BFill 0])) as (es1 & -> & He1).
  { cbn [alone] in Ha. destruct Ha as [Ha|[Ha|Ha]].
    - apply (app_inj_tail es [BRead 0 k; BHint 0]) in Ha. destruct Ha as [-> _]. eexists; split; [reflexivity|tauto].
    - apply (app_inj_tail es [BRead 0 k; BHint 0; BFind 0]) in Ha. destruct Ha as [-> _]. eexists; split; [reflexivity|tauto].
    - apply (app_inj_tail es [BRead 0 k; BHint 0; BFind 0; BFill 0]) in Ha. destruct Ha as [-> _]. eexists; split; [reflexivity|tauto]. }
  destruct (read_alone s k _ es1 s' (one_by_one_calm os s Hos Hr) Hr He1 Hs eq_refl (ex_intro _ res Hres)) as ((res2 & Q & G) & _).
  rewrite Hres in Q. injection Q as <-. apply G; assumption.
Qed.
End Alone.
