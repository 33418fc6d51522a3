(** Proofs about global batches (GlobalBatchModel.v). *)
From Verif Require Import Base KeyModel KeyProofs GlobalBatchModel.
From Coq Require Import Lia Arith.

(** ** What a batch consists of *)

Inductive by_path {B : Type} : list (dbid * B) -> Prop :=
| bp_nil : by_path []
| bp_cons : forall p l, by_path l -> (forall q, In q l -> klt (d_path (fst p)) (d_path (fst q))) -> by_path (p :: l).

Lemma gb_insert_in : forall {B} (d : dbid) (b : B) l p, In p (gb_insert d b l) -> p = (d, b) \/ In p l.
Proof.
  intros B d b. induction l as [|[d' b'] l IH]; cbn [gb_insert]; intros p H.
  - destruct H as [<-|[]]. left. reflexivity.
  - destruct (kcmp (d_path d) (d_path d')).
    + right. exact H.
    + destruct H as [<-|H]; [left; reflexivity|right; exact H].
    + destruct H as [<-|H]; [right; left; reflexivity|]. destruct (IH p H) as [E|E]; [left; exact E|right; right; exact E].
Qed.
Lemma gb_insert_sorted : forall {B} (d : dbid) (b : B) l, by_path l -> by_path (gb_insert d b l).
Proof.
  intros B d b l H. induction H as [|[d' b'] l Hl IH Hlt]; cbn [gb_insert]; [constructor; [constructor|intros q []]|].
  destruct (kcmp (d_path d) (d_path d')) eqn:E.
  - constructor; assumption.
  - constructor; [constructor; assumption|]. intros q [<-|Hq]; cbn [fst]; [exact E|]. specialize (Hlt q Hq). cbn [fst] in Hlt. apply (klt_trans _ (d_path d')); assumption.
  - constructor; [exact IH|]. intros q Hq. cbn [fst]. apply gb_insert_in in Hq. destruct Hq as [->|Hq]; [cbn [fst]; apply kcmp_gt; exact E|apply (Hlt q Hq)].
Qed.
Lemma gb_of_sorted : forall {B} ro (adds : list (dbid * B)), by_path (gb_of ro adds).
Proof.
  intros B ro adds. unfold gb_of. assert (G : forall l, by_path l -> by_path (fold_left (fun l a => gb_add ro (fst a) (snd a) l) adds l)); [|apply G; constructor].
  induction adds as [|a adds IH]; cbn [fold_left]; intros l H; [exact H|]. apply IH. unfold gb_add. destruct (ro (fst a)); [exact H|apply gb_insert_sorted; exact H].
Qed.
Lemma gb_insert_keeps : forall {B} (d : dbid) (b : B) l p, In p l -> In p (gb_insert d b l).
Proof.
  intros B d b. induction l as [|[d' b'] l IH]; cbn [gb_insert]; intros p H; [destruct H|].
  destruct (kcmp (d_path d) (d_path d')); [exact H|right; exact H|].
  destruct H as [<-|H]; [left; reflexivity|right; apply IH; exact H].
Qed.
Lemma gb_insert_new : forall {B} (d : dbid) (b : B) l, (forall p, In p l -> d_path (fst p) <> d_path d) -> In (d, b) (gb_insert d b l).
Proof.
  intros B d b. induction l as [|[d' b'] l IH]; cbn [gb_insert]; intros H; [left; reflexivity|].
  destruct (kcmp (d_path d) (d_path d')) eqn:E; [|left; reflexivity|right; apply IH; intros p Hp; apply H; right; exact Hp].
  apply kcmp_eq in E. exfalso. apply (H (d', b') (or_introl eq_refl)). cbn [fst]. symmetry. exact E.
Qed.
(** All that was added, if no two paths are equal and none is read-only. *)
Lemma gb_of_all : forall {B} ro (adds : list (dbid * B)), NoDup (map (fun a => d_path (fst a)) adds) -> (forall a, In a adds -> ro (fst a) = false) ->
  forall p, In p (gb_of ro adds) <-> In p adds.
Proof.
  intros B ro adds Hn Hr p. unfold gb_of.
  assert (G : forall l, (forall a q, In a adds -> In q l -> d_path (fst q) <> d_path (fst a)) ->
    (In p (fold_left (fun l a => gb_add ro (fst a) (snd a) l) adds l) <-> In p l \/ In p adds)).
  { induction adds as [|a adds IH]; cbn [fold_left map]; intros l Hl; [split; [intros H; left; exact H|intros [H|[]]; exact H]|].
    cbn [map] in Hn. inversion_clear Hn as [|? ? Ha Hn'].
    assert (En : In p (gb_add ro (fst a) (snd a) l) <-> In p l \/ p = a).
    { unfold gb_add. rewrite (Hr a (or_introl eq_refl)). destruct a as [d b]. cbn [fst snd] in *. split.
      - intros H. apply gb_insert_in in H. tauto.
      - intros [H| ->]; [apply gb_insert_keeps; exact H|]. apply gb_insert_new. intros q Hq. apply (Hl (d, b) q); [left; reflexivity|exact Hq]. }
    rewrite IH.
    - rewrite En. cbn [In]. split; [intros [[H|H]|H]; auto|intros [H|[H|H]]; auto].
    - exact Hn'.
    - intros a' Ha'. apply Hr. right. exact Ha'.
    - intros a' q Ha' Hq. unfold gb_add in Hq. rewrite (Hr a (or_introl eq_refl)) in Hq. apply gb_insert_in in Hq. destruct Hq as [->|Hq].
      + cbn [fst]. intros E. apply Ha. rewrite E. apply (in_map (fun a => d_path (fst a))). exact Ha'.
      + apply (Hl a' q); [right; exact Ha'|exact Hq]. }
  rewrite G; [cbn [In]; tauto|intros a q _ []].
Qed.

(** ** Write mutexes *)

Lemma dbid_eqb_true : forall a b, dbid_eqb a b = true <-> a = b.
Proof.
  intros [p k] [q m]. unfold dbid_eqb. cbn [d_path d_kvs]. rewrite andb_true_iff, keqb_true, Nat.eqb_eq. split; [intros [-> ->]; reflexivity|intros E; injection E as -> ->; auto].
Qed.
Lemma own_same : forall d o f, own d o f d = o.
Proof. intros d o f. unfold own. rewrite (proj2 (dbid_eqb_true d d) eq_refl). reflexivity. Qed.
Lemma own_other : forall d o f x, x <> d -> own d o f x = f x.
Proof. intros d o f x H. unfold own. destruct (dbid_eqb x d) eqn:E; [apply dbid_eqb_true in E; contradiction|reflexivity]. Qed.

(** Programs that take mutexes in the order of their paths and give back what they hold. *)
Inductive shape : list dbid -> list act -> Prop :=
| sh_nil : shape [] []
| sh_lock : forall hs d p, (forall h, In h hs -> klt (d_path h) (d_path d)) -> shape (d :: hs) p -> shape hs (ALock d :: p)
| sh_work : forall hs p, shape hs p -> shape hs (AWork :: p)
| sh_unlock : forall hs hs' d p, In d hs -> (forall h, In h hs' <-> In h hs /\ h <> d) -> shape hs' p -> shape hs (AUnlock d :: p).

Lemma shape_works : forall k hs p, shape hs p -> shape hs (repeat AWork k ++ p).
Proof. induction k as [|k IH]; intros hs p H; [exact H|]. cbn [repeat app]. constructor. apply IH. exact H. Qed.
Lemma shape_unlocks : forall {B} (l : list (dbid * B)) hs, NoDup (map fst l) -> (forall h, In h hs <-> In h (map fst l)) ->
  shape hs (flat_map (fun p => [AWork; AUnlock (fst p)]) l).
Proof.
  intros B. induction l as [|p l IH]; intros hs Hn Hh; cbn [flat_map map] in *.
  - destruct hs as [|h hs]; [constructor|]. destruct (proj1 (Hh h) (or_introl eq_refl)).
  - inversion_clear Hn as [|? ? Hp Hn']. constructor. apply (sh_unlock hs (map fst l)); [apply Hh; left; reflexivity| |].
    + intros h. rewrite Hh. split; [intros H; split; [right; exact H|intros ->; contradiction]|intros [[<-|H] Hne]; [contradiction|exact H]].
    + apply IH; [exact Hn'|tauto].
Qed.
Lemma by_path_nodup : forall {B} (l : list (dbid * B)), by_path l -> NoDup (map fst l).
Proof.
  intros B l H. induction H as [|p l Hl IH Hlt]; cbn [map]; constructor; [|exact IH].
  intros Hin. apply in_map_iff in Hin. destruct Hin as (q & Hq & Hin). specialize (Hlt q Hin). rewrite Hq in Hlt. apply (klt_irrefl _ Hlt).
Qed.
Lemma batch_shape : forall {B} (l : list (dbid * B)) work, by_path l -> shape [] (batch_prog l work).
Proof.
  intros B l work H. unfold batch_prog.
  assert (G : forall l2 l1 : list (dbid * B), by_path (l1 ++ l2) -> shape (rev (map fst l1)) (map (fun p => ALock (fst p)) l2 ++ repeat AWork work ++ flat_map (fun p => [AWork; AUnlock (fst p)]) (l1 ++ l2))).
  { induction l2 as [|p l2 IH]; intros l1 Hs; cbn [map app].
    - rewrite app_nil_r in Hs |- *. apply shape_works. apply shape_unlocks; [apply by_path_nodup; exact Hs|intros h; symmetry; apply in_rev].
    - constructor.
      + intros h Hh. apply in_rev in Hh. clear IH.
        apply in_map_iff in Hh. destruct Hh as (q & <- & Hq). clear - Hs Hq.
        induction l1 as [|x l1 IH]; [destruct Hq|]. cbn [app] in Hs. inversion_clear Hs as [|? ? Hl Hlt].
        destruct Hq as [<-|Hq]; [apply Hlt; apply in_or_app; right; left; reflexivity|apply IH; assumption].
      + specialize (IH (l1 ++ [p])). rewrite map_app, rev_app_distr in IH. cbn [map rev app] in IH. rewrite <- app_assoc in IH. cbn [app] in IH. apply IH. exact Hs. }
  exact (G l [] H).
Qed.
Lemma single_shape : forall d work, shape [] (single_prog d work).
Proof.
  intros d work. unfold single_prog. constructor; [intros h []|]. apply shape_works.
  apply (sh_unlock [d] []); [left; reflexivity| |constructor]. intros h. split; [intros []|intros [[->|[]] H]; contradiction].
Qed.

Definition lwf (s : lst) : Prop :=
  (forall d t, l_owner s d = Some t -> t < length (l_progs s)) /\
  forall t, t < length (l_progs s) -> exists hs, shape hs (nth t (l_progs s) []) /\ forall d, l_owner s d = Some t <-> In d hs.

Lemma set_nth_length : forall {A} (l : list A) k x, length (set_nth k x l) = length l.
Proof. intros A. induction l as [|y l IH]; intros [|k] x; cbn [set_nth length]; [reflexivity|reflexivity|reflexivity|rewrite IH; reflexivity]. Qed.
Lemma set_nth_same : forall {A} (l : list A) k x d, k < length l -> nth k (set_nth k x l) d = x.
Proof. intros A. induction l as [|y l IH]; intros [|k] x d H; cbn [length] in H; try lia; cbn [set_nth nth]; [reflexivity|apply IH; lia]. Qed.
Lemma set_nth_other : forall {A} (l : list A) k j x d, j <> k -> nth j (set_nth k x l) d = nth j l d.
Proof.
  intros A. induction l as [|y l IH]; intros k j x d H; [destruct k; reflexivity|]. destruct k as [|k]; destruct j as [|j]; cbn [set_nth nth]; try reflexivity; [contradiction|].
  apply IH. congruence.
Qed.
Lemma nth_bound : forall t (l : list (list act)), nth t l [] <> [] -> t < length l.
Proof. intros t l H. destruct (Nat.lt_ge_cases t (length l)) as [L|L]; [exact L|]. contradiction H. apply nth_overflow. exact L. Qed.

Lemma lstep_wf : forall t s s', lwf s -> lstep t s = Some s' -> lwf s'.
Proof.
  intros t s s' [Ho H] E. unfold lstep in E. destruct (nth t (l_progs s) []) as [|a p] eqn:Ep; [discriminate E|].
  assert (Ht : t < length (l_progs s)) by (apply nth_bound; rewrite Ep; discriminate).
  destruct (H t Ht) as (hs & Hsh & Hown). rewrite Ep in Hsh.
  destruct a as [d| |d].
  - destruct (l_owner s d) as [u|] eqn:Ed; [discriminate E|]. injection E as <-. inversion_clear Hsh as [|? ? ? Hlt Hsh'| |].
    split; cbn [l_progs l_owner].
    + intros x u Hx. rewrite set_nth_length. destruct (dbid_eqb x d) eqn:Q.
      * apply dbid_eqb_true in Q. subst x. rewrite own_same in Hx. injection Hx as <-. exact Ht.
      * rewrite own_other in Hx by (intros ->; rewrite (proj2 (dbid_eqb_true d d) eq_refl) in Q; discriminate Q). apply (Ho x u Hx).
    + intros u Hu. rewrite set_nth_length in Hu. destruct (Nat.eq_dec u t) as [->|Hne].
      * exists (d :: hs). rewrite set_nth_same by exact Ht. split; [exact Hsh'|]. intros x. destruct (dbid_eqb x d) eqn:Q.
        -- apply dbid_eqb_true in Q. subst x. rewrite own_same. cbn [In]. split; auto.
        -- assert (x <> d) by (intros ->; rewrite (proj2 (dbid_eqb_true d d) eq_refl) in Q; discriminate Q).
           rewrite own_other by assumption. rewrite Hown. cbn [In]. split; [auto|intros [Q'|Q']; [congruence|exact Q']].
      * destruct (H u Hu) as (hu & Hsu & Hou). exists hu. rewrite set_nth_other by exact Hne. split; [exact Hsu|]. intros x. destruct (dbid_eqb x d) eqn:Q.
        -- apply dbid_eqb_true in Q. subst x. rewrite own_same, <- Hou. split; [intros Q; congruence|intros Q; congruence].
        -- rewrite own_other by (intros ->; rewrite (proj2 (dbid_eqb_true d d) eq_refl) in Q; discriminate Q). apply Hou.
  - injection E as <-. inversion_clear Hsh as [| |? ? Hsh'|]. split; cbn [l_progs l_owner]; [intros x u Hx; rewrite set_nth_length; apply (Ho x u Hx)|].
    intros u Hu. rewrite set_nth_length in Hu. destruct (Nat.eq_dec u t) as [->|Hne].
    + exists hs. rewrite set_nth_same by exact Ht. split; assumption.
    + rewrite set_nth_other by exact Hne. apply H. exact Hu.
  - injection E as <-. inversion_clear Hsh as [| | |? hs' ? ? Hin Hhs Hsh']. split; cbn [l_progs l_owner].
    + intros x u Hx. rewrite set_nth_length. destruct (dbid_eqb x d) eqn:Q.
      * apply dbid_eqb_true in Q. subst x. rewrite own_same in Hx. discriminate Hx.
      * rewrite own_other in Hx by (intros ->; rewrite (proj2 (dbid_eqb_true d d) eq_refl) in Q; discriminate Q). apply (Ho x u Hx).
    + intros u Hu. rewrite set_nth_length in Hu. destruct (Nat.eq_dec u t) as [->|Hne].
      * exists hs'. rewrite set_nth_same by exact Ht. split; [exact Hsh'|]. intros x. rewrite Hhs. destruct (dbid_eqb x d) eqn:Q.
        -- apply dbid_eqb_true in Q. subst x. rewrite own_same. split; [discriminate|intros [_ Q]; contradiction].
        -- assert (x <> d) by (intros ->; rewrite (proj2 (dbid_eqb_true d d) eq_refl) in Q; discriminate Q).
           rewrite own_other by assumption. rewrite Hown. tauto.
      * destruct (H u Hu) as (hu & Hsu & Hou). exists hu. rewrite set_nth_other by exact Hne. split; [exact Hsu|]. intros x. destruct (dbid_eqb x d) eqn:Q.
        -- apply dbid_eqb_true in Q. subst x. rewrite own_same, <- Hou. split; [discriminate|]. intros Q. apply Hown in Hin. congruence.
        -- rewrite own_other by (intros ->; rewrite (proj2 (dbid_eqb_true d d) eq_refl) in Q; discriminate Q). apply Hou.
Qed.
Lemma lruns_wf : forall ts s s', lwf s -> lruns ts s = Some s' -> lwf s'.
Proof.
  induction ts as [|t ts IH]; cbn [lruns]; intros s s' H E; [injection E as <-; exact H|].
  destruct (lstep t s) as [s1|] eqn:E1; [|discriminate E]. apply (IH s1 s'); [apply (lstep_wf t s); assumption|exact E].
Qed.
Lemma new_wf : forall ps, (forall p, In p ps -> shape [] p) -> lwf (l_new ps).
Proof.
  intros ps H. split; [intros d t Q; discriminate Q|]. intros t Ht. exists []. cbn [l_new l_progs l_owner]. split; [apply H; apply nth_In; exact Ht|].
  intros d. split; [discriminate|intros []].
Qed.

(** Among waiting threads there is one that waits for a greatest path. *)
Lemma greatest : forall (w : nat -> option dbid) m, (exists t, t < m /\ w t <> None) ->
  exists t d, t < m /\ w t = Some d /\ forall u e, u < m -> w u = Some e -> kle (d_path e) (d_path d).
Proof.
  intros w. induction m as [|m IH]; intros (t & Ht & Hw); [lia|].
  assert (C : (exists t, t < m /\ w t <> None) \/ forall t, t < m -> w t = None).
  { clear. induction m as [|m IH]; [right; intros t H; lia|]. destruct (w m) eqn:E; [left; exists m; split; [lia|congruence]|].
    destruct IH as [(t & Ht & Hw)|IH]; [left; exists t; split; [lia|exact Hw]|right]. intros t Ht. destruct (Nat.eq_dec t m) as [->|]; [exact E|apply IH; lia]. }
  destruct C as [C|C].
  - destruct (IH C) as (v & d & Hv & Hd & Hmax). destruct (w m) as [e|] eqn:E.
    + destruct (kle_total (d_path e) (d_path d)) as [L|L].
      * exists v, d. split; [lia|]. split; [exact Hd|]. intros u x Hu Hx. destruct (Nat.eq_dec u m) as [->|]; [rewrite E in Hx; injection Hx as <-; exact L|apply (Hmax u x); [lia|exact Hx]].
      * exists m, e. split; [lia|]. split; [exact E|]. intros u x Hu Hx. destruct (Nat.eq_dec u m) as [->|]; [rewrite E in Hx; injection Hx as <-; apply kle_refl|].
        apply (kle_trans _ (d_path d)); [apply (Hmax u x); [lia|exact Hx]|exact L].
    + exists v, d. split; [lia|]. split; [exact Hd|]. intros u x Hu Hx. destruct (Nat.eq_dec u m) as [->|]; [congruence|apply (Hmax u x); [lia|exact Hx]].
  - assert (t = m) as -> by (destruct (Nat.eq_dec t m) as [|]; [assumption|]; rewrite C in Hw by lia; contradiction).
    destruct (w m) as [e|] eqn:E; [|contradiction]. exists m, e. split; [lia|]. split; [exact E|].
    intros u x Hu Hx. destruct (Nat.eq_dec u m) as [->|]; [rewrite E in Hx; injection Hx as <-; apply kle_refl|]. rewrite C in Hx by lia. discriminate Hx.
Qed.

Theorem no_deadlock : forall s, lwf s -> (exists t, nth t (l_progs s) [] <> []) -> exists t s', lstep t s = Some s'.
Proof.
  intros s [Ho H] (t0 & Ht0).
  set (w := fun t => match nth t (l_progs s) [] with ALock d :: _ => match l_owner s d with Some _ => Some d | None => None end | _ => None end).
  assert (C : forall t, nth t (l_progs s) [] <> [] -> w t <> None \/ exists s', lstep t s = Some s').
  { intros t Hne. unfold w, lstep. destruct (nth t (l_progs s) []) as [|[d| |d] p]; [contradiction| |right; eexists; reflexivity|right; eexists; reflexivity].
    destruct (l_owner s d); [left; discriminate|right; eexists; reflexivity]. }
  destruct (C t0 Ht0) as [Hw|Hw]; [|exists t0; exact Hw].
  destruct (greatest w (length (l_progs s)) (ex_intro _ t0 (conj (nth_bound t0 _ Ht0) Hw))) as (t & d & Ht & Hd & Hmax).
  unfold w in Hd. destruct (nth t (l_progs s) []) as [|[d'| |d'] p] eqn:Ep; try discriminate Hd. destruct (l_owner s d') as [u|] eqn:Eu; [|discriminate Hd]. injection Hd as ->.
  pose proof (Ho d u Eu) as Hu. destruct (H u Hu) as (hs & Hsh & Hown). pose proof (proj1 (Hown d) Eu) as Hin.
  assert (Hne : nth u (l_progs s) [] <> []) by (intros Q; rewrite Q in Hsh; inversion Hsh; subst; destruct Hin).
  destruct (C u Hne) as [Hwu|Hwu]; [|exists u; exact Hwu]. exfalso.
  destruct (w u) as [e|] eqn:Ew; [|contradiction]. pose proof (Hmax u e Hu Ew) as Hle. unfold w in Ew.
  destruct (nth u (l_progs s) []) as [|[d''| |d''] q]; try discriminate Ew. destruct (l_owner s d'') eqn:E''; [|discriminate Ew]. injection Ew as ->.
  inversion_clear Hsh as [|? ? ? Hlt Hsh'| |]. specialize (Hlt d Hin). apply (klt_irrefl (d_path d)). apply (klt_kle_trans _ (d_path e)); assumption.
Qed.

(** Every step shortens a program. *)
Definition left_to_do (s : lst) : nat := list_sum (map (@length act) (l_progs s)).
Lemma sum_set_nth : forall (l : list (list act)) t a p, nth t l [] = a :: p -> S (list_sum (map (@length act) (set_nth t p l))) = list_sum (map (@length act) l).
Proof.
  induction l as [|x l IH]; intros [|t] a p H; cbn [nth] in H; try discriminate H; cbn [set_nth map]; unfold list_sum in *; cbn [fold_right].
  - rewrite H. cbn [length]. lia.
  - rewrite <- (IH t a p H). lia.
Qed.
Lemma lstep_shorter : forall t s s', lstep t s = Some s' -> S (left_to_do s') = left_to_do s.
Proof.
  intros t s s' E. unfold lstep in E. unfold left_to_do. destruct (nth t (l_progs s) []) as [|a p] eqn:Ep; [discriminate E|].
  destruct a as [d| |d]; [destruct (l_owner s d); [discriminate E|]| |]; injection E as <-; cbn [l_progs]; apply (sum_set_nth _ t _ p Ep).
Qed.
Lemma lruns_shorter : forall ts s s', lruns ts s = Some s' -> length ts + left_to_do s' = left_to_do s.
Proof.
  induction ts as [|t ts IH]; cbn [lruns]; intros s s' E; [injection E as <-; reflexivity|].
  destruct (lstep t s) as [s1|] eqn:E1; [|discriminate E]. specialize (IH s1 s' E). pose proof (lstep_shorter t s s1 E1). cbn [length]. lia.
Qed.
Theorem all_finish : forall s, lwf s -> exists ts s', lruns ts s = Some s' /\ forall t, nth t (l_progs s') [] = [].
Proof.
  intros s. remember (left_to_do s) as m eqn:Em. revert s Em. induction m as [|m IH]; intros s Em H.
  - exists [], s. split; [reflexivity|]. intros t. destruct (nth t (l_progs s) []) as [|a p] eqn:Ep; [reflexivity|].
    pose proof (sum_set_nth _ t a p Ep) as Q. unfold left_to_do in Em. lia.
  - assert (C : (exists t, nth t (l_progs s) [] <> []) \/ forall t, nth t (l_progs s) [] = []).
    { clear. induction (l_progs s) as [|x l IH]; [right; intros [|t]; reflexivity|]. destruct x as [|a x]; [|left; exists 0; discriminate].
      destruct IH as [(t & Ht)|IH]; [left; exists (S t); exact Ht|right]. intros [|t]; [reflexivity|apply IH]. }
    destruct C as [C|C]; [|exists [], s; split; [reflexivity|exact C]].
    destruct (no_deadlock s H C) as (t & s1 & E1). pose proof (lstep_shorter t s s1 E1).
    destruct (IH s1 ltac:(lia) (lstep_wf t s s1 H E1)) as (ts & s' & Er & Hf). exists (t :: ts), s'. split; [cbn [lruns]; rewrite E1; exact Er|exact Hf].
Qed.
