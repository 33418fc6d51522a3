(** Asynchronous flush requests (proofs; statements in FlusherProps.v). *)
From Verif Require Import Base KeyModel LogFormatModel MemTableModel LogMgrModel DbModel DbProofs DbProofs2 FlusherModel FlusherSpec.
From Coq Require Import Permutation.
Local Open Scope N_scope.

Lemma top_ge : forall h r, In r h -> r_seq r <= top h.
Proof.
  intros h r. unfold top. assert (M : forall l a x, (x <= a \/ In x l) -> x <= fold_left N.max l a).
  { induction l as [|y l IH]; intros a x H; cbn [fold_left]; [destruct H as [H|[]]; exact H|].
    apply IH. destruct H as [H|[<-|H]]; [left; lia|left; lia|right; exact H]. }
  intros H. apply M. right. apply in_map. exact H.
Qed.

Section Proofs.
Variable hash : key -> N * N.
Notation wreach := (wreach hash).
Notation mreach := (mreach hash).
Notation w_step := (w_step hash).
Notation reach := (reach hash).
Notation step := (step hash).

(** * Lists *)
Lemma h_at_in : forall p l x, h_at p l = Some x -> In x l /\ h_ptr x = p.
Proof. intros p l x H. unfold h_at in H. apply find_some in H. cbn beta in H. split; [apply H|]. destruct H; lia. Qed.
Lemma h_set_in : forall p d m l x, In x (h_set p d m l) -> In x l /\ h_ptr x <> p \/ exists y, In y l /\ h_ptr y = p /\ x = mkHd (h_ptr y) (h_uid y) (h_hist y ++ m) d.
Proof.
  intros p d m l x H. unfold h_set in H. apply in_map_iff in H. destruct H as (y & E & Hy).
  destruct (h_ptr y =? p) eqn:Ep; [right; exists y; split; [exact Hy|split; [lia|congruence]]|left; subst; split; [exact Hy|lia]].
Qed.
Lemma h_set_ptrs : forall p d m l, map h_ptr (h_set p d m l) = map h_ptr l.
Proof. intros p d m l; induction l as [|x l IH]; [reflexivity|]. cbn [h_set map]. fold (h_set p d m l). rewrite IH. destruct (h_ptr x =? p); reflexivity. Qed.
Lemma h_set_at : forall p d m l q, h_at q (h_set p d m l) =
  match h_at q l with Some x => Some (if h_ptr x =? p then mkHd (h_ptr x) (h_uid x) (h_hist x ++ m) d else x) | None => None end.
Proof.
  intros p d m l q. unfold h_at, h_set. induction l as [|x l IH]; [reflexivity|]. cbn [map find].
  assert (E : h_ptr (if h_ptr x =? p then mkHd (h_ptr x) (h_uid x) (h_hist x ++ m) d else x) = h_ptr x) by (destruct (h_ptr x =? p); reflexivity).
  rewrite E. destruct (h_ptr x =? q); [reflexivity|exact IH].
Qed.
Lemma in_h_at : forall l x, NoDup (map h_ptr l) -> In x l -> h_at (h_ptr x) l = Some x.
Proof.
  intros l x; induction l as [|y l IH]; intros ND Hx; [destruct Hx|]. cbn [map] in ND. inversion ND as [|? ? N1 N2]; subst.
  unfold h_at; cbn [find]. destruct Hx as [->|Hx]; [rewrite N.eqb_refl; reflexivity|].
  destruct (h_ptr y =? h_ptr x) eqn:E; [|apply IH; assumption]. exfalso. apply N1. apply in_map_iff. exists x. split; [lia|exact Hx].
Qed.
Lemma without_in : forall {A} n (l : list A) x, In x (without n l) -> In x l.
Proof. intros A n; induction n as [|n IH]; intros [|y l] x H; cbn [without] in H; try destruct H; [right; exact H|left; assumption|right; apply IH; assumption]. Qed.
Lemma put_at_in : forall {A} n (y : A) l x, In x (put_at n y l) -> In x l \/ x = y.
Proof.
  intros A n; induction n as [|n IH]; intros y [|z l] x H; cbn [put_at] in H; try destruct H as [H|H]; try (destruct H; fail); subst; auto.
  - left; right; exact H.
  - left; left; reflexivity.
  - destruct (IH y l x H) as [H1|H1]; [left; right; exact H1|right; exact H1].
Qed.
Lemma without_perm : forall {A B} (f : A -> list B) n l x, nth_error l n = Some x -> Permutation (flat_map f l) (f x ++ flat_map f (without n l)).
Proof.
  intros A B f n; induction n as [|n IH]; intros [|y l] x H; cbn [nth_error] in H; try discriminate; cbn [without flat_map].
  - injection H as ->. reflexivity.
  - rewrite (IH l x H). rewrite !app_assoc. apply Permutation_app_tail, Permutation_app_comm.
Qed.
Lemma put_at_flat : forall {A B} (f : A -> list B) n l x y, nth_error l n = Some x -> f y = f x -> flat_map f (put_at n y l) = flat_map f l.
Proof.
  intros A B f n; induction n as [|n IH]; intros [|z l] x y H E; cbn [nth_error] in H; try discriminate; cbn [put_at flat_map].
  - injection H as ->. rewrite E. reflexivity.
  - rewrite (IH l x y H E). reflexivity.
Qed.

(** * Every request is answered once *)

Definition waiting (w : world) : list areq := flat_map e_reqs (w_q w).
Definition running (w : world) : list areq := flat_map (fun j => e_reqs (j_el j)) (w_run w).

Lemma q_push_perm : forall r q, Permutation (flat_map e_reqs (q_push r q)) (flat_map e_reqs q ++ [r]).
Proof.
  intros r q; induction q as [|e q IH]; cbn [q_push flat_map]; [reflexivity|]. destruct (e_ptr e =? a_ptr r); cbn [flat_map e_reqs].
  - rewrite <- !app_assoc. apply Permutation_app_head, Permutation_app_comm.
  - rewrite IH, app_assoc. reflexivity.
Qed.
Lemma tell_reqs : forall ok e, map an_req (tell ok e) = e_reqs e.
Proof. intros ok e. unfold tell. rewrite map_map. cbn [an_req]. apply map_id. Qed.

Lemma step_perm : forall c auto o w a w', o <> WStop -> w_step c auto o w = Some (a, w') ->
  Permutation (new_reqs o ++ waiting w ++ running w) (map an_req a ++ waiting w' ++ running w').
Proof.
  intros c auto o w a w' Hns E. unfold waiting, running. destruct o as [r| |n bad|n|p o|p|p|]; cbn [FlusherModel.w_step new_reqs] in *.
  - injection E as <- <-. cbn [w_q w_run map app]. rewrite q_push_perm. rewrite <- app_assoc.
    change (r :: flat_map e_reqs (w_q w) ++ ?y) with ([r] ++ flat_map e_reqs (w_q w) ++ y).
    rewrite app_assoc, (Permutation_app_comm [r]), <- app_assoc. reflexivity.
  - destruct (w_q w) as [|e q]; [discriminate|]. injection E as <- <-. cbn [w_q w_run map app flat_map]. rewrite flat_map_app. cbn [flat_map j_el]. rewrite app_nil_r.
    rewrite (Permutation_app_comm (e_reqs e)), <- app_assoc, (Permutation_app_comm (e_reqs e)). reflexivity.
  - destruct (nth_error (w_run w) n) as [[e [|] [|]]|] eqn:En; try discriminate.
    destruct (h_at (e_ptr e) (w_dbs w)) as [x|]; [|discriminate]. destruct (auto || ao_sync_only (e_opt e)).
    + destruct (DbModel.step hash c (OSync bad) (h_db x)) as [[y d']|]; [|discriminate]. destruct (good y); injection E as <- <-; cbn [w_q w_run map app].
      * rewrite (put_at_flat _ n _ _ _ En) by reflexivity. reflexivity.
      * rewrite tell_reqs, (without_perm _ n _ _ En). cbn [j_el]. rewrite !app_assoc. apply Permutation_app_tail, Permutation_app_comm.
    + injection E as <- <-. cbn [w_q w_run map app]. rewrite (put_at_flat _ n _ _ _ En) by reflexivity. reflexivity.
  - destruct (nth_error (w_run w) n) as [[e [|] [|]]|] eqn:En; try discriminate.
    + destruct (h_at (e_ptr e) (w_dbs w)) as [x|]; [|discriminate]. destruct (ao_sync_only (e_opt e)).
      * injection E as <- <-. cbn [w_q w_run app]. rewrite tell_reqs, (without_perm _ n _ _ En). cbn [j_el]. rewrite !app_assoc. apply Permutation_app_tail, Permutation_app_comm.
      * destruct (DbModel.step hash c _ (h_db x)) as [[y d']|]; [|discriminate]. injection E as <- <-. cbn [w_q w_run app].
        rewrite tell_reqs, (without_perm _ n _ _ En). cbn [j_el]. rewrite !app_assoc. apply Permutation_app_tail, Permutation_app_comm.
    + injection E as <- <-. cbn [w_q w_run app]. rewrite tell_reqs, (without_perm _ n _ _ En). cbn [j_el]. rewrite !app_assoc. apply Permutation_app_tail, Permutation_app_comm.
    + injection E as <- <-. cbn [w_q w_run app]. rewrite tell_reqs, (without_perm _ n _ _ En). cbn [j_el]. rewrite !app_assoc. apply Permutation_app_tail, Permutation_app_comm.
  - destruct (h_at p (w_dbs w)) as [x|]; [|discriminate]. destruct (DbModel.step hash c o (h_db x)) as [[y d']|]; [|discriminate]. injection E as <- <-. reflexivity.
  - destruct (h_at p (w_dbs w)); [discriminate|]. injection E as <- <-. reflexivity.
  - destruct (h_at p (w_dbs w)); [|discriminate]. destruct (existsb _ _); [discriminate|]. injection E as <- <-. reflexivity.
  - congruence.
Qed.

Lemma not_stop : forall c rs w o, wallowed c rs w o -> o <> WStop.
Proof. intros c rs w o A ->. exact A. Qed.
Lemma answered_perm : forall c auto rs an w, wreach c auto rs an w -> Permutation rs (map an_req an ++ waiting w ++ running w).
Proof.
  intros c auto rs an w R. induction R as [|rs an w o a w' R IH A E]; [reflexivity|].
  rewrite map_app, <- app_assoc. rewrite <- (step_perm c auto o w a w' (not_stop _ _ _ _ A) E). rewrite IH at 1. rewrite <- !app_assoc.
  apply Permutation_app_head. rewrite (Permutation_app_comm (new_reqs o)), <- app_assoc. reflexivity.
Qed.
Lemma ids_nodup : forall c auto rs an w, wreach c auto rs an w -> NoDup (map a_id rs).
Proof.
  intros c auto rs an w R. induction R as [|rs an w o a w' R IH A E]; [constructor|]. rewrite map_app.
  destruct o as [r| |n bad|n|p o|p|p|]; cbn [new_reqs map]; try (rewrite app_nil_r; exact IH).
  destruct A as [_ A]. clear - IH A. apply Permutation_NoDup with (l := a_id r :: map a_id rs); [apply Permutation_cons_append|]. constructor; assumption.
Qed.
Lemma answered_once : forall c auto rs an w, wreach c auto rs an w ->
  NoDup (map (fun a => a_id (an_req a)) an) /\ (forall a, In a an -> In (an_req a) rs) /\
  (w_q w = [] -> w_run w = [] -> forall r, In r rs -> exists ok, In (mkAn r ok) an).
Proof.
  intros c auto rs an w R. assert (P := answered_perm c auto rs an w R). assert (ND := ids_nodup c auto rs an w R). split; [|split].
  - apply (Permutation_map a_id) in P. rewrite P, map_app, map_map in ND. clear - ND.
    induction (map (fun a => a_id (an_req a)) an) as [|y l IH]; [constructor|]. cbn [app] in ND. inversion ND as [|? ? N1 N2]; subst.
    constructor; [intros H; apply N1; apply in_or_app; left; exact H|apply IH; exact N2].
  - intros a Ha. rewrite P. apply in_or_app; left. apply in_map. exact Ha.
  - intros Eq Er r Hr. rewrite P in Hr. unfold waiting, running in Hr. rewrite Eq, Er in Hr. cbn [flat_map app] in Hr. rewrite app_nil_r in Hr.
    apply in_map_iff in Hr. destruct Hr as ([r' ok] & E & Ha). cbn [an_req] in E. subst r'. exists ok. exact Ha.
Qed.

(** Somebody can always go on, until nothing is left. *)
Definition live (w : world) : Prop := forall j, In j (w_run w) -> j_found j = true -> h_at (e_ptr (j_el j)) (w_dbs w) <> None.

Lemma step_total : forall c d bad, exists y d', step c (OSync bad) d = Some (y, d').
Proof. intros c d bad. unfold DbModel.step. destruct (lm_sync bad (d_log d)) as [y g]. eauto. Qed.
Lemma flush_total : forall c d fo s, exists y d', step c (OFlush fo s) d = Some (y, d').
Proof. intros c d fo s. unfold DbModel.step. destruct (lm_flush fo s (d_log d)) as [y g]. destruct y as [[? ?]|?|]; eauto. Qed.

Lemma live_step : forall c auto o w a w', live w -> w_step c auto o w = Some (a, w') -> live w'.
Proof.
  intros c auto o w a w' L E j Hj Hf. destruct o as [r| |n bad|n|p o|p|p|]; cbn [FlusherModel.w_step] in E.
  - injection E as <- <-. apply L; assumption.
  - destruct (w_q w) as [|e q]; [discriminate|]. injection E as <- <-. cbn [w_run w_dbs] in *. apply in_app_or in Hj. destruct Hj as [Hj|[<-|[]]]; [apply L; assumption|].
    cbn [j_found j_el] in *. destruct (h_at (e_ptr e) (w_dbs w)); [discriminate|discriminate].
  - destruct (nth_error (w_run w) n) as [[e [|] [|]]|] eqn:En; try discriminate. apply nth_error_In in En.
    destruct (h_at (e_ptr e) (w_dbs w)) as [x|] eqn:Ex; [|discriminate].
    assert (K : forall d m, h_at (e_ptr (j_el j)) (h_set (e_ptr e) d m (w_dbs w)) = None -> h_at (e_ptr (j_el j)) (w_dbs w) = None).
    { intros d m. rewrite h_set_at. destruct (h_at (e_ptr (j_el j)) (w_dbs w)); [discriminate|reflexivity]. }
    destruct (auto || ao_sync_only (e_opt e)).
    + destruct (DbModel.step hash c (OSync bad) (h_db x)) as [[y d']|]; [|discriminate]. destruct (good y); injection E as <- <-; cbn [w_run w_dbs] in *; intros N; apply K in N.
      * apply put_at_in in Hj. destruct Hj as [Hj| ->]; [apply (L j Hj Hf N)|]. cbn [j_el] in N. congruence.
      * apply without_in in Hj. apply (L j Hj Hf N).
    + injection E as <- <-. cbn [w_run w_dbs] in *. apply put_at_in in Hj. destruct Hj as [Hj| ->]; [apply (L j Hj Hf)|]. cbn [j_el]. congruence.
  - destruct (nth_error (w_run w) n) as [[e [|] [|]]|] eqn:En; try discriminate.
    + destruct (h_at (e_ptr e) (w_dbs w)) as [x|] eqn:Ex; [|discriminate]. destruct (ao_sync_only (e_opt e)).
      * injection E as <- <-. cbn [w_run w_dbs] in *. apply without_in in Hj. apply (L j Hj Hf).
      * destruct (DbModel.step hash c _ (h_db x)) as [[y d']|]; [|discriminate]. injection E as <- <-. cbn [w_run w_dbs] in *. apply without_in in Hj.
        rewrite h_set_at. assert (Y := L j Hj Hf). destruct (h_at (e_ptr (j_el j)) (w_dbs w)); [discriminate|congruence].
    + injection E as <- <-. cbn [w_run w_dbs] in *. apply without_in in Hj. apply (L j Hj Hf).
    + injection E as <- <-. cbn [w_run w_dbs] in *. apply without_in in Hj. apply (L j Hj Hf).
  - destruct (h_at p (w_dbs w)) as [x|]; [|discriminate]. destruct (DbModel.step hash c o (h_db x)) as [[y d']|]; [|discriminate]. injection E as <- <-. cbn [w_run w_dbs] in *.
    rewrite h_set_at. assert (Y := L j Hj Hf). destruct (h_at (e_ptr (j_el j)) (w_dbs w)); [discriminate|congruence].
  - destruct (h_at p (w_dbs w)) eqn:Ep; [discriminate|]. injection E as <- <-. cbn [w_run w_dbs] in *. assert (Y := L j Hj Hf). unfold h_at in *.
    intros N. apply Y. clear - N. induction (w_dbs w) as [|z l IH]; [reflexivity|]. cbn [app find] in N. cbn [find]. destruct (h_ptr z =? e_ptr (j_el j)); [discriminate|apply IH; exact N].
  - destruct (h_at p (w_dbs w)); [|discriminate]. destruct (existsb _ _) eqn:Ex; [discriminate|]. injection E as <- <-. cbn [w_run w_dbs] in *.
    assert (Hne : e_ptr (j_el j) <> p).
    { intros <-. assert (existsb (fun j0 => j_found j0 && (e_ptr (j_el j0) =? e_ptr (j_el j))) (w_run w) = true); [|congruence].
      apply existsb_exists. exists j. split; [exact Hj|]. rewrite Hf, N.eqb_refl. reflexivity. }
    assert (Y := L j Hj Hf). unfold h_at in *. intros N. apply Y. clear - N Hne. induction (w_dbs w) as [|z l IH]; [reflexivity|]. cbn [filter] in N. cbn [find].
    destruct (h_ptr z =? e_ptr (j_el j)) eqn:Ez.
    + replace (h_ptr z =? p) with false in N by lia. cbn [negb find] in N. rewrite Ez in N. discriminate.
    + destruct (negb (h_ptr z =? p)); [cbn [find] in N; rewrite Ez in N|]; apply IH; exact N.
  - destruct (w_run w); [|discriminate]. injection E as <- <-. destruct Hj.
Qed.
Lemma live_reach : forall c auto rs an w, wreach c auto rs an w -> live w.
Proof. intros c auto rs an w R. induction R as [|rs an w o a w' R IH A E]; [intros j []|]. apply (live_step c auto o w a w' IH E). Qed.

Lemma drain : forall c auto w, live w -> exists an w', thread_run hash c auto an w w' /\ w_q w' = [] /\ w_run w' = [].
Proof.
  intros c auto. assert (M : forall n w, live w -> (4 * length (w_q w) + 2 * length (w_run w) + length (filter (fun j => negb (j_synced j)) (w_run w)) <= n)%nat ->
    exists an w', thread_run hash c auto an w w' /\ w_q w' = [] /\ w_run w' = []).
  { induction n as [|n IH]; intros w L Hn.
    - destruct (w_q w) eqn:Eq; [|cbn in Hn; lia]. destruct (w_run w) eqn:Er; [|cbn in Hn; lia]. exists [], w. split; [constructor|split; assumption].
    - destruct (w_run w) as [|[e f sy] js] eqn:Er.
      + destruct (w_q w) as [|e q] eqn:Eq; [exists [], w; split; [constructor|split; assumption]|].
        assert (E : w_step c auto WPop w = Some ([], mkW q ([] ++ [mkJb e (match h_at (e_ptr e) (w_dbs w) with Some _ => true | None => false end) false]) (w_dbs w) (w_uid w))).
        { cbn [FlusherModel.w_step]. rewrite Eq, Er. reflexivity. }
        destruct (IH _ (live_step _ _ _ _ _ _ L E)) as (an & w' & T & Q).
        { cbn [w_q w_run app length filter j_synced negb]. cbn [length] in Hn. lia. }
        exists ([] ++ an), w'. split; [|exact Q]. eapply thread_step; [left; reflexivity|exact E|exact T].
      + destruct f.
        * destruct (h_at (e_ptr e) (w_dbs w)) as [x|] eqn:Ex; [|exfalso; apply (L (mkJb e true sy)); [rewrite Er; left; reflexivity|reflexivity|exact Ex]].
          destruct sy.
          -- assert (E : exists a w1, w_step c auto (WFlush 0) w = Some (a, w1) /\ w_q w1 = w_q w /\ w_run w1 = js).
             { cbn [FlusherModel.w_step]. rewrite Er. cbn [nth_error without]. rewrite Ex. destruct (ao_sync_only (e_opt e)); [eexists; eexists; split; [reflexivity|split; reflexivity]|].
               destruct (flush_total c (h_db x) (ao_flush (e_opt e)) (e_seq e)) as (y & d' & ->). eexists; eexists; split; [reflexivity|split; reflexivity]. }
             destruct E as (a & w1 & E & Eq1 & Er1). destruct (IH w1 (live_step _ _ _ _ _ _ L E)) as (an & w' & T & Q).
             { rewrite Eq1, Er1. cbn [length filter j_synced negb] in Hn. lia. }
             exists (a ++ an), w'. split; [|exact Q]. eapply thread_step; [right; right; exists 0%nat; reflexivity|exact E|exact T].
          -- assert (E : exists a w1, w_step c auto (WSync 0 (fun _ => false)) w = Some (a, w1) /\ w_q w1 = w_q w /\ (w_run w1 = js \/ w_run w1 = mkJb e true true :: js)).
             { cbn [FlusherModel.w_step]. rewrite Er. cbn [nth_error without put_at]. rewrite Ex. destruct (auto || ao_sync_only (e_opt e)).
               - destruct (step_total c (h_db x) (fun _ => false)) as (y & d' & ->). destruct (good y); eexists; eexists; (split; [reflexivity|split; [reflexivity|]]); [right|left]; reflexivity.
               - eexists; eexists; split; [reflexivity|split; [reflexivity|right; reflexivity]]. }
             destruct E as (a & w1 & E & Eq1 & Er1). destruct (IH w1 (live_step _ _ _ _ _ _ L E)) as (an & w' & T & Q).
             { rewrite Eq1. cbn [length filter j_synced negb] in Hn. destruct Er1 as [->| ->]; cbn [length filter j_synced negb]; lia. }
             exists (a ++ an), w'. split; [|exact Q]. eapply thread_step; [right; left; exists 0%nat; reflexivity|exact E|exact T].
        * assert (E : w_step c auto (WFlush 0) w = Some (tell false e, mkW (w_q w) js (w_dbs w) (w_uid w))) by (cbn [FlusherModel.w_step]; rewrite Er; reflexivity).
          destruct (IH _ (live_step _ _ _ _ _ _ L E)) as (an & w' & T & Q).
          { cbn [w_q w_run]. cbn [length filter] in Hn. destruct (negb (j_synced (mkJb e false sy))); cbn [length] in Hn; lia. }
          exists (tell false e ++ an), w'. split; [|exact Q]. eapply thread_step; [right; right; exists 0%nat; reflexivity|exact E|exact T]. }
  intros w L. apply (M _ w L (le_n _)).
Qed.

(** * Merged requests *)

Lemma covers_refl : forall o s, covers o s o s.
Proof. intros o s. split; [reflexivity|left; reflexivity]. Qed.
Lemma covers_trans : forall o s o1 s1 o2 s2, covers o s o1 s1 -> covers o1 s1 o2 s2 -> covers o s o2 s2.
Proof.
  intros o s o1 s1 o2 s2 [-> H1] [-> H2]. split; [reflexivity|].
  destruct H1 as [->|[(A1 & A2 & A3)|(A1 & A2 & A3 & A4)]]; [exact H2| |].
  - destruct H2 as [<-|[(B1 & B2 & B3)|(B1 & _)]]; [right; left; auto|right; left; repeat split; try assumption; lia|congruence].
  - destruct H2 as [<-|[(B1 & B2 & B3)|(B1 & _)]]; [right; right; auto|right; right; auto|congruence].
Qed.

Definition el_ok (w : world) (e : elem) : Prop := exists x, h_at (e_ptr e) (w_dbs w) = Some x /\ forall r, In r (e_reqs e) ->
  covers (e_opt e) (e_seq e) (a_opt r) (a_seq r) /\ a_ptr r = e_ptr e /\ h_uid x = a_uid r.
Record MI (c : cfg) (w : world) : Prop := {
  mi_db : forall x, In x (w_dbs w) -> reach c (h_hist x) (h_db x);
  mi_nd : NoDup (map h_ptr (w_dbs w));
  mi_q : forall e, In e (w_q w) -> el_ok w e;
  mi_run : forall j, In j (w_run w) -> el_ok w (j_el j) /\ j_found j = true
}.

Lemma el_ok_ext : forall w w' e, (forall x, h_at (e_ptr e) (w_dbs w) = Some x -> exists x', h_at (e_ptr e) (w_dbs w') = Some x' /\ h_uid x' = h_uid x) ->
  el_ok w e -> el_ok w' e.
Proof.
  intros w w' e H (x & Ex & K). destruct (H x Ex) as (x' & Ex' & Eu'). exists x'. split; [exact Ex'|]. intros r Hr. rewrite Eu'. apply K. exact Hr.
Qed.
Lemma set_ext : forall p d m l q x, h_at q l = Some x -> exists x', h_at q (h_set p d m l) = Some x' /\ h_uid x' = h_uid x.
Proof. intros p d m l q x H. rewrite h_set_at, H. eexists. split; [reflexivity|]. destruct (h_ptr x =? p); reflexivity. Qed.

Lemma q_push_in : forall r q e, In e (q_push r q) -> In e q \/ (e = mkEl (a_ptr r) (a_opt r) (a_seq r) [r]) \/
  exists e0, In e0 q /\ e_ptr e0 = a_ptr r /\ e = mkEl (e_ptr e0) (a_opt r) (a_seq r) (e_reqs e0 ++ [r]).
Proof.
  intros r q; induction q as [|e0 q IH]; intros e H; cbn [q_push] in H.
  - destruct H as [<-|[]]. right; left; reflexivity.
  - destruct (e_ptr e0 =? a_ptr r) eqn:E.
    + destruct H as [<-|H]; [right; right; exists e0; split; [left; reflexivity|split; [lia|reflexivity]]|left; right; exact H].
    + destruct H as [<-|H]; [left; left; reflexivity|]. destruct (IH e H) as [H1|[H1|(e1 & H1 & H2)]]; [left; right; exact H1|right; left; exact H1|].
      right; right. exists e1. split; [right; exact H1|exact H2].
Qed.

(** Setting the state of one open database keeps [MI]. *)
Lemma mi_set : forall c w p x d m q run, cfg_ok c -> MI c w -> h_at p (w_dbs w) = Some x -> reach c (h_hist x ++ m) d ->
  (forall e, In e q -> el_ok w e) -> (forall j, In j run -> el_ok w (j_el j) /\ j_found j = true) ->
  MI c (mkW q run (h_set p d m (w_dbs w)) (w_uid w)).
Proof.
  intros c w p x d m q run Cok [A B _ _] Hx Hr Hq Hrun. constructor; cbn [w_dbs w_q w_run].
  - intros y Hy. apply h_set_in in Hy. destruct Hy as [[Hy _]|(z & Hz & Ez & ->)]; [apply A; exact Hy|]. cbn [h_hist h_db].
    assert (Q := in_h_at _ _ B Hz). rewrite Ez, Hx in Q. injection Q as <-. exact Hr.
  - rewrite h_set_ptrs. exact B.
  - intros e He. apply (el_ok_ext w); [|apply Hq; exact He]. intros y Hy. apply set_ext. exact Hy.
  - intros j Hj. destruct (Hrun j Hj) as [H1 H2]. split; [|exact H2]. apply (el_ok_ext w); [|exact H1]. intros y Hy. apply set_ext. exact Hy.
Qed.
Lemma mi_same : forall c w q run, MI c w -> (forall e, In e q -> el_ok w e) -> (forall j, In j run -> el_ok w (j_el j) /\ j_found j = true) ->
  MI c (mkW q run (w_dbs w) (w_uid w)).
Proof. intros c w q run [A B _ _] Hq Hr. constructor; cbn [w_dbs w_q w_run]; [exact A|exact B|exact Hq|exact Hr]. Qed.

Lemma sync_acked : forall c bad d y d', step c (OSync bad) d = Some (y, d') -> acked y = [].
Proof. intros c bad d y d' E. unfold DbModel.step in E. destruct (lm_sync bad (d_log d)) as [z g]. injection E as <- _. destruct z; reflexivity. Qed.
Lemma flush_acked : forall c fo s d y d', step c (OFlush fo s) d = Some (y, d') -> acked y = [].
Proof. intros c fo s d y d' E. unfold DbModel.step in E. destruct (lm_flush fo s (d_log d)) as [z g]. destruct z as [[? ?]|?|]; injection E as <- _; reflexivity. Qed.

Lemma mi_step : forall c auto rs o w a w', cfg_ok c -> MI c w -> wallowed c rs w o -> merges_well w o -> w_step c auto o w = Some (a, w') -> MI c w'.
Proof.
  intros c auto rs o w a w' Cok I' A G E. assert (I0 := I'). destruct I' as [Id In' Iq Ir]. destruct o as [r| |n bad|n|p o|p|p|]; cbn [FlusherModel.w_step] in E.
  - injection E as <- <-. apply (mi_same c w _ _ I0); [|exact Ir]. intros e He. destruct A as [(x & Ex & Eu) _]. apply q_push_in in He. destruct He as [He|[->|(e0 & He0 & Ep & ->)]].
    + apply Iq. exact He.
    + exists x. split; [exact Ex|]. intros r' [<-|[]]. cbn [e_opt e_seq e_ptr]. split; [apply covers_refl|]. split; [reflexivity|exact Eu].
    + destruct (Iq e0 He0) as (x0 & Ex0 & K). exists x0. cbn [e_opt e_seq e_ptr e_reqs]. split; [exact Ex0|]. intros r' Hr'. apply in_app_or in Hr'. destruct Hr' as [Hr'|[<-|[]]].
      * destruct (K r' Hr') as (K1 & K2 & K3). split; [|split; [exact K2|exact K3]]. apply covers_trans with (2 := K1). apply (G e0 He0 Ep).
      * split; [apply covers_refl|]. split; [auto|]. rewrite Ep, Ex in Ex0. congruence.
  - destruct (w_q w) as [|e q] eqn:Eq; [discriminate|]. injection E as <- <-. apply (mi_same c w _ _ I0); [intros e' He'; apply Iq; right; exact He'|].
    intros j Hj. apply in_app_or in Hj. destruct Hj as [Hj|[<-|[]]]; [apply Ir; exact Hj|]. cbn [j_el j_found].
    assert (K := Iq e (or_introl eq_refl)). split; [exact K|]. destruct K as (x & Ex & _). rewrite Ex. reflexivity.
  - destruct (nth_error (w_run w) n) as [[e [|] [|]]|] eqn:En; try discriminate. apply nth_error_In in En.
    destruct (h_at (e_ptr e) (w_dbs w)) as [x|] eqn:Ex; [|discriminate].
    assert (P : forall j, In j (put_at n (mkJb e true true) (w_run w)) -> el_ok w (j_el j) /\ j_found j = true).
    { intros j Hj. apply put_at_in in Hj. destruct Hj as [Hj| ->]; [apply Ir; exact Hj|]. split; [apply (proj1 (Ir _ En))|reflexivity]. }
    assert (P2 : forall j, In j (without n (w_run w)) -> el_ok w (j_el j) /\ j_found j = true) by (intros j Hj; apply without_in in Hj; apply Ir; exact Hj).
    destruct (h_at_in _ _ _ Ex) as [Hx _].
    destruct (auto || ao_sync_only (e_opt e)).
    + destruct (DbModel.step hash c (OSync bad) (h_db x)) as [[y d']|] eqn:Es; [|discriminate].
      assert (R' := reach_step hash c _ _ (OSync bad) _ _ (Id x Hx) I Es). rewrite (sync_acked _ _ _ _ _ Es) in R'.
      destruct (good y); injection E as <- <-; apply (mi_set c w _ x _ _ _ _ Cok I0 Ex R'); assumption.
    + injection E as <- <-. apply (mi_same c w _ _ I0); assumption.
  - assert (P2 : forall j, In j (without n (w_run w)) -> el_ok w (j_el j) /\ j_found j = true) by (intros j Hj; apply without_in in Hj; apply Ir; exact Hj).
    destruct (nth_error (w_run w) n) as [[e [|] [|]]|] eqn:En; try discriminate.
    + destruct (h_at (e_ptr e) (w_dbs w)) as [x|] eqn:Ex; [|discriminate]. destruct (ao_sync_only (e_opt e)) eqn:Eo.
      * injection E as <- <-. apply (mi_same c w _ _ I0); assumption.
      * destruct (DbModel.step hash c _ (h_db x)) as [[y d']|] eqn:Es; [|discriminate]. injection E as <- <-. destruct (h_at_in _ _ _ Ex) as [Hx _].
        assert (R' := reach_step hash c _ _ _ _ _ (Id x Hx) (A e x En Ex Eo) Es). rewrite (flush_acked _ _ _ _ _ _ Es) in R'.
        apply (mi_set c w _ x _ _ _ _ Cok I0 Ex R'); assumption.
    + injection E as <- <-. apply (mi_same c w _ _ I0); assumption.
    + injection E as <- <-. apply (mi_same c w _ _ I0); assumption.
  - destruct (h_at p (w_dbs w)) as [x|] eqn:Ex; [|discriminate]. destruct (DbModel.step hash c o (h_db x)) as [[y d']|] eqn:Es; [|discriminate]. injection E as <- <-.
    destruct (h_at_in _ _ _ Ex) as [Hx _]. apply (mi_set c w _ x _ _ _ _ Cok I0 Ex); [|exact Iq|exact Ir].
    apply (reach_step hash c _ _ _ _ _ (Id x Hx) (A x Ex) Es).
  - destruct (h_at p (w_dbs w)) eqn:Ep; [discriminate|]. injection E as <- <-.
    assert (K : forall q x, h_at q (w_dbs w) = Some x -> h_at q (w_dbs w ++ [mkHd p (w_uid w) [] (db_new c)]) = Some x).
    { clear. intros q x. unfold h_at. induction (w_dbs w) as [|z l IH]; [discriminate|]. cbn [app find]. destruct (h_ptr z =? q); [auto|exact IH]. }
    constructor; cbn [w_dbs w_q w_run].
    + intros x Hx. apply in_app_or in Hx. destruct Hx as [Hx|[<-|[]]]; [apply Id; exact Hx|]. constructor.
    + rewrite map_app. apply (Permutation_NoDup (l := p :: map h_ptr (w_dbs w))); [apply Permutation_cons_append|]. constructor; [|exact In'].
      intros H. apply in_map_iff in H. destruct H as (z & Ez & Hz). assert (Y := in_h_at _ _ In' Hz). rewrite Ez in Y. congruence.
    + intros e He. apply (el_ok_ext w); [|apply Iq; exact He]. intros x Hx. exists x. split; [apply K; exact Hx|reflexivity].
    + intros j Hj. destruct (Ir j Hj) as [H1 H2]. split; [|exact H2]. apply (el_ok_ext w); [|exact H1]. intros x Hx. exists x. split; [apply K; exact Hx|reflexivity].
  - destruct (h_at p (w_dbs w)) eqn:Ep; [|discriminate]. destruct (existsb _ _) eqn:Ex; [discriminate|]. injection E as <- <-.
    assert (K : forall q x, q <> p -> h_at q (w_dbs w) = Some x -> h_at q (filter (fun z => negb (h_ptr z =? p)) (w_dbs w)) = Some x).
    { clear. intros q x Hq. unfold h_at. induction (w_dbs w) as [|z l IH]; [discriminate|]. cbn [filter find]. destruct (h_ptr z =? q) eqn:Ez.
      - intros H. replace (h_ptr z =? p) with false by lia. cbn [negb find]. rewrite Ez. exact H.
      - intros H. destruct (negb (h_ptr z =? p)); [cbn [find]; rewrite Ez|]; apply IH; exact H. }
    constructor; cbn [w_dbs w_q w_run].
    + intros x Hx. apply filter_In in Hx. apply Id. apply Hx.
    + clear - In'. induction (w_dbs w) as [|z l IH]; [constructor|]. cbn [map] in In'. inversion In' as [|? ? N1 N2]; subst. cbn [filter].
      destruct (negb (h_ptr z =? p)); [|apply IH; exact N2]. cbn [map]. constructor; [|apply IH; exact N2]. intros H. apply N1. apply in_map_iff in H.
      destruct H as (y & Ey & Hy). apply filter_In in Hy. apply in_map_iff. exists y. split; [exact Ey|apply Hy].
    + intros e He. apply (el_ok_ext w); [|apply Iq; exact He]. intros x Hx. exists x. split; [apply K; [apply (G e He)|exact Hx]|reflexivity].
    + intros j Hj. destruct (Ir j Hj) as [H1 H2]. split; [|exact H2]. apply (el_ok_ext w); [|exact H1]. intros x Hx. exists x. split; [|reflexivity]. apply K; [|exact Hx].
      intros <-. assert (existsb (fun j0 => j_found j0 && (e_ptr (j_el j0) =? e_ptr (j_el j))) (w_run w) = true); [|congruence].
      apply existsb_exists. exists j. split; [exact Hj|]. rewrite H2, N.eqb_refl. reflexivity.
  - destruct A.
Qed.
Lemma mreach_inv : forall c auto rs an w, cfg_ok c -> mreach c auto rs an w -> MI c w.
Proof.
  intros c auto rs an w Cok R. induction R as [|rs an w o a w' R IH A G E]; [constructor; [intros x []|constructor|intros e []|intros j []]|].
  apply (mi_step c auto rs o w a w' Cok IH A G E).
Qed.
Lemma mreach_wreach : forall c auto rs an w, mreach c auto rs an w -> wreach c auto rs an w.
Proof. intros c auto rs an w R. induction R as [|rs an w o a w' R IH A G E]; [constructor|econstructor; eassumption]. Qed.

Lemma merged_flushed : forall c auto rs an w o a w' r, cfg_ok c -> mreach c auto rs an w -> wallowed c rs w o -> w_step c auto o w = Some (a, w') ->
  In (mkAn r true) a -> ao_sync_only (a_opt r) = false ->
  exists x x', In x (w_dbs w) /\ In x' (w_dbs w') /\ h_uid x = a_uid r /\ h_uid x' = a_uid r /\ h_hist x' = h_hist x /\ asked r x x'.
Proof.
  intros c auto rs an w o a w' r Cok R A E Ha Hs. destruct (mreach_inv _ _ _ _ _ Cok R) as [Id In' Iq Ir].
  destruct o as [r0| |n bad|n|p o|p|p|]; cbn [FlusherModel.w_step] in E.
  - injection E as <- <-. destruct Ha.
  - destruct (w_q w); [discriminate|]. injection E as <- <-. destruct Ha.
  - destruct (nth_error (w_run w) n) as [[e [|] [|]]|] eqn:En; try discriminate. destruct (h_at (e_ptr e) (w_dbs w)) as [x|] eqn:Ex; [|discriminate].
    destruct (auto || ao_sync_only (e_opt e)).
    + destruct (DbModel.step hash c (OSync bad) (h_db x)) as [[y d']|] eqn:Es; [|discriminate]. destruct (good y); injection E as <- <-; [destruct Ha|].
      unfold tell in Ha. apply in_map_iff in Ha. destruct Ha as (? & Y & _). discriminate.
    + injection E as <- <-. destruct Ha.
  - assert (F : forall e, In (mkAn r true) (tell false e) -> False) by (intros e H; unfold tell in H; apply in_map_iff in H; destruct H as (? & Y & _); discriminate).
    destruct (nth_error (w_run w) n) as [[e [|] [|]]|] eqn:En; try discriminate; [|injection E as <- <-; destruct (F _ Ha)|injection E as <- <-; destruct (F _ Ha)].
    assert (Hj := nth_error_In _ _ En). destruct (Ir _ Hj) as [(x & Ex & K) _]. cbn [j_el] in Ex, K. rewrite Ex in E.
    destruct (ao_sync_only (e_opt e)) eqn:Eo.
    + injection E as <- <-. exfalso. unfold tell in Ha. apply in_map_iff in Ha. destruct Ha as (r' & Y & Hr'). injection Y as ->. destruct (K r Hr') as ((E1 & _) & _). congruence.
    + destruct (DbModel.step hash c _ (h_db x)) as [[y d']|] eqn:Es; [|discriminate]. injection E as <- <-.
      unfold tell in Ha. apply in_map_iff in Ha. destruct Ha as (r' & Y & Hr'). injection Y as -> Hg. destruct (K r Hr') as ((E1 & Hc) & E2 & Eu).
      destruct (h_at_in _ _ _ Ex) as [Hx Hp].
      destruct (flush_outcome hash c _ _ _ _ _ _ Cok (Id x Hx) (A e x En Ex Eo) Es) as [[-> (F1 & s & Hle & Ht & Ht' & Hfs & _ & S1 & S2)]|[[er ->] _]]; [|discriminate].
      exists x, (mkHd (h_ptr x) (h_uid x) (h_hist x ++ []) d'). split; [exact Hx|]. split.
      { cbn [w_dbs]. unfold h_set. apply in_map_iff. exists x. split; [|exact Hx]. replace (h_ptr x =? e_ptr e) with true by lia. reflexivity. }
      cbn [h_uid h_hist]. split; [exact Eu|]. split; [exact Eu|]. rewrite app_nil_r. split; [reflexivity|].
      unfold asked. cbn [h_hist h_db]. rewrite <- E1. rewrite Ht'. split.
      * intros Hn k Hk Hks. apply filter_In. split; [exact Hk|]. destruct Hc as [Hc|[(C1 & C2 & C3)|(C1 & C2 & C3 & C4)]].
        -- rewrite (S1 ltac:(congruence)). lia.
        -- rewrite (S1 C1). lia.
        -- assert (Q := S2 C1 C4). rewrite C3 in Q. subst s. assert (T := top_ge _ _ Hk). lia.
      * intros Hn Hlim. destruct Hc as [Hc|[(C1 & C2 & C3)|(C1 & C2 & C3 & C4)]]; [|congruence|congruence].
        assert (Q := S2 ltac:(congruence) Hlim). destruct (o_beyond (ao_flush (e_opt e))).
        -- subst s. intros k Hk. apply filter_In. split; [exact Hk|]. assert (T := top_ge _ _ Hk). lia.
        -- intros z Hz k Hk Hkz. apply filter_In. split; [exact Hk|]. rewrite (Q z Hz). lia.
  - destruct (h_at p (w_dbs w)); [|discriminate]. destruct (DbModel.step hash c o _) as [[y d']|]; [|discriminate]. injection E as <- <-. destruct Ha.
  - destruct (h_at p (w_dbs w)); [discriminate|]. injection E as <- <-. destruct Ha.
  - destruct (h_at p (w_dbs w)); [|discriminate]. destruct (existsb _ _); [discriminate|]. injection E as <- <-. destruct Ha.
  - destruct A.
Qed.
End Proofs.
