(** Asynchronous flush requests: merged requests, answers. *)
From Verif Require Import Base KeyModel LogFormatModel BloomModel MemTableModel LogMgrModel DbModel DbProofs DbProps
  FlusherModel FlusherSpec FlusherProofs.
From Coq Require Import Permutation.
Local Open Scope N_scope.

(** * C35: a request that is answered with success has been carried out, when the requests that
    joined it cover it and its database was not closed before. *)
Theorem C35_merged_partial : forall hash c auto rs an w o a w' r, cfg_ok c -> mreach hash c auto rs an w -> wallowed c rs w o ->
  w_step hash c auto o w = Some (a, w') -> In (mkAn r true) a -> ao_sync_only (a_opt r) = false ->
  exists x x', In x (w_dbs w) /\ In x' (w_dbs w') /\ h_uid x = a_uid r /\ h_uid x' = a_uid r /\ h_hist x' = h_hist x /\ asked r x x'.
Proof. exact merged_flushed. Qed.
Print Assumptions C35_merged_partial.

(** * C59: every request is answered at most once, only requests are answered, and when nothing
    waits or runs all are answered; the threads alone can always get there. *)
Theorem C59_answered_once : forall hash c auto rs an w, wreach hash c auto rs an w ->
  NoDup (map (fun a => a_id (an_req a)) an) /\ (forall a, In a an -> In (an_req a) rs) /\
  (w_q w = [] -> w_run w = [] -> forall r, In r rs -> exists ok, In (mkAn r ok) an).
Proof. exact answered_once. Qed.
Print Assumptions C59_answered_once.
Theorem C59_all_finish : forall hash c auto rs an w, wreach hash c auto rs an w ->
  exists b w', thread_run hash c auto b w w' /\ w_q w' = [] /\ w_run w' = [].
Proof. intros hash c auto rs an w R. apply drain. apply (live_reach hash c auto rs an w R). Qed.
Print Assumptions C59_all_finish.

(** ** Runs *)
Definition wallowed_b (c : cfg) (rs : list areq) (w : world) (o : wop) : bool :=
  match o with
  | WPush r => match h_at (a_ptr r) (w_dbs w) with Some x => h_uid x =? a_uid r | None => false end &&
               negb (existsb (fun q => a_id q =? a_id r) rs)
  | WUser p o' => match h_at p (w_dbs w) with Some x => allowed_b c (h_hist x) (h_db x) o' | None => true end
  | WFlush n =>
      match nth_error (w_run w) n with
      | Some (mkJb e true true) =>
          ao_sync_only (e_opt e) ||
          match h_at (e_ptr e) (w_dbs w) with Some x => allowed_b c (h_hist x) (h_db x) (OFlush (ao_flush (e_opt e)) (e_seq e)) | None => true end
      | _ => true
      end
  | WStop => false
  | _ => true
  end.
Lemma wallowed_b_ok : forall c rs w o, wallowed_b c rs w o = true -> wallowed c rs w o.
Proof.
  intros c rs w [r| |n bad|n|p o|p|p|] H; cbn [wallowed_b wallowed] in *; try exact I; [| | |discriminate].
  - apply Bool.andb_true_iff in H. destruct H as [H1 H2]. destruct (h_at (a_ptr r) (w_dbs w)) as [x|] eqn:E; [|discriminate].
    split; [exists x; split; [reflexivity|lia]|]. intros Hi. apply Bool.negb_true_iff in H2. apply in_map_iff in Hi. destruct Hi as (q & Eq & Hq).
    assert (existsb (fun q => a_id q =? a_id r) rs = true); [|congruence]. apply existsb_exists. exists q. split; [exact Hq|lia].
  - intros e x En Ex Eo. rewrite En, Ex, Eo in H. apply allowed_b_ok. exact H.
  - intros x Ex. rewrite Ex in H. apply allowed_b_ok. exact H.
Qed.
Definition same_opt (o o0 : aopt) : bool :=
  Bool.eqb (ao_sync_only o) (ao_sync_only o0) && Bool.eqb (o_beyond (ao_flush o)) (o_beyond (ao_flush o0)) &&
  Bool.eqb (o_purge (ao_flush o)) (o_purge (ao_flush o0)) && (o_limit (ao_flush o) =? o_limit (ao_flush o0)).
Definition covers_b (o : aopt) (s : N) (o0 : aopt) (s0 : N) : bool :=
  same_opt o o0 && ((s =? s0) || (negb (s =? NIL) && negb (s0 =? NIL) && (s0 <=? s)) ||
                    ((s =? NIL) && negb (s0 =? NIL) && o_beyond (ao_flush o) && (o_limit (ao_flush o) =? 0))).
Lemma covers_b_ok : forall o s o0 s0, covers_b o s o0 s0 = true -> covers o s o0 s0.
Proof.
  intros [sy [b pu li]] s [sy0 [b0 pu0 li0]] s0 H. unfold covers_b, same_opt in H. cbn [ao_sync_only ao_flush o_beyond o_purge o_limit] in H.
  repeat rewrite Bool.andb_true_iff in H. repeat rewrite Bool.orb_true_iff in H. repeat rewrite Bool.andb_true_iff in H. repeat rewrite Bool.negb_true_iff in H.
  destruct H as ((((H1 & H2) & H3) & H4) & H5). apply Bool.eqb_prop in H1, H2, H3. assert (li = li0) by lia. subst. split; [reflexivity|]. cbn [ao_flush o_beyond o_limit].
  destruct H5 as [[H5|((A1 & A2) & A3)]|(((A1 & A2) & A3) & A4)]; [left; lia|right; left; lia|right; right]. split; [lia|]. split; [lia|]. split; [exact A3|lia].
Qed.
Definition merges_b (w : world) (o : wop) : bool :=
  match o with
  | WPush r => forallb (fun e => negb (e_ptr e =? a_ptr r) || covers_b (a_opt r) (a_seq r) (e_opt e) (e_seq e)) (w_q w)
  | WClose p => forallb (fun e => negb (e_ptr e =? p)) (w_q w)
  | _ => true
  end.
Lemma merges_b_ok : forall w o, merges_b w o = true -> merges_well w o.
Proof.
  intros w [r| |n bad|n|p o|p|p|] H; cbn [merges_b merges_well] in *; try exact I; rewrite forallb_forall in H; intros e He; specialize (H e He).
  - intros Ep. apply Bool.orb_true_iff in H. destruct H as [H|H]; [apply Bool.negb_true_iff in H; lia|]. apply covers_b_ok. exact H.
  - apply Bool.negb_true_iff in H. lia.
Qed.

Fixpoint wrun (well : bool) (c : cfg) (auto : bool) (os : list wop) (rs : list areq) (an : list answer) (w : world) : option (list areq * list answer * world) :=
  match os with
  | [] => Some (rs, an, w)
  | o :: t => if wallowed_b c rs w o && (negb well || merges_b w o)
              then match w_step ex_hash c auto o w with Some (a, w') => wrun well c auto t (rs ++ new_reqs o) (an ++ a) w' | None => None end
              else None
  end.
Lemma wrun_reach : forall c auto os rs an w rs' an' w', wreach ex_hash c auto rs an w -> wrun false c auto os rs an w = Some (rs', an', w') ->
  wreach ex_hash c auto rs' an' w'.
Proof.
  intros c auto os; induction os as [|o t IH]; intros rs an w rs' an' w' R E; cbn [wrun] in E; [injection E as <- <- <-; exact R|].
  destruct (wallowed_b c rs w o && _) eqn:A; [|discriminate]. apply Bool.andb_true_iff in A. destruct A as [A _].
  destruct (w_step ex_hash c auto o w) as [[a w1]|] eqn:Es; [|discriminate]. apply IH with (2 := E). econstructor; [exact R|apply wallowed_b_ok; exact A|exact Es].
Qed.
Lemma wrun_mreach : forall c auto os rs an w rs' an' w', mreach ex_hash c auto rs an w -> wrun true c auto os rs an w = Some (rs', an', w') ->
  mreach ex_hash c auto rs' an' w'.
Proof.
  intros c auto os; induction os as [|o t IH]; intros rs an w rs' an' w' R E; cbn [wrun] in E; [injection E as <- <- <-; exact R|].
  destruct (wallowed_b c rs w o && _) eqn:A; [|discriminate]. apply Bool.andb_true_iff in A. destruct A as [A B]. cbn [negb orb] in B.
  destruct (w_step ex_hash c auto o w) as [[a w1]|] eqn:Es; [|discriminate]. apply IH with (2 := E).
  econstructor; [exact R|apply wallowed_b_ok; exact A|apply merges_b_ok; exact B|exact Es].
Qed.

Definition opt_flush : aopt := mkAO false (mkFO false false 0).
Definition opt_sync : aopt := mkAO true (mkFO false false 0).
Definition no_fail : N -> bool := fun _ => false.
(** Two databases; two requests of the first one are merged, a third one joins after the element
    was popped. *)
Definition ex_w_ops : list wop :=
  [WOpen 100; WOpen 200; WUser 100 (ex_put 1 10); WUser 100 (ex_put 2 20); WUser 200 (ex_put 7 70); WUser 100 (ex_put 1 11); WUser 100 ex_sync;
   WPush (mkAR 1 100 0 opt_flush 1 true); WPush (mkAR 2 200 1 opt_sync NIL true); WPush (mkAR 3 100 0 opt_flush 2 false);
   WPop; WPush (mkAR 4 100 0 opt_flush 3 true); WPop; WSync 1 no_fail; WSync 0 no_fail].
Example C35_case : exists rs an w a w' r3, mreach ex_hash ex_c false rs an w /\ cfg_ok ex_c /\ wallowed ex_c rs w (WFlush 0) /\
  w_step ex_hash ex_c false (WFlush 0) w = Some (a, w') /\ map (fun x => (a_id (an_req x), an_ok x)) a = [(1, true); (3, true)] /\
  In (mkAn r3 true) a /\ a_id r3 = 3 /\ map (fun x => (h_uid x, map r_seq (d_tab (h_db x)))) (w_dbs w') = [(0, [1; 2]); (1, [])].
Proof.
  destruct (wrun true ex_c false ex_w_ops [] [] w_new) as [[[rs an] w]|] eqn:E; [|vm_compute in E; discriminate].
  exists rs, an, w. destruct (w_step ex_hash ex_c false (WFlush 0) w) as [[a w']|] eqn:E2; [|vm_compute in E; injection E as <- <- <-; vm_compute in E2; discriminate].
  exists a, w', (mkAR 3 100 0 opt_flush 2 false). split; [apply (wrun_mreach _ _ _ _ _ _ _ _ _ (mreach_new _ ex_c false) E)|]. split; [apply ex_c_ok|].
  vm_compute in E. injection E as <- <- <-. split; [apply wallowed_b_ok; vm_compute; reflexivity|]. split; [reflexivity|].
  vm_compute in E2. injection E2 as <- <-. vm_compute. repeat split. right; left; reflexivity.
Qed.
Example C59_case : exists rs an w, wreach ex_hash ex_c false rs an w /\ map a_id rs = [1; 2; 3; 4] /\ w_q w = [] /\ w_run w = [] /\
  map (fun x => (a_id (an_req x), an_ok x)) an = [(1, true); (3, true); (2, true); (4, true)].
Proof.
  destruct (wrun false ex_c false (ex_w_ops ++ [WFlush 0; WFlush 0; WPop; WSync 0 no_fail; WFlush 0]) [] [] w_new) as [[[rs an] w]|] eqn:E; [|vm_compute in E; discriminate].
  exists rs, an, w. split; [apply (wrun_reach _ _ _ _ _ _ _ _ _ (wreach_new _ ex_c false) E)|].
  vm_compute in E. injection E as <- <- <-. vm_compute. repeat split.
Qed.

(** The full statement of C35 fails.  A later request for a smaller number: the earlier one is
    told success, its records are not flushed. *)
Definition the_req (i : N) (rs : list areq) : option areq := find (fun r => a_id r =? i) rs.
Theorem C35_smaller_number_refuted : exists rs an w r x, wreach ex_hash ex_c false rs an w /\ cfg_ok ex_c /\
  In (mkAn r true) an /\ ao_sync_only (a_opt r) = false /\ a_seq r = 3 /\ w_dbs w = [x] /\ h_uid x = a_uid r /\
  map r_seq (h_hist x) = [1; 2; 3] /\ map r_seq (d_tab (h_db x)) = [1].
Proof.
  destruct (wrun false ex_c false [WOpen 100; WUser 100 (ex_put 1 10); WUser 100 (ex_put 2 20); WUser 100 (ex_put 3 30); WUser 100 ex_sync;
      WPush (mkAR 1 100 0 opt_flush 3 true); WPush (mkAR 2 100 0 opt_flush 1 true); WPop; WSync 0 no_fail; WFlush 0] [] [] w_new)
    as [[[rs an] w]|] eqn:E; [|vm_compute in E; discriminate].
  assert (R := wrun_reach _ _ _ _ _ _ _ _ _ (wreach_new _ ex_c false) E). vm_compute in E. injection E as <- <- <-.
  eexists; eexists; eexists; exists (mkAR 1 100 0 opt_flush 3 true); eexists. split; [exact R|]. split; [apply ex_c_ok|].
  split; [left; reflexivity|]. split; [reflexivity|]. split; [reflexivity|]. split; [reflexivity|]. vm_compute. repeat split.
Qed.
Print Assumptions C35_smaller_number_refuted.
(** A later request to sync only: the flush is not done at all. *)
Theorem C35_sync_only_refuted : exists rs an w r x, wreach ex_hash ex_c false rs an w /\ cfg_ok ex_c /\
  In (mkAn r true) an /\ ao_sync_only (a_opt r) = false /\ a_seq r = NIL /\ w_dbs w = [x] /\ h_uid x = a_uid r /\
  lm_synced_seq (d_log (h_db x)) = Ok 3 /\ map r_seq (h_hist x) = [1; 2; 3] /\ d_tab (h_db x) = [].
Proof.
  destruct (wrun false ex_c false [WOpen 100; WUser 100 (ex_put 1 10); WUser 100 (ex_put 2 20); WUser 100 (ex_put 3 30); WUser 100 ex_sync;
      WPush (mkAR 1 100 0 opt_flush NIL true); WPush (mkAR 2 100 0 opt_sync NIL true); WPop; WSync 0 no_fail; WFlush 0] [] [] w_new)
    as [[[rs an] w]|] eqn:E; [|vm_compute in E; discriminate].
  assert (R := wrun_reach _ _ _ _ _ _ _ _ _ (wreach_new _ ex_c false) E). vm_compute in E. injection E as <- <- <-.
  eexists; eexists; eexists; exists (mkAR 1 100 0 opt_flush NIL true); eexists. split; [exact R|]. split; [apply ex_c_ok|].
  split; [left; reflexivity|]. split; [reflexivity|]. split; [reflexivity|]. split; [reflexivity|]. vm_compute. repeat split.
Qed.
Print Assumptions C35_sync_only_refuted.
(** The other way round: a request to sync is told success by a later flush, nothing is synced. *)
Theorem C35_sync_lost_refuted : exists rs an w r x, wreach ex_hash ex_c false rs an w /\ cfg_ok ex_c /\
  In (mkAn r true) an /\ ao_sync_only (a_opt r) = true /\ w_dbs w = [x] /\ h_uid x = a_uid r /\
  map r_seq (h_hist x) = [1; 2] /\ lm_synced_seq (d_log (h_db x)) = Ok 1.
Proof.
  destruct (wrun false ex_c false [WOpen 100; WUser 100 (ex_put 1 10); WUser 100 ex_sync; WUser 100 (ex_put 2 20);
      WPush (mkAR 1 100 0 opt_sync NIL true); WPush (mkAR 2 100 0 opt_flush 1 true); WPop; WSync 0 no_fail; WFlush 0] [] [] w_new)
    as [[[rs an] w]|] eqn:E; [|vm_compute in E; discriminate].
  assert (R := wrun_reach _ _ _ _ _ _ _ _ _ (wreach_new _ ex_c false) E). vm_compute in E. injection E as <- <- <-.
  eexists; eexists; eexists; exists (mkAR 1 100 0 opt_sync NIL true); eexists. split; [exact R|]. split; [apply ex_c_ok|].
  split; [left; reflexivity|]. split; [reflexivity|]. split; [reflexivity|]. vm_compute. repeat split.
Qed.
Print Assumptions C35_sync_lost_refuted.
(** The database is closed while the request waits, and another one is opened whose handle has the
    same address: that one is flushed, and the requester of the closed one is told success. *)
Theorem C35_reused_handle_refuted : exists rs an w r, wreach ex_hash ex_c false rs an w /\ cfg_ok ex_c /\
  In (mkAn r true) an /\ a_uid r = 0 /\ map (fun x => (h_uid x, map r_seq (d_tab (h_db x)))) (w_dbs w) = [(1, [1])].
Proof.
  destruct (wrun false ex_c false [WOpen 100; WUser 100 (ex_put 1 10); WUser 100 ex_sync; WPush (mkAR 1 100 0 opt_flush NIL true); WClose 100;
      WOpen 100; WUser 100 (ex_put 2 20); WUser 100 ex_sync; WPop; WSync 0 no_fail; WFlush 0] [] [] w_new)
    as [[[rs an] w]|] eqn:E; [|vm_compute in E; discriminate].
  assert (R := wrun_reach _ _ _ _ _ _ _ _ _ (wreach_new _ ex_c false) E). vm_compute in E. injection E as <- <- <-.
  eexists; eexists; eexists; exists (mkAR 1 100 0 opt_flush NIL true). split; [exact R|]. split; [apply ex_c_ok|].
  split; [left; reflexivity|]. vm_compute. repeat split.
Qed.
Print Assumptions C35_reused_handle_refuted.

(** The full statement of C59 fails at shutdown: what waits is dropped. *)
Theorem C59_shutdown_refuted : exists rs an w a w' r, wreach ex_hash ex_c false rs an w /\ cfg_ok ex_c /\ In r rs /\ a_cb r = true /\
  w_step ex_hash ex_c false WStop w = Some (a, w') /\ an ++ a = [] /\ w_q w' = [] /\ w_run w' = [].
Proof.
  destruct (wrun false ex_c false [WOpen 100; WUser 100 (ex_put 1 10); WUser 100 ex_sync; WPush (mkAR 1 100 0 opt_flush NIL true)] [] [] w_new)
    as [[[rs an] w]|] eqn:E; [|vm_compute in E; discriminate].
  assert (R := wrun_reach _ _ _ _ _ _ _ _ _ (wreach_new _ ex_c false) E). vm_compute in E. injection E as <- <- <-.
  eexists; eexists; eexists; exists []; eexists; exists (mkAR 1 100 0 opt_flush NIL true). split; [exact R|]. split; [apply ex_c_ok|].
  split; [left; reflexivity|]. split; [reflexivity|]. split; [reflexivity|]. repeat split.
Qed.
Print Assumptions C59_shutdown_refuted.
