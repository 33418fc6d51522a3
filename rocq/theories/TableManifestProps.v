(** Properties C39 (table manifest round trip) and C46 (crash during a table manifest update). *)
From Verif Require Import Base Crc32Model Crc32Proofs KeyModel KeyProofs FileModel FileProofs
  LogManifestModel LogManifestProofs TableManifestModel TableManifestProofs.
From Coq Require Import Sorting.Sorted Sorting.Permutation.
Local Open Scope N_scope.

(** ** C39

    For every layout with one hash-partitioned level and any number of range-partitioned
    levels (fields within their C++ ranges; tables of a level in strictly ascending order of
    minimum key, with disjoint key ranges that agree with the table files), whatever the file
    contained before: loading what was stored gives the same maximum table number, the same
    tables with the same attributes and checkpoints on every level - in the same order on
    levels >= 1, in reverse order on the unordered level 0 - and the actual number of tables
    as counter. *)
Theorem C39_round_trip : forall tab_min tab_max f0 mx lv ls,
  mx < 2 ^ 64 -> N.of_nat (length (lv :: ls)) < 2 ^ 32 ->
  wf_level0 lv -> Forall (fun t => t_status t <> ST_COMPACT_DST) (snd lv) ->
  Forall (wf_level tab_min tab_max) ls ->
  tm_load tab_min tab_max (tm_store f0 (mkTman mx (lv :: ls))) =
  inl (mkTman mx ((N.of_nat (length (snd lv)), rev (snd lv)) ::
                  map (fun l => (N.of_nat (length (snd l)), snd l)) ls)).
Proof.
  intros tmin tmax f0 mx lv ls Hm Hl H0 Hd HF.
  assert (HFN : Forall (fun l : N * list tinfo => Forall (fun t => t_status t <> ST_COMPACT_DST) (snd l)) ls).
  { apply Forall_forall. intros l Hin. rewrite Forall_forall in HF. destruct (HF l Hin) as (_ & H & _).
    apply Forall_forall. intros t Ht. rewrite Forall_forall in H.
    destruct (H t Ht) as (_ & _ & _ & _ & _ & E & _). rewrite E. discriminate. }
  rewrite tm_store_encode by (constructor; assumption).
  apply tm_load_encode; try assumption.
  apply tm_body_bytes. cbn [tm_levels]. constructor.
  - apply Forall_forall. intros t Ht. destruct H0 as [_ H0]. rewrite Forall_forall in H0. now apply (H0 t Ht).
  - apply Forall_forall. intros l Hin. rewrite Forall_forall in HF. destruct (HF l Hin) as (_ & H & _).
    apply Forall_forall. intros t Ht. rewrite Forall_forall in H. now apply (H t Ht).
Qed.

(** Three levels; the level-0 counter is stale (2 instead of 3) and is corrected. *)
Definition ex_tman : tman := mkTman 9
  [(2, [mkTinfo 7 0 0 [] [(100, 5); (200, 9)] false; mkTinfo 4 0 1 [] [] false; mkTinfo 5 1 0 [] [(150, 1)] false]);
   (2, [mkTinfo 2 0 0 [] [] false; mkTinfo 9 0 0 [109; 0; 1] [(90, 3)] false]);
   (0, [])].
Definition ex_tab_min (n : N) : option key := if n =? 2 then Some [97] else if n =? 9 then Some [109; 5] else None.
Definition ex_tab_max (n : N) : option key := if n =? 2 then Some [108; 255] else if n =? 9 then Some [122] else None.

Lemma ex_ss : forall (A : Type) (R : A -> A -> Prop) (a b : A), R a b -> StronglySorted R [a; b].
Proof. intros. constructor; [constructor; constructor|]. constructor; [assumption|constructor]. Qed.

Example ex_tman_wf : wf_level0 (nth 0 (tm_levels ex_tman) (0, [])) /\
  Forall (wf_level ex_tab_min ex_tab_max) (skipn 1 (tm_levels ex_tman)).
Proof.
  split.
  - unfold wf_level0. cbn [nth tm_levels ex_tman snd]. split; [reflexivity|].
    repeat apply Forall_cons; try apply Forall_nil;
      unfold wf_tinfo, wf_chks; cbn [t_num t_chks t_min t_prev t_hash t_status];
      (split; [reflexivity|]); (split; [split; [reflexivity|split]|]).
    all: try (repeat apply Forall_cons; try apply Forall_nil; split; reflexivity).
    all: try (split; [constructor|split; [reflexivity|split; [reflexivity|split; reflexivity]]]).
    all: try apply ex_ss; try reflexivity; repeat constructor.
  - cbn [skipn tm_levels ex_tman]. apply Forall_cons; [|apply Forall_cons; [|apply Forall_nil]].
    + split; [reflexivity|]. split; [|split].
      * repeat apply Forall_cons; try apply Forall_nil;
          unfold wf_tinfo, wf_chks; cbn [t_num t_chks t_min t_prev t_hash t_status];
          (split; [reflexivity|]); (split; [split; [reflexivity|split]|]).
        all: try (split; [|split; [reflexivity|split; [reflexivity|split; reflexivity]]]).
        all: repeat constructor.
      * apply ex_ss. reflexivity.
      * cbn [ranges_ok snd t_num t_min]. split; [intros k _; apply kle_nil|]. split; [now left|].
        split; [|split; [right; reflexivity|trivial]].
        intros k E. vm_compute in E. injection E as <-. unfold kle. vm_compute. discriminate.
    + split; [reflexivity|]. split; [constructor|]. split; [constructor|exact I].
Qed.

Example ex_tman_load :
  match tm_load ex_tab_min ex_tab_max (tm_store (repeat 255 500) ex_tman) with
  | inl m => map (fun l => map t_num (snd l)) (tm_levels m) = [[5; 4; 7]; [2; 9]; []] /\
             map fst (tm_levels m) = [3; 2; 0]
  | inr _ => False
  end.
Proof. vm_compute. split; reflexivity. Qed.

(** ** C46: crash during an update of the table manifest *)

Definition no_filesT : disk := mkDisk (mkDf [] [] true) (mkDf [] [] true).

Definition tstore (k : disk) (vs : tman * bool) : disk :=
  dexec (tm_store_ops (df_cur (k_main k)) (fst vs) (snd vs)) k.

(** After a synchronous update with [s], any number of asynchronous ones, and a crash after
    any number [n] of disk operations of the next update with [w]: the manifest or its backup
    is a complete, durable copy of [w] or of [s]. *)
Theorem C46_table_manifest_crash : forall k0 h1 s h2 w sync n x y,
  no_dst s -> no_dst w -> Forall (fun vs => no_dst (fst vs) /\ snd vs = false) h2 ->
  let k1 := fold_left tstore (h1 ++ (s, true) :: h2) k0 in
  let k := dexec (firstn n (tm_store_ops (df_cur (k_main k1)) w sync)) k1 in
  (df_clean (k_main k) = true -> x = df_cur (k_main k)) ->
  (df_clean (k_bak k) = true -> y = df_cur (k_bak k)) ->
  x = tm_encode w \/ y = tm_encode s.
Proof.
  assert (HB : forall os k, Forall (fun o => match o with
     | DWrite b _ _ => b = false | DTrunc b _ => b = false | DShrink b _ => b = false
     | DSync b => b = false | DJunk b _ => b = false end) os -> k_bak (dexec os k) = k_bak k)
    by exact on_main_bak.
  assert (HM : forall ops k, df_cur (k_main (dexec (map (fun o => DWrite false (fst o) (snd o)) ops) k)) =
                             w_apply (df_cur (k_main k)) ops).
  { induction ops as [|o ops IH]; intros k; [reflexivity|].
    cbn [map dexec fold_left]. 
    change (fold_left (fun k o => dstep o k) ?l ?k) with (dexec l k). rewrite IH. reflexivity. }
  set (pre := fun f0 m => let w := tm_puts m in let f1 := w_apply f0 (w_ops w) in
     map (fun o => DWrite false (fst o) (snd o)) (w_ops w) ++
     [DWrite false (w_pos w) (u32 (crc32_8 (match pread f1 0 (w_pos w) with Some b => b | None => repeat 0 (w_pos w) end) 0));
      DTrunc false (w_pos w + 4)]).
  assert (Hsplit : forall f0 m sy, tm_store_ops f0 m sy = pre f0 m ++
     (if sy then [DSync false; DWrite true 0 (tm_store f0 m); DTrunc true (length (tm_store f0 m)); DSync true] else [])).
  { intros. unfold tm_store_ops, pre. cbn zeta. now rewrite <- app_assoc. }
  assert (Hpre1 : forall m k, df_cur (k_main (dexec (pre (df_cur (k_main k)) m) k)) = tm_store (df_cur (k_main k)) m).
  { intros m k. unfold pre. cbn zeta. rewrite dexec_app.
    cbn [dexec fold_left dstep on_file dirty k_main df_cur].
    change (fold_left (fun k o => dstep o k) ?l k) with (dexec l k). rewrite HM. reflexivity. }
  assert (Hpre2 : forall f0 m, Forall (fun o => match o with
     | DWrite b _ _ => b = false | DTrunc b _ => b = false | DShrink b _ => b = false
     | DSync b => b = false | DJunk b _ => b = false end) (pre f0 m)).
  { intros f0 m. unfold pre. cbn zeta. apply Forall_app. split; [|repeat constructor].
    apply Forall_forall. intros o Ho. apply in_map_iff in Ho as (p & <- & _). reflexivity. }
  assert (Hfull : forall k m, no_dst m -> k_bak (tstore k (m, true)) = mkDf (tm_encode m) (tm_encode m) true).
  { intros k m Hn. unfold tstore. cbn [fst snd]. rewrite Hsplit, dexec_app.
    set (k' := dexec (pre _ m) k). cbn [dexec fold_left dstep on_file dirty k_bak df_cur].
    rewrite tm_store_encode by exact Hn.
    assert (Hnz : tm_encode m <> []).
    { unfold tm_encode. intros E. apply (f_equal (@length N)) in E. rewrite app_length, u32_len in E. cbn in E. lia. }
    assert (E : ftruncate (pwrite (df_cur (k_bak k')) 0 (tm_encode m)) (length (tm_encode m)) = tm_encode m).
    { apply ftruncate_prefix. apply (pwrite_prefix _ [] (tm_encode m)). reflexivity. }
    now rewrite E. }
  intros k0 h1 s h2 w sync n x y Hs Hw H2 k1 k Hx Hy.
  assert (Hk1 : k_bak k1 = mkDf (tm_encode s) (tm_encode s) true).
  { unfold k1. rewrite fold_left_app. cbn [fold_left].
    set (ka := fold_left tstore h1 k0). clearbody ka.
    pose proof (Hfull ka s Hs) as Hb. set (kb := tstore ka (s, true)) in *. clearbody kb.
    clear - H2 Hb HB Hsplit Hpre2. revert kb Hb. induction h2 as [|[m sy] h2 IH]; intros kb Hb; [exact Hb|].
    inversion H2 as [|? ? [Hm E] H2']; subst. cbn [fst snd] in *. subst sy.
    cbn [fold_left]. apply IH; [exact H2'|]. unfold tstore. cbn [fst snd].
    rewrite Hsplit, app_nil_r. now rewrite HB by apply Hpre2. }
  set (f0 := df_cur (k_main k1)) in *.
  assert (Hcase : k_bak k = mkDf (tm_encode s) (tm_encode s) true \/
                  (df_cur (k_main k) = tm_encode w /\ df_clean (k_main k) = true)).
  { unfold k. rewrite Hsplit, firstn_app, dexec_app.
    destruct (Nat.le_gt_cases n (length (pre f0 w))) as [Hn|Hn].
    - left. replace (n - length (pre f0 w))%nat with 0%nat by lia. rewrite firstn_O.
      cbn [dexec fold_left]. change (fold_left (fun k o => dstep o k) ?l k1) with (dexec l k1).
      rewrite HB; [exact Hk1|]. apply Forall_firstn, Hpre2.
    - rewrite (firstn_all2 (pre f0 w)) by lia. destruct sync.
      + right. pose proof (Hpre1 w k1) as Hc. fold f0 in Hc. rewrite tm_store_encode in Hc by exact Hw.
        set (k2 := dexec (pre f0 w) k1) in *.
        destruct (n - length (pre f0 w))%nat as [|[|[|[|j]]]] eqn:Ej; [lia| | | |];
          cbn [firstn dexec fold_left dstep on_file dirty k_main df_cur df_clean]; try (split; [exact Hc|reflexivity]).
        rewrite firstn_nil. cbn [fold_left k_main df_cur df_clean]. split; [exact Hc|reflexivity].
      + left. rewrite firstn_nil. cbn [dexec fold_left].
        change (fold_left (fun k o => dstep o k) ?l k1) with (dexec l k1).
        now rewrite HB by apply Hpre2. }
  destruct Hcase as [E|[E1 E2]].
  - right. rewrite Hy by (rewrite E; reflexivity). now rewrite E.
  - left. now rewrite Hx by exact E2.
Qed.

Example ex_table_crash :
  let k1 := tstore no_filesT (ex_tman, true) in
  df_cur (k_bak k1) = tm_encode ex_tman /\ length (tm_store_ops (df_cur (k_main k1)) ex_tman true) = 45%nat /\
  df_clean (k_main (dexec (firstn 10 (tm_store_ops (df_cur (k_main k1)) ex_tman true)) k1)) = false.
Proof. vm_compute. repeat split; reflexivity. Qed.

Print Assumptions C39_round_trip.
Print Assumptions C46_table_manifest_crash.
