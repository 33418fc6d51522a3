(** C136.  The compactor takes up a table only for a reason given by the configuration, the worst
    one first, misses none, and leaves alone tables that another job works on. *)
From Verif Require Import Base KeyModel VictimModel VictimSpec VictimProofs.
Local Open Scope N_scope.

(** A table that is compacted in place is free, has reached the configured percentage, and no other
    free table has a higher percentage of its active data (in whole percents). *)
Theorem C136_compacted_partial : forall c over ts t, sizes_ok ts -> vc_urgent c = 0 -> choose c over ts = Some (InPlace t) ->
  exists w tot, free_table ts t w tot /\ stale c w tot /\
    forall u w' tot', free_table ts u w' tot' -> stale c w' tot' -> 100 * tot' / w' <= 100 * tot / w.
Proof. exact chosen_stale. Qed.
Print Assumptions C136_compacted_partial.

(** A table that is split is free and too big, and the oldest of these. *)
Theorem C136_split_partial : forall c over ts t, choose c over ts = Some (Split t) ->
  exists w tot, free_table ts t w tot /\ too_big c w /\
    forall u w' tot', free_table ts u w' tot' -> too_big c w' -> v_num t <= v_num u.
Proof. exact chosen_split. Qed.
Print Assumptions C136_split_partial.

(** A table that is fixed is free and needs it. *)
Theorem C136_fixed_partial : forall c over ts t, choose c over ts = Some (Fix t) -> In t ts /\ v_locked t = false /\ v_fix t = true.
Proof. exact chosen_fix. Qed.
Print Assumptions C136_fixed_partial.

(** After a request to compact up to a table number, the oldest free table up to that number comes
    first. *)
Theorem C136_urgent_partial : forall c ts, numbers_ok ts -> vc_urgent c <> 0 ->
  (exists u w tot, free_table ts u w tot /\ v_num u <= vc_urgent c) ->
  exists t w tot, choose c false ts = Some (InPlace t) /\ free_table ts t w tot /\ v_num t <= vc_urgent c /\
    forall u w' tot', free_table ts u w' tot' -> v_num u <= vc_urgent c -> v_num t <= v_num u.
Proof. exact chosen_urgent. Qed.
Print Assumptions C136_urgent_partial.

(** When the compactor does nothing, or merges, no free table needs to be fixed, split or
    compacted. *)
Theorem C136_none_missed_partial : forall c ts o, sizes_ok ts -> numbers_ok ts -> choose c false ts = o -> (o = None \/ exists t, o = Some (Merge t)) ->
  (forall t, In t ts -> v_locked t = false -> v_fix t = false) /\
  (forall t w tot, free_table ts t w tot -> ~ too_big c w) /\
  (0 < vc_factor c -> forall t w tot, free_table ts t w tot -> ~ stale c w tot).
Proof. exact nothing_missed. Qed.
Print Assumptions C136_none_missed_partial.

(** A table that is merged has a table before it and one after it, in a level with more tables than
    the configured minimum (the first table of a level starts at the empty key), and its active
    data is not above the mean of the level or not above the configured size.  Missing: it is free
    (refuted below). *)
Theorem C136_merged_partial : forall c over ts t, match ts with x :: _ => v_min x = [] | [] => True end -> choose c over ts = Some (Merge t) ->
  vc_tables c < N.of_nat (length ts) /\
  (exists pre d post, ts = pre ++ d :: t :: post /\ post <> []) /\
  exists w tot, v_stats t = Some (w, tot) /\ (w <= mean (big_sizes c ts) \/ w <= vc_merge c).
Proof. exact chosen_merge. Qed.
Print Assumptions C136_merged_partial.

(** A level with one small table that another job works on (number 2) and a smaller one that is
    free, like its neighbours (number 4): the first one is taken to be merged, where the job then
    finds it locked and gives up.  Nothing changes by that, so that the same is chosen again. *)
Definition lim : vcfg := mkVc 1000 2 0 300 0 0.
Definition busy_level : list vtab :=
  [mkV 1 [] false false (Some (100, 120)); mkV 2 [1] false true (Some (50, 60)); mkV 3 [2] false false (Some (100, 120));
   mkV 4 [3] false false (Some (10, 20)); mkV 5 [4] false false (Some (100, 120))].
Theorem C136_locked_refuted : exists c ts t u w tot w', choose c false ts = Some (Merge t) /\ v_locked t = true /\
  v_stats t = Some (w, tot) /\ (exists tot' pre d post, free_table ts u w' tot' /\ ts = pre ++ d :: u :: post /\ v_locked d = false /\ post <> []) /\ w' < w.
Proof.
  exists lim, busy_level, (mkV 2 [1] false true (Some (50, 60))), (mkV 4 [3] false false (Some (10, 20))), 50, 60, 10.
  split; [vm_compute; reflexivity|]. split; [reflexivity|]. split; [reflexivity|]. split; [|reflexivity].
  exists 20, [mkV 1 [] false false (Some (100, 120)); mkV 2 [1] false true (Some (50, 60))], (mkV 3 [2] false false (Some (100, 120))), [mkV 5 [4] false false (Some (100, 120))].
  split; [|split; [reflexivity|split; [reflexivity|discriminate]]].
  split; [|split; reflexivity]. right. right. right. left. reflexivity.
Qed.
Print Assumptions C136_locked_refuted.

(** The factor 0 turns automatic compaction off, as the log says (src/table_mgr.cc:89, 107) and
    as is done for level 0 (408).  On the levels above, a table without any stale data is compacted,
    and again after that. *)
Theorem C136_disabled_refuted : exists c ts t w, vc_factor c = 0 /\ (forall u w' tot', In u ts -> v_stats u = Some (w', tot') -> tot' = w') /\
  v_stats t = Some (w, w) /\ choose c false ts = Some (InPlace t).
Proof.
  exists (mkVc 1000 2 16 0 0 0), [mkV 7 [] false false (Some (100, 100))], (mkV 7 [] false false (Some (100, 100))), 100.
  split; [reflexivity|]. split; [|split; [reflexivity|vm_compute; reflexivity]].
  intros u w' tot' [<-|[]] E. injection E as <- <-. reflexivity.
Qed.
Print Assumptions C136_disabled_refuted.

(** Cases: the tables of one level with each of the reasons in turn. *)
Definition lv (stats2 stats3 : N * N) : list vtab :=
  [mkV 9 [] false false (Some (500, 600)); mkV 8 [1] false false (Some stats2); mkV 7 [2] false false (Some stats3); mkV 6 [3] false false (Some (500, 600))].
Example C136_case :
  choose lim false (lv (100, 400) (100, 350)) = Some (InPlace (mkV 8 [1] false false (Some (100, 400)))) /\
  choose lim false (lv (1600, 1700) (1501, 1600)) = Some (Split (mkV 7 [2] false false (Some (1501, 1600)))) /\
  choose lim false (lv (500, 600) (100, 120)) = Some (Merge (mkV 7 [2] false false (Some (100, 120)))) /\
  choose (mkVc 1000 2 0 300 0 8) false (lv (500, 600) (500, 600)) = Some (InPlace (mkV 6 [3] false false (Some (500, 600)))) /\
  choose lim false (lv (500, 600) (500, 600)) = None /\
  choose lim false [mkV 9 [] true true (Some (500, 600)); mkV 8 [1] true false (Some (500, 600))] = Some (Fix (mkV 8 [1] true false (Some (500, 600)))) /\
  sizes_ok (lv (100, 400) (100, 350)) /\ numbers_ok (lv (100, 400) (100, 350)).
Proof.
  do 6 (split; [vm_compute; reflexivity|]). split.
  - intros t w tot H E. unfold lv in H. repeat (destruct H as [<-|H]; [injection E as <- <-; apply N.ltb_lt; vm_compute; reflexivity|]). destruct H.
  - intros t H. unfold lv in H. repeat (destruct H as [<-|H]; [apply N.ltb_lt; vm_compute; reflexivity|]). destruct H.
Qed.
