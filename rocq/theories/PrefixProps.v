(** Properties of prefix search. *)
From Verif Require Import Base KeyModel KeyProofs LogFormatModel BloomModel MemTableModel LogMgrModel DbModel LogMgrProofs DbProofs DbProps
  LsmModel LsmProofs LsmProofs2 LsmProofs5 LsmProps FullModel FullProofs FullProps IterProps PrefixModel PrefixSpec PrefixProofs PrefixSnapProofs.
From Coq Require Import Lia.
Local Open Scope N_scope.

(** C17: the callback gets every live key with the prefix, with its newest value, whatever mixture
    of writes, batches, flushes and compactions came before; besides, it may get deletions and older
    writes of such keys, but never without the newest write of the same key.  The call fails with
    KEY_NOT_FOUND exactly if the callback was never called.  Condition: no level has more than one
    further table with the prefix.  Missing: keys spread over three or more tables of a level, see
    [C17_three_tables_refuted]. *)
Theorem C17_prefix_partial : forall hash part c tc h f p, cfg_ok c -> tcfg_ok part tc -> freach hash part c tc h f -> (forall ts, In ts (l_up (fd_lsm f)) -> two_tables_hold p ts) ->
  exists n L, (forall fuel cb, (n <= fuel)%nat -> (forall x, cb x = false) -> f_prefix fuel cb p f = Some (match L with [] => Fail KEY_NOT_FOUND | _ => Ok tt end, L)) /\
    (forall r, In r L -> In r h /\ is_cmd r = false /\ prefix_of p (r_key r) /\ exists y, last_write h (r_key r) = Some y /\ In y L) /\
    (forall a y, last_write h a = Some y -> is_ins y = true -> prefix_of p a -> In y L).
Proof. exact prefix_search. Qed.
Print Assumptions C17_prefix_partial.

(** C17: a callback that asks to stop is not called again, the call succeeds, and up to there it
    saw the same records as one that never stops. *)
Theorem C17_stop : forall fuel p f cb x L, f_prefix fuel (fun _ => false) p f = Some (x, L) ->
  exists y A, f_prefix fuel cb p f = Some (y, A) /\
   ((A = L /\ y = x /\ forall s t, L = s ++ t -> t <> [] -> s <> [] -> cb s = false) \/
    (exists B, L = A ++ B /\ y = Ok tt /\ cb A = true /\ forall s t, A = s ++ t -> s <> [] -> t <> [] -> cb s = false)).
Proof. exact prefix_stop. Qed.
Print Assumptions C17_stop.

(** ** Cases *)
Definition go_on : list rec -> bool := fun _ => false.
Definition w2 (a b v : N) : fop := FOp (OSet false (mkRec NIL INS [a; b] [] [v])).
Definition d2 (a b : N) : fop := FOp (OSet false (mkRec NIL DEL [a; b] [] [])).
Definition kv_t (r : rec) : key * option (list N) := (r_key r, if is_ins r then Some (r_val r) else None).
Definition pre_seen (cb : list rec -> bool) (p : key) (f : fdb) : option (list (key * option (list N))) := match f_prefix 100 cb p f with Some (Ok _, l) => Some (map kv_t l) | Some (_, l) => Some [] | None => None end.

(** Keys 5.1 to 5.6 and others in two level-1 tables, level 0 and the log; 5.2 overwritten, 5.4
    deleted. *)
Definition ex_pre_ops : list fop :=
  [w2 4 1 41; w2 5 1 51; w2 5 4 54; w2 6 1 61] ++ fl ++ [FTab (LZero (fun n => Nat.eqb n 2) all_ok true every 0); w2 5 2 52; d2 5 4; w2 7 7 77] ++ fl ++ [w2 5 2 53; w2 5 6 56].
Example ex_pre : exists h f, at_end ex_pre_ops = Some (h, f) /\ freach xhash xpart ex_c xc0 h f /\ (forall ts, In ts (l_up (fd_lsm f)) -> two_tables_hold [5] ts) /\
  map (fun ts => map (fun t => (b_min t, map r_key (b_docs t))) ts) (l_up (fd_lsm f)) = [[([], [[4; 1]; [5; 1]]); ([5; 4], [[5; 4]; [6; 1]])]] /\
  pre_seen go_on [5] f = Some [([5; 2], Some [53]); ([5; 6], Some [56]); ([5; 2], Some [52]); ([5; 4], None); ([5; 1], Some [51]); ([5; 4], Some [54])] /\
  pre_seen (fun s => Nat.eqb (length s) 3) [5] f = Some [([5; 2], Some [53]); ([5; 6], Some [56]); ([5; 2], Some [52])] /\
  pre_seen go_on [8] f = Some [].
Proof.
  destruct (at_end ex_pre_ops) as [[h f]|] eqn:E; [|vm_compute in E; discriminate]. exists h, f. split; [reflexivity|].
  split; [apply (at_end_reach ex_pre_ops); [safe_ops|exact E]|]. vm_compute in E. injection E as <- <-. split; [|split; [reflexivity|split; [reflexivity|split; reflexivity]]].
  intros ts Hts. repeat (destruct Hts as [<-|Hts]; [intros t u Ht Hu Pt Pu Nt Nu; repeat (destruct Ht as [<-|Ht]; [repeat (destruct Hu as [<-|Hu]; [first [reflexivity|destruct Pt as [q Q]; discriminate|destruct Pu as [q Q]; discriminate]|]); destruct Hu|]); destruct Ht|]). destruct Hts.
Qed.

(** C17 refuted: three tables of level 1 hold keys with the prefix 5; the third one is not looked
    at and its key is never reported. *)
Theorem C17_three_tables_refuted : exists os h f y L, at_end os = Some (h, f) /\ freach xhash xpart ex_c xc0 h f /\
  last_write h [5; 3] = Some y /\ is_ins y = true /\ prefix_of [5] [5; 3] /\
  f_prefix 100 go_on [5] f = Some (Ok tt, L) /\ forall r, In r L -> r_key r <> [5; 3].
Proof.
  set (os := [w2 5 1 51; w2 5 2 52; w2 5 3 53] ++ fl ++ [FTab (LZero all_ok all_ok true every 0)]).
  destruct (at_end os) as [[h f]|] eqn:E; [|vm_compute in E; discriminate].
  destruct (last_write h [5; 3]) as [y|] eqn:Ey; [|vm_compute in E; injection E as <- <-; vm_compute in Ey; discriminate].
  destruct (f_prefix 100 go_on [5] f) as [[x L]|] eqn:El; [|vm_compute in E; injection E as <- <-; vm_compute in El; discriminate].
  exists os, h, f, y, L. split; [exact E|]. split; [apply (at_end_reach os); [safe_ops|exact E]|]. vm_compute in E. injection E as <- <-. vm_compute in Ey. injection Ey as <-. vm_compute in El. injection El as <- <-.
  split; [reflexivity|]. split; [reflexivity|]. split; [now exists [3]|]. split; [vm_compute; reflexivity|].
  intros r Hr. repeat (destruct Hr as [<-|Hr]; [discriminate|]). destruct Hr.
Qed.
Print Assumptions C17_three_tables_refuted.

(** C52 refuted: through a snapshot, prefix search reports a key written after the snapshot was
    opened. *)
Theorem C52_later_write_refuted : exists h d h' d' sn r, 
  run xhash true ex_c [ex_put 7 70] [] (db_new ex_c) = Some (h, d) /\ open_snap 0 d = Ok sn /\
  run xhash true ex_c [ex_put 5 50] h d = Some (h', d') /\ reach xhash ex_c h d /\ reach xhash ex_c h' d' /\
  snap_prefix 100 go_on [5] sn d' = Some (Ok tt, [r]) /\ r_key r = [5] /\ snap_get xhash sn [5] d' = Fail KEY_NOT_FOUND.
Proof.
  destruct (run xhash true ex_c [ex_put 7 70] [] (db_new ex_c)) as [[h d]|] eqn:E; [|vm_compute in E; discriminate].
  assert (R : reach xhash ex_c h d) by (eapply run_reach; [apply reach_new|exact E]).
  destruct (open_snap 0 d) as [sn| |] eqn:E2; [|vm_compute in E; injection E as <- <-; vm_compute in E2; discriminate..].
  destruct (run xhash true ex_c [ex_put 5 50] h d) as [[h' d']|] eqn:E3; [|vm_compute in E; injection E as <- <-; vm_compute in E3; discriminate].
  exists h, d, h', d', sn. eexists. split; [reflexivity|]. split; [exact E2|]. split; [exact E3|]. split; [exact R|]. split; [eapply run_reach; [exact R|exact E3]|].
  vm_compute in E. injection E as <- <-. vm_compute in E2. injection E2 as <-. vm_compute in E3. injection E3 as <- <-.
  split; [vm_compute; reflexivity|]. split; reflexivity.
Qed.
Print Assumptions C52_later_write_refuted.

(** C52 refuted: a key that the snapshot has is not reported any more after a flush. *)
Theorem C52_flushed_lost_refuted : exists h d h' d' sn, 
  run xhash true ex_c [ex_put 7 70] [] (db_new ex_c) = Some (h, d) /\ open_snap 0 d = Ok sn /\
  run xhash true ex_c [ex_sync; ex_fl] h d = Some (h', d') /\ reach xhash ex_c h d /\ reach xhash ex_c h' d' /\
  snap_prefix 100 go_on [7] sn d' = Some (Fail KEY_NOT_FOUND, []) /\ ex_val (snap_get xhash sn [7] d') = Some [70].
Proof.
  destruct (run xhash true ex_c [ex_put 7 70] [] (db_new ex_c)) as [[h d]|] eqn:E; [|vm_compute in E; discriminate].
  assert (R : reach xhash ex_c h d) by (eapply run_reach; [apply reach_new|exact E]).
  destruct (open_snap 0 d) as [sn| |] eqn:E2; [|vm_compute in E; injection E as <- <-; vm_compute in E2; discriminate..].
  destruct (run xhash true ex_c [ex_sync; ex_fl] h d) as [[h' d']|] eqn:E3; [|vm_compute in E; injection E as <- <-; vm_compute in E3; discriminate].
  exists h, d, h', d', sn. split; [reflexivity|]. split; [exact E2|]. split; [exact E3|]. split; [exact R|]. split; [eapply run_reach; [exact R|exact E3]|].
  vm_compute in E. injection E as <- <-. vm_compute in E2. injection E2 as <-. vm_compute in E3. injection E3 as <- <-.
  split; [vm_compute; reflexivity|]. reflexivity.
Qed.
Print Assumptions C52_flushed_lost_refuted.

(** C52, guarded: a snapshot opened on the newest data of [h]; afterwards the history goes on by
    [more], with any operations, but no record with the prefix is written or moved to the tables.
    Then a prefix search through the snapshot reports, for every key with the prefix, its newest
    write in the snapshot (deletions too), and otherwise only older writes of the snapshot. *)
Theorem C52_quiet_prefix_partial : forall hash c h d more d' sn p, cfg_ok c -> reach hash c h d -> open_snap 0 d = Ok sn -> reach hash c (h ++ more) d' ->
  (forall r, In r more -> ~ prefix_of p (r_key r)) -> (forall r, In r (d_tab d') -> prefix_of p (r_key r) -> In r (d_tab d)) ->
  exists n L, (forall fuel cb, (n <= fuel)%nat -> (forall x, cb x = false) -> snap_prefix fuel cb p sn d' = Some (match L with [] => Fail KEY_NOT_FOUND | _ => Ok tt end, L)) /\
    (forall r, In r L -> In r h /\ is_cmd r = false /\ prefix_of p (r_key r)) /\
    (forall a y, last_write h a = Some y -> prefix_of p a -> In y L).
Proof. exact snap_prefix_quiet. Qed.
Print Assumptions C52_quiet_prefix_partial.

(** Two keys, one flushed before the snapshot is opened; afterwards another key is written. *)
Example ex_quiet : exists h d more d' sn, 
  run xhash true ex_c [ex_put 7 70; ex_sync; ex_fl; ex_put 7 71; ex_put 5 50] [] (db_new ex_c) = Some (h, d) /\ open_snap 0 d = Ok sn /\
  run xhash true ex_c [ex_put 6 60; ex_sync] h d = Some (h ++ more, d') /\ reach xhash ex_c h d /\ reach xhash ex_c (h ++ more) d' /\
  length more = 1%nat /\ (forall r, In r more -> ~ prefix_of [7] (r_key r)) /\ d_tab d' = d_tab d /\
  match snap_prefix 100 go_on [7] sn d' with Some (Ok _, l) => map r_val l = [[71]; [70]] | _ => False end.
Proof.
  destruct (run xhash true ex_c [ex_put 7 70; ex_sync; ex_fl; ex_put 7 71; ex_put 5 50] [] (db_new ex_c)) as [[h d]|] eqn:E; [|vm_compute in E; discriminate].
  assert (R : reach xhash ex_c h d) by (eapply run_reach; [apply reach_new|exact E]).
  destruct (open_snap 0 d) as [sn| |] eqn:E2; [|vm_compute in E; injection E as <- <-; vm_compute in E2; discriminate..].
  destruct (run xhash true ex_c [ex_put 6 60; ex_sync] h d) as [[h' d']|] eqn:E3; [|vm_compute in E; injection E as <- <-; vm_compute in E3; discriminate].
  assert (Eh : h' = h ++ skipn (length h) h') by (vm_compute in E; injection E as <- <-; vm_compute in E3; injection E3 as <- <-; reflexivity).
  exists h, d, (skipn (length h) h'), d', sn. rewrite <- Eh. split; [reflexivity|]. split; [exact E2|]. split; [exact E3|]. split; [exact R|]. split; [eapply run_reach; [exact R|exact E3]|].
  clear R Eh. vm_compute in E. injection E as <- <-. vm_compute in E2. injection E2 as <-. vm_compute in E3. injection E3 as <- <-.
  split; [reflexivity|]. split; [intros r [<-|[]] [t Q]; discriminate|]. split; vm_compute; reflexivity.
Qed.
