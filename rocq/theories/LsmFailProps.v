(** Properties C47 and C49: what does hold of flushes with failing writes, and of lookups made
    while a compaction runs in L0-only mode. *)
From Coq Require Import List NArith Bool Lia.
From Verif Require Import Base LogFormatModel KeyModel KeyProofs BloomModel MemTableModel LsmModel
  LsmProofs LsmProofs2 LsmProofs5 LsmProps MergeModel MergeProofs MergeProofs2 MergeProps LsmFailProofs.
Import ListNotations.
Local Open Scope N_scope.

(** C47, guarded.  [kept part bad [] rs] (LsmFailProofs.v): the records of the flush that are
    neither refused nor preceded by a refused record of the same partition.  Whatever records
    are refused, the flush has exactly the effect of a flush of those records: every lookup
    answers with the newest record of all flushes before and of those, and every theorem about
    reachable states goes on to hold.  So nothing that was in the tables is lost or changed by
    a failing write; what is missing is what [C47_failed_write_refuted] shows. *)
Theorem C47_failed_flush_partial : forall hash part c R s bad rs s' k, tcfg_ok part c -> lreach hash part c R s ->
  lstep hash part c (LFlush bad rs) s = Some s' -> l_next s' <= NIL ->
  let done := R ++ kept part bad [] rs in
  lreach hash part c done s' /\
  (forall r, In r (kept part bad [] rs) -> In r rs /\ bad r = false) /\
  (bf_safe c done -> k <> [] ->
   match newest_write done k with
   | None => tm_get hash part c k s' = GotErr KEY_NOT_FOUND
   | Some r => tm_get hash part c k s' = Got r \/ (is_del r = true /\ tm_get hash part c k s' = GotErr KEY_NOT_FOUND)
   end).
Proof.
  intros hash part c R s bad rs s' k Hc H E L. cbn zeta.
  pose proof (failed_flush_reach hash part c R s bad rs s' H E L) as H'. split; [exact H'|]. split.
  - intros r Hr. exact (kept_in part bad rs [] r Hr).
  - intros S Hk. exact (tables_answer hash part c _ s' k Hc H' S Hk).
Qed.
Print Assumptions C47_failed_flush_partial.

(** The second of four records is refused; partition of a key: its first byte modulo 2. *)
Definition par (k : key) : N := match k with x :: _ => x mod 2 | [] => 0 end.
Example ex_kept :
  kept par (fun r => r_seq r =? 2) [] [ins 1 [1] [10]; ins 2 [3] [30]; ins 3 [2] [20]; ins 4 [5] [50]] =
  [ins 1 [1] [10]; ins 3 [2] [20]].
Proof. vm_compute. reflexivity. Qed.

(** C49, guarded.  In every state [s'] between the steps of a compaction of partition [h]:
    lookups in the other partitions are not affected at all, and a lookup in the partition that
    delivers a record delivers one of the key that was flushed.  What is missing: in partition
    [h] it need not be the newest one, and success may be reported without a record
    ([C49_compaction_window_refuted]). *)
Theorem C49_window_partial : forall hash part c R s keep h ss s' k, tc_parts c <= NIL -> (forall k, part k < tc_parts c) ->
  zreach hash part c R s -> z_steps hash c keep h s = Some ss -> In s' ss ->
  (part k <> h -> tm_get hash part c k s' = tm_get hash part c k s) /\
  (forall r, tm_get hash part c k s' = Got r -> r_key r = k /\ In r R).
Proof. exact window_lookup. Qed.
Print Assumptions C49_window_partial.

(** Two partitions; while partition 1 is compacted, key [2] of partition 0 is found in each of
    the four states. *)
Definition zc2 : tcfg := mkTC 2 0 true false true.
Definition c49_ops2 : list zop :=
  [ZFlush [ins 1 [1] [10]; ins 2 [2] [20]]; ZCompact false 1; ZFlush [ins 3 [1] [11]; ins 4 [2] [21]]].
Example ex_window : match zrun xhash par zc2 c49_ops2 (lsm_new zc2) with
  | Some s => match z_steps xhash zc2 false 1 s with
              | Some ss => map (tm_get xhash par zc2 [2]) ss = repeat (Got (ins 4 [2] [21])) 4 /\
                           map (tm_get xhash par zc2 [1]) ss =
                             [Got (ins 3 [1] [11]); GotNothing; GotNothing; Got (ins 3 [1] [11])]
              | None => False
              end
  | None => False
  end.
Proof. vm_compute. split; reflexivity. Qed.
