(** Properties C23, C25, C48 and C49: merging tables, and lookups in L0-only mode. *)
From Coq Require Import List NArith Bool Lia Sorted.
From Verif Require Import Base LogFormatModel KeyModel KeyProofs BloomModel MemTableModel LsmModel LsmProofs LsmProofs2 LsmProofs3 LsmProofs4 LsmProofs5 LsmProps MergeModel MergeProofs MergeProofs2.
Import ListNotations.
Local Open Scope N_scope.

(** C25: [docs_ok] (LsmProofs.v) says that the keys are strictly increasing.  The third part says
    that no key is lost: its newest version is in the output, or that version is a deletion
    and the output does not have the key. *)
Theorem C25_merge : forall hash c keep num h a b, docs_ok a -> docs_ok b ->
  let out := b_docs (merge_tbl hash c keep num h a b) in
  docs_ok out /\
  (forall r, In r out -> (In r a \/ In r b) /\ (keep = true \/ is_del r = false) /\
     forall x, In x a \/ In x b -> r_key x = r_key r -> r_seq x <= r_seq r) /\
  (forall x, In x a \/ In x b -> exists r, (In r a \/ In r b) /\ r_key r = r_key x /\ r_seq x <= r_seq r /\
     (In r out \/ (keep = false /\ is_del r = true /\ forall y, In y out -> r_key y <> r_key r))).
Proof. intros hash c keep num h a b Ha Hb. cbn zeta. rewrite merge_tbl_docs by assumption. now apply merge_spec. Qed.
Print Assumptions C25_merge.

Example ex_merge :
  b_docs (merge_tbl xhash xc1 false 7 0 [ins 4 [1] [11]; ins 2 [3] [30]; del 6 [5]] [ins 1 [1] [10]; ins 5 [3] [31]; ins 3 [5] [50]; ins 7 [8] [80]])
  = [ins 4 [1] [11]; ins 5 [3] [31]; ins 7 [8] [80]].
Proof. vm_compute. reflexivity. Qed.

(** C48: [zreach hash part c R s] (MergeProofs2.v): [s] is reached in L0-only mode by flushes of
    records with growing numbers, completed compactions and reloads; [R] lists the records
    flushed. *)
Theorem C48_latest_in_level_zero : forall hash part c R s k, tc_parts c <= NIL -> (forall k, part k < tc_parts c) ->
  zreach hash part c R s -> bf_safe c R -> k <> [] ->
  match newest_write R k with
  | None => tm_get hash part c k s = GotErr KEY_NOT_FOUND
  | Some r => tm_get hash part c k s = Got r \/ (is_del r = true /\ tm_get hash part c k s = GotErr KEY_NOT_FOUND)
  end.
Proof. exact zero_answer. Qed.
Print Assumptions C48_latest_in_level_zero.

(** L0-only, one partition, no filters. *)
Definition zc : tcfg := mkTC 1 0 true false true.

Fixpoint zrun hash part (c : tcfg) (ops : list zop) (s : lsm) : option lsm :=
  match ops with
  | [] => Some s
  | o :: ops' => match zstep hash part c o s with Some s' => zrun hash part c ops' s' | None => None end
  end.

(** [R] is the list of the records flushed so far. *)
Fixpoint zsafe hash part (c : tcfg) (ops : list zop) (R : list rec) (s : lsm) : bool :=
  match ops with
  | [] => true
  | o :: ops' =>
      match zstep hash part c o s with
      | Some s' => (l_next s' <=? NIL) &&
                   match o with
                   | ZFlush rs => forallb (fun x => forallb (fun r => r_seq x <? r_seq r) rs) R && zsafe hash part c ops' (R ++ rs) s'
                   | ZCompact _ h => (h <? tc_parts c) && zsafe hash part c ops' R s'
                   | ZCancel _ => false
                   | ZReload => zsafe hash part c ops' R s'
                   end
      | None => false
      end
  end.
Definition zflushed (ops : list zop) : list rec := flat_map (fun o => match o with ZFlush rs => rs | _ => [] end) ops.
Lemma zsafe_reach : forall hash part c ops R s s', zreach hash part c R s -> zsafe hash part c ops R s = true ->
  zrun hash part c ops s = Some s' -> zreach hash part c (R ++ zflushed ops) s'.
Proof.
  intros hash part c ops. induction ops as [|o ops IH]; intros R s s' H S E; cbn [zrun zsafe] in *.
  - injection E as <-. cbn. now rewrite app_nil_r.
  - destruct (zstep hash part c o s) as [s1|] eqn:St; [|discriminate]. apply andb_prop in S as [L S]. apply N.leb_le in L.
    destruct o as [rs|keep h|h|]; cbn [zflushed flat_map] in *; try discriminate S.
    + apply andb_prop in S as [S1 S2]. rewrite app_assoc. apply (IH _ s1); auto. cbn [zstep] in St.
      assert (Es : set_batch hash part c (fun _ => false) rs s = s1) by congruence. rewrite <- Es.
      apply zr_flush; [exact H|]. intros x r Hx Hr. rewrite forallb_forall in S1. specialize (S1 x Hx). rewrite forallb_forall in S1.
      apply N.ltb_lt. now apply S1.
    + apply andb_prop in S as [S1 S2]. apply N.ltb_lt in S1. apply (IH _ s1); auto. eapply zr_merge; eassumption.
    + apply (IH _ s1); auto. cbn [zstep] in St. assert (Es : reload s = s1) by congruence. rewrite <- Es. now apply zr_reload.
Qed.

Definition z_ops : list zop :=
  [ZFlush [ins 1 [1] [10]; ins 2 [2] [20]]; ZCompact false 0; ZFlush [ins 3 [1] [11]; del 4 [2]]; ZReload; ZCompact true 0; ZFlush [ins 5 [3] [30]]].
Example ex_zero : exists s, zreach xhash xpart zc [ins 1 [1] [10]; ins 2 [2] [20]; ins 3 [1] [11]; del 4 [2]; ins 5 [3] [30]] s /\
  zrun xhash xpart zc z_ops (lsm_new zc) = Some s /\ map b_docs (l_zero s) = [[ins 3 [1] [11]; del 4 [2]]; [ins 5 [3] [30]]] /\
  tm_get xhash xpart zc [1] s = Got (ins 3 [1] [11]) /\ tm_get xhash xpart zc [2] s = Got (del 4 [2]).
Proof.
  destruct (zrun xhash xpart zc z_ops (lsm_new zc)) as [s|] eqn:E; [|vm_compute in E; discriminate]. exists s. split.
  - change [ins 1 [1] [10]; ins 2 [2] [20]; ins 3 [1] [11]; del 4 [2]; ins 5 [3] [30]] with ([] ++ zflushed z_ops).
    eapply zsafe_reach; [apply zr_new|vm_compute; reflexivity|exact E].
  - split; [reflexivity|]. vm_compute in E. injection E as <-. repeat split; vm_compute; reflexivity.
Qed.

(** C49: between adding the compacted table and removing its sources, a lookup visits two
    tables that hold the key and reports success without a record ([nth 1], the second state
    of the compaction); between the removals, a deleted key has its old value back ([nth 2]). *)
Definition c49_ops : list zop := [ZFlush [ins 1 [1] [10]; ins 2 [2] [20]]; ZCompact false 0; ZFlush [del 3 [1]]].
Theorem C49_compaction_window_refuted : exists s ss, zrun xhash xpart zc c49_ops (lsm_new zc) = Some s /\
  newest_write (zflushed c49_ops) [1] = Some (del 3 [1]) /\ newest_write (zflushed c49_ops) [2] = Some (ins 2 [2] [20]) /\
  tm_get xhash xpart zc [1] s = Got (del 3 [1]) /\ tm_get xhash xpart zc [2] s = Got (ins 2 [2] [20]) /\
  z_steps xhash zc false 0 s = Some ss /\
  tm_get xhash xpart zc [2] (nth 1 ss s) = GotNothing /\
  tm_get xhash xpart zc [1] (nth 2 ss s) = Got (ins 1 [1] [10]) /\
  tm_get xhash xpart zc [1] (last ss s) = GotErr KEY_NOT_FOUND.
Proof.
  eexists. eexists. split; [vm_compute; reflexivity|]. split; [vm_compute; reflexivity|]. split; [vm_compute; reflexivity|].
  split; [vm_compute; reflexivity|]. split; [vm_compute; reflexivity|].
  split; [vm_compute; reflexivity|]. split; [vm_compute; reflexivity|]. split; vm_compute; reflexivity.
Qed.
Print Assumptions C49_compaction_window_refuted.

(** C23: the same lasts if the compaction is cancelled and the database is reopened: two tables
    of the partition hold the key, and the one with the newer version is visited first. *)
Definition c23_ops : list zop :=
  [ZFlush [ins 1 [1] [10]]; ZCompact false 0; ZFlush [ins 2 [1] [11]]; ZCancel 0; ZReload].
Theorem C23_success_without_record_refuted : exists s, zrun xhash xpart zc c23_ops (lsm_new zc) = Some s /\
  map b_docs (l_zero s) = [[ins 2 [1] [11]]; [ins 1 [1] [10]]; []] /\ tm_get xhash xpart zc [1] s = GotNothing.
Proof. eexists. split; [vm_compute; reflexivity|]. split; vm_compute; reflexivity. Qed.
Print Assumptions C23_success_without_record_refuted.
