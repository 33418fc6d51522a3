(** Property C27: the lookup booster of a table. *)
From Verif Require Import Base KeyModel LogFormatModel BoosterModel BoosterSpec BoosterProofs.
From Coq Require Import Lia.
Local Open Scope N_scope.

(** C27, for any number of threads and any interleaving of their steps: if no two of the keys read
    or written have different hashes that fall into the same slot, then a read of [k] that starts
    after the write of [r] to the same key is complete returns [r] or something newer.
    Missing (see the refutations): hashes that share a slot. *)
Theorem C27_own_slots_partial : forall khash size es1 s1 w r off es2 t es3 s res,
  let es := es1 ++ BPut w :: es2 ++ BRead t (r_key r) :: es3 in
  (forall a b, (exists e, In e es /\ (exists u, e = BRead u a \/ exists q, e = BWrite u q /\ r_key q = a)) ->
               (exists e, In e es /\ (exists u, e = BRead u b \/ exists q, e = BWrite u q /\ r_key q = b)) ->
               khash a mod size = khash b mod size -> khash a = khash b) ->
  bruns khash size es1 b_new = Some s1 -> b_pc s1 w = WPut r off ->
  bruns khash size (BPut w :: es2 ++ BRead t (r_key r) :: es3) s1 = Some s -> ~ In (BEnd t) es3 ->
  b_pc s t = RDone (r_key r) res ->
  rising (b_file s) -> (forall q, In q (b_file s) -> 1 <= r_seq q) -> as_new r res.
Proof.
  intros khash size es1 s1 w r off es2 t es3 s res es Hapart H1 Hw H2 Hend Hres Hrise Hpos.
  apply (never_stale khash size (fun k => exists e, In e es /\ (exists u, e = BRead u k \/ exists q, e = BWrite u q /\ r_key q = k)))
    with (es1 := es1) (s1 := s1) (w := w) (off := off) (es2 := es2) (t := t) (es3 := es3) (s := s) (k := r_key r); auto.
  intros e He. destruct e as [u k|u|u|u|u q|u|u]; cbn [ev_used]; try exact I.
  - exists (BRead u k). split; [exact He|]. exists u. left. reflexivity.
  - exists (BWrite u q). split; [exact He|]. exists u. right. exists q. split; reflexivity.
Qed.
Print Assumptions C27_own_slots_partial.

(** C27, for any pattern of hashes and slots: if every operation runs to its end before the next one
    starts, a read returns the newest document of the key. *)
Theorem C27_one_by_one_partial : forall khash size os s k es s' res,
  one_by_one khash size os s -> rising (b_file s) ->
  alone (OneRead k) (es ++ [BEnd 0]) -> bruns khash size es s = Some s' -> b_pc s' 0%nat = RDone k res ->
  forall r, In r (b_file s) -> r_key r = k -> as_new r res.
Proof. exact newest_alone. Qed.
Print Assumptions C27_one_by_one_partial.

(** Hash = first byte; eight slots: keys 1 and 9 share one. *)
Definition bh (k : key) : N := match k with b :: _ => b | [] => 0 end.
Definition bd (k v n : N) : rec := mkRec n INS [k] [] [v].
Definition bw (t : nat) (r : rec) : list bev := [BWrite t r; BPut t; BEnd t].

(** The hypotheses of both theorems are met by non-trivial runs. *)
Example ex_own_slots : exists s1 s,
  bruns bh 8 (bw 0 (bd 1 10 5) ++ bw 0 (bd 2 20 6) ++ [BRead 1 [1]; BHint 1; BWrite 0 (bd 1 11 7)]) b_new = Some s1 /\
  b_pc s1 0%nat = WPut (bd 1 11 7) 3 /\
  bruns bh 8 (BPut 0 :: [BEnd 1; BEnd 0; BWrite 2 (bd 1 12 8)] ++ BRead 1 [1] :: [BPut 2; BHint 1]) s1 = Some s /\
  b_pc s 1%nat = RDone [1] (Some (bd 1 11 7)).
Proof. eexists. eexists. split; [vm_compute; reflexivity|]. split; [reflexivity|]. split; [vm_compute; reflexivity|reflexivity]. Qed.
Example ex_one_by_one : exists s s', one_by_one bh 8 [OneWrite (bd 1 10 5); OneWrite (bd 9 20 6); OneRead [1]; OneWrite (bd 1 11 7)] s /\
  bruns bh 8 [BRead 0 [1]; BHint 0] s = Some s' /\ b_pc s' 0%nat = RDone [1] (Some (bd 1 11 7)).
Proof.
  eexists. eexists. split.
  - eapply (ob_snoc bh 8 [OneWrite (bd 1 10 5); OneWrite (bd 9 20 6); OneRead [1]] _ (bw 0 (bd 1 11 7)));
      [eapply (ob_snoc bh 8 [OneWrite (bd 1 10 5); OneWrite (bd 9 20 6)] _ [BRead 0 [1]; BHint 0; BFind 0; BFill 0; BEnd 0]);
         [eapply (ob_snoc bh 8 [OneWrite (bd 1 10 5)] _ (bw 0 (bd 9 20 6)));
            [eapply (ob_snoc bh 8 [] _ (bw 0 (bd 1 10 5))); [apply ob_nil|reflexivity|vm_compute; reflexivity]|reflexivity|vm_compute; reflexivity]
         |right; right; reflexivity|vm_compute; reflexivity]|reflexivity|vm_compute; reflexivity].
  - split; vm_compute; reflexivity.
Qed.

(** The statement of C27 as it stands is false: a reader that found an old document puts it into
    the slot after a key with another hash has taken the slot from the newer document; from then on
    reads return the old one. *)
Definition race_before : list bev :=
  bw 0 (bd 1 10 5) ++ bw 0 (bd 9 20 6) ++ [BRead 1 [1]; BHint 1; BFind 1; BWrite 0 (bd 1 11 7)].
Definition race_after : list bev := BEnd 0 :: bw 0 (bd 9 21 8) ++ [BFill 1; BEnd 1].
Theorem C27_shared_slot_refuted : exists khash size es1 s1 w r off es2 t es3 s res,
  bruns khash size es1 b_new = Some s1 /\ b_pc s1 w = WPut r off /\
  bruns khash size (BPut w :: es2 ++ BRead t (r_key r) :: es3) s1 = Some s /\ ~ In (BEnd t) es3 /\
  b_pc s t = RDone (r_key r) res /\
  rising (b_file s) /\ (forall q, In q (b_file s) -> 1 <= r_seq q) /\ ~ as_new r res.
Proof.
  exists bh, 8, race_before. eexists. exists 0%nat, (bd 1 11 7), 3, race_after, 2%nat, [BHint 2]. eexists. exists (Some (bd 1 10 5)).
  split; [vm_compute; reflexivity|]. split; [reflexivity|]. split; [vm_compute; reflexivity|].
  split; [intros [H|[]]; discriminate H|]. split; [reflexivity|]. cbn [b_file].
  split.
  - intros a r b q Hf Hq Hk.
    destruct a as [|x1 a]; [|destruct a as [|x2 a]; [|destruct a as [|x3 a]; [|destruct a as [|x4 a]; [|destruct a; discriminate Hf]]]];
      injection Hf; intros; subst; cbn in Hq; repeat (destruct Hq as [<-|Hq]; [cbn in Hk |- *; try discriminate Hk; cbv; intros QQ; discriminate QQ|]); contradiction Hq.
  - split.
    + intros q Hq. cbn in Hq. repeat (destruct Hq as [<-|Hq]; [cbv; intros QQ; discriminate QQ|]). contradiction Hq.
    + intros (d & Hd & _ & Hle). injection Hd as <-. cbv in Hle. apply Hle. reflexivity.
Qed.
Print Assumptions C27_shared_slot_refuted.

(** Moreover the slots are not protected by the locks: two updates of one slot may hold different
    mutexes, for every number of slots that is not a multiple of 17. *)
Theorem C27_unprotected_slot_refuted : forall size, size mod 17 <> 0 ->
  exists h1 h2, slot_of size h1 = slot_of size h2 /\ lock_of h1 <> lock_of h2.
Proof.
  intros size H. exists 0, size. unfold slot_of, lock_of.
  assert (size <> 0) by (intros ->; apply H; reflexivity).
  rewrite N.mod_0_l, N.mod_same by assumption. split; [reflexivity|]. rewrite N.mod_0_l by discriminate. congruence.
Qed.
Print Assumptions C27_unprotected_slot_refuted.
