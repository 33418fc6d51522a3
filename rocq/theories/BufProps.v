(** Theorems about SizedBuf and Record (C125 to C128). *)
From Verif Require Import Base BufModel BufSpec BufProofs BufProofs2.
Local Open Scope N_scope.

(** ** C125: no double free, no use after free, no leak *)
Theorem C125_safe_partial : forall w o, breach w -> careful o w -> exists w', bstep o w = Some w'.
Proof. intros w o R H. destruct (breach_wi w R) as [I S]. destruct (step_ok o w I S H) as (w' & E & _). exists w'. exact E. Qed.
Theorem C125_one_owner_partial : forall w v x, breach w -> owns w v -> owns w x -> s_ptr (w_var w v) = s_ptr (w_var w x) -> v = x.
Proof. intros w v x R. exact (wi_one w (proj1 (breach_wi w R)) v x). Qed.
Theorem C125_no_leak_partial : forall w id b, breach w -> blk id w = Some b -> bl_kind b <> KUser -> exists v, owns w v /\ s_ptr (w_var w v) = Some id.
Proof. intros w id b R. exact (wi_leak w (proj1 (breach_wi w R)) id b). Qed.
Theorem C125_free_partial : forall w v, breach w -> exists w', bstep (BFree v) w = Some w' /\ ~ owns w' v /\
  (owns w v -> exists id b, s_ptr (w_var w v) = Some id /\ blk id w = Some b /\ blk id w' = None).
Proof. exact free_gone. Qed.

(** Growing an owned buffer to 0 bytes and freeing it frees its memory twice. *)
Theorem C125_resize_zero_refuted : exists w w1, breach w /\ owns w 0 /\ bytes_of w 0 = Some [1; 2; 3] /\
  bstep (BResize 0 0 false []) w = Some w1 /\ owns w1 0 /\ bytes_of w1 0 = None /\ bstep (BFree 0) w1 = None.
Proof. exact resize_zero. Qed.

(** ** C126: a buffer made for [s] bytes stands for those [s] bytes *)
Theorem C126_set_partial : forall w v p b s, blk p w = Some b -> s <= N.of_nat (length (bl_data b)) -> s < 2 ^ 32 ->
  bytes_of (b_set v s (Some p) w) v = Some (firstn (N.to_nat s) (bl_data b)).
Proof. exact set_bytes. Qed.
Theorem C126_alloc_partial : forall w v p b s, breach w -> blk p w = Some b -> s <= N.of_nat (length (bl_data b)) -> s < 2 ^ 32 ->
  exists w', bstep (BAlloc v s (Some p)) w = Some w' /\ bytes_of w' v = Some (firstn (N.to_nat s) (bl_data b)).
Proof. exact alloc_bytes. Qed.
Theorem C126_resize_partial : forall w v n moves fill l, breach w -> bytes_of w v = Some l -> s_free (w_var w v) = true -> n <> 0 -> n < 2 ^ 32 ->
  exists w' l', bstep (BResize v n moves fill) w = Some w' /\ bytes_of w' v = Some l' /\ N.of_nat (length l') = n /\
    forall i, N.of_nat i < n -> (i < length l)%nat -> nth i l' 0 = nth i l 0.
Proof. exact resize_bytes. Qed.
(** Of 4 GiB or more, only the size modulo 4 GiB is kept. *)
Theorem C126_huge_refuted : exists d w', N.of_nat (length d) = 2 ^ 32 + 5 /\ bstep (BMem KUser d 0) w_new = Some w' /\ bytes_of w' 0 <> Some d /\ s_size (w_var w' 0) = 5.
Proof. exact huge5. Qed.

(** ** C127: copies equal their source and are independent of it *)
Theorem C127_copy : forall w src dst w1 w2, breach w -> careful (BCopy src dst) w -> bstep (BCopy src dst) w = Some w1 -> brest dst w1 w2 ->
  bytes_of w2 dst = bytes_of w src.
Proof. exact copy_rest. Qed.
Theorem C127_source : forall w src dst w1 i x w2, breach w -> careful (BCopy src dst) w -> src <> dst -> bstep (BCopy src dst) w = Some w1 ->
  bstep (BPoke dst i x) w1 = Some w2 -> bytes_of w2 src = bytes_of w src.
Proof. intros w src dst w1 i x w2 R [_ H] n. exact (copy_source w src dst w1 i x w2 (proj1 (breach_wi w R)) H n). Qed.
(** What a buffer owns is changed by nobody else. *)
Theorem C127_owner : forall w v w', breach w -> owns w v -> brest v w w' -> owns w' v /\ bytes_of w' v = bytes_of w v.
Proof. exact owner_rest. Qed.
Theorem C127_move : forall w src dst w', src <> dst -> bstep (BMove src dst) w = Some w' ->
  bytes_of w' dst = bytes_of w src /\ bytes_of w' src = Some [] /\ (owns w' dst <-> owns w src) /\ ~ owns w' src.
Proof. exact move_bytes. Qed.

(** ** C128: records *)
Theorem C128_clone_partial : forall w a src, breach w -> NoDup (vars a ++ vars src) -> (forall v, In v (vars a) -> ~ owns w v) ->
  s_ptr (w_var w (rc_key a)) = None -> s_ptr (w_var w (rc_val a)) = None -> (forall v, In v (vars src) -> bytes_of w v <> None) ->
  exists w1, r_clone a src w = Some (true, w1) /\ breach w1 /\
    bytes_of w1 (rc_key a) = bytes_of w (rc_key src) /\ bytes_of w1 (rc_val a) = bytes_of w (rc_val src) /\ bytes_of w1 (rc_meta a) = bytes_of w (rc_meta src) /\
    exists w2, brun (r_free a) w1 = Some w2 /\ forall id, blk id w2 = blk id w.
Proof. exact clone_ok. Qed.
Theorem C128_move_partial : forall w a b, breach w -> NoDup (vars a ++ vars b) -> (forall v, In v (vars b) -> ~ owns w v) ->
  exists w', brun (r_move a b) w = Some w' /\ breach w' /\ w_heap w' = w_heap w /\
    w_var w' (rc_key b) = w_var w (rc_key a) /\ w_var w' (rc_val b) = w_var w (rc_val a) /\ w_var w' (rc_meta b) = w_var w (rc_meta a) /\
    (forall v, In v (vars a) -> w_var w' v = s_empty) /\ forall v, ~ In v (vars a ++ vars b) -> w_var w' v = w_var w v.
Proof. exact move_ok. Qed.
(** An empty record that has metadata: clone loses its memory. *)
Theorem C128_leak_refuted : exists w w1 w2 id b, breach w /\ r_is_empty (mkR 0 1 2) w = true /\ owns w 2 /\ s_ptr (w_var w 2) = Some id /\
  r_clone (mkR 0 1 2) (mkR 3 4 5) w = Some (true, w1) /\ brun (r_free (mkR 0 1 2) ++ r_free (mkR 3 4 5)) w1 = Some w2 /\
  blk id w2 = Some b /\ bl_kind b = KMalloc /\ forall v, v < 6 -> ~ owns w2 v.
Proof. exact clone_leak. Qed.
(** An empty record whose key is the empty string: clone refuses. *)
Theorem C128_refuse_refuted : exists w, breach w /\ r_is_empty (mkR 0 1 2) w = true /\ (forall v, v < 6 -> ~ owns w v) /\
  r_clone (mkR 0 1 2) (mkR 3 4 5) w = Some (false, w).
Proof. exact clone_refuse. Qed.

(** ** Cases *)
Definition demo : list bop := [BMem KUser [10; 11] 9; BAlloc 0 3 None; BPoke 0 1 7; BCopy 0 1; BMem KNew [5] 2; BMove 2 3; BFree 0; BResize 1 5 true [8]].
Example C125_case : exists w, brun demo w_new = Some w /\ breach w /\ owns w 1 /\ owns w 3 /\ ~ owns w 0 /\
  bytes_of w 1 = Some [0; 7; 0; 8; 0] /\ bytes_of w 3 = Some [5] /\ careful (BCopy 1 0) w.
Proof.
  eexists. split; [vm_compute; reflexivity|]. split; [eapply (breach_run demo w_new); [apply br_new|unfold demo; cares|vm_compute; reflexivity]|].
  split; [left; reflexivity|]. split; [right; reflexivity|]. split; [intros [X|X]; vm_compute in X; discriminate|]. split; [reflexivity|]. split; [reflexivity|].
  split; [intros [X|X]; vm_compute in X; discriminate|vm_compute; discriminate].
Qed.
Example C126_case : exists w, breach w /\ bytes_of w 0 = Some [1; 2; 3; 4] /\ exists w', bstep (BAlloc 1 3 (Some 0)) w = Some w' /\ bytes_of w' 1 = Some [1; 2; 3].
Proof.
  eexists. split; [eapply (breach_run [BMem KUser [1; 2; 3; 4] 0] w_new); [apply br_new|cares|vm_compute; reflexivity]|].
  split; [reflexivity|]. eexists. split; vm_compute; reflexivity.
Qed.
(** The copy is written to, the source freed; another buffer gets the memory of neither. *)
Example C127_case : exists w w1 w2, breach w /\ careful (BCopy 0 1) w /\ bstep (BCopy 0 1) w = Some w1 /\ brest 1 w1 w2 /\ owns w1 1 /\
  bytes_of w2 1 = Some [1; 2; 3] /\ bytes_of w2 0 = Some [9].
Proof.
  eexists. eexists. eexists. split; [eapply (breach_run [BMem KMalloc [1; 2; 3] 0] w_new); [apply br_new|cares|vm_compute; reflexivity]|].
  split; [split; [intros [X|X]; vm_compute in X; discriminate|vm_compute; discriminate]|]. split; [vm_compute; reflexivity|].
  split; [|split; [left; reflexivity|split]].
  - eapply (bs_step _ _ (BPoke 0 0 77)); [cbn [careful]; eexists; eexists; split; [reflexivity|]; split; [reflexivity|reflexivity]|cbn; discriminate|reflexivity|].
    eapply (bs_step _ _ (BFree 0)); [exact Logic.I|cbn; discriminate|reflexivity|].
    eapply (bs_step _ _ (BMem KUser [9] 0)); [intros [X|X]; vm_compute in X; discriminate|cbn; discriminate|reflexivity|]. apply bs_refl.
  - reflexivity.
  - reflexivity.
Qed.
Example C128_case : exists w w1 w2, breach w /\ (forall v, In v (vars (mkR 0 1 2)) -> ~ owns w v) /\ r_clone (mkR 0 1 2) (mkR 3 4 5) w = Some (true, w1) /\
  bytes_of w1 0 = Some [1] /\ bytes_of w1 1 = Some [2; 3] /\ bytes_of w1 2 = Some [4] /\ brun (r_free (mkR 0 1 2)) w1 = Some w2 /\ w_heap w2 = w_heap w.
Proof.
  eexists. eexists. eexists. split; [eapply (breach_run [BMem KMalloc [1] 3; BMem KUser [2; 3] 4; BMem KNew [4] 5] w_new); [apply br_new|cares|vm_compute; reflexivity]|].
  split; [intros v Hv; cbn [vars rc_key rc_val rc_meta In] in Hv; destruct Hv as [<-|[<-|[<-|[]]]]; intros [X|X]; vm_compute in X; discriminate|].
  split; [vm_compute; reflexivity|]. split; [reflexivity|]. split; [reflexivity|]. split; [reflexivity|]. split; vm_compute; reflexivity.
Qed.

Print Assumptions C125_safe_partial.
Print Assumptions C125_one_owner_partial.
Print Assumptions C125_no_leak_partial.
Print Assumptions C125_free_partial.
Print Assumptions C125_resize_zero_refuted.
Print Assumptions C126_set_partial.
Print Assumptions C126_alloc_partial.
Print Assumptions C126_resize_partial.
Print Assumptions C126_huge_refuted.
Print Assumptions C127_copy.
Print Assumptions C127_source.
Print Assumptions C127_owner.
Print Assumptions C127_move.
Print Assumptions C128_clone_partial.
Print Assumptions C128_move_partial.
Print Assumptions C128_leak_refuted.
Print Assumptions C128_refuse_refuted.
