(** Claim C129 about a death in the middle of a rollback. *)
From Verif Require Import Base KeyModel LogFormatModel BloomModel MemTableModel RollbackModel RollCrashModel RollbackSpec RollCrashSpec
  RollbackProofs RollbackProofs2 RollbackProofs3 RollbackProofs4 RollbackProps RollCrashProofs.
Local Open Scope N_scope.

(** ** C129.  A rollback that is interrupted by the death of the process has happened or has not *)

(** It has not when the process dies right after the sync; it has when the process dies after the
    manifest was written, or before that but after one of the later files was unlinked.  Missing:
    the moment in between. *)
Theorem C129_ends_partial : forall hash c L s open n mo, cfg_fine c -> rreach hash c L s -> consecutive L -> numbered n L <> None -> mo <> MCut ->
  exists s2, r_die hash c open mo n s = Ok s2 /\
    reads_as hash c s2 (match mo with MSynced => L | _ => rolled_back n L end).
Proof. exact die_ends. Qed.
Print Assumptions C129_ends_partial.

(** In between, the records after [n] in the file that was shortened are gone, up to some number [b]
    of a record, and the later ones are still there. *)
Theorem C129_cut_partial : forall hash c L s open n, cfg_fine c -> rreach hash c L s -> consecutive L -> numbered n L <> None ->
  exists s2 b, r_die hash c open MCut n s = Ok s2 /\ numbered b L <> None /\ n <= b /\ reads_as hash c s2 (with_hole n b L).
Proof. exact die_cut. Qed.
Print Assumptions C129_cut_partial.

(** In between, but no log file begins after [n]: it has happened. *)
Theorem C129_newest_partial : forall hash c L s open n, cfg_fine c -> rreach hash c L s -> consecutive L -> numbered n L <> None ->
  (forall f, In f (rs_files s) -> rf_start f <= n) ->
  exists s2, r_die hash c open MCut n s = Ok s2 /\ reads_as hash c s2 (rolled_back n L).
Proof. exact die_newest. Qed.
Print Assumptions C129_newest_partial.

(** At any of the moments, no record up to [n] is lost, and no record appears that was not there. *)
Theorem C129_kept_partial : forall hash c L s open n mo, cfg_fine c -> rreach hash c L s -> consecutive L -> numbered n L <> None ->
  exists s2, r_die hash c open mo n s = Ok s2 /\
    (forall m, m <= n -> answers (r_get_seq hash c m s2) (numbered m L)) /\
    (forall m r, r_get_seq hash c m s2 = Ok r -> numbered m L = Some r) /\
    (forall k r, r_get hash c k s2 = Ok r -> In r L).
Proof. exact die_kept. Qed.
Print Assumptions C129_kept_partial.

(** Seven records in three files, a rollback to the second. *)
Definition y_ops : list rop := [xput 1 10; xput 2 20; xput 3 30; xput 4 40; xsync; xput 5 50; xput 6 60; xput 7 70].
Definition y_reads (s : rst) : list (option (list N)) := map (fun n => xval (r_get_seq xh xc n s)) [1; 2; 3; 4; 5; 6; 7].
Definition y_die (mo : moment) (n : N) (s : rst) : option rst := match r_die xh xc (fun _ => true) mo n s with Ok s2 => Some s2 | _ => None end.

Example C129_case : exists L s, rreach xh xc L s /\ cfg_fine xc /\ consecutive L /\ numbered 2 L <> None /\ map r_seq L = [1; 2; 3; 4; 5; 6; 7] /\
  map rf_num (rs_files s) = [0; 1; 2] /\
  map (fun mo => option_map y_reads (y_die mo 2 s)) [MSynced; MCut; MUnlinked 0; MUnlinked 1; MStored] =
    [Some [Some [10]; Some [20]; Some [30]; Some [40]; Some [50]; Some [60]; Some [70]];
     Some [Some [10]; Some [20]; None; Some [40]; Some [50]; Some [60]; Some [70]];
     Some [Some [10]; Some [20]; None; None; None; None; None];
     Some [Some [10]; Some [20]; None; None; None; None; None];
     Some [Some [10]; Some [20]; None; None; None; None; None]].
Proof.
  destruct (fine_run xh xc y_ops [] (r_new xc)) as [[L s]|] eqn:E; [|vm_compute in E; discriminate].
  exists L, s. split; [exact (fine_run_reach _ _ _ _ _ _ _ (rr_new _ _) E)|]. vm_compute in E. injection E as <- <-.
  split; [vm_compute; auto|]. split; [apply consecb_ok; vm_compute; reflexivity|]. split; [vm_compute; discriminate|].
  split; [reflexivity|]. split; [reflexivity|]. vm_compute. reflexivity.
Qed.

(** The newest file: rolled back to the last but one. *)
Example C129_newest_case : exists L s, rreach xh xc L s /\ consecutive L /\ numbered 7 L <> None /\
  (forall f, In f (rs_files s) -> rf_start f <= 7) /\ map r_seq L = [1; 2; 3; 4; 5; 6; 7; 8].
Proof.
  destruct (fine_run xh xc (y_ops ++ [xput 8 80]) [] (r_new xc)) as [[L s]|] eqn:E; [|vm_compute in E; discriminate].
  exists L, s. split; [exact (fine_run_reach _ _ _ _ _ _ _ (rr_new _ _) E)|]. vm_compute in E. injection E as <- <-.
  split; [apply consecb_ok; vm_compute; reflexivity|]. split; [vm_compute; discriminate|]. split; [|reflexivity].
  intros f [<-|[<-|[<-|[]]]]; vm_compute; discriminate.
Qed.

(** The full statement fails: record 3 is gone, records 4 to 7 are there. *)
Theorem C129_hole_refuted : exists L s s2 n, rreach xh xc L s /\ cfg_fine xc /\ consecutive L /\ numbered n L <> None /\
  r_die xh xc (fun _ => true) MCut n s = Ok s2 /\ ~ reads_as xh xc s2 L /\ ~ reads_as xh xc s2 (rolled_back n L).
Proof.
  destruct (fine_run xh xc y_ops [] (r_new xc)) as [[L s]|] eqn:E; [|vm_compute in E; discriminate].
  exists L, s. eexists _, 2. split; [exact (fine_run_reach _ _ _ _ _ _ _ (rr_new _ _) E)|]. vm_compute in E. injection E as <- <-.
  split; [vm_compute; auto|]. split; [apply consecb_ok; vm_compute; reflexivity|]. split; [vm_compute; discriminate|].
  split; [vm_compute; reflexivity|]. split.
  - intros [_ H]. specialize (H 3). vm_compute in H. discriminate.
  - intros [_ H]. specialize (H 4). vm_compute in H. destruct H as (e & H). discriminate.
Qed.
Print Assumptions C129_hole_refuted.

(** Worse: the database goes on with the hole; a record is written and synced after the restart, a
    read loads the file that was shortened, and the next clean close and open deletes all the later
    files, with the new record in them. *)
Theorem C129_later_record_refuted : exists L s s2 s3 s4 n r, rreach xh xc L s /\ consecutive L /\ numbered n L <> None /\
  r_die xh xc (fun _ => true) MCut n s = Ok s2 /\
  runs xh xc [xput 8 80; xsync; OLoad 0] s2 = ([RRec r; RDone; RDone], s3) /\
  r_get xh xc [8] s3 = Ok r /\ r_get_seq xh xc (r_seq r) s3 = Ok r /\
  r_step xh xc xopen s3 = (RDone, s4) /\
  (forall x, r_get xh xc [8] s4 <> Ok x) /\ (forall x, r_get_seq xh xc (r_seq r) s4 <> Ok x).
Proof.
  destruct (fine_run xh xc y_ops [] (r_new xc)) as [[L s]|] eqn:E; [|vm_compute in E; discriminate].
  exists L, s. eexists _, _, _, 2, _. split; [exact (fine_run_reach _ _ _ _ _ _ _ (rr_new _ _) E)|]. vm_compute in E. injection E as <- <-.
  split; [apply consecb_ok; vm_compute; reflexivity|]. split; [vm_compute; discriminate|].
  split; [vm_compute; reflexivity|]. split; [vm_compute; reflexivity|]. split; [vm_compute; reflexivity|]. split; [vm_compute; reflexivity|].
  split; [vm_compute; reflexivity|]. split; intros x H; vm_compute in H; discriminate.
Qed.
Print Assumptions C129_later_record_refuted.
