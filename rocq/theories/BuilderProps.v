(** Properties of databases made by the bulk builder (C99-C102). *)
From Coq Require Import Sorted.
From Verif Require Import Base KeyModel KeyProofs LogFormatModel BloomModel MemTableModel LsmModel LsmProofs2 LsmProofs5 LsmProps
  BuilderModel BuilderSpec BuilderProofs BuilderProofs2.
Local Open Scope N_scope.

(** ** C99: records given in ascending order *)

(** Every record reads back and nothing else does. *)
Theorem C99_reads_back : forall hash part c limit rs k, tcfg_ok part c -> (forall r, In r rs -> r_key r <> []) -> ascending rs ->
  N.of_nat (length rs) + tc_parts c + 1 <= NIL -> k <> [] ->
  (forall r, In r rs -> r_key r = k -> exists sq, tm_get hash part c k (built c limit rs) = Got (mkRec sq INS k (r_meta r) (r_val r))) /\
  ((forall r, In r rs -> r_key r <> k) -> tm_get hash part c k (built c limit rs) = GotErr KEY_NOT_FOUND).
Proof. exact builder_reads. Qed.
Print Assumptions C99_reads_back.

(** And after any later history of flushes, compactions, splits, merges and reopenings, a lookup
    finds the newest of what was built in and what was flushed later. *)
Theorem C99_later : forall hash part c limit rs R s k, tcfg_ok part c -> (forall r, In r rs -> r_key r <> []) -> ascending rs ->
  N.of_nat (length rs) + tc_parts c + 1 <= NIL ->
  lreach_from hash part c (numbered 1 rs) (built c limit rs) R s -> bf_safe c R -> k <> [] ->
  match newest_write R k with
  | None => tm_get hash part c k s = GotErr KEY_NOT_FOUND
  | Some r => tm_get hash part c k s = Got r \/ (is_del r = true /\ tm_get hash part c k s = GotErr KEY_NOT_FOUND)
  end.
Proof. exact builder_answer. Qed.
Print Assumptions C99_later.

(** ** C100: records given in any order *)

(** Full statement: C99_reads_back without [ascending], for distinct keys.  Two records, the larger key
    first, in two files. *)
Theorem C100_any_order_refuted : exists c limit rs r, tcfg_ok xpart c /\ NoDup (map r_key rs) /\ (forall r, In r rs -> r_key r <> []) /\
  In r rs /\ tm_get xhash xpart c (r_key r) (built c limit rs) = GotErr KEY_NOT_FOUND.
Proof.
  exists xc0, 100, [ins NIL [5] [50; 51; 52; 53]; ins NIL [1] [10; 11; 12; 13]], (ins NIL [5] [50; 51; 52; 53]).
  split; [repeat split; intros; vm_compute; congruence|]. split; [repeat constructor; cbn; intuition discriminate|].
  split; [intros r [<-|[<-|[]]]; discriminate|]. split; [now left|]. vm_compute. reflexivity.
Qed.
Print Assumptions C100_any_order_refuted.

(** Any order, if the files that come out do not overlap and each but the first begins with its
    smallest key. *)
Theorem C100_apart_partial : forall hash part c limit rs k, tcfg_ok part c -> (forall r, In r rs -> r_key r <> []) -> NoDup (map r_key rs) ->
  N.of_nat (length rs) + tc_parts c + 1 <= NIL -> apart_files (built_files limit rs) -> k <> [] ->
  (forall r, In r rs -> r_key r = k -> exists sq, tm_get hash part c k (built c limit rs) = Got (mkRec sq INS k (r_meta r) (r_val r))) /\
  ((forall r, In r rs -> r_key r <> k) -> tm_get hash part c k (built c limit rs) = GotErr KEY_NOT_FOUND).
Proof. exact any_reads. Qed.
Print Assumptions C100_apart_partial.

(** So any order at all, if everything fits in one file. *)
Theorem C100_one_file_partial : forall hash part c limit rs k, tcfg_ok part c -> (forall r, In r rs -> r_key r <> []) -> NoDup (map r_key rs) ->
  N.of_nat (length rs) + tc_parts c + 1 <= NIL -> total_size rs <= limit -> k <> [] ->
  (forall r, In r rs -> r_key r = k -> exists sq, tm_get hash part c k (built c limit rs) = Got (mkRec sq INS k (r_meta r) (r_val r))) /\
  ((forall r, In r rs -> r_key r <> k) -> tm_get hash part c k (built c limit rs) = GotErr KEY_NOT_FOUND).
Proof.
  intros hash part c limit rs k Hc K Nd Hn L. exact (any_reads hash part c limit rs k Hc K Nd Hn (one_apart limit rs K L)).
Qed.
Print Assumptions C100_one_file_partial.

(** Two files, the records of the first one descending. *)
Example C100_case : exists rs, NoDup (map r_key rs) /\ apart_files (built_files 200 rs) /\ N.of_nat (length (built_files 200 rs)) = 2 /\
  ~ ascending rs /\ (forall r, In r rs -> r_key r <> []).
Proof.
  exists [ins NIL [5] [50; 51]; ins NIL [1] [10; 11]; ins NIL [3] [30]; ins NIL [7] [70]; ins NIL [9] [90]].
  split; [repeat constructor; cbn; intuition discriminate|]. split.
  - split.
    + intros f Hf N r Hr. vm_compute in Hf. destruct Hf as [<-|[<-|[]]]; [now destruct N|]. cbn in Hr. destruct Hr as [<-|[<-|[]]]; discriminate.
    + intros f g Hf Hg Lt r Hr. vm_compute in Hf, Hg. destruct Hf as [<-|[<-|[]]]; destruct Hg as [<-|[<-|[]]]; cbn in Lt; try (vm_compute in Lt; discriminate).
      cbn in Hr. destruct Hr as [<-|[<-|[<-|[]]]]; reflexivity.
  - split; [reflexivity|]. split; [|intros r; cbn; intuition (subst; discriminate)]. intros A. apply Sorted.StronglySorted_inv in A as [_ A]. inversion A as [|? ? A1 _]. discriminate A1.
Qed.

(** ** C101: a database made from table files *)

(** Full statement: the same without [zero_smallest]. *)
Theorem C101_from_files_partial : forall hash part c fs R s k, tcfg_ok part c -> files_ok fs -> zero_smallest fs ->
  max_number fs + tc_parts c + 1 <= NIL ->
  lreach_from hash part c (all_docs fs) (build c fs) R s -> bf_safe c R -> k <> [] ->
  match newest_write R k with
  | None => tm_get hash part c k s = GotErr KEY_NOT_FOUND
  | Some r => tm_get hash part c k s = Got r \/ (is_del r = true /\ tm_get hash part c k s = GotErr KEY_NOT_FOUND)
  end.
Proof. exact files_answer. Qed.
Print Assumptions C101_from_files_partial.

Definition lo_file : tdata := mkTD 1 [97] 1 [ins 1 [97] [10]].
Definition hi_file : tdata := mkTD 0 [109] 3 [ins 2 [109] [20]; ins 3 [110] [30]].
Theorem C101_number_zero_refuted : exists fs r, files_ok fs /\ In r (all_docs fs) /\
  tm_get xhash xpart xc0 (r_key r) (build xc0 fs) = GotErr KEY_NOT_FOUND.
Proof.
  exists [lo_file; hi_file], (ins 3 [110] [30]). split.
  - constructor.
    + repeat constructor; cbn; intuition discriminate.
    + intros f [<-|[<-|[]]]; repeat constructor.
    + intros f [<-|[<-|[]]]; (split; [discriminate|]); eexists; eexists; split; reflexivity.
    + intros f r [<-|[<-|[]]]; cbn; intuition (subst; reflexivity).
    + intros f g [<-|[<-|[]]] [<-|[<-|[]]] N; try congruence; [left|right]; intros r; cbn; intuition (subst; reflexivity).
  - split; [cbn; auto|]. vm_compute. reflexivity.
Qed.
Print Assumptions C101_number_zero_refuted.

(** ** C102: sequence numbers of a built database *)

(** New records get larger numbers than all that are built in. *)
Theorem C102_later_are_larger : forall limit rs, (forall r, In r rs -> r_key r <> []) -> ascending rs ->
  forall r, In r (all_docs (built_files limit rs)) -> r_seq r < first_seqnum (built_files limit rs).
Proof. exact seqs_below. Qed.
Print Assumptions C102_later_are_larger.

(** No two records have the same number, if none was given one by the user. *)
Theorem C102_distinct_partial : forall limit rs, (forall r, In r rs -> r_key r <> []) -> ascending rs -> (forall r, In r rs -> r_seq r = NIL) ->
  NoDup (map r_seq (all_docs (built_files limit rs))).
Proof. exact auto_distinct. Qed.
Print Assumptions C102_distinct_partial.

(** Otherwise two can have the same although the given numbers are distinct. *)
Theorem C102_mixed_refuted : exists limit rs, (forall r, In r rs -> r_key r <> []) /\ ascending rs /\
  NoDup (filter (fun n => negb (n =? NIL)) (map r_seq rs)) /\ ~ NoDup (map r_seq (all_docs (built_files limit rs))).
Proof.
  exists 1000, [ins 1 [1] [10]; ins NIL [2] [20]]. split; [intros r [<-|[<-|[]]]; discriminate|].
  split; [repeat constructor|]. split; [vm_compute; repeat constructor; cbn; intuition|].
  vm_compute. intros N. inversion N as [|? ? N1 _]; subst. apply N1. now left.
Qed.
Print Assumptions C102_mixed_refuted.

(** ** a build that meets the hypotheses: five records in three files, then a flush and a compaction *)
Definition ex_recs : list rec := [ins NIL [1] [10]; ins NIL [2; 7] [20]; ins NIL [3] [30]; ins NIL [4] [40]; ins NIL [5; 5] [50]].
Example ex_asc : ascending ex_recs.
Proof. repeat constructor. Qed.
Example ex_files : map (fun f => (td_num f, td_min f, map r_seq (td_docs f))) (built_files 100 ex_recs) =
  [(0, [1], [1; 2]); (1, [3], [3; 4]); (2, [5; 5], [5])].
Proof. vm_compute. reflexivity. Qed.
Example ex_reads : map (fun k => tm_get xhash xpart xc0 k (built xc0 100 ex_recs)) [[1]; [2; 7]; [4]; [5; 5]; [2]; [9]] =
  [Got (ins 1 [1] [10]); Got (ins 2 [2; 7] [20]); Got (ins 4 [4] [40]); Got (ins 5 [5; 5] [50]); GotErr KEY_NOT_FOUND; GotErr KEY_NOT_FOUND].
Proof. vm_compute. reflexivity. Qed.
Example ex_later : match lrun xhash xpart xc0 [flush_of [ins 6 [4] [41]; ins 7 [0] [1]]; LZero never all_ok true every 0; LReload] (numbered 1 ex_recs) (built xc0 100 ex_recs) with
  | Some (_, s) => map (fun k => tm_get xhash xpart xc0 k s) [[4]; [0]; [3]] = [Got (ins 6 [4] [41]); Got (ins 7 [0] [1]); Got (ins 3 [3] [30])]
  | None => False
  end.
Proof. vm_compute. reflexivity. Qed.
