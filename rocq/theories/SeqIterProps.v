(** Properties of iteration by sequence number. *)
From Verif Require Import Base KeyModel KeyProofs LogFormatModel BloomModel MemTableModel LogMgrModel DbModel LogMgrProofs DbProofs DbProps
  LsmModel LsmProofs LsmProofs2 LsmProofs5 LsmProps FullModel FullProofs FullProps IterModel IterSpec LeafIterModel DbIterModel DbIterProofs2 DbIterProofs3 DbIterProofs4 DbIterProofs5 IterCheck IterProps SeqIterModel SeqIterProofs.
From Coq Require Import Lia Sorted.
Local Open Scope N_scope.

Definition sn_get (d : dit msi) : option rec := d_get msi y_get BySeq d.
Definition sn_calls (fuel : nat) (ms : list move) (d : dit msi) : option (list (bool * option rec)) :=
  d_moves msi y_get y_next y_prev y_seek y_to_end BySeq fuel ms d.

(** C20: an iterator over the numbers from [min] to [max] shows written records of that range only, in
    the order of their numbers, and all of them that are not flushed yet or are the current value
    of their key, when every number was assigned by the database (so none is skipped) and the calls
    are next(), prev(), gotoBegin() and gotoEnd() in one direction.  Missing: numbers given by the
    user with gaps, seeks, and a maximum of 0; see the refutations. *)
Theorem C20_consecutive_partial : forall hash part c tc h f min max, cfg_ok c -> tcfg_ok part tc -> freach hash part c tc h f -> consecutive h -> max <> 0 ->
  exists l n, numbered h (d_tab (fd_db f)) min max l /\ forall fuel, (n <= fuel)%nat -> exists it, db_itr_sn fuel min max (d_log (fd_db f)) (fd_lsm f) = Some it /\
    match it with
    | None => l = []
    | Some d => sn_get d = at_pos l (opened l) /\
        forall ms, (forall t, In (SeekG t) ms -> r_seq t = 0) -> (forall t, ~ In (SeekS t) ms) -> one_direction true ms = true ->
          exists out, sn_calls fuel ms d = Some out /\ ctrace BySeq l (opened l) ms out
    end.
Proof.
  intros hash part c tc h f min max A B C D E. destruct (iter_sn_spec hash part c tc h f min max false A B C D E) as (l & n & Hn & Q); [discriminate|].
  exists l, n. split; [exact Hn|]. intros fuel Hf. destruct (Q fuel Hf) as (it & I1 & I2). exists it. split; [exact I1|]. destruct it as [d|]; [|exact I2]. destruct I2 as [I2 I3]. split; [exact I2|].
  intros ms M1 M2 M3. apply I3; [exact M1|exact M2|now intros _].
Qed.
Print Assumptions C20_consecutive_partial.
(** C20: the same for any mixture of the calls, when every log file and every table has two records
    in the range. *)
Theorem C20_both_directions_partial : forall hash part c tc h f min max, cfg_ok c -> tcfg_ok part tc -> freach hash part c tc h f -> consecutive h -> max <> 0 ->
  each_leaf_sn two_numbers min max f ->
  exists l n, numbered h (d_tab (fd_db f)) min max l /\ forall fuel, (n <= fuel)%nat -> exists it, db_itr_sn fuel min max (d_log (fd_db f)) (fd_lsm f) = Some it /\
    match it with
    | None => l = []
    | Some d => sn_get d = at_pos l (opened l) /\
        forall ms, (forall t, In (SeekG t) ms -> r_seq t = 0) -> (forall t, ~ In (SeekS t) ms) ->
          exists out, sn_calls fuel ms d = Some out /\ ctrace BySeq l (opened l) ms out
    end.
Proof.
  intros hash part c tc h f min max A B C D E T. destruct (iter_sn_spec hash part c tc h f min max true A B C D E) as (l & n & Hn & Q); [now intros _|].
  exists l, n. split; [exact Hn|]. intros fuel Hf. destruct (Q fuel Hf) as (it & I1 & I2). exists it. split; [exact I1|]. destruct it as [d|]; [|exact I2]. destruct I2 as [I2 I3]. split; [exact I2|].
  intros ms M1 M2. apply I3; [exact M1|exact M2|discriminate].
Qed.
Print Assumptions C20_both_directions_partial.

(** ** Cases *)
Definition nkv (r : rec) : N * key * list N := (r_seq r, r_key r, r_val r).
Definition seen_sn (os : list fop) (min max : N) (ms : list move) : option (option (option (N * key * list N) * list (bool * option (N * key * list N)))) :=
  match at_end os with
  | None => None
  | Some (h, f) =>
      match db_itr_sn 100 min max (d_log (fd_db f)) (fd_lsm f) with
      | Some (Some d) => match sn_calls 100 ms d with
                         | Some out => Some (Some (option_map nkv (sn_get d), map (fun x => (fst x, option_map nkv (snd x))) out))
                         | None => None
                         end
      | Some None => Some None
      | None => None
      end
  end.
Fixpoint numbers_b (n : nat) (s : N) (h : list rec) : bool :=
  match n, h with
  | O, [] => true
  | S n', r :: t => (r_seq r =? s) && numbers_b n' (s + 1) t
  | _, _ => false
  end.
Lemma numbers_b_sound : forall h s, 1 <= s -> numbers_b (length h) s h = true -> (h = [] \/ lastseq h + 1 = s + N.of_nat (length h)) /\ forall n, s <= n < s + N.of_nat (length h) -> exists r, In r h /\ r_seq r = n.
Proof.
  induction h as [|r h IH]; intros s Hs H; [split; [now left|]; intros n Hn; cbn in Hn; lia|]. cbn [length numbers_b] in H. apply andb_prop in H as [H1 H2]. apply N.eqb_eq in H1. destruct (IH (s + 1) ltac:(lia) H2) as [E Q]. split.
  - right. destruct E as [->|E]; [cbn [lastseq length]; unfold lastseq; cbn; lia|]. destruct h as [|x h]; [unfold lastseq; cbn; lia|]. assert (El : lastseq (r :: x :: h) = lastseq (x :: h)) by (destruct (exists_last (l := x :: h) ltac:(discriminate)) as (u & z & ->); now rewrite (app_comm_cons u [z] r), !lastseq_snoc). rewrite El. cbn [length] in *. lia.
  - intros n Hn. destruct (N.eq_dec n s) as [->|Ne]; [exists r; split; [now left|exact H1]|]. destruct (Q n) as (x & X1 & X2); [cbn [length] in Hn; lia|]. exists x. split; [now right|exact X2].
Qed.
Lemma numbers_consecutive : forall h, numbers_b (length h) 1 h = true -> consecutive h.
Proof.
  intros h H n Hn. destruct (numbers_b_sound h 1 ltac:(lia) H) as [[->|E] Q]; [cbn in Hn; lia|]. apply Q. lia.
Qed.

(** The database of [C50_case]: twelve records, the first four in level 1, the next four in level 0, the
    rest in the log; the range from 3 to 10 starts in level 1 and ends in the log.  Number 5 (key 2,
    superseded) is shown, 3 and 4 (key 5 and 9, superseded) were in another table and are shown too. *)
Example C20_case : match at_end ex_it_ops with
  | Some (h, f) => freach xhash xpart ex_c xc0 h f /\ consecutive h /\ length h = 12%nat /\ length (d_tab (fd_db f)) = 8%nat
  | None => False
  end /\
  seen_sn ex_it_ops 3 10 [Next; Next; Next; Next; Next; Next; Next; Next; ToEnd; Prev] =
  Some (Some (Some (3, [5], [50]),
       [(true, Some (4, [9], [90])); (true, Some (5, [2], [20])); (true, Some (6, [5], [51])); (true, Some (7, [7], [70])); (true, Some (8, [9], [91])); (true, Some (9, [5], [52]));
        (true, Some (10, [3], [])); (false, Some (10, [3], [])); (true, Some (10, [3], [])); (true, Some (9, [5], [52]))])).
Proof.
  split; [|vm_compute; reflexivity]. destruct (at_end ex_it_ops) as [[h f]|] eqn:E; [|vm_compute in E; discriminate]. split; [apply (at_end_reach ex_it_ops); [safe_ops|exact E]|].
  vm_compute in E. injection E as <- <-. split; [apply numbers_consecutive; reflexivity|split; reflexivity].
Qed.
Example C20_both_case : match at_end ex_it_ops with
  | Some (h, f) => each_leaf_sn two_numbers 3 10 f
  | None => False
  end.
Proof.
  destruct (at_end ex_it_ops) as [[h f]|] eqn:E; [|vm_compute in E; discriminate]. vm_compute in E. injection E as <- <-. split.
  - intros ls y El Hy. vm_compute in El. injection El as <-. repeat (destruct Hy as [<-|Hy]; [eexists; eexists; split; [left; reflexivity|]; split; [right; left; reflexivity|]; vm_compute; reflexivity|]). destruct Hy.
  - intros t Ht. vm_compute in Ht. repeat (destruct Ht as [<-|Ht]; [eexists; eexists; split; [left; reflexivity|]; split; [right; left; reflexivity|]; vm_compute; reflexivity|]). destruct Ht.
Qed.

(** ** Refutations *)

(** A record outside of the range [min]..[max] comes out of the iterator. *)
Definition out_of_range (os : list fop) (min max : N) (ms : list move) : Prop :=
  exists h f d out r, at_end os = Some (h, f) /\ freach xhash xpart ex_c xc0 h f /\ db_itr_sn 100 min max (d_log (fd_db f)) (fd_lsm f) = Some (Some d) /\
    sn_calls 100 ms d = Some out /\ (sn_get d = Some r \/ exists b, In (b, Some r) out) /\ ~ min <= r_seq r <= max.
Definition outside_b (os : list fop) (min max : N) (ms : list move) : bool :=
  match at_end os with
  | Some (h, f) => match db_itr_sn 100 min max (d_log (fd_db f)) (fd_lsm f) with
                   | Some (Some d) => match sn_calls 100 ms d with
                                      | Some out => existsb (fun x => match x with Some r => negb ((min <=? r_seq r) && (r_seq r <=? max)) | None => false end) (sn_get d :: map snd out)
                                      | None => false
                                      end
                   | _ => false
                   end
  | None => false
  end.
Lemma outside_b_sound : forall os min max ms, safe_tab os -> outside_b os min max ms = true -> out_of_range os min max ms.
Proof.
  intros os min max ms S E. unfold outside_b in E. destruct (at_end os) as [[h f]|] eqn:Ea; [|discriminate].
  destruct (db_itr_sn 100 min max (d_log (fd_db f)) (fd_lsm f)) as [[d|]|] eqn:Ed; [|discriminate|discriminate]. destruct (sn_calls 100 ms d) as [out|] eqn:Ec; [|discriminate].
  apply existsb_exists in E as (x & Hx & E). destruct x as [r|]; [|discriminate].
  exists h, f, d, out, r. split; [exact Ea|]. split; [exact (at_end_reach os h f S Ea)|]. split; [exact Ed|]. split; [exact Ec|]. split.
  - destruct Hx as [Hx|Hx]; [now left|right]. apply in_map_iff in Hx as ([b x] & E1 & E2). cbn in E1. subst x. now exists b.
  - intros [A B]. apply negb_true_iff, andb_false_iff in E as [E|E]; lia.
Qed.
Definition wn (n k v : N) : fop := FOp (ex_at n k v).

(** C20: numbers 1 and 10 in one log file; the range 5..7 is empty, and the iterator shows 10. *)
Definition ex_gap : list fop := [wn 1 1 11; wn 10 2 22].
Theorem C20_gap_refuted : out_of_range ex_gap 5 7 [] /\ seen_sn ex_gap 5 7 [] = Some (Some (Some (10, [2], [22]), [])).
Proof. split; [apply outside_b_sound; [safe_ops|vm_compute; reflexivity]|vm_compute; reflexivity]. Qed.
Print Assumptions C20_gap_refuted.
(** C20: numbers 1, 2 in one log file and 10, 11 in the next; the range 5..20 shows 2 as well. *)
Definition ex_gap2 : list fop := [wn 1 1 11; wn 2 2 22; wn 10 3 33; wn 11 4 44].
Theorem C20_gap_between_files_refuted : out_of_range ex_gap2 5 20 [Next; Next] /\
  seen_sn ex_gap2 5 20 [Next; Next] = Some (Some (Some (2, [2], [22]), [(true, Some (10, [3], [33])); (true, Some (11, [4], [44]))])).
Proof. split; [apply outside_b_sound; [safe_ops|vm_compute; reflexivity]|vm_compute; reflexivity]. Qed.
Print Assumptions C20_gap_between_files_refuted.
(** C20: seekSN(4) on an iterator over 1..3 shows 4, for both options. *)
Definition ex_four : list fop := [w 1 11; w 2 22; w 3 33; w 4 44].
Definition to_sn (n : N) : rec := mkRec n INS [] [] [].
Theorem C20_seek_refuted : out_of_range ex_four 1 3 [SeekG (to_sn 4)] /\ out_of_range ex_four 1 3 [SeekS (to_sn 4)] /\
  seen_sn ex_four 1 3 [SeekG (to_sn 4); SeekS (to_sn 4)] = Some (Some (Some (1, [1], [11]), [(true, Some (4, [4], [44])); (true, Some (4, [4], [44]))])).
Proof. split; [|split]; [apply outside_b_sound; [safe_ops|vm_compute; reflexivity]|apply outside_b_sound; [safe_ops|vm_compute; reflexivity]|vm_compute; reflexivity]. Qed.
Print Assumptions C20_seek_refuted.
(** C20: seekSN(1, SMALLER) in the range 1..4 lands on 4. *)
Theorem C20_seek_smaller_refuted : seen_sn ex_four 1 4 [SeekS (to_sn 1)] = Some (Some (Some (1, [1], [11]), [(true, Some (4, [4], [44]))])).
Proof. vm_compute. reflexivity. Qed.
Print Assumptions C20_seek_smaller_refuted.
(** C20: the range up to 0 shows every flushed record. *)
Theorem C20_zero_refuted : out_of_range (ex_four ++ fl) 0 0 [Next] /\
  seen_sn (ex_four ++ fl) 0 0 [Next; Next; Next] = Some (Some (Some (1, [1], [11]), [(true, Some (2, [2], [22])); (true, Some (3, [3], [33])); (true, Some (4, [4], [44]))])).
Proof. split; [apply outside_b_sound; [safe_ops|vm_compute; reflexivity]|vm_compute; reflexivity]. Qed.
Print Assumptions C20_zero_refuted.
