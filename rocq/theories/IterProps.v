(** Properties of the iterators. *)
From Verif Require Import Base KeyModel KeyProofs LogFormatModel BloomModel MemTableModel LogMgrModel DbModel LogMgrProofs DbProofs DbProps
  LsmModel LsmProofs LsmProofs2 LsmProofs5 LsmProps FullModel FullProofs FullProps IterModel IterSpec LeafIterModel DbIterModel DbIterProofs2 DbIterProofs3 DbIterProofs4 DbIterProofs5 IterCheck.
From Coq Require Import Lia Sorted.
Local Open Scope N_scope.

(** Iterator::get, and a list of calls on an open iterator, each with its success and the record
    get() returns afterwards ([None]: KEY_NOT_FOUND). *)
Definition it_get (d : dit mki) : option rec := d_get mki x_get ByKey d.
Definition it_calls (fuel : nat) (ms : list move) (d : dit mki) : option (list (bool * option rec)) :=
  d_moves mki x_get x_next x_prev x_seek x_to_end ByKey fuel ms d.

(** C50: an iterator over a range of keys shows exactly the live keys of the range with their newest
    values, in order, whatever came before: it opens at the first one; next() goes through all of
    them and then fails; gotoEnd() followed by prev() goes through all of them backwards; gotoBegin()
    starts again.  The calls go in one direction between gotoBegin and gotoEnd. *)
Theorem C50_one_direction : forall hash part c tc h f lo hi l, cfg_ok c -> tcfg_ok part tc -> freach hash part c tc h f -> live h lo hi l ->
  exists n, forall fuel, (n <= fuel)%nat -> exists it, db_itr fuel lo hi (d_log (fd_db f)) (fd_lsm f) = Some it /\
    match it with
    | None => l = []
    | Some d => it_get d = at_pos l (opened l) /\
        forall ms, (forall t, In (SeekG t) ms -> r_key t = []) -> (forall t, ~ In (SeekS t) ms) -> one_direction true ms = true ->
          exists out, it_calls fuel ms d = Some out /\ ctrace ByKey l (opened l) ms out
    end.
Proof. exact iter_one_direction. Qed.
Print Assumptions C50_one_direction.

(** C18: any mixture of next(), prev(), gotoBegin() and gotoEnd() walks over the same list, when
    every log file and every table of the range shows at least two keys.  Missing: log files or
    tables with one key, see [C18_single_record_refuted]. *)
Theorem C18_both_directions_partial : forall hash part c tc h f lo hi l, cfg_ok c -> tcfg_ok part tc -> freach hash part c tc h f -> live h lo hi l ->
  each_leaf two_keys lo hi f ->
  exists n, forall fuel, (n <= fuel)%nat -> exists it, db_itr fuel lo hi (d_log (fd_db f)) (fd_lsm f) = Some it /\
    match it with
    | None => l = []
    | Some d => it_get d = at_pos l (opened l) /\
        forall ms, (forall t, In (SeekG t) ms -> r_key t = []) -> (forall t, ~ In (SeekS t) ms) ->
          exists out, it_calls fuel ms d = Some out /\ ctrace ByKey l (opened l) ms out
    end.
Proof. exact iter_both_directions. Qed.
Print Assumptions C18_both_directions_partial.

(** C19: seek(t, GREATER) lands on the first live key not below [t], seek(t, SMALLER) on the last
    one not above it, and the calls after that go on from there, when the log files and the tables
    have keys on that side of [t] ([up_ok], [down_ok]).  Missing: the other cases, see the
    refutations below. *)
Theorem C19_seek_partial : forall hash part c tc h f lo hi l, cfg_ok c -> tcfg_ok part tc -> freach hash part c tc h f -> live h lo hi l ->
  exists n, forall fuel, (n <= fuel)%nat -> exists it, db_itr fuel lo hi (d_log (fd_db f)) (fd_lsm f) = Some it /\
    match it with
    | None => l = []
    | Some d => forall ms, (forall t, In (SeekG t) ms -> up_ok lo hi f t) -> (forall t, In (SeekS t) ms -> down_ok lo hi f t) -> one_direction true ms = true ->
          exists out, it_calls fuel ms d = Some out /\ ctrace ByKey l (opened l) ms out
    end.
Proof. exact iter_seek. Qed.
Print Assumptions C19_seek_partial.
Theorem C19_seek_both_directions_partial : forall hash part c tc h f lo hi l, cfg_ok c -> tcfg_ok part tc -> freach hash part c tc h f -> live h lo hi l ->
  each_leaf two_keys lo hi f ->
  exists n, forall fuel, (n <= fuel)%nat -> exists it, db_itr fuel lo hi (d_log (fd_db f)) (fd_lsm f) = Some it /\
    match it with
    | None => l = []
    | Some d => forall ms, (forall t, In (SeekG t) ms -> up_ok lo hi f t) -> (forall t, In (SeekS t) ms -> down_ok lo hi f t) ->
          exists out, it_calls fuel ms d = Some out /\ ctrace ByKey l (opened l) ms out
    end.
Proof. exact iter_seek_both. Qed.
Print Assumptions C19_seek_both_directions_partial.

(** ** Cases *)

(** The keys and values one sees: the record at the start, then success and record of each call. *)
Definition kv (r : rec) : key * list N := (r_key r, r_val r).
Definition at_end (os : list fop) : option (list rec * fdb) := frun xhash xpart ex_c xc0 os [] (f_new ex_c xc0).
Definition seen (os : list fop) (lo hi : key) (ms : list move) : option (option (key * list N) * list (bool * option (key * list N))) :=
  match at_end os with
  | None => None
  | Some (h, f) =>
      match db_itr 100 lo hi (d_log (fd_db f)) (fd_lsm f) with
      | Some (Some d) => match it_calls 100 ms d with
                         | Some out => Some (option_map kv (it_get d), map (fun x => (fst x, option_map kv (snd x))) out)
                         | None => None
                         end
      | _ => None
      end
  end.
(** The live keys after the operations. *)
Definition alive (os : list fop) (lo hi : key) : list (key * list N) :=
  match at_end os with Some (h, f) => map kv (live_list h lo hi) | None => [] end.
Definition to (k : N) : rec := mkRec 0 INS [k] [] [].
Definition w (k v : N) : fop := FOp (ex_put k v).
Definition del_ (k : N) : fop := FOp (ex_del k).
Definition fl : list fop := [FOp ex_sync; FOp ex_fl].
Definition down0 : fop := FTab (LZero never all_ok true every 0).

(** A reachable database on which the calls [ms] do not follow the specification. *)
Definition goes_wrong (os : list fop) (lo hi : key) (ms : list move) : Prop :=
  exists h f l d out, at_end os = Some (h, f) /\ freach xhash xpart ex_c xc0 h f /\ live h lo hi l /\ db_itr 100 lo hi (d_log (fd_db f)) (fd_lsm f) = Some (Some d) /\
    it_calls 100 ms d = Some out /\ ~ ctrace ByKey l (opened l) ms out.
Definition wrong_b (os : list fop) (lo hi : key) (ms : list move) : bool :=
  match at_end os with
  | Some (h, f) => match db_itr 100 lo hi (d_log (fd_db f)) (fd_lsm f) with
                   | Some (Some d) => match it_calls 100 ms d with
                                      | Some out => negb (ctrace_b ByKey (live_list h lo hi) (opened (live_list h lo hi)) ms out)
                                      | None => false
                                      end
                   | _ => false
                   end
  | None => false
  end.
Definition safe_tab (os : list fop) : Prop := forall o, In (FTab o) os -> lop_ok o.
Lemma at_end_reach : forall os h f, safe_tab os -> at_end os = Some (h, f) -> freach xhash xpart ex_c xc0 h f.
Proof. intros os h f S E. eapply frun_reach; [apply fr_new|exact S|exact E]. Qed.
Lemma wrong_b_sound : forall os lo hi ms, safe_tab os -> wrong_b os lo hi ms = true -> goes_wrong os lo hi ms.
Proof.
  intros os lo hi ms S E. unfold wrong_b in E. destruct (at_end os) as [[h f]|] eqn:Ea; [|discriminate].
  destruct (db_itr 100 lo hi (d_log (fd_db f)) (fd_lsm f)) as [[d|]|] eqn:Ed; [|discriminate|discriminate]. destruct (it_calls 100 ms d) as [out|] eqn:Ec; [|discriminate].
  exists h, f, (live_list h lo hi), d, out. split; [exact Ea|]. split; [exact (at_end_reach os h f S Ea)|]. split; [apply live_list_live|]. split; [exact Ed|]. split; [exact Ec|].
  intros T. apply ctrace_sound in T. rewrite T in E. discriminate.
Qed.
Ltac safe_ops := let o := fresh in let H := fresh in intros o H; cbn in H;
  repeat (destruct H as [H|H]; [try discriminate H; injection H as <-; cbn; try exact I; try reflexivity; intros; reflexivity|]); destruct H.

(** Keys 1 to 9 spread over level 1, level 0, and the log; 3 deleted in the log, 5 overwritten
    twice. *)
Definition ex_it_ops : list fop :=
  [w 1 10; w 3 30; w 5 50; w 9 90] ++ fl ++ [down0] ++ [w 2 20; w 5 51; w 7 70; w 9 91] ++ fl ++ [w 5 52; del_ 3; w 8 80; w 2 21].
Example C50_case : alive ex_it_ops [] [] = [([1], [10]); ([2], [21]); ([5], [52]); ([7], [70]); ([8], [80]); ([9], [91])] /\
  seen ex_it_ops [] [] [Next; Next; Next; Next; Next; Next; ToEnd; Prev; Prev; Prev; Prev; Prev; Prev] =
  Some (Some ([1], [10]),
        [(true, Some ([2], [21])); (true, Some ([5], [52])); (true, Some ([7], [70])); (true, Some ([8], [80])); (true, Some ([9], [91])); (false, Some ([9], [91]));
         (true, Some ([9], [91])); (true, Some ([8], [80])); (true, Some ([7], [70])); (true, Some ([5], [52])); (true, Some ([2], [21])); (true, Some ([1], [10])); (false, Some ([1], [10]))]).
Proof. vm_compute. split; reflexivity. Qed.
Example C50_range_case : alive ex_it_ops [2] [7] = [([2], [21]); ([5], [52]); ([7], [70])] /\
  seen ex_it_ops [2] [7] [Next; Next; Next; ToEnd; Prev; Prev; SeekG no_rec] =
  Some (Some ([2], [21]), [(true, Some ([5], [52])); (true, Some ([7], [70])); (false, Some ([7], [70]));
                           (true, Some ([7], [70])); (true, Some ([5], [52])); (true, Some ([2], [21])); (true, Some ([2], [21]))]).
Proof. vm_compute. split; reflexivity. Qed.
(** The state meets the conditions of the theorems above: it is reachable, every log file and every
    table shows two keys, and there are keys to seek. *)
Example C18_case : match at_end ex_it_ops with
  | Some (h, f) => freach xhash xpart ex_c xc0 h f /\ live h [] [] (live_list h [] []) /\ each_leaf two_keys [] [] f /\
      up_ok [] [] f (to 4) /\ up_ok [] [] f (to 7) /\ down_ok [] [] f (to 5) /\ ~ up_ok [] [] f (to 10) /\
      match log_leaves [] [] (d_log (fd_db f)) with Some ls => length ls = 2%nat | None => False end /\ length (tab_leaves [] [] (fd_lsm f)) = 2%nat
  | None => False
  end.
Proof.
  destruct (at_end ex_it_ops) as [[h f]|] eqn:E; [|vm_compute in E; discriminate]. split.
  - apply (at_end_reach ex_it_ops); [safe_ops|exact E].
  - split; [apply live_list_live|]. vm_compute in E. injection E as <- <-. split; [apply (each_b_sound _ two_b); [exact two_b_sound|reflexivity]|].
    split; [apply up_b_sound; reflexivity|]. split; [apply up_b_sound; reflexivity|]. split; [apply down_b_sound; reflexivity|]. split; [|split; reflexivity].
    intros (_ & _ & [C|(u & r & C1 & C2 & C3)]); [discriminate|]. vm_compute in C1.
    repeat (destruct C1 as [<-|C1]; [vm_compute in C2; repeat (destruct C2 as [<-|C2]; [exact (C3 eq_refl)|]); destruct C2|]). destruct C1.
Qed.
Example C18_moves_case : seen ex_it_ops [] [] [Next; Next; Prev; Prev; Next; Prev; Prev; Next; Next; SeekG (to 4); Prev; Next; Next; SeekS (to 6); Next; Prev] =
  Some (Some ([1], [10]),
        [(true, Some ([2], [21])); (true, Some ([5], [52])); (true, Some ([2], [21])); (true, Some ([1], [10])); (true, Some ([2], [21])); (true, Some ([1], [10]));
         (false, Some ([1], [10])); (true, Some ([2], [21])); (true, Some ([5], [52])); (true, Some ([5], [52])); (true, Some ([2], [21])); (true, Some ([5], [52]));
         (true, Some ([7], [70])); (true, Some ([5], [52])); (true, Some ([7], [70])); (true, Some ([5], [52]))]).
Proof. vm_compute. reflexivity. Qed.

(** ** Refutations *)

(** C18: a log file (or table) with one key: after next, next, prev, prev, the next call of next()
    skips it. *)
Definition ex_single : list fop := [w 1 10; w 9 90] ++ fl ++ [w 5 50].
Theorem C18_single_record_refuted : goes_wrong ex_single [] [] [Next; Next; Prev; Prev; Next] /\
  alive ex_single [] [] = [([1], [10]); ([5], [50]); ([9], [90])] /\
  seen ex_single [] [] [Next; Next; Prev; Prev; Next] =
    Some (Some ([1], [10]), [(true, Some ([5], [50])); (true, Some ([9], [90])); (true, Some ([5], [50])); (true, Some ([1], [10])); (true, Some ([9], [90]))]).
Proof. split; [apply wrong_b_sound; [safe_ops|vm_compute; reflexivity]|vm_compute; split; reflexivity]. Qed.
Print Assumptions C18_single_record_refuted.
(** C18: a failing next() loses the position: get() worked before it and does not after it, if a
    deleted key follows the last live one. *)
Definition ex_tail : list fop := [w 1 10; w 9 90] ++ fl ++ [del_ 9].
Theorem C18_end_position_refuted : alive ex_tail [] [] = [([1], [10])] /\
  seen ex_tail [] [] [Next] = Some (Some ([1], [10]), [(false, None)]).
Proof. vm_compute. split; reflexivity. Qed.
Print Assumptions C18_end_position_refuted.

(** C19: seek(5, SMALLER) with keys 1, 2 in the tables and 8, 9 in the log lands on 8. *)
Definition ex_sides : list fop := [w 1 10; w 2 20] ++ fl ++ [w 9 90; w 8 80].
Theorem C19_smaller_refuted : goes_wrong ex_sides [] [] [SeekS (to 5)] /\
  alive ex_sides [] [] = [([1], [10]); ([2], [20]); ([8], [80]); ([9], [90])] /\
  seen ex_sides [] [] [SeekS (to 5)] = Some (Some ([1], [10]), [(true, Some ([8], [80]))]).
Proof. split; [apply wrong_b_sound; [safe_ops|vm_compute; reflexivity]|vm_compute; split; reflexivity]. Qed.
Print Assumptions C19_smaller_refuted.
(** C19: seek beyond all keys returns an old value of the last key, or a deleted key. *)
Definition ex_stale : list fop := [w 1 10; w 2 20] ++ fl ++ [w 2 21; w 1 11].
Theorem C19_stale_refuted : goes_wrong ex_stale [] [] [SeekG (to 5)] /\
  alive ex_stale [] [] = [([1], [11]); ([2], [21])] /\
  seen ex_stale [] [] [SeekG (to 5)] = Some (Some ([1], [11]), [(true, Some ([2], [20]))]).
Proof. split; [apply wrong_b_sound; [safe_ops|vm_compute; reflexivity]|vm_compute; split; reflexivity]. Qed.
Print Assumptions C19_stale_refuted.
Definition ex_ghost : list fop := [w 1 10; w 2 20] ++ fl ++ [del_ 2].
Theorem C19_deleted_refuted : goes_wrong ex_ghost [] [] [SeekG (to 5)] /\
  alive ex_ghost [] [] = [([1], [10])] /\
  seen ex_ghost [] [] [SeekG (to 5)] = Some (Some ([1], [10]), [(true, Some ([2], [20]))]).
Proof. split; [apply wrong_b_sound; [safe_ops|vm_compute; reflexivity]|vm_compute; split; reflexivity]. Qed.
Print Assumptions C19_deleted_refuted.
(** C19: seek to a key outside of the range of the iterator leaves the range. *)
Definition ex_out : list fop := [w 2 20; w 4 40].
Theorem C19_below_range_refuted : goes_wrong ex_out [3] [] [SeekG (to 1)] /\
  seen ex_out [3] [] [SeekG (to 1)] = Some (Some ([4], [40]), [(true, Some ([2], [20]))]).
Proof. split; [apply wrong_b_sound; [safe_ops|vm_compute; reflexivity]|vm_compute; reflexivity]. Qed.
Print Assumptions C19_below_range_refuted.
Theorem C19_above_range_refuted : goes_wrong ex_out [] [3] [SeekS (to 7)] /\
  seen ex_out [] [3] [SeekS (to 7)] = Some (Some ([2], [20]), [(true, Some ([4], [40]))]).
Proof. split; [apply wrong_b_sound; [safe_ops|vm_compute; reflexivity]|vm_compute; reflexivity]. Qed.
Print Assumptions C19_above_range_refuted.
(** C19: a log file with keys beyond the target that are already flushed: after the seek, prev()
    reports the end although key 1 is before. *)
Definition ex_partly : list fop := [w 9 90] ++ fl ++ [w 1 10; w 8 80].
Theorem C19_flushed_refuted : goes_wrong ex_partly [] [] [SeekG (to 8); Prev] /\
  alive ex_partly [] [] = [([1], [10]); ([8], [80]); ([9], [90])] /\
  seen ex_partly [] [] [SeekG (to 8); Prev; Prev] = Some (Some ([1], [10]), [(true, Some ([8], [80])); (false, Some ([1], [10])); (false, Some ([1], [10]))]).
Proof. split; [apply wrong_b_sound; [safe_ops|vm_compute; reflexivity]|vm_compute; split; reflexivity]. Qed.
Print Assumptions C19_flushed_refuted.
