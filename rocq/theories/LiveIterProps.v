(** Open iterators and later writes. *)
From Verif Require Import Base KeyModel KeyProofs LogFormatModel BloomModel MemTableModel LogMgrModel DbModel LogMgrProofs DbProofs DbProps
  LsmModel LsmProofs LsmProofs2 LsmProofs5 LsmProps FullModel FullProofs FullProps IterModel IterSpec LeafIterModel DbIterModel DbIterProofs2 DbIterProofs3 DbIterProofs4 DbIterProofs5 IterCheck IterProps LiveIterModel LiveIterProofs.
From Coq Require Import Lia Sorted.
Local Open Scope N_scope.

Definition live_get (d : dit lvi) : option rec := d_get lvi v_get ByKey d.
Definition live_calls (fuel : nat) (ms : list move) (d : dit lvi) : option (list (bool * option rec)) :=
  d_moves lvi v_get v_next v_prev v_seek v_to_end ByKey fuel ms d.

(** C51: an open iterator goes on showing the keys and values of the moment it was opened, whatever
    is written to the database in between: [todo i] lists the records, with any keys and with
    numbers after the last visible one, that reach the [i]-th log file of the iterator before each
    of its calls. *)
Theorem C51_writes_invisible : forall hash part c tc h f lo hi l todo, cfg_ok c -> tcfg_ok part tc -> freach hash part c tc h f -> live h lo hi l ->
  (forall i rs r, In rs (todo i) -> In r rs -> lastseq h < r_seq r) ->
  exists n, forall fuel, (n <= fuel)%nat -> exists it, db_itr_live fuel todo lo hi (d_log (fd_db f)) (fd_lsm f) = Some it /\
    match it with
    | None => l = []
    | Some d => live_get d = at_pos l (opened l) /\
        forall ms, (forall t, In (SeekG t) ms -> r_key t = []) -> (forall t, ~ In (SeekS t) ms) -> one_direction true ms = true ->
          exists out, live_calls fuel ms d = Some out /\ ctrace ByKey l (opened l) ms out
    end.
Proof.
  intros hash part c tc h f lo hi l todo A B C D E. destruct (live_iter_spec hash part c tc h f lo hi l todo false A B C D E) as [n Hn]; [discriminate|].
  exists n. intros fuel Hf. destruct (Hn fuel Hf) as (it & I1 & I2). exists it. split; [exact I1|]. destruct it as [d|]; [|exact I2]. destruct I2 as [I2 I3]. split; [exact I2|].
  intros ms M1 M2 M3. apply I3; [exact M1|exact M2|now intros _].
Qed.
Print Assumptions C51_writes_invisible.
(** C51: the same for any mixture of the calls, under the condition of [C18_both_directions_partial]. *)
Theorem C51_writes_invisible_both : forall hash part c tc h f lo hi l todo, cfg_ok c -> tcfg_ok part tc -> freach hash part c tc h f -> live h lo hi l ->
  (forall i rs r, In rs (todo i) -> In r rs -> lastseq h < r_seq r) -> each_leaf two_keys lo hi f ->
  exists n, forall fuel, (n <= fuel)%nat -> exists it, db_itr_live fuel todo lo hi (d_log (fd_db f)) (fd_lsm f) = Some it /\
    match it with
    | None => l = []
    | Some d => live_get d = at_pos l (opened l) /\
        forall ms, (forall t, In (SeekG t) ms -> r_key t = []) -> (forall t, ~ In (SeekS t) ms) ->
          exists out, live_calls fuel ms d = Some out /\ ctrace ByKey l (opened l) ms out
    end.
Proof.
  intros hash part c tc h f lo hi l todo A B C D E T. destruct (live_iter_spec hash part c tc h f lo hi l todo true A B C D E) as [n Hn]; [now intros _|].
  exists n. intros fuel Hf. destruct (Hn fuel Hf) as (it & I1 & I2). exists it. split; [exact I1|]. destruct it as [d|]; [|exact I2]. destruct I2 as [I2 I3]. split; [exact I2|].
  intros ms M1 M2. apply I3; [exact M1|exact M2|discriminate].
Qed.
Print Assumptions C51_writes_invisible_both.

(** The database of [C50_case] (12 records); while the iterator is open the keys 5 and 8 are
    overwritten, 2 deleted, and 4 and 6 added, all in the second log file. *)
Definition ex_todo (i : nat) : list (list rec) :=
  match i with
  | 1%nat => [[mkRec 13 INS [5] [] [99]]; [mkRec 14 DEL [2] [] []; mkRec 15 INS [4] [] [99]]; [mkRec 16 INS [8] [] [99]; mkRec 17 INS [6] [] [99]]]
  | _ => []
  end.
Definition seen_live (os : list fop) (todo : nat -> list (list rec)) (lo hi : key) (ms : list move) : option (option (key * list N) * list (bool * option (key * list N))) :=
  match at_end os with
  | None => None
  | Some (h, f) =>
      match db_itr_live 100 todo lo hi (d_log (fd_db f)) (fd_lsm f) with
      | Some (Some d) => match live_calls 100 ms d with
                         | Some out => Some (option_map kv (live_get d), map (fun x => (fst x, option_map kv (snd x))) out)
                         | None => None
                         end
      | _ => None
      end
  end.
Example C51_case : match at_end ex_it_ops with
  | Some (h, f) => freach xhash xpart ex_c xc0 h f /\ live h [] [] (live_list h [] []) /\ lastseq h = 12
  | None => False
  end /\ (forall i rs r, In rs (ex_todo i) -> In r rs -> 12 < r_seq r) /\
  seen_live ex_it_ops ex_todo [] [] [Next; Next; Next; Next; Next; Next; ToEnd; Prev; Prev; Prev; Prev; Prev; Prev] =
  seen ex_it_ops [] [] [Next; Next; Next; Next; Next; Next; ToEnd; Prev; Prev; Prev; Prev; Prev; Prev].
Proof.
  split; [|split; [|vm_compute; reflexivity]].
  - destruct (at_end ex_it_ops) as [[h f]|] eqn:E; [|vm_compute in E; discriminate]. split; [apply (at_end_reach ex_it_ops); [safe_ops|exact E]|]. split; [apply live_list_live|]. vm_compute in E. injection E as <- <-. reflexivity.
  - intros i rs r H1 H2. destruct i as [|[|i]]; [destruct H1| |destruct H1]. cbn in H1. repeat (destruct H1 as [<-|H1]; [repeat (destruct H2 as [<-|H2]; [reflexivity|]); destruct H2|]). destruct H1.
Qed.
(** A write with a number of the past, as allowOverwriteSeqNum permits, is seen. *)
Example C51_overwrite_case : seen_live ex_it_ops (fun i => match i with 1%nat => [[mkRec 12 INS [7] [] [99]]] | _ => [] end) [] [] [Next; Next; Next] <> seen ex_it_ops [] [] [Next; Next; Next].
Proof. vm_compute. discriminate. Qed.
