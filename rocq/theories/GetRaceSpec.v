(** What a get with concurrent writers, batches and flushes is measured against (GetRaceModel.v). *)
From Coq Require Import Sorting.Sorted.
From Verif Require Import Base KeyModel LogFormatModel MemTableModel LogMgrModel DbModel MemTableProofs DbProofs GetRaceModel.
Local Open Scope N_scope.

(** [a] is an initial part of [b]. *)
Definition begins {A : Type} (a b : list A) : Prop := exists t, b = a ++ t.

(** The get has read the largest number of an empty log file and no barrier. *)
Definition asks_empty (s : gst) : Prop := exists k n ns, s_get s = Some (mkRd k (GBar n NIL ns)).

(** Runs from a new database.  [greach bs part b0 s]: [bs] are the acknowledged writes, one list for
    each single write and one for each batch; [part] is the batch being written, if any; [b0] are the
    writes that were acknowledged when the last get began.  Guards:
    - numbers increase and are proper numbers;
    - a batch begins when something has been written, has no key twice ([C123_key_twice_refuted]),
      and does not begin while a get is between reading the largest number of an empty log file and
      the lookup in that file ([C123_empty_file_refuted]);
    - a flush goes up to an acknowledged record ([C123_half_batch_refuted]), in the file that holds
      it, and not below what is in the tables. *)
Inductive greach : list (list rec) -> option (list rec) -> list (list rec) -> gst -> Prop :=
| gr_new : greach [] None [] g_new
| gr_write : forall bs b0 s r s', greach bs None b0 s ->
    0 < r_seq r < NIL -> (forall b x, In b bs -> In x b -> r_seq x < r_seq r) ->
    gstep (EWrite r) s = Some s' -> greach (bs ++ [[r]]) None b0 s'
| gr_roll : forall bs p b0 s s', greach bs p b0 s -> gstep ERoll s = Some s' -> greach bs p b0 s'
| gr_begin : forall bs b0 s s', greach bs None b0 s -> concat bs <> [] -> ~ asks_empty s ->
    gstep EBegin s = Some s' -> greach bs (Some []) b0 s'
| gr_put : forall bs p b0 s r s', greach bs (Some p) b0 s ->
    0 < r_seq r < NIL -> (forall b x, In b (bs ++ [p]) -> In x b -> r_seq x < r_seq r) ->
    ~ In (r_key r) (map r_key p) ->
    gstep (EWrite r) s = Some s' -> greach bs (Some (p ++ [r])) b0 s'
| gr_end : forall bs p b0 s s', greach bs (Some p) b0 s -> gstep EEnd s = Some s' -> greach (bs ++ [p]) None b0 s'
| gr_flush : forall bs p b0 s f r s', greach bs p b0 s ->
    In f (s_files s) -> In r (gf_recs f) -> In r (concat bs) -> (forall x, In x (s_tab s) -> r_seq x <= r_seq r) ->
    gstep (EFlush (gf_num f) (r_seq r)) s = Some s' -> greach bs p b0 s'
| gr_flushing : forall bs p b0 s e s', greach bs p b0 s -> In e [ETables; EMark; ELast; ERemove] ->
    gstep e s = Some s' -> greach bs p b0 s'
| gr_get : forall bs p b0 s k s', greach bs p b0 s -> gstep (EGet k) s = Some s' -> greach bs p bs s'
| gr_getting : forall bs p b0 s e s', greach bs p b0 s -> In e [EMax; EWalk; EFile; EBar; ELook; EAsk] ->
    gstep e s = Some s' -> greach bs p b0 s'.

(** The acknowledged writes and the batch being written, read off the steps of a run. *)
Fixpoint groups (es : list gop) (bs : list (list rec)) (p : option (list rec)) : list (list rec) * option (list rec) :=
  match es with
  | [] => (bs, p)
  | EWrite r :: t => match p with None => groups t (bs ++ [[r]]) None | Some l => groups t bs (Some (l ++ [r])) end
  | EBegin :: t => groups t bs (Some [])
  | EEnd :: t => match p with Some l => groups t (bs ++ [l]) None | None => groups t bs None end
  | _ :: t => groups t bs p
  end.
Definition acknowledged (es : list gop) : list (list rec) := fst (groups es [] None).

(** The numbers of the records written increase. *)
Definition written (es : list gop) : list rec := flat_map (fun e => match e with EWrite r => [r] | _ => [] end) es.
Definition increasing (es : list gop) : Prop := StronglySorted N.lt (map r_seq (written es)).

(** src/log_mgr.cc:1385-1437: the last file and the number of a flush with beyondLastSync and without
    a number, if no batch is running in [s1], when it reads the newest file number and the barrier,
    and it reads the largest number of that file in [s2]. *)
Definition choose_all (s1 s2 : gst) : option (N * N) :=
  if s_bar s1 =? 0 then
    match gf_at (newest_num (s_files s1)) (s_files s2) with
    | Some f => if gf_max f =? NIL then None else Some (gf_num f, gf_max f)
    | None => None
    end
  else None.
