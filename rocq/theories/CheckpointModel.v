(** Checkpoints of the log handed over to the table section by a flush, their list, and snapshots
    opened on them (src/jungle.cc, src/table_mgr.cc, src/table_file.cc, src/table_set_batch.cc).

    Simplifications: level extension mode, no Bloom filter; the levels below level 0 are one table
    with all their records in the order they arrived; the change of a level 0 table into a
    compaction source is one step with the creation of its successor.  ForestDB, by contract: a
    table keeps the documents it was given, a snapshot at sequence number [s] shows those with
    numbers up to [s], a snapshot of the newest data shows all, and the KVS sequence number is the
    one of the last document. *)
From Verif Require Import Base KeyModel LogFormatModel BloomModel MemTableModel LogMgrModel DbModel.
Local Open Scope N_scope.

(** A table: identity of the TableFile object, documents in the order of writing, and
    TableFile::chkMap (table_file.h:433: an ordered map from checkpoint to committed number). *)
Record ct := mkCT { t_id : N; t_docs : list rec; t_chk : list (N * N) }.
(** [cd_parts]: per partition its tables, the one that takes the writes first. *)
Record cdb := mkCD { cd_db : db; cd_next : N; cd_parts : list (list ct); cd_low : ct }.

(** std::map::insert: an existing key keeps its value. *)
Fixpoint chk_insert (c s : N) (l : list (N * N)) : list (N * N) :=
  match l with
  | [] => [(c, s)]
  | (c0, s0) :: t => if c <? c0 then (c, s) :: l else if c0 <? c then (c0, s0) :: chk_insert c s t else l
  end.
Definition last_n {A} (n : nat) (l : list A) : list A := skipn (length l - n) l.
(** fdb_get_kvs_seqnum. *)
Definition kvs_seq (docs : list rec) : N := match rev docs with r :: _ => r_seq r | [] => 0 end.

(** src/table_file.cc:619-637, addCheckpoint. *)
Definition add_chk (lim : nat) (c : N) (t : ct) : ct :=
  mkCT (t_id t) (t_docs t) (last_n lim (chk_insert c (kvs_seq (t_docs t)) (t_chk t))).

(** src/table_file.cc:639-663, setCheckpoint; [rs]: the number of the record about to be written,
    if there is one. *)
Fixpoint set_chk (lim : nat) (rs : option N) (prev : N) (all : bool) (cs : list N) (t : ct) : ct :=
  match cs with
  | [] => t
  | c :: cs' =>
      let hit := (prev =? c)
                 || ((prev <? c) && match rs with Some s => c <? s | None => false end)
                 || ((prev <=? c) && all) in
      let t1 := if hit then add_chk lim c t else t in
      if (prev <? c) && match rs with Some s => s <? c | None => false end then t1
      else set_chk lim rs prev all cs' t1
  end.

Definition put_doc (r : rec) (t : ct) : ct := mkCT (t_id t) (t_docs t ++ [r]) (t_chk t).

(** src/table_file.cc:939-1073, setBatch with a target hash; [mine]: the key belongs to the
    partition; [mark]: the number of the oldest snapshot marker that ForestDB still has. *)
Fixpoint set_docs (lim : nat) (mine : key -> bool) (prev : N) (cs : list N) (b : list rec) (t : ct) : ct :=
  match b with
  | [] => set_chk lim None prev true cs t
  | r :: b' =>
      if mine (r_key r) then
        let t1 := set_chk lim (Some (r_seq r)) prev false cs t in
        if is_cmd r then set_docs lim mine prev cs b' t1
        else set_docs lim mine (r_seq r) cs b' (put_doc r t1)
      else set_docs lim mine prev cs b' t
  end.
Definition drop_old (mark : N) (t : ct) : ct :=
  mkCT (t_id t) (t_docs t) (filter (fun e => negb ((fst e <? mark) || (snd e <? mark))) (t_chk t)).
Definition tab_batch (lim : nat) (mine : key -> bool) (mark : N) (cs : list N) (b : list rec) (t : ct) : ct :=
  drop_old mark (set_docs lim mine 0 cs b t).

(** src/table_set_batch.cc:199-296, setBatchHash: partition [p] on; each writes the table that
    takes the writes. *)
Fixpoint set_parts (lim : nat) (mine : N -> key -> bool) (mark : N -> N) (cs : list N) (b : list rec) (p : N)
  (ps : list (list ct)) : list (list ct) :=
  match ps with
  | [] => []
  | q :: ps' => (match q with t :: q' => tab_batch lim (mine p) (mark p) cs b t :: q' | [] => [] end)
                :: set_parts lim mine mark cs b (p + 1) ps'
  end.

(** The lists of checkpoints. *)
Fixpoint ins (c : N) (l : list N) : list N :=
  match l with
  | [] => [c]
  | x :: t => if c <? x then c :: l else if x <? c then x :: ins c t else l
  end.
Definition sort_uniq (l : list N) : list N := fold_right ins [] l.
Definition tab_has (c : N) (q : list ct) : bool := existsb (fun t => existsb (fun e => fst e =? c) (t_chk t)) q.
(** src/table_mgr.cc:970-1013, getAvailCheckpoints. *)
Definition tm_checkpoints (ps : list (list ct)) : list N :=
  match ps with
  | [] => []
  | q :: rest => filter (fun c => negb (c =? 0) && forallb (tab_has c) rest) (flat_map (fun t => map fst (t_chk t)) q)
  end.
(** src/jungle.cc:425-449, getCheckpoints. *)
Definition db_checkpoints (lim : nat) (x : cdb) : res (list N) :=
  match lm_checkpoints (d_log (cd_db x)) with
  | Ok l => Ok (last_n lim (sort_uniq (if Nat.ltb (length l) lim then l ++ tm_checkpoints (cd_parts x) else l)))
  | Fail e => Fail e
  | Undef => Undef
  end.

(** Operations: those of the database handle ([mark]: see [set_docs], used by a flush), and the
    compaction of partition [p] of level 0, which starts and ends.  [fresh]: the records go to a
    new table. *)
Inductive cop := CDb (o : op) (mark : N -> N) | CRoll (p : nat) | CDrop (p : nat) (fresh : bool).

Fixpoint upd {A} (n : nat) (f : A -> A) (l : list A) : list A :=
  match l, n with
  | [], _ => []
  | x :: t, O => f x :: t
  | x :: t, S n' => x :: upd n' f t
  end.

Section Hash.
Variable hash : key -> N * N.
Variable part : key -> N -> N.     (* hash of the key modulo the number of partitions *)

Definition mine_of (n : N) (p : N) (k : key) : bool := part k n =? p.

(** One operation. *)
Definition c_step (lim : nat) (c : cfg) (o : cop) (x : cdb) : option (res (list rec) * cdb) :=
  match o with
  | CDb (OFlush fo seq) mark =>
      match step hash c (OFlush fo seq) (cd_db x) with
      | Some (y, d') =>
          Some (y, mkCD d' (cd_next x)
            match fst (lm_flush fo seq (d_log (cd_db x))) with
            (* log_mgr.cc:1515-1523: the tables are called when there are records *)
            | Ok (r :: rs, cs) => set_parts lim (mine_of (N.of_nat (length (cd_parts x)))) mark cs (r :: rs) 0 (cd_parts x)
            | _ => cd_parts x
            end (cd_low x))
      | None => None
      end
  | CDb o' _ =>
      match step hash c o' (cd_db x) with
      | Some (y, d') => Some (y, mkCD d' (cd_next x) (cd_parts x) (cd_low x))
      | None => None
      end
  (* table_compaction.cc:759-883 *)
  | CRoll p =>
      match nth_error (cd_parts x) p with
      | Some [t] => Some (Ok [], mkCD (cd_db x) (cd_next x + 1) (upd p (fun q => mkCT (cd_next x) [] [] :: q) (cd_parts x)) (cd_low x))
      | _ => None
      end
  (* table_compaction.cc:29-579, 906-926 *)
  | CDrop p fresh =>
      match nth_error (cd_parts x) p with
      | Some [t; o] =>
          let low := cd_low x in
          let id := if fresh then cd_next x else t_id low in
          Some (Ok [], mkCD (cd_db x) (if fresh then cd_next x + 1 else cd_next x) (upd p (fun _ => [t]) (cd_parts x))
                            (mkCT id (t_docs low ++ t_docs o) (t_chk low)))
      | _ => None
      end
  end.

(** src/jungle.cc:558-567, checkpoint: the number it delivers (None: an error). *)
Definition c_chk (o : cop) (x : cdb) : list N :=
  match o with
  | CDb (OChk out0) _ => match lm_checkpoint out0 (d_log (cd_db x)) with (Ok s, _) => [s] | _ => [] end
  | _ => []
  end.

(** A new database with [n] partitions (table_mgr.cc:173-321). *)
Fixpoint new_parts (n : nat) (id : N) : list (list ct) :=
  match n with O => [] | S n' => [mkCT id [] []] :: new_parts n' (id + 1) end.
Definition cdb_new (c : cfg) (n : nat) : cdb :=
  mkCD (db_new c) (N.of_nat n + 1) (new_parts n 1) (mkCT 0 [] []).

(** ** Snapshots *)

(** src/table_file.cc:545-602, openSnapshot of a table: the documents that it shows, or None (the
    error is ignored by the caller). *)
Definition tab_snap (chk : N) (t : ct) : option (list rec) :=
  let upto s := if s =? 0 then None else Some (filter (fun r => r_seq r <=? s) (t_docs t)) in
  match find (fun e => fst e =? chk) (t_chk t) with
  | Some e => upto (snd e)
  | None =>
      match rev (t_chk t) with
      | [] => Some (t_docs t)
      | e :: _ => if snd e <? chk then Some (t_docs t)
                  else upto (fold_left (fun a e => if fst e <=? chk then snd e else a) (t_chk t) 0)
      end
  end.
(** The snapshot: its number, the log files held (None: LogMgr::openSnapshot failed, the list
    stays null), and the handle of each table that has one. *)
Record csnap := mkCS { cs_chk : N; cs_files : option (list N); cs_tabs : list (N * list rec) }.
(** src/jungle.cc:281-317 and src/table_mgr.cc:505-531. *)
Definition c_open (lim : nat) (chk : N) (x : cdb) : res csnap :=
  let g := d_log (cd_db x) in
  let flushed := match lm_flushed_seq g with Ok s => s | _ => 0 end in
  let mk c := Ok (mkCS c (match lm_snapshot c ((c =? 0) && (flushed =? 0)) g with Ok l => Some (map f_num l) | _ => None end)
                       (flat_map (fun t => match tab_snap c t with Some ds => [(t_id t, ds)] | None => [] end)
                                 (concat (cd_parts x) ++ [cd_low x]))) in
  if chk =? 0 then mk (match lm_max_seq g with Some s => s | None => 0 end)
  else match db_checkpoints lim x with
       | Ok l => if existsb (N.eqb chk) l then mk chk else Fail INVALID_CHECKPOINT
       | Fail e => Fail e
       | Undef => Undef
       end.

(** What a lookup of the tables delivers. [TFail]: an error other than "key not found",
    SNAPSHOT_NOT_FOUND included. *)
Inductive tres := TGot (r : rec) | TNone | TFail.
(** src/table_file.cc:1076-1202, get with a snapshot handle. *)
Definition t_get (tabs : list (N * list rec)) (k : key) (t : ct) : tres :=
  match find (fun e => fst e =? t_id t) tabs with
  | None => TFail
  | Some e => match tab_get (snd e) k with Ok r => TGot r | _ => TNone end
  end.
(** src/table_mgr.cc:559-656, get: level 0, the table that takes the writes first, then the
    other one; then the levels below.  The tables are those of now, not those of the snapshot. *)
Definition tm_get_snap (sn : csnap) (k : key) (x : cdb) : tres :=
  match nth_error (cd_parts x) (N.to_nat (part k (N.of_nat (length (cd_parts x))))) with
  | None => TFail
  | Some q =>
      let fix go ts := match ts with
                       | [] => t_get (cs_tabs sn) k (cd_low x)
                       | t :: ts' => match t_get (cs_tabs sn) k t with TNone => go ts' | y => y end
                       end in
      go q
  end.
(** The answer of a read through a snapshot: a record, not found, an error, or a crash. *)
Inductive sres := SVal (r : rec) | SNone | SErr | SCrash.
Definition csnap_get (sn : csnap) (k : key) (x : cdb) : sres :=
  match cs_files sn with
  | None => SCrash     (* log_mgr.cc:874-876: a null list is dereferenced *)
  | Some ns =>
      match pinned ns (g_files (d_log (cd_db x)) ++ d_gone (cd_db x)) with
      | None => SCrash
      | Some fs =>
          match lm_get_snap hash (cs_chk sn) fs k with
          | Ok r => if is_ins r then SVal r else SNone
          | Undef => SCrash
          | Fail _ => match tm_get_snap sn k x with
                      | TGot r => if is_ins r then SVal r else SNone
                      | TNone => SNone
                      | TFail => SErr
                      end
          end
      end
  end.

End Hash.
