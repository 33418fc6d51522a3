(** The database handle: log section over the table section (src/jungle.cc), with an atomic batch
    split into its steps so that every other operation can fall between them.

    Simplifications: the table section is its contract here, the records handed to it in order,
    the last one of a key being the one it returns (LsmModel.v models TableMgr and LsmProofs.v
    proves the contract); checkHandleValidity succeeds; one operation at a time, except that a
    batch in progress holds only LogMgr::writeMutex (log_mgr.cc:697), which blocks other writers
    and nothing else. *)
From Verif Require Import Base KeyModel LogFormatModel BloomModel MemTableModel LogMgrModel.
Local Open Scope N_scope.

(** [d_gone]: log files removed from the manifest; their objects stay alive while a snapshot
    holds them (log_manifest.h:77-199).  [d_bat]: records of the batch in progress still to be
    written, and those already written. *)
Record db := mkDb { d_log : lmgr; d_tab : list rec; d_gone : list lgf; d_bat : option (list rec * list rec) }.

(** Operations; the batch is [OBegin], one [OPut] per record, [OEnd]. *)
Inductive op :=
| OSet (full : bool) (r : rec)
| OBegin (b : list rec)
| OPut
| OEnd
| OSync (bad : N -> bool)
| OFlush (o : fopt) (seq : N)
| OChk (out0 : N).

(** A database that has just been created. *)
Definition db_new (c : cfg) : db := mkDb (lm_new c) [] [] None.

Section Hash.
Variable hash : key -> N * N.

Definition gone_of (old new : lmgr) : list lgf :=
  filter (fun f => match file_at (f_num f) (g_files new) with Some _ => false | None => true end) (g_files old).

(** One operation.  [None]: the operation cannot run now (a writer waits for writeMutex; [OPut],
    [OEnd] outside of a batch).  The response is the error, or the records acknowledged as
    written by this operation.
    jungle.cc:351-387 (the set functions), 463-484 (sync, flushLogs), 558-567 (checkpoint);
    log_mgr.cc:692-724 (setMulti), 799-831 (setMultiInternal), 1515-1523 (setBatch on the
    tables). *)
Definition step (c : cfg) (o : op) (d : db) : option (res (list rec) * db) :=
  match o with
  | OSet full r =>
      match d_bat d with
      | Some _ => None
      | None => let (x, g) := lm_set hash c full r (d_log d) in
                Some (match x with Ok r' => Ok [r'] | Fail e => Fail e | Undef => Undef end,
                      mkDb g (d_tab d) (d_gone d) None)
      end
  | OBegin b =>
      match d_bat d with
      | Some _ => None
      | None =>
          if c_ro c then Some (Fail WRITE_VIOLATION, d)
          else match b with
               | [] => Some (Fail EMPTY_BATCH, d)
               | _ => let g0 := batch_begin (d_log d) in
                      if batch_valid c b g0 then Some (Ok [], mkDb g0 (d_tab d) (d_gone d) (Some (b, [])))
                      else Some (Fail INVALID_SEQNUM, mkDb (batch_end g0) (d_tab d) (d_gone d) None)
               end
      end
  | OPut =>
      match d_bat d with
      | Some (r :: t, done) =>
          match batch_put hash c r (d_log d) with
          | (Ok r', g) => Some (Ok [], mkDb g (d_tab d) (d_gone d) (Some (t, done ++ [r'])))
          | (Fail e, g) => Some (Fail e, mkDb (batch_end g) (d_tab d) (d_gone d) None)
          | (Undef, g) => Some (Undef, mkDb g (d_tab d) (d_gone d) None)
          end
      | _ => None
      end
  | OEnd =>
      match d_bat d with
      | Some ([], done) => Some (Ok done, mkDb (batch_end (d_log d)) (d_tab d) (d_gone d) None)
      | _ => None
      end
  | OSync bad => let (x, g) := lm_sync bad (d_log d) in
      Some (match x with Ok _ => Ok [] | Fail e => Fail e | Undef => Undef end, mkDb g (d_tab d) (d_gone d) (d_bat d))
  | OFlush fo seq =>
      match lm_flush fo seq (d_log d) with
      | (Ok (rs, _), g) => Some (Ok [], mkDb g (d_tab d ++ rs) (d_gone d ++ gone_of (d_log d) g) (d_bat d))
      | (Fail e, g) => Some (Fail e, mkDb g (d_tab d) (d_gone d) (d_bat d))
      | (Undef, g) => Some (Undef, mkDb g (d_tab d) (d_gone d) (d_bat d))
      end
  | OChk out0 => let (x, g) := lm_checkpoint out0 (d_log d) in
      Some (match x with Ok _ => Ok [] | Fail e => Fail e | Undef => Undef end, mkDb g (d_tab d) (d_gone d) (d_bat d))
  end.

(** The contract of TableMgr::get: the last record of the key, commands apart. *)
Definition tab_get (t : list rec) (k : key) : res rec :=
  match find (fun r => keqb (r_key r) k && negb (is_cmd r)) (rev t) with
  | Some r => Ok r
  | None => Fail KEY_NOT_FOUND
  end.

(** src/jungle.cc:635-672, DB::get, and 701-741, getRecordByKey: the log first, then the tables;
    a tombstone means not found. *)
Definition found (r : rec) : res rec := if is_ins r then Ok r else Fail KEY_NOT_FOUND.
Definition db_get (c : cfg) (k : key) (d : db) : res rec :=
  match lm_get hash c k (d_log d) with
  | Ok r => found r
  | Undef => Undef
  | Fail _ => match tab_get (d_tab d) k with Ok r => found r | other => other end
  end.

(** src/jungle.cc:281-317, openSnapshot; 0 asks for the newest data.  A given checkpoint must be
    available (here: in the log; those of the tables are the subject of CheckpointModel.v).
    [sn_files]: numbers of the log files held, [None] if LogMgr::openSnapshot failed (the error
    is ignored, and the list stays null). *)
Record snap := mkSnap { sn_chk : N; sn_files : option (list N); sn_tab : list rec }.
Definition open_snap (chk : N) (d : db) : res snap :=
  let flushed := match lm_flushed_seq (d_log d) with Ok s => s | _ => 0 end in
  let mk c := Ok (mkSnap c (match lm_snapshot c ((c =? 0) && (flushed =? 0)) (d_log d) with
                            | Ok l => Some (map f_num l) | _ => None end) (d_tab d)) in
  if chk =? 0 then mk (match lm_max_seq (d_log d) with Some s => s | None => 0 end)
  else match lm_checkpoints (d_log d) with
       | Ok l => if existsb (N.eqb chk) l then mk chk else Fail INVALID_CHECKPOINT
       | Fail e => Fail e
       | Undef => Undef
       end.

Fixpoint pinned (ns : list N) (fs : list lgf) : option (list lgf) :=
  match ns with
  | [] => Some []
  | n :: t => match file_at n fs, pinned t fs with Some f, Some l => Some (f :: l) | _, _ => None end
  end.

(** Reading through a snapshot: the null list is dereferenced. *)
Definition snap_get (sn : snap) (k : key) (d : db) : res rec :=
  match sn_files sn with
  | None => Undef
  | Some ns =>
      match pinned ns (g_files (d_log d) ++ d_gone d) with
      | None => Undef
      | Some fs =>
          match lm_get_snap hash (sn_chk sn) fs k with
          | Ok r => found r
          | Undef => Undef
          | Fail _ => match tab_get (sn_tab sn) k with Ok r => found r | other => other end
          end
      end
  end.

End Hash.
