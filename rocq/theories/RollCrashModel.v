(** A process that dies in the middle of [DB::rollback] on a log-section-only database
    (src/log_mgr.cc:226-331): what is on disk at each moment, and the database that the next open
    finds.

    The order of the effects on disk: the sync of all records and of the manifest (282), the
    shortening of the file of the number (291, log_file.cc:303), the removal of the later files from
    the manifest in memory (304-316), after which the background remover may unlink them one by one
    (log_manifest.h:150-176, log_file.cc:690-700, cmd_handler.cc:95-115), and the manifest
    (321-322).

    Left out: what RollbackModel.v leaves out; power failures (C66 has one: here all that was
    written stays); a death inside of one write; writers beside the rollback; skipManifestSync. *)
From Verif Require Import Base KeyModel LogFormatModel BloomModel MemTableModel RollbackModel.
Local Open Scope N_scope.

(** src/log_manifest.cc:509-560, storeInternal, for one file: the numbers in the manifest and the entries in
    the file; no memtable. *)
Definition r_saved (f : rfile) : rfile :=
  mkRF (rf_num f) (rf_start f) (rf_disk f) None (rf_get m_min rf_min f) (rf_get m_max rf_max f)
       (rf_get m_flushed rf_flushed f) (rf_get m_synced rf_synced f) true.

(** A file with other content (src/log_file.cc:303, ftruncate; nothing else of it changes on disk). *)
Definition with_disk (d : list entry) (f : rfile) : rfile :=
  mkRF (rf_num f) (rf_start f) d (rf_mem f) (rf_min f) (rf_max f) (rf_flushed f) (rf_synced f) (rf_imm f).

(** src/log_manifest.cc:296-449: [r_open] (RollbackModel.v) with files that are missing on disk
    (log_file.cc:199, FILE_NOT_EXIST, and log_manifest.cc:386-413): loading stops there.  Here an
    earlier file was read, so that the branches 390-401 and 418-440 are not taken. *)
Fixpoint r_open_gone (gone : N -> bool) (last mx ls : N) (fs : list rfile) : list rfile * N * N :=
  match fs with
  | [] => ([], mx, ls)
  | f :: t =>
      let mn := rf_get m_min rf_min f in
      let fl := rf_get m_flushed rf_flushed f in
      let sy := rf_get m_synced rf_synced f in
      let bad := (valid_number mn && ((valid_number sy && (sy <? mn))
                                      || (valid_number last && negb (mn =? (last + 1) mod 2 ^ 64))))
                 || (match t with [] => true | _ => false end && negb (valid_number mn)) in
      if bad then
        if rf_num f =? 0 then ([], mx, ls) else ([], rf_num f - 1, rf_num f - 1)
      else if gone (rf_num f) then ([], rf_num f - 1, rf_num f - 1)
      else
        let last' := if valid_number sy then sy else last in
        let mn' := if negb (valid_number mn) && valid_number last' then (last' + 1) mod 2 ^ 64 else mn in
        let sy' := if negb (valid_number sy) && valid_number last' then last' else sy in
        let f' := mkRF (rf_num f) mn' (rf_disk f) None mn' sy' fl sy' true in
        let ls' := if negb (valid_number ls) || (ls <? rf_num f) then rf_num f else ls in
        let '(t', mx', ls'') := r_open_gone gone last' mx ls' t in
        (f' :: t', mx', ls'')
  end.

(** src/log_mgr.cc:62-196, init after the death: the manifest and the files as they are on disk, no
    sync before it. *)
Definition r_restart (c : rcfg) (gone : N -> bool) (st : rst) : rst :=
  let '(fs, mx, ls) := r_open_gone gone NIL (rs_max st) (rs_ls st) (map r_saved (rs_files st)) in
  match fs with
  | [] => mkR [first_rfile c] mx ls
  | _ => mkR fs mx ls
  end.

(** The moment of death: after the sync; after the shortening of the file; after the background
    remover unlinked the first [k] + 1 of the later files; after the manifest was written. *)
Inductive moment := MSynced | MCut | MUnlinked (k : N) | MStored.

Section Hash.
Variable hash : key -> N * N.

(** The database after a death during a rollback to [s] that would have succeeded, and the next
    open.  [st1]: after the sync; [st2]: after the rollback, whose newest file [n] is the one that
    was shortened; the shortened file is all that is different before the manifest is written. *)
Definition r_die (c : rcfg) (open : N -> bool) (mo : moment) (s : N) (st : rst) : res rst :=
  match r_sync hash c open st, r_rollback hash c open false s st with
  | (Ok _, st1), (Ok _, st2) =>
      let n := rs_max st2 in
      match rfile_at n (rs_files st2) with
      | None => Undef
      | Some f2 =>
          let half := mkR (rf_upd n (with_disk (rf_disk f2)) (rs_files st1)) (rs_max st1) (rs_ls st1) in
          match mo with
          | MSynced => Ok (r_restart c (fun _ => false) st1)
          | MCut => Ok (r_restart c (fun _ => false) half)
          | MUnlinked k => Ok (r_restart c (fun x => (n <? x) && (x <=? n + 1 + k)) half)
          | MStored => Ok (r_restart c (fun _ => false) st2)
          end
      end
  | (Undef, _), _ | _, (Undef, _) => Undef
  | (Fail e, _), _ | _, (Fail e, _) => Fail e
  end.

End Hash.
