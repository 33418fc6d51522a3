(** Log files as objects with references, and their names in the directory: what rollback, removal
    of flushed log files, and readers that still hold a file do to the files on disk.

    A log file object knows only its file name (LogFile::filename); the directory maps names to
    contents.  Rollback resets the counter of log file numbers, so names are used again.
    A name is given by the log file number, a content by an inode number.

    Left out: what is in the files (RollbackModel.v), failing file operations, references held for a
    moment only (guards inside one call). *)
From Verif Require Import Base.
Local Open Scope N_scope.

(** src/log_manifest.h:40-234, LogFileInfo with its LogFile: number (the file name), the inode the
    object created or opened, refCount + snapCount of long-lived readers. *)
Record lobj := mkLO { o_num : N; o_ino : N; o_refs : N }.

(** Files in the manifest, removed files that readers still hold, the directory, the list of files
    to remove (DBMgr::filesToRemove), names taken off that list by the background remover and not
    yet unlinked, maxLogFileNum, the next inode number, rollbackInProgress. *)
Record fstate := mkFS {
  fs_live : list lobj; fs_zombie : list lobj; fs_dir : list (N * N);
  fs_pend : list N; fs_popped : list N; fs_max : N; fs_ino : N; fs_rolling : bool
}.

(** A new database: log file 0. *)
Definition fs_init : fstate := mkFS [mkLO 0 0 0] [] [(0, 0)] [] [] 0 1 false.

Definition lookup (n : N) (d : list (N * N)) : option N :=
  match find (fun e => fst e =? n) d with Some e => Some (snd e) | None => None end.
Definition unlink (n : N) (d : list (N * N)) : list (N * N) := filter (fun e => negb (fst e =? n)) d.

(** src/log_file.cc:682-710, destroySelf, and db_mgr.cc:404-411, addFileToRemove: if a file with
    this name exists, the name goes to the list. *)
Definition destroy (n : N) (d : list (N * N)) (pend : list N) : list N :=
  match lookup n d with Some _ => pend ++ [n] | None => pend end.

(** src/log_manifest.cc:826-846, removeLogFile, and log_manifest.h:130-177, doneInternal: a removed
    file without readers is destroyed at once, otherwise by the last reader. *)
Definition remove_obj (o : lobj) (s : fstate) : fstate :=
  if o_refs o =? 0
  then mkFS (fs_live s) (fs_zombie s) (fs_dir s) (destroy (o_num o) (fs_dir s) (fs_pend s)) (fs_popped s) (fs_max s) (fs_ino s) (fs_rolling s)
  else mkFS (fs_live s) (fs_zombie s ++ [o]) (fs_dir s) (fs_pend s) (fs_popped s) (fs_max s) (fs_ino s) (fs_rolling s).

Inductive fop :=
| FAdd                (* a write makes a new log file *)
| FHold (n : N)       (* an iterator or snapshot takes a reference to log file n *)
| FRelease (i : N)    (* it is closed; i names the object *)
| FDrop               (* flush or reclaim removes the oldest log file *)
| FCut (n : N)        (* rollback into log file n, up to the point where the manifest is stored *)
| FForce              (* rollback, the rest *)
| FPop                (* the background remover takes a name off the list *)
| FUnlink.            (* ... and unlinks it *)

Definition set_live (l : list lobj) (s : fstate) : fstate :=
  mkFS l (fs_zombie s) (fs_dir s) (fs_pend s) (fs_popped s) (fs_max s) (fs_ino s) (fs_rolling s).

Definition add_ref (o : lobj) : lobj := mkLO (o_num o) (o_ino o) (o_refs o + 1).
Definition sub_ref (o : lobj) : lobj := mkLO (o_num o) (o_ino o) (o_refs o - 1).

(** An operation that does not apply changes nothing. *)
Definition f_step (o : fop) (s : fstate) : fstate :=
  match o with
  | FAdd =>
      (* src/log_mgr.cc:489-550, addNewLogFile; log_file.cc:129-178, create: a file of that name
         is removed first.  Writes are refused during a rollback (jungle.cc:1077-1087). *)
      if fs_rolling s then s
      else let n := fs_max s + 1 in
           mkFS (fs_live s ++ [mkLO n (fs_ino s) 0]) (fs_zombie s) ((n, fs_ino s) :: unlink n (fs_dir s))
                (fs_pend s) (fs_popped s) n (fs_ino s + 1) false
  | FHold n => set_live (map (fun x => if o_num x =? n then add_ref x else x) (fs_live s)) s
  | FRelease i =>
      match find (fun x => (o_ino x =? i) && negb (o_refs x =? 0)) (fs_zombie s) with
      | Some z =>
          (* log_manifest.h:147-176: removed; the last one destroys the file *)
          if o_refs z =? 1
          then mkFS (fs_live s) (filter (fun x => negb (o_ino x =? i)) (fs_zombie s)) (fs_dir s)
                    (destroy (o_num z) (fs_dir s) (fs_pend s)) (fs_popped s) (fs_max s) (fs_ino s) (fs_rolling s)
          else mkFS (fs_live s) (map (fun x => if o_ino x =? i then sub_ref x else x) (fs_zombie s)) (fs_dir s)
                    (fs_pend s) (fs_popped s) (fs_max s) (fs_ino s) (fs_rolling s)
      | None => set_live (map (fun x => if o_ino x =? i then sub_ref x else x) (fs_live s)) s
      end
  | FDrop =>
      match fs_live s with
      | o1 :: (_ :: _) as t => if fs_rolling s then s else remove_obj o1 (set_live (tl (fs_live s)) s)
      | _ => s
      end
  | FCut n =>
      (* src/log_mgr.cc:299-322 *)
      if fs_rolling s || negb (existsb (fun x => o_num x =? n) (fs_live s)) then s
      else
        let gone := filter (fun x => n <? o_num x) (fs_live s) in
        let s1 := fold_left (fun a x => remove_obj x a) gone (set_live (filter (fun x => o_num x <=? n) (fs_live s)) s) in
        mkFS (fs_live s1) (fs_zombie s1) (fs_dir s1) (fs_pend s1) (fs_popped s1) n (fs_ino s1) true
  | FForce =>
      (* src/log_mgr.cc:325, db_mgr.cc:423-435, forceRemoveFiles *)
      if fs_rolling s
      then mkFS (fs_live s) (fs_zombie s) (fold_left (fun d n => unlink n d) (fs_pend s) (fs_dir s)) [] (fs_popped s)
                (fs_max s) (fs_ino s) false
      else s
  | FPop =>
      (* src/cmd_handler.cc:95-115, popFileToRemove *)
      match fs_pend s with
      | n :: t => mkFS (fs_live s) (fs_zombie s) (fs_dir s) t (fs_popped s ++ [n]) (fs_max s) (fs_ino s) (fs_rolling s)
      | [] => s
      end
  | FUnlink =>
      match fs_popped s with
      | n :: t => mkFS (fs_live s) (fs_zombie s) (unlink n (fs_dir s)) (fs_pend s) t (fs_max s) (fs_ino s) (fs_rolling s)
      | [] => s
      end
  end.

(** Every file of the database is on disk under its name. *)
Definition all_there (s : fstate) : Prop :=
  forall o, In o (fs_live s) -> lookup (o_num o) (fs_dir s) = Some (o_ino o).

Definition f_run (ops : list fop) : fstate := fold_left (fun s o => f_step o s) ops fs_init.

(** What the caller keeps to: no reader holds a file that a rollback removes, and the background
    remover does not run while a rollback is in progress. *)
Definition f_fine (o : fop) (s : fstate) : Prop :=
  match o with
  | FCut n => forall x, In x (fs_live s) -> n < o_num x -> o_refs x = 0
  | FPop => fs_rolling s = false
  | _ => True
  end.
Inductive freach_ : fstate -> Prop :=
| fr_init : freach_ fs_init
| fr_step : forall s o, freach_ s -> f_fine o s -> freach_ (f_step o s).
