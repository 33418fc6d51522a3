(** Two threads call DB::open for the same path at once (src/jungle.cc:55-176).  Both find no
    handle in the map (openExisting, 62) and both load the files (130-153).  The first one to
    register its handle (assignNew, 159) goes on with it; the other one finds the path taken,
    destroys what it loaded (160-165) and returns the first one's handle.

    destroy() of the duplicate is that of a database in use (1012-1050): it ends with
    LogMgr::close, which syncs and stores the log manifest (src/log_mgr.cc:2076-2131).

    Built on RecoverModel.v.  Left out: what destroy() does to db_manifest (the names of the key
    value stores), the tables of the duplicate (closing them writes nothing), and an interleaving
    inside one call of the first thread or inside the load of the second. *)
From Verif Require Import Base KeyModel LogFormatModel LogManifestModel BloomModel MemTableModel LogMgrModel DbModel RecoverModel.
Local Open Scope N_scope.

(** The first thread's database with the files, and the log and tables in the memory of the
    second thread, if it is between loading and giving up. *)
Record two := mkTwo { t_p : pdb; t_dup : option db }.

(** The files of [q] under the handle of [p]. *)
Definition files_of (q : pdb) (d : db) : pdb := mkP d (p_disk q) (p_dur q) (p_man q) (p_old q).

Inductive dop :=
| DFirst (o : pop)   (** a call of the first thread *)
| DLoad              (** the second thread loads the files *)
| DDrop.             (** it finds the path taken and destroys what it loaded *)

Section Hash.
Variable hash : key -> N * N.

(** src/jungle.cc:130-156: LogMgr::init on the files as they are; this may remove files that the
    manifest does not list. *)
Definition dup_load (c : cfg) (p : pdb) : option (pdb * db) :=
  match p_open hash c (d_tab (p_db p)) (p_disk p) (p_dur p) (p_man p) (p_old p) with
  | Some q => Some (files_of q (p_db p), p_db q)
  | None => None
  end.

(** src/jungle.cc:160-164, 1036; src/log_mgr.cc:2108-2112: syncInternal(true) with the duplicate's
    view of the log files. *)
Definition dup_drop (c : cfg) (b : db) (p : pdb) : option (res (list rec) * pdb) :=
  match p_sync hash c true (files_of p b) with
  | Some (x, q) => Some (x, files_of q (p_db p))
  | None => None
  end.

Definition dstep (c : cfg) (o : dop) (s : two) : option (res (list rec) * two) :=
  match o with
  | DFirst o => match pstep hash c o (t_p s) with
                | Some (x, p) => Some (x, mkTwo p (t_dup s))
                | None => None
                end
  | DLoad => match t_dup s, dup_load c (t_p s) with
             | None, Some (p, b) => Some (Ok [], mkTwo p (Some b))
             | _, _ => None
             end
  | DDrop => match t_dup s with
             | Some b => match dup_drop c b (t_p s) with
                         | Some (x, p) => Some (x, mkTwo p None)
                         | None => None
                         end
             | None => None
             end
  end.

Fixpoint drun (c : cfg) (os : list dop) (s : two) : option (list (res (list rec)) * two) :=
  match os with
  | [] => Some ([], s)
  | o :: t => match dstep c o s with
              | Some (x, s1) => match drun c t s1 with Some (l, s2) => Some (x :: l, s2) | None => None end
              | None => None
              end
  end.

End Hash.
