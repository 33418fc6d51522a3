(** The life of the handles of a group of databases: src/db_group.cc:19-165 (DBGroup::open, close,
    openDefaultDB, openDB), src/jungle.cc:50-188 (DB::open), src/jungle.cc:256-279 (DB::close),
    src/db_mgr.cc:297-372 (openExisting, assignNew, close), src/jungle.cc:1015-1050 (destroy).

    One path, one thread: every call is one step (interleavings of opens and closes without groups
    are in HandleModel.v).  Names are numbers, 0 is the empty name of the default database.
    Simplifications: every open succeeds; the compare-and-swap of DBMgr::close does not fail for no
    reason; a database is in the map from the moment it is made to the moment it is deleted
    (db_mgr.cc:331-338 and 356-365, each under the lock), so that the map of open databases and the
    set of existing objects are one list.  The database manifest and the logger exist exactly as
    long as the default database that made them (jungle.cc:106-133, 1029-1034, 1047-1049). *)
From Coq Require Import Arith List Bool.
Import ListNotations.
Local Open Scope nat_scope.

(** A database object with its DBWrap: db_internal.h:117-156, db_mgr.h:60-64. *)
Record db := mkDb {
  d_id : nat;                       (* the address *)
  d_name : nat;                     (* DBWrap::kvsName *)
  d_ref : nat;                      (* DBWrap::refCount *)
  d_grp : option nat;               (* DBInternal::dbGroup *)
  d_log : nat }.                    (* DBInternal::myLog: the default database that made the logger *)

(** What a caller holds.  The second number of [HG] and [HN] is not in the code: the database the
    handle counts for; the name it was opened with. *)
Inductive handle :=
| HG (g o : nat)                    (* from DBGroup::open *)
| HN (n o : nat)                    (* from DBGroup::openDB *)
| HO (o : nat).                     (* from DB::open *)

Record st := mkS {
  s_dbs : list db;                  (* dbMap, and the objects *)
  s_grps : list (nat * nat);        (* the DBGroup objects, with their defaultDB *)
  s_next : nat;                     (* the next address *)
  s_held : list handle;             (* handles given out and not given back *)
  s_bad : bool }.                   (* a deleted object was read *)

Definition init : st := mkS [] [] 0 [] false.

(** skiplist_find by name, db_mgr.cc:300-304; the object at an address. *)
Definition find_name (n : nat) (l : list db) : option db := find (fun b => d_name b =? n) l.
Definition find_id (o : nat) (l : list db) : option db := find (fun b => d_id b =? o) l.
Definition find_grp (g : nat) (l : list (nat * nat)) : option (nat * nat) := find (fun p => fst p =? g) l.

Definition set_ref (o k : nat) (l : list db) : list db :=
  map (fun b => if d_id b =? o then mkDb (d_id b) (d_name b) k (d_grp b) (d_log b) else b) l.
Definition erase (o : nat) (l : list db) : list db := filter (fun b => negb (d_id b =? o)) l.
Definition erase_grp (g : option nat) (l : list (nat * nat)) : list (nat * nat) :=
  match g with Some g' => filter (fun p => negb (fst p =? g')) l | None => l end.

Definition with_dbs (l : list db) (s : st) : st := mkS l (s_grps s) (s_next s) (s_held s) (s_bad s).
Definition give (h : handle) (s : st) : st := mkS (s_dbs s) (s_grps s) (s_next s) (h :: s_held s) (s_bad s).
Definition bad_if (b : bool) (s : st) : st := mkS (s_dbs s) (s_grps s) (s_next s) (s_held s) (s_bad s || b).

(** A read of the object at [o]. *)
Definition gone (o : nat) (s : st) : bool := match find_id o (s_dbs s) with Some _ => false | None => true end.
Definition touch (o : nat) (s : st) : st := bad_if (gone o s) s.
(** A read of the object at [o], and a line for its logger if logging is on: DBConfig::allowLogging
    (jungle.cc:100-113), the macro of logger.h:60-78 reads the logger unless the pointer is null. *)
Definition log_gone (lg : bool) (o : nat) (s : st) : bool :=
  match find_id o (s_dbs s) with
  | Some b => lg && gone (d_log b) s
  | None => true
  end.
Definition log_line (lg : bool) (o : nat) (s : st) : st := bad_if (log_gone lg o s) s.

(** DBMgr::close, db_mgr.cc:342-372, with DBInternal::destroy. *)
Definition mgr_close (o : nat) (s : st) : st :=
  match find_id o (s_dbs s) with
  | None => bad_if true s
  | Some b =>
    if d_ref b =? 0 then s
    else if d_ref b =? 1
         then mkS (erase o (s_dbs s)) (erase_grp (d_grp b) (s_grps s)) (s_next s) (s_held s) (s_bad s)
         else with_dbs (set_ref o (d_ref b - 1) (s_dbs s)) s
  end.

(** DB::open, jungle.cc:50-176: an existing database, or a new one with a logger of its own. *)
Definition db_open (s : st) : nat * st :=
  match find_name 0 (s_dbs s) with
  | Some b => (d_id b, with_dbs (set_ref (d_id b) (S (d_ref b)) (s_dbs s)) s)
  | None => (s_next s, mkS (mkDb (s_next s) 0 1 None (s_next s) :: s_dbs s) (s_grps s) (S (s_next s)) (s_held s) (s_bad s))
  end.

(** db_group.cc:52: p->defaultDB->p->dbGroup = db_group. *)
Definition set_grp (o g : nat) (l : list db) : list db :=
  map (fun b => if d_id b =? o then mkDb (d_id b) (d_name b) (d_ref b) (Some g) (d_log b) else b) l.

(** DBGroup::open, db_group.cc:19-55.  [None]: INVALID_HANDLE_USAGE. *)
Definition group_open (s : st) : option (nat * nat) * st :=
  match find_name 0 (s_dbs s) with
  | Some b =>
    let s1 := with_dbs (set_ref (d_id b) (S (d_ref b)) (s_dbs s)) s in
    match d_grp b with
    | None => (None, mgr_close (d_id b) s1)
    | Some g => (Some (g, d_id b), s1)
    end
  | None =>
    let '(o, s1) := db_open s in
    let g := s_next s1 in
    (Some (g, o), mkS (set_grp o g (s_dbs s1)) ((g, o) :: s_grps s1) (S g) (s_held s1) (s_bad s1))
  end.

(** DBGroup::close, db_group.cc:58-68. *)
Definition group_close (g : nat) (s : st) : st :=
  match find_grp g (s_grps s) with
  | None => bad_if true s
  | Some (_, o) => mgr_close o s
  end.

(** DBGroup::openDB, db_group.cc:79-165, with a name that is not empty. *)
Definition group_named (g n : nat) (s : st) : nat * st :=
  match find_grp g (s_grps s) with
  | None => (0, bad_if true s)
  | Some (_, src) =>
    let s1 := touch src s in
    match find_name n (s_dbs s1) with
    | Some b => (d_id b, with_dbs (set_ref (d_id b) (S (d_ref b)) (s_dbs s1)) s1)
    | None => (s_next s1, mkS (mkDb (s_next s1) n 1 None src :: s_dbs s1) (s_grps s1) (S (s_next s1)) (s_held s1) (s_bad s1))
    end
  end.

(** DB::close, jungle.cc:256-279, not on a snapshot. *)
Definition db_close (lg : bool) (o : nat) (s : st) : st :=
  let s1 := log_line lg o s in
  match find_id o (s_dbs s1) with
  | None => s1
  | Some b => match d_grp b with Some _ => s1 | None => mgr_close o s1 end
  end.

(** DBGroup::openDefaultDB (db_group.cc:71-77), any call on that handle, and DB::close of it. *)
Definition use_default (lg : bool) (g : nat) (s : st) : st :=
  match find_grp g (s_grps s) with
  | None => bad_if true s
  | Some (_, o) => db_close lg o (log_line lg o s)
  end.

Inductive act :=
| GOpen                             (* DBGroup::open *)
| GClose (g o : nat)                (* DBGroup::close *)
| GDefault (g o : nat)              (* openDefaultDB, calls on it, DB::close *)
| GNamed (g o n : nat)              (* openDB with name n+1 *)
| DOpen                             (* DB::open *)
| Use (h : handle)                  (* a call on a database handle that logs: taken to be every call *)
| DClose (h : handle).              (* DB::close *)

Definition handle_eq (a b : handle) : {a = b} + {a <> b}.
Proof. decide equality; apply Nat.eq_dec. Defined.
Definition holds (h : handle) (s : st) : bool := if in_dec handle_eq h (s_held s) then true else false.
(** The caller gives the handle back. *)
Fixpoint take (h : handle) (l : list handle) : list handle :=
  match l with
  | [] => []
  | x :: l' => if handle_eq x h then l' else x :: take h l'
  end.
Definition give_back (h : handle) (s : st) : st := mkS (s_dbs s) (s_grps s) (s_next s) (take h (s_held s)) (s_bad s).

(** The database a database handle points to: DB* itself. *)
Definition target (h : handle) : option nat := match h with HG _ _ => None | HN _ o => Some o | HO o => Some o end.

(** One call.  [None]: the caller does not hold the handle it passes. *)
Definition step (lg : bool) (a : act) (s : st) : option st :=
  match a with
  | GOpen =>
    let '(r, s1) := group_open s in
    Some match r with Some (g, o) => give (HG g o) s1 | None => s1 end
  | GClose g o => if holds (HG g o) s then Some (give_back (HG g o) (group_close g s)) else None
  | GDefault g o => if holds (HG g o) s then Some (use_default lg g s) else None
  | GNamed g o n =>
    if holds (HG g o) s then let '(r, s1) := group_named g (S n) s in Some (give (HN (S n) r) s1) else None
  | DOpen => let '(o, s1) := db_open s in Some (give (HO o) s1)
  | Use h =>
    match target h with
    | Some o => if holds h s then Some (log_line lg o s) else None
    | None => None
    end
  | DClose h =>
    match target h with
    | Some o => if holds h s then Some (give_back h (db_close lg o s)) else None
    | None => None
    end
  end.

Fixpoint run (lg : bool) (l : list act) (s : st) : option st :=
  match l with
  | [] => Some s
  | a :: l' => match step lg a s with Some s' => run lg l' s' | None => None end
  end.
