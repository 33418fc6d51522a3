(** Reference counts of one log file (src/log_manifest.h:40-234, LogFileInfo) and its removal from
    the manifest, with any number of references taken and released at the same time.

    Simplifications: only one file; a skiplist node is found, referenced and released as
    src/skiplist.cc documents it (a node that is referenced is not freed); accesses of the file's
    content are not shown, a reference that is held stands for them; that grab() may load a purged
    memtable again (src/log_manifest.h:102-108) is not modelled. *)
From Verif Require Import Base.
From Coq Require Import Arith.

(** What the owner of one reference is doing.  "Node" means that it still references the skiplist
    node. *)
Inductive rpc :=
| PIdle
| PFound                    (* src/log_manifest.cc:680-684, 698-702: node found *)
| PLock (node : bool)       (* in grab(), src/log_manifest.h:101: waits for evictionLock *)
| PNode                     (* grab() or grabForSnapshot() done, node not yet released *)
| PSNode
| PHold                     (* in use *)
| PSHold                    (* in use by a snapshot of log store mode *)
| PEv                       (* the reclaimer: src/log_manifest.cc:62-68 found it not removed *)
| PRm1 | PRm2               (* src/log_manifest.cc:836 done; 838-839 done *)
| PDone1                    (* src/log_manifest.h:143 read removed = true *)
| PDone2 (snaps : nat)      (* 152 done *)
| PChk                      (* 143 read removed = false *)
| PDec                      (* 182 read evicted = false: line 199 *)
| PDecE                     (* 182 read evicted = true: line 183 *)
| PPurge                    (* 184: count was 1 *)
| PUnlock                   (* 185-188 done; evictionLock still held *)
| PSDone1                   (* the same for a snapshot: 143 read true *)
| PSDone2 (snaps : nat)     (* 148 done *)
| PSDec                     (* 143 read false: line 197 *)
| PDestroy.                 (* 157: destroy_file *)

Record rst := mkR {
  r_linked : bool;     (* in the skiplist *)
  r_removed : bool;
  r_evicted : bool;
  r_purged : bool;     (* LogFile::memtablePurged *)
  r_ref : nat;
  r_snap : nat;
  r_nodes : nat;       (* references of the skiplist node *)
  r_freed : nat;       (* how often the object was deleted *)
  r_bad : bool;        (* the object was accessed after that *)
  r_pcs : list rpc }.

Fixpoint upd (t : nat) (p : rpc) (l : list rpc) : list rpc :=
  match l, t with
  | [], _ => []
  | _ :: l', O => p :: l'
  | x :: l', S t' => x :: upd t' p l'
  end.
Definition at_pc (t : nat) (s : rst) : rpc := nth t (r_pcs s) PIdle.
(** evictionLock is held. *)
Definition locked (s : rst) : bool := existsb (fun p => match p with PUnlock => true | _ => false end) (r_pcs s).
(** Every step but finding the node accesses the object. *)
Definition touch (s : rst) : bool := r_bad s || negb (Nat.eqb (r_freed s) 0).
Definition go (t : nat) (p : rpc) (s : rst) : rst :=
  mkR (r_linked s) (r_removed s) (r_evicted s) (r_purged s) (r_ref s) (r_snap s) (r_nodes s) (r_freed s) (touch s) (upd t p (r_pcs s)).
Definition set_ref (n : nat) (s : rst) : rst :=
  mkR (r_linked s) (r_removed s) (r_evicted s) (r_purged s) n (r_snap s) (r_nodes s) (r_freed s) (r_bad s) (r_pcs s).
Definition set_snap (n : nat) (s : rst) : rst :=
  mkR (r_linked s) (r_removed s) (r_evicted s) (r_purged s) (r_ref s) n (r_nodes s) (r_freed s) (r_bad s) (r_pcs s).
Definition set_nodes (n : nat) (s : rst) : rst :=
  mkR (r_linked s) (r_removed s) (r_evicted s) (r_purged s) (r_ref s) (r_snap s) n (r_freed s) (r_bad s) (r_pcs s).
Definition set_flags (l r e p : bool) (s : rst) : rst :=
  mkR l r e p (r_ref s) (r_snap s) (r_nodes s) (r_freed s) (r_bad s) (r_pcs s).

Inductive rev_ :=
| EFind (t : nat)            (* skiplist_find *)
| EGrab (t : nat)            (* src/log_manifest.h:77-78 *)
| ELock (t : nat)            (* 101-109 *)
| ESnap (t : nat)            (* 111-113 *)
| ERelease (t : nat)         (* skiplist_release_node *)
| EDup (t u : nat)           (* 239-242: another reference by its owner *)
| EEvChk (t : nat)           (* src/log_manifest.cc:62-68 *)
| EEvict (t : nat)           (* src/log_manifest.cc:74, by the reclaimer, which holds a reference *)
| ERm (t : nat)              (* src/log_manifest.cc:836, by flush(), which holds one *)
| EUnlink (t : nat)          (* 838-839, 842 *)
| EWait (t : nat)            (* 840, 843: skiplist_wait_for_free *)
| EDone (t : nat)            (* the next step of done() or doneForSnapshot() *)
| EKill (t : nat).           (* 168-174 *)

Definition rstep (e : rev_) (s : rst) : option rst :=
  match e with
  | EFind t => match at_pc t s with
               | PIdle => if r_linked s && Nat.ltb t (length (r_pcs s))
                          then Some (mkR (r_linked s) (r_removed s) (r_evicted s) (r_purged s) (r_ref s) (r_snap s) (S (r_nodes s)) (r_freed s) (r_bad s) (upd t PFound (r_pcs s)))
                          else None
               | _ => None
               end
  | EGrab t => match at_pc t s with PFound => Some (go t (PLock true) (set_ref (S (r_ref s)) s)) | _ => None end
  | ELock t => match at_pc t s with
               | PLock b => if locked s then None else Some (go t (if b then PNode else PHold) s)
               | _ => None
               end
  | ESnap t => match at_pc t s with PFound => Some (go t PSNode (set_snap (S (r_snap s)) s)) | _ => None end
  | ERelease t => match at_pc t s with
                  | PNode => Some (go t PHold (set_nodes (pred (r_nodes s)) s))
                  | PSNode => Some (go t PSHold (set_nodes (pred (r_nodes s)) s))
                  | _ => None
                  end
  | EDup t u => match at_pc t s, at_pc u s with
                | PHold, PIdle => if Nat.ltb u (length (r_pcs s)) then Some (go u (PLock false) (set_ref (S (r_ref s)) s)) else None
                | _, _ => None
                end
  | EEvChk t => match at_pc t s with PNode => if r_removed s then None else Some (go t PEv s) | _ => None end
  | EEvict t => match at_pc t s with
                | PEv => if locked s then None else Some (go t PNode (set_flags (r_linked s) (r_removed s) true (r_purged s) s))
                | _ => None
                end
  | ERm t => match at_pc t s with
             | PHold => if r_removed s then None else Some (go t PRm1 (set_flags (r_linked s) true (r_evicted s) (r_purged s) s))
             | _ => None
             end
  | EUnlink t => match at_pc t s with
                 | PRm1 => Some (go t PRm2 (set_flags false (r_removed s) (r_evicted s) (r_purged s) s))
                 | _ => None
                 end
  | EWait t => match at_pc t s with
               | PRm2 => if Nat.eqb (r_nodes s) 0 then Some (go t PHold s) else None
               | _ => None
               end
  | EDone t =>
      match at_pc t s with
      | PHold => Some (go t (if r_removed s then PDone1 else PChk) s)
      | PDone1 => Some (go t (PDone2 (r_snap s)) s)
      | PDone2 c => Some (go t (if Nat.eqb c 0 && Nat.eqb (r_ref s) 1 then PDestroy else PIdle) (set_ref (pred (r_ref s)) s))
      | PChk => Some (go t (if r_evicted s then PDecE else PDec) s)
      | PDec => Some (go t PIdle (set_ref (pred (r_ref s)) s))
      | PDecE => Some (go t (if Nat.eqb (r_ref s) 1 then PPurge else PIdle) (set_ref (pred (r_ref s)) s))
      | PPurge => if locked s then None else Some (go t PUnlock (set_flags (r_linked s) (r_removed s) (r_evicted s) (r_purged s || Nat.eqb (r_ref s) 0) s))
      | PUnlock => Some (go t PIdle s)
      | PSHold => Some (go t (if r_removed s then PSDone1 else PSDec) s)
      | PSDone1 => Some (go t (PSDone2 (r_snap s)) (set_snap (pred (r_snap s)) s))
      | PSDone2 c => Some (go t (if Nat.eqb c 1 && Nat.eqb (r_ref s) 0 then PDestroy else PIdle) s)
      | PSDec => Some (go t PIdle (set_snap (pred (r_snap s)) s))
      | _ => None
      end
  | EKill t =>
      match at_pc t s with
      | PDestroy => if r_evicted s && negb (r_purged s) then None   (* 169-172: waits *)
                    else Some (mkR (r_linked s) (r_removed s) (r_evicted s) (r_purged s) (r_ref s) (r_snap s) (r_nodes s) (S (r_freed s)) (touch s) (upd t PIdle (r_pcs s)))
      | _ => None
      end
  end.
Fixpoint rruns (es : list rev_) (s : rst) : option rst :=
  match es with [] => Some s | e :: es' => match rstep e s with Some s' => rruns es' s' | None => None end end.
(** src/log_manifest.cc:810-824, addNewLogFile: in the skiplist, no references; room for [n]
    references at a time. *)
Definition r_new (n : nat) : rst := mkR true false false false 0 0 0 0 false (repeat PIdle n).

(** The owner uses the file. *)
Definition in_use (p : rpc) : bool := match p with PHold | PNode | PSHold | PSNode => true | _ => false end.
