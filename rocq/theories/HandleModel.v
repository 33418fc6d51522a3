(** Opening and closing one database by many threads: src/jungle.cc:50-188 (DB::open),
    src/jungle.cc:256-279 (DB::close), src/db_mgr.cc:297-372 (openExisting, assignNew, close).

    A database object is a number; [None] as a handle is the null pointer.  A step is one access to
    what threads share: the map of open databases (guarded by dbMapLock) or a reference count.
    Simplifications: one path; loading the files, and DBInternal::destroy, are one step; the object
    and its DBWrap are one thing (they are made and deleted together); reads of an object that was
    deleted are [s_bad], which nothing clears. *)
From Coq Require Import Arith List Bool.
Import ListNotations.
Local Open Scope nat_scope.

Inductive pc :=
| Out                               (* in no call *)
| OFind                             (* jungle.cc:62, db_mgr.cc:298-307: lock, search *)
| OGot (o : nat)                    (* db_mgr.cc:310: found, under the lock: fetch_add, unlock *)
| OLoad                             (* jungle.cc:79-164: a new object is loaded *)
| OAssign (o : nat)                 (* jungle.cc:166, db_mgr.cc:315-340 *)
| ODup (o : nat)                    (* jungle.cc:170-171: destroy and delete the duplicate *)
| OAgain                            (* jungle.cc:172 *)
| CLoad (o : nat)                   (* db_mgr.cc:343-348 *)
| CCas (o : nat)                    (* db_mgr.cc:350-352 *)
| CLock (o : nat)                   (* db_mgr.cc:355-357: lock, erase from the map *)
| CFree (o : nat)                   (* db_mgr.cc:358-365: destroy, delete; unlock *)
| CSub (o : nat).                   (* db_mgr.cc:367 *)

Record st := mkS {
  s_map : option nat;               (* dbMap: the object registered for the path *)
  s_lock : bool;                    (* dbMapLock is held *)
  s_ref : nat -> nat;               (* DBWrap::refCount *)
  s_live : nat -> bool;             (* made and not deleted *)
  s_next : nat;                     (* the next object *)
  s_pc : nat -> pc;                 (* of each thread *)
  s_held : list (option nat);       (* handles given to callers with an OK status, not given back *)
  s_bad : bool }.                   (* a deleted object was read *)

Definition upd {B} (n : nat) (v : B) (f : nat -> B) : nat -> B := fun x => if x =? n then v else f x.
Definition init : st := mkS None false (fun _ => 0) (fun _ => false) 0 (fun _ => Out) [] false.

Definition at_pc (t : nat) (p : pc) (s : st) : st :=
  mkS (s_map s) (s_lock s) (s_ref s) (s_live s) (s_next s) (upd t p (s_pc s)) (s_held s) (s_bad s).
Definition with_lock (b : bool) (s : st) : st := mkS (s_map s) b (s_ref s) (s_live s) (s_next s) (s_pc s) (s_held s) (s_bad s).
Definition with_map (m : option nat) (s : st) : st := mkS m (s_lock s) (s_ref s) (s_live s) (s_next s) (s_pc s) (s_held s) (s_bad s).
Definition with_ref (o n : nat) (s : st) : st := mkS (s_map s) (s_lock s) (upd o n (s_ref s)) (s_live s) (s_next s) (s_pc s) (s_held s) (s_bad s).
Definition with_live (o : nat) (b : bool) (s : st) : st := mkS (s_map s) (s_lock s) (s_ref s) (upd o b (s_live s)) (s_next s) (s_pc s) (s_held s) (s_bad s).
Definition give (h : option nat) (s : st) : st := mkS (s_map s) (s_lock s) (s_ref s) (s_live s) (s_next s) (s_pc s) (h :: s_held s) (s_bad s).
(** A read of object [o]. *)
Definition touch (o : nat) (s : st) : st :=
  mkS (s_map s) (s_lock s) (s_ref s) (s_live s) (s_next s) (s_pc s) (s_held s) (s_bad s || negb (s_live s o)).
Fixpoint take (o : nat) (l : list (option nat)) : option (list (option nat)) :=
  match l with
  | [] => None
  | Some x :: l' => if x =? o then Some l' else option_map (cons (Some x)) (take o l')
  | None :: l' => option_map (cons None) (take o l')
  end.

Inductive act :=
| Open (t : nat)                    (* thread [t] calls DB::open *)
| Close (t o : nat)                 (* thread [t] calls DB::close with a handle it was given *)
| Go (t : nat)                      (* the next step of thread [t] *)
| Weak (t : nat)                    (* the compare_exchange_weak of db_mgr.cc:352 fails although the values agree *)
| Use (o : nat).                    (* some call on a handle that was given out *)

Definition step (a : act) (s : st) : option st :=
  match a with
  | Open t => match s_pc s t with Out => Some (at_pc t OFind s) | _ => None end
  | Close t o =>
      match s_pc s t, take o (s_held s) with
      | Out, Some l => Some (at_pc t (CLoad o) (mkS (s_map s) (s_lock s) (s_ref s) (s_live s) (s_next s) (s_pc s) l (s_bad s)))
      | _, _ => None
      end
  | Use o => match take o (s_held s) with Some _ => Some (touch o s) | None => None end
  | Weak t => match s_pc s t with CCas o => Some (at_pc t (CSub o) (touch o s)) | _ => None end
  | Go t =>
      match s_pc s t with
      | Out => None
      | OFind =>
          if s_lock s then None
          else Some (match s_map s with Some o => at_pc t (OGot o) (with_lock true s) | None => at_pc t OLoad s end)
      | OGot o => Some (at_pc t Out (give (Some o) (with_lock false (with_ref o (S (s_ref s o)) (touch o s)))))
      | OLoad =>
          let o := s_next s in
          Some (at_pc t (OAssign o) (mkS (s_map s) (s_lock s) (upd o 0 (s_ref s)) (upd o true (s_live s)) (S o) (s_pc s) (s_held s) (s_bad s)))
      | OAssign o =>
          if s_lock s then None
          else Some (match s_map s with
                     | Some _ => at_pc t (ODup o) s
                     | None => at_pc t Out (give (Some o) (with_ref o 1 (with_map (Some o) s)))
                     end)
      | ODup o => Some (at_pc t OAgain (with_live o false s))
      | OAgain =>
          if s_lock s then None
          else Some (match s_map s with Some o => at_pc t (OGot o) (with_lock true s) | None => at_pc t Out (give None s) end)
      | CLoad o => Some (at_pc t (if s_ref s o =? 0 then Out else CCas o) (touch o s))
      | CCas o => Some (if s_ref s o =? 1 then at_pc t (CLock o) (with_ref o 0 (touch o s)) else at_pc t (CSub o) (touch o s))
      | CLock o =>
          if s_lock s then None
          else Some (at_pc t (CFree o) (with_map (match s_map s with Some x => if x =? o then None else Some x | None => None end) (with_lock true (touch o s))))
      | CFree o => Some (at_pc t Out (with_lock false (with_live o false (touch o s))))
      | CSub o => Some (at_pc t Out (with_ref o (s_ref s o - 1) (touch o s)))
      end
  end.

Fixpoint run (os : list act) (s : st) : option st :=
  match os with [] => Some s | a :: os' => match step a s with Some s' => run os' s' | None => None end end.
