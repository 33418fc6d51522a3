(** The lookup booster of a table file (src/table_lookup_booster.cc) and its use by
    TableFile::get and TableFile::setSingle, with any number of threads in between each other's
    steps.

    Simplifications: the bloom filter, snapshots and the decoding of values are left out; ForestDB
    appends every document and finds the last one of a key (documents are never overwritten in the
    file); an operation under a mutex is one step (but see [lock_of]). *)
From Verif Require Import Base KeyModel LogFormatModel.
Local Open Scope N_scope.

(** src/table_lookup_booster.h:35-67, Elem: hash, sequence number, offset. *)
Record elem := mkE { e_hash : N; e_seq : N; e_off : N }.
(** src/table_lookup_booster.h:37-39: the constructor's defaults fill the vector (cc:30). *)
Definition elem0 : elem := mkE 0 0 0.

(** The file: documents in the order they were appended, the first one at offset 1 (offset 0, the
    header, is never one); the elements; what every thread is doing. *)
Inductive pc :=
| Idle
| RHint (k : key) (hint : option N)      (* src/table_file.cc:1125-1126 done *)
| RSearch (k : key)                      (* no usable hint: line 1148 *)
| RFill (k : key) (r : rec) (off : N)    (* found by line 1151: line 1154 *)
| RDone (k : key) (res : option rec)
| WPut (r : rec) (off : N)               (* src/table_file.cc:915 done: line 931 *)
| WDone (r : rec).
Record bst := mkB { b_file : list rec; b_elems : N -> elem; b_pc : nat -> pc }.

Section Table.
(** getKeyHash (src/table_mgr.cc:60-63), a 32-bit hash, and the number of elements. *)
Variable khash : key -> N.
Variable size : N.

Definition slot_of (h : N) : N := h mod size.
(** src/table_lookup_booster.cc:33, 48, 61: the mutex. *)
Definition lock_of (h : N) : N := h mod 17.

(** src/table_lookup_booster.cc:47-58. *)
Definition b_get (h : N) (es : N -> elem) : option N :=
  let e := es (slot_of h) in if e_hash e =? h then Some (e_off e) else None.
(** src/table_lookup_booster.cc:60-73. *)
Definition set_if_new (e : elem) (es : N -> elem) : N -> elem :=
  let x := es (slot_of (e_hash e)) in
  if (e_hash x =? e_hash e) && (e_seq e <=? e_seq x) then es
  else fun i => if i =? slot_of (e_hash e) then e else es i.

(** ForestDB: fdb_get_byoffset_raw and fdb_get. *)
Definition doc_at (off : N) (f : list rec) : option rec := if off =? 0 then None else nth_error f (N.to_nat (off - 1)).
Fixpoint last_doc (k : key) (off : N) (f : list rec) : option (rec * N) :=
  match f with
  | [] => None
  | r :: f' => match last_doc k (off + 1) f' with
               | Some x => Some x
               | None => if keqb (r_key r) k then Some (r, off) else None
               end
  end.
Definition find_doc (k : key) (f : list rec) : option (rec * N) := last_doc k 1 f.

Definition set_pc (t : nat) (p : pc) (s : bst) : bst :=
  mkB (b_file s) (b_elems s) (fun u => if Nat.eqb u t then p else b_pc s u).
Definition with_elems (es : N -> elem) (s : bst) : bst := mkB (b_file s) es (b_pc s).

(** One step of thread [t].  [None]: the thread cannot do this now. *)
Inductive bev :=
| BRead (t : nat) (k : key)      (* src/table_file.cc:1122-1126: look into the booster *)
| BHint (t : nat)                (* 1128-1146: read the document and compare its key *)
| BFind (t : nat)                (* 1151: fdb_get *)
| BFill (t : nat)                (* 1154 *)
| BWrite (t : nat) (r : rec)     (* src/table_file.cc:909-915: fdb_set *)
| BPut (t : nat)                 (* 930-934 *)
| BEnd (t : nat).                (* the thread takes note of the result *)

Definition bstep (e : bev) (s : bst) : option bst :=
  match e with
  | BRead t k => match b_pc s t with
                 | Idle => Some (set_pc t (RHint k (b_get (khash k) (b_elems s))) s)
                 | _ => None
                 end
  | BHint t => match b_pc s t with
               | RHint k (Some off) =>
                   match doc_at off (b_file s) with
                   | Some d => if keqb (r_key d) k then Some (set_pc t (RDone k (Some d)) s) else Some (set_pc t (RSearch k) s)
                   | None => Some (set_pc t (RSearch k) s)
                   end
               | RHint k None => Some (set_pc t (RSearch k) s)
               | _ => None
               end
  | BFind t => match b_pc s t with
               | RSearch k => match find_doc k (b_file s) with
                              | Some (d, off) => Some (set_pc t (RFill k d off) s)
                              | None => Some (set_pc t (RDone k None) s)
                              end
               | _ => None
               end
  | BFill t => match b_pc s t with
               | RFill k d off => Some (set_pc t (RDone k (Some d)) (with_elems (set_if_new (mkE (khash k) (r_seq d) off) (b_elems s)) s))
               | _ => None
               end
  | BWrite t r => match b_pc s t with
                  | Idle => Some (set_pc t (WPut r (N.of_nat (length (b_file s)) + 1)) (mkB (b_file s ++ [r]) (b_elems s) (b_pc s)))
                  | _ => None
                  end
  | BPut t => match b_pc s t with
              | WPut r off => Some (set_pc t (WDone r) (with_elems (set_if_new (mkE (khash (r_key r)) (r_seq r) off) (b_elems s)) s))
              | _ => None
              end
  | BEnd t => match b_pc s t with
              | RDone _ _ | WDone _ => Some (set_pc t Idle s)
              | _ => None
              end
  end.

Definition b_new : bst := mkB [] (fun _ => elem0) (fun _ => Idle).
Fixpoint bruns (es : list bev) (s : bst) : option bst :=
  match es with
  | [] => Some s
  | e :: es' => match bstep e s with Some s' => bruns es' s' | None => None end
  end.
End Table.
