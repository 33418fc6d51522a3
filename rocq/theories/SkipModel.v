(** The lock-free skiplist under all indexes (src/skiplist.cc), shared by any number of threads that
    insert, erase and search at the same time.

    One step is one access of shared memory.  Simplifications:
    - The code between _sl_read_lock_an and _sl_read_unlock_an (skiplist.cc:305-333, 342-353), and the
      code between _sl_write_lock_an and its unlock (536-547, 841-843, 847-862), is one step each; a read
      section waits while an insertion holds the write lock of its own node (418 to 554).  That the
      lock excludes as it should is proved in RwLockProps.v.
    - Accesses are sequentially consistent; the code uses relaxed order (60, 85).
    - A node object is inserted and erased once; its address is not used again.
    - Keys are numbers: [key]; the head has the smallest, the tail the largest, as in _sl_cmp
      (221-230).  The layer of a node (364-378, 413) is an arbitrary function [top].
    - _sl_next gives up the nodes it skipped one by one, not all at its end (357-359).
    - Waiting loops (YIELD and retry) are not shown: a step that would wait is not enabled, a retry
      starts the search again. *)
From Verif Require Import Base.
From Coq Require Import NArith Arith List Bool.
Import ListNotations.
Local Open Scope nat_scope.

Definition head : nat := 0.
Definition tail : nat := 1.
Definition user (x : nat) : Prop := 2 <= x.

(** Life of a node.  [Ins T k]: being inserted by thread [T], linked in the layers below [k]; [Live]:
    is_fully_linked (551); [Del T k]: is_fully_linked is false again (842), unlinked by [T] from the
    layers below [k]. *)
Inductive phase := New | Ins (T k : nat) | Live | Del (T k : nat) | Dead.

(** _sl_find_mode, skiplist.cc:589-595. *)
Inductive mode := SM | SMEQ | EQ | GTEQ | GT.

Inductive job :=
| JIns (n : nat) (nodup : bool)   (* skiplist_insert, skiplist_insert_nodup: 577-587 *)
| JErase (n : nat)                (* skiplist_erase_node: 885-895 *)
| JFind (q : N) (m : mode)        (* _sl_find: 599-670; skiplist_prev: 983-988 *)
| JNext (n : nat).                (* skiplist_next: 947-981; skiplist_begin: 990-997 is [JNext head] *)

Inductive res := ROk | RDup | RGone | RFound (r : option nat).

Inductive cause :=
| CNull                           (* a null pointer is dereferenced *)
| CUninit.                        (* an entry of prevs[] that was never set is used *)

(** The work of one call: the job, its start time, prevs[] and nexts[]. *)
Record work := mkW { w_job : job; w_t0 : nat; w_prev : nat -> nat; w_next : nat -> nat }.

Inductive after := Retry | Fin (r : res).

Inductive pc :=
| Idle
| Done (t0 t1 : nat) (j : job) (r : res)
| Crash (c : cause)
| Top (w : work)                           (* insert_retry 425, find_retry 609, after 725-732: reads top_layer *)
| SRead (w : work) (l cur : nat)           (* _sl_next: 305-333 *)
| SGot (w : work) (l cur y : nat) (f : bool)   (* 338: is the next node valid? *)
| SSkip (w : work) (l cur y : nat) (f : bool)  (* 341-353 *)
| SLock (w : work) (l cur y : nat)         (* 481-494, 793-805 *)
| SVal1 (w : work) (l cur y ll : nat)      (* 496-499, 807-810: prev *)
| SVal2 (w : work) (l cur y ll : nat)      (* the same: next *)
| SStore (w : work) (l cur y : nat)        (* 510 *)
| ARead (w : work) (l cur y : nat)         (* 513-514, 820-821: _sl_next again *)
| AGot (w : work) (l cur y z : nat)
| ASkip (w : work) (l cur y z : nat)
| Clr (w : work) (k : nat) (a : after)     (* _sl_clr_flags: 380-396 *)
| ILink (w : work) (k : nat)               (* 534-548 *)
| IFull (w : work)                         (* 551 *)
| IUnl (w : work)                          (* 554 *)
| Cnt (w : work) (add : bool)              (* 559, 867 *)
| Scan (w : work) (ii : nat)               (* 560-565, 868-873; [ii]: layers left *)
| ERm (w : work)                           (* 700-705 *)
| ECas (w : work)                          (* 710-718 *)
| ESet (w : work)                          (* 721 *)
| ECheck (w : work)                        (* 726-727 *)
| EBack (w : work)                         (* 729-731 *)
| EMark (w : work)                         (* 841-843 *)
| EUnl (w : work) (k : nat)                (* 846-863 *)
| EFin (w : work).                         (* 879 *)

(** Shared memory.  [s_own x]: being_modified, with the thread that set it; [s_wl x]: the write lock
    of [x] is held by the insertion of [x]; [s_cnt], [s_tl]: layer_entries, top_layer; [s_rc]:
    ref_count.  [s_clk], [s_born], [s_died]: a clock, and when each node became and ceased to be
    fully linked, for the statements only.  [s_uaf]: a freed node was accessed. *)
Record st := mkS {
  s_nx : nat -> nat -> nat;
  s_ph : nat -> phase;
  s_own : nat -> option nat;
  s_wl : nat -> bool;
  s_rm : nat -> bool;
  s_cnt : nat -> nat;
  s_tl : nat;
  s_rc : nat -> nat;
  s_freed : nat -> bool;
  s_uaf : bool;
  s_clk : nat;
  s_born : nat -> option nat;
  s_died : nat -> option nat;
  s_th : nat -> pc
}.

Definition upd {A} (f : nat -> A) (x : nat) (v : A) : nat -> A := fun y => if y =? x then v else f y.
Definition upd2 {A} (f : nat -> nat -> A) (x l : nat) (v : A) : nat -> nat -> A :=
  fun y k => if (y =? x) && (k =? l) then v else f y k.

Definition set_nx v s := mkS v (s_ph s) (s_own s) (s_wl s) (s_rm s) (s_cnt s) (s_tl s) (s_rc s) (s_freed s) (s_uaf s) (s_clk s) (s_born s) (s_died s) (s_th s).
Definition set_ph v s := mkS (s_nx s) v (s_own s) (s_wl s) (s_rm s) (s_cnt s) (s_tl s) (s_rc s) (s_freed s) (s_uaf s) (s_clk s) (s_born s) (s_died s) (s_th s).
Definition set_own v s := mkS (s_nx s) (s_ph s) v (s_wl s) (s_rm s) (s_cnt s) (s_tl s) (s_rc s) (s_freed s) (s_uaf s) (s_clk s) (s_born s) (s_died s) (s_th s).
Definition set_wl v s := mkS (s_nx s) (s_ph s) (s_own s) v (s_rm s) (s_cnt s) (s_tl s) (s_rc s) (s_freed s) (s_uaf s) (s_clk s) (s_born s) (s_died s) (s_th s).
Definition set_rm v s := mkS (s_nx s) (s_ph s) (s_own s) (s_wl s) v (s_cnt s) (s_tl s) (s_rc s) (s_freed s) (s_uaf s) (s_clk s) (s_born s) (s_died s) (s_th s).
Definition set_cnt v s := mkS (s_nx s) (s_ph s) (s_own s) (s_wl s) (s_rm s) v (s_tl s) (s_rc s) (s_freed s) (s_uaf s) (s_clk s) (s_born s) (s_died s) (s_th s).
Definition set_tl v s := mkS (s_nx s) (s_ph s) (s_own s) (s_wl s) (s_rm s) (s_cnt s) v (s_rc s) (s_freed s) (s_uaf s) (s_clk s) (s_born s) (s_died s) (s_th s).
Definition set_rc v s := mkS (s_nx s) (s_ph s) (s_own s) (s_wl s) (s_rm s) (s_cnt s) (s_tl s) v (s_freed s) (s_uaf s) (s_clk s) (s_born s) (s_died s) (s_th s).
Definition set_freed v s := mkS (s_nx s) (s_ph s) (s_own s) (s_wl s) (s_rm s) (s_cnt s) (s_tl s) (s_rc s) v (s_uaf s) (s_clk s) (s_born s) (s_died s) (s_th s).
Definition set_uaf v s := mkS (s_nx s) (s_ph s) (s_own s) (s_wl s) (s_rm s) (s_cnt s) (s_tl s) (s_rc s) (s_freed s) v (s_clk s) (s_born s) (s_died s) (s_th s).
Definition set_clk v s := mkS (s_nx s) (s_ph s) (s_own s) (s_wl s) (s_rm s) (s_cnt s) (s_tl s) (s_rc s) (s_freed s) (s_uaf s) v (s_born s) (s_died s) (s_th s).
Definition set_born v s := mkS (s_nx s) (s_ph s) (s_own s) (s_wl s) (s_rm s) (s_cnt s) (s_tl s) (s_rc s) (s_freed s) (s_uaf s) (s_clk s) v (s_died s) (s_th s).
Definition set_died v s := mkS (s_nx s) (s_ph s) (s_own s) (s_wl s) (s_rm s) (s_cnt s) (s_tl s) (s_rc s) (s_freed s) (s_uaf s) (s_clk s) (s_born s) v (s_th s).
Definition set_th v s := mkS (s_nx s) (s_ph s) (s_own s) (s_wl s) (s_rm s) (s_cnt s) (s_tl s) (s_rc s) (s_freed s) (s_uaf s) (s_clk s) (s_born s) (s_died s) v.

(** _sl_valid_node, skiplist.cc:232-236. *)
Definition fl (s : st) (x : nat) : bool := match s_ph s x with Live => true | _ => false end.

(** An access of node [x]; the two changes of its ref_count. *)
Definition touch (x : nat) (s : st) : st := set_uaf (s_uaf s || s_freed s x) s.
Definition grab (x : nat) (s : st) : st := set_rc (upd (s_rc s) x (s_rc s x + 1)) s.
Definition drop (x : nat) (s : st) : st := touch x (set_rc (upd (s_rc s) x (s_rc s x - 1)) s).

(** skiplist_init, skiplist.cc:123-153. *)
Definition sl_new : st :=
  mkS (fun _ _ => tail) (fun x => if x <? 2 then Live else New) (fun _ => None) (fun _ => false) (fun _ => false) (fun _ => 0) 0 (fun _ => 0)
    (fun _ => false) false 0 (fun _ => None) (fun _ => None) (fun _ => Idle).

Section Model.
Variable key : nat -> N.
Variable top : nat -> nat.
(** max_layer (134); compare-and-swap may fail without reason (61, 86-90: the weak form; not on x86). *)
Variable maxl : nat.
Variable weak : bool.

Definition w_node (w : work) : nat := match w_job w with JIns n _ | JErase n | JNext n => n | JFind _ _ => head end.
Definition w_top (w : work) : nat := top (w_node w).
Definition set_prev (w : work) (l x : nat) : work := mkW (w_job w) (w_t0 w) (upd (w_prev w) l x) (w_next w).
Definition set_next (w : work) (l x : nat) : work := mkW (w_job w) (w_t0 w) (w_prev w) (upd (w_next w) l x).

(** Give up the current node; skiplist_next does not hold its own (976). *)
Definition dropc (w : work) (x : nat) (s : st) : st := match w_job w with JNext _ => s | _ => drop x s end.

(** The node that _sl_next looks for and skips (762-763: only in an erasure). *)
Definition wanted (w : work) (y : nat) : bool := match w_job w with JErase n => y =? n | _ => false end.

(** What a thread does next, with the changed memory. *)
Definition finish (w : work) (r : res) (s : st) : pc * st := (Done (w_t0 w) (s_clk s) (w_job w) r, s).

(** Where a call goes to start its search again: insert 444-447, 505-507; erase 766-768, 816-818; find
    627-629; skiplist_next 978, skiplist_begin 992-994. *)
Definition retry (w : work) (s : st) : pc * st :=
  match w_job w with
  | JErase _ => (ECheck w, s)
  | JNext n => if n =? head then (SRead w 0 head, s) else (Top (mkW (JFind (key n) GT) (w_t0 w) (w_prev w) (w_next w)), s)
  | _ => (Top w, s)
  end.

(** _sl_clr_flags from layer [k] on (380-396); there is nothing to do above the node's own layer, and
    for searches. *)
Definition clear (w : work) (k : nat) (a : after) (s : st) : pc * st :=
  let more := match w_job w with JIns n _ | JErase n => k <=? top n | _ => false end in
  if more then (Clr w k a, s)
  else match a with
       | Retry => retry w s
       | Fin r => let s1 := match r with ROk => drop (w_prev w 0) s | _ => s end in      (* 569, 877: [w_prev w 0] is cur_node *)
                  match w_job w with JErase _ => (EFin w, s1) | _ => finish w r s1 end
       end.

(** The decision about the node [y] that _sl_next returned: insert 449-478 and 526-529, erase 771-791,
    find 632-665, next 980.  An erasure that reaches the tail goes on with it in the next layer (835),
    whose next pointer is null (147, 330). *)
Definition decide (w : work) (l cur y : nat) (f : bool) (s : st) : pc * st :=
  match w_job w with
  | JIns n nodup =>
      if (key y <? key n)%N then (SRead w l y, drop cur s)
      else if nodup && (key y =? key n)%N then clear w (l + 1) (Fin RDup) (drop cur (drop y s))
      else if l <=? top n then (SLock (set_next (set_prev w l cur) l y) l cur y, drop y s)
      else (SRead w (l - 1) cur, drop y s)
  | JErase n =>
      if (key y <? key n)%N || ((l <=? top n) && negb f)
      then if y =? tail then (Crash CNull, s) else (SRead w l y, drop cur s)
      else if l <=? top n then (SLock (set_next (set_prev w l cur) l y) l cur y, drop y s)
      else (SRead w (l - 1) cur, drop y s)
  | JFind q m =>
      if (key y <? q)%N then (SRead w l y, drop cur s)
      else if match m with SMEQ | EQ | GTEQ => (key y =? q)%N | _ => false end
           then finish w (RFound (Some y)) (drop cur s)
      else if 0 <? l then (SRead w (l - 1) cur, drop y s)
      else match m with
           | SM | SMEQ => if cur =? head then finish w (RFound None) (drop cur (drop y s)) else finish w (RFound (Some cur)) (drop y s)
           | GTEQ | GT => if y =? tail then finish w (RFound None) (drop cur (drop y s)) else finish w (RFound (Some y)) (drop cur s)
           | EQ => finish w (RFound None) (drop cur (drop y s))
           end
  | JNext n => finish w (RFound (if y =? tail then None else Some y)) s
  end.

(** The second look agreed (513-524, 820-830): go down, or start to change the links. *)
Definition agreed (w : work) (l cur : nat) (s : st) : pc * st :=
  if 0 <? l then (SRead w (l - 1) cur, s)
  else match w_job w with JIns _ _ => (ILink w 0, s) | _ => (EMark w, s) end.

(** One step of thread [T], which is at [p]; [spur]: the compare-and-swap of this step fails
    spuriously.  [None]: the thread waits, or has nothing to do. *)
Definition step1 (T : nat) (spur : bool) (p : pc) (s : st) : option (pc * st) :=
  let ok := negb (weak && spur) in
  match p with
  | Idle | Done _ _ _ _ | Crash _ => None
  | Top w =>
      match w_job w with
      | JIns n _ => Some (SRead w (Nat.max (s_tl s) (top n)) head, grab head s)
      | JErase n => if s_tl s <? top n then Some (Crash CUninit, s) else Some (SRead w (s_tl s) head, grab head s)
      | _ => Some (SRead w (s_tl s) head, grab head s)
      end
  | SRead w l cur =>
      if s_wl s cur then None
      else if fl s cur
           then if cur =? tail then Some (Crash CNull, s)
                else Some (SGot w l cur (s_nx s cur l) false, grab (s_nx s cur l) (touch cur s))
           else Some (clear w (l + 1) Retry (dropc w cur s))
  | SGot w l cur y f =>
      if fl s y && negb (wanted w y) then Some (decide w l cur y f (touch y s))
      else Some (SSkip w l cur y (f || wanted w y), touch y s)
  | SSkip w l cur y f =>
      if s_wl s y then None
      else if fl s y
           then if y =? tail then Some (Crash CNull, s)
                else Some (SGot w l cur (s_nx s y l) f, drop y (grab (s_nx s y l) s))
           else Some (clear w (l + 1) Retry (dropc w cur (drop y s)))
  | SLock w l cur y =>
      if (l <? w_top w) && (w_prev w (l + 1) =? cur) then Some (SVal1 w l cur y (l + 1), s)
      else match s_own s cur with
           | None => if ok then Some (SVal1 w l cur y l, touch cur (set_own (upd (s_own s) cur (Some T)) s))
                     else Some (clear w (l + 1) Retry (drop cur s))
           | Some _ => Some (clear w (l + 1) Retry (drop cur s))
           end
  | SVal1 w l cur y ll =>
      if fl s cur then Some (SVal2 w l cur y ll, touch cur s) else Some (clear w ll Retry (drop cur s))
  | SVal2 w l cur y ll =>
      if fl s y then match w_job w with
                     | JIns _ _ => Some (SStore w l cur y, touch y s)
                     | _ => Some (ARead w l cur y, touch y s)
                     end
      else Some (clear w ll Retry (drop cur (touch y s)))
  | SStore w l cur y => Some (ARead w l cur y, set_nx (upd2 (s_nx s) (w_node w) l y) s)
  | ARead w l cur y =>
      if s_wl s cur then None
      else if fl s cur then Some (AGot w l cur y (s_nx s cur l), grab (s_nx s cur l) (touch cur s))
           else Some (Crash CNull, s)
  | AGot w l cur y z =>
      if fl s z && negb (wanted w z)
      then if z =? y then Some (agreed w l cur (drop z s)) else Some (clear w l Retry (drop cur (drop z s)))
      else Some (ASkip w l cur y z, touch z s)
  | ASkip w l cur y z =>
      if s_wl s z then None
      else if fl s z then if z =? tail then Some (Crash CNull, s)
                          else Some (AGot w l cur y (s_nx s z l), drop z (grab (s_nx s z l) s))
           else Some (Crash CNull, s)
  | Clr w k a =>
      Some (clear w (k + 1) a
              (if ((k =? w_top w) || negb (w_prev w k =? w_prev w (k + 1))) && ok
               then touch (w_prev w k) (set_own (upd (s_own s) (w_prev w k) None) s)
               else s))
  | ILink w k =>
      let n := w_node w in
      if s_wl s (w_prev w k) then None
      else let s1 := if ok && (s_nx s (w_prev w k) k =? w_next w k) then set_nx (upd2 (s_nx s) (w_prev w k) k n) s else s in
           let s2 := touch (w_prev w k) (set_ph (upd (s_ph s1) n (Ins T (k + 1))) s1) in
           Some (if k <? top n then (ILink w (k + 1), s2) else (IFull w, s2))
  | IFull w =>
      Some (IUnl w, set_born (upd (s_born s) (w_node w) (Some (s_clk s))) (set_ph (upd (s_ph s) (w_node w) Live) s))
  | IUnl w => Some (Cnt w true, set_wl (upd (s_wl s) (w_node w) false) s)
  | Cnt w add =>
      let l := w_top w in
      Some (Scan w maxl, set_cnt (upd (s_cnt s) l (if add then s_cnt s l + 1 else s_cnt s l - 1)) s)
  | Scan w ii =>
      match ii with
      | O => Some (clear w 0 (Fin ROk) s)
      | S i => if 0 <? s_cnt s i then Some (clear w 0 (Fin ROk) (set_tl i s)) else Some (Scan w i, s)
      end
  | ERm w => if s_rm s (w_node w) then Some (finish w RGone s) else Some (ECas w, s)
  | ECas w =>
      match s_own s (w_node w) with
      | None => if ok then Some (ESet w, set_own (upd (s_own s) (w_node w) (Some T)) s) else Some (ERm w, s)
      | Some _ => Some (ERm w, s)
      end
  | ESet w => Some (ECheck w, set_rm (upd (s_rm s) (w_node w) true) s)
  | ECheck w => if fl s (w_node w) then Some (Top w, s) else Some (EBack w, s)
  | EBack w => Some (finish w RGone (set_own (upd (s_own s) (w_node w) None) (set_rm (upd (s_rm s) (w_node w) false) s)))
  | EMark w =>
      let n := w_node w in
      if s_wl s n then None
      else Some (EUnl w 0, set_died (upd (s_died s) n (Some (s_clk s))) (set_ph (upd (s_ph s) n (Del T 0)) s))
  | EUnl w k =>
      let n := w_node w in
      if s_wl s (w_prev w k) then None
      else let s1 := if ok && (s_nx s (w_prev w k) k =? n) then set_nx (upd2 (s_nx s) (w_prev w k) k (w_next w k)) s else s in
           let s2 := touch (w_prev w k) s1 in
           if k <? top n then Some (EUnl w (k + 1), set_ph (upd (s_ph s2) n (Del T (k + 1))) s2)
           else Some (Cnt w false, set_ph (upd (s_ph s2) n Dead) s2)
  | EFin w => Some (finish w ROk (set_own (upd (s_own s) (w_node w) None) s))
  end.

(** The start of a call.  An insertion needs a node that was never inserted before; it initialises
    the node and takes its write lock (417-418).  An erasure, and skiplist_next, need a node that was
    found, that is, was fully linked at some time. *)
Definition idle (p : pc) : bool := match p with Idle | Done _ _ _ _ => true | _ => false end.

Definition start (T : nat) (j : job) (s : st) : option (pc * st) :=
  let w := mkW j (s_clk s) (fun _ => head) (fun _ => head) in
  if idle (s_th s T)
  then match j with
       | JIns n _ => match s_ph s n with
                     | New => Some (Top w, set_wl (upd (s_wl s) n true) (set_ph (upd (s_ph s) n (Ins T 0)) s))
                     | _ => None
                     end
       | JErase n => match s_born s n with Some _ => Some (ERm w, s) | None => None end
       | JFind _ _ => Some (Top w, s)
       | JNext n => match s_born s n with
                    | Some _ => Some (SRead w 0 n, s)
                    | None => if n =? head then Some (SRead w 0 n, s) else None
                    end
       end
  else None.

(** skiplist_wait_for_free (916-930) returned and the node was freed. *)
Definition free_node (n : nat) (s : st) : option st :=
  match s_own s n with
  | None => if s_rm s n && negb (s_wl s n) && (s_rc s n =? 0) then Some (set_freed (upd (s_freed s) n true) s) else None
  | _ => None
  end.

(** [Ref n up]: skiplist_grab_node or skiplist_release_node by a caller (932-939). *)
Inductive ev := Start (T : nat) (j : job) | Go (T : nat) (spur : bool) | Ref (n : nat) (up : bool) | Free (n : nat).

Definition put (T : nat) (o : option (pc * st)) : option st :=
  match o with Some (p, s) => Some (set_clk (s_clk s + 1) (set_th (upd (s_th s) T p) s)) | None => None end.

Definition step (e : ev) (s : st) : option st :=
  match e with
  | Start T j => put T (start T j s)
  | Go T spur => put T (step1 T spur (s_th s T) s)
  | Ref n up => Some (if up then grab n s else drop n s)
  | Free n => free_node n s
  end.

Fixpoint run (es : list ev) (s : st) : option st :=
  match es with
  | [] => Some s
  | e :: t => match step e s with Some s1 => run t s1 | None => None end
  end.
End Model.
