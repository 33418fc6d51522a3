(* Background workers and the closing of a database.

   What is modelled: the map of open databases with its lock
   (src/db_mgr.cc:297-372), the selection of a database by the flusher
   (src/flusher.cc:139-209) and by the compactor (src/compactor.cc:102-217),
   the queue of flush requests (src/flusher.cc:38-76), the count of background
   tasks (src/db_internal.h:94-105), the wait of the closing thread
   (src/jungle.cc:1012-1069), the waits inside the close of the log section and
   of the tables (src/log_mgr.cc:2076-2128, src/table_mgr.cc:941-968) and the
   loop of the log reclaimer (src/log_reclaimer.cc:51-78).

   An execution is a list of events; each event is a step of one thread that
   no other thread can split, because the lock of the map or an atomic counter
   protects it.  What the workers do to records is not modelled here. *)
From Coq Require Import List Arith Bool.
Import ListNotations.

(* src/db_internal.h:45: MAX_CLOSE_RETRY, ticks of 100 ms *)
Definition max_close_retry : nat := 100.

(* A pointer to a database object: the address, and which of the objects that
   lived at this address it was made for.  The code sees the address only. *)
Definition ptr := (nat * nat)%type.

(* src/jungle.cc:74-142, src/db_mgr.h:31-52: the object behind one address.
   o_gen: how many objects lived here before (ghost); o_live: not freed;
   o_map: in the map of open databases; o_log: DBConfig.logSectionOnly;
   o_tasks: flags.onGoingBgTasks. *)
Record obj := { o_gen : nat; o_live : bool; o_map : bool; o_log : bool; o_tasks : nat }.

(* The worker threads (flushers, compactors): None is between two jobs;
   Some (p, b) has selected p; b says that it is inside sync, flushLogs or a
   compaction, i.e. holds a semaphore the closing thread waits for.
   lock: who holds the lock of the map for a close (None: a user's thread,
   Some w: worker w, from the completion handler it is running), the address
   of the database being closed, and the ticks waited.
   served: for each executed request the database asked for and the one the
   work was done on (ghost); dropped: requests answered DB_HANDLE_NOT_FOUND. *)
Record st := {
  objs : list obj;
  queue : list ptr;
  workers : list (option (ptr * bool));
  rcl : list ptr;
  lock : option (option nat * nat * nat);
  served : list (ptr * ptr);
  dropped : list ptr
}.

Inductive ev :=
| EvOpen (a : nat) (lg : bool)      (* DB::open of a path not open; object at address a *)
| EvAsk (a : nat)                   (* flushLogsAsync on an open handle *)
| EvServe (w : nat)                 (* flusher w takes the next request *)
| EvPick (w a : nat)                (* flusher or compactor w picks database a itself *)
| EvEnter (w : nat)                 (* its sync, flush or compaction starts *)
| EvLeave (w : nat)                 (* ... and ends *)
| EvEnd (w : nat)                   (* the handlers are done: decBgTask *)
| EvScan                            (* log reclaimer copies the list of databases *)
| EvReclaim                         (* log reclaimer works on the next of its list *)
| EvClose (o : option nat) (a : nat) (* the last DB::close of a, by a user or in a handler *)
| EvTick                            (* one turn of waitForBgTasks *)
| EvFree                            (* the object is freed, no task is counted *)
| EvGiveUp.                         (* the object is freed, the wait has expired *)

(* Go: the step was made; No: the step is not possible now; Bad: the step
   used an object after it was freed *)
Inductive res := Go (s : st) | No | Bad.

(* replace one element (the skiplist, the thread list) *)
Fixpoint upd {A} (l : list A) (i : nat) (x : A) : list A :=
  match l, i with
  | [], _ => []
  | _ :: r, O => x :: r
  | y :: r, S j => y :: upd r j x
  end.

Definition set_objs s v := {| objs := v; queue := queue s; workers := workers s; rcl := rcl s; lock := lock s; served := served s; dropped := dropped s |}.
Definition set_queue s v := {| objs := objs s; queue := v; workers := workers s; rcl := rcl s; lock := lock s; served := served s; dropped := dropped s |}.
Definition set_workers s v := {| objs := objs s; queue := queue s; workers := v; rcl := rcl s; lock := lock s; served := served s; dropped := dropped s |}.
Definition set_rcl s v := {| objs := objs s; queue := queue s; workers := workers s; rcl := v; lock := lock s; served := served s; dropped := dropped s |}.
Definition set_lock s v := {| objs := objs s; queue := queue s; workers := workers s; rcl := rcl s; lock := v; served := served s; dropped := dropped s |}.
Definition add_served s x := {| objs := objs s; queue := queue s; workers := workers s; rcl := rcl s; lock := lock s; served := served s ++ [x]; dropped := dropped s |}.
Definition add_dropped s x := {| objs := objs s; queue := queue s; workers := workers s; rcl := rcl s; lock := lock s; served := served s; dropped := dropped s ++ [x] |}.

(* src/db_internal.h:94-101 *)
Definition with_tasks o n := {| o_gen := o_gen o; o_live := o_live o; o_map := o_map o; o_log := o_log o; o_tasks := n |}.
(* src/db_mgr.cc:356: skiplist_erase_node *)
Definition with_map o b := {| o_gen := o_gen o; o_live := o_live o; o_map := b; o_log := o_log o; o_tasks := o_tasks o |}.
(* src/db_mgr.cc:363-365: destroy, delete *)
Definition freed o := {| o_gen := o_gen o; o_live := false; o_map := o_map o; o_log := o_log o; o_tasks := o_tasks o |}.
(* src/db_mgr.cc:315-340: a new object, in the map *)
Definition fresh g lg := {| o_gen := g; o_live := true; o_map := true; o_log := lg; o_tasks := 0 |}.

(* is the object this pointer was made for still there *)
Definition alive (s : st) (p : ptr) : bool :=
  match nth_error (objs s) (fst p) with
  | Some o => o_live o && (o_gen o =? snd p)
  | None => false
  end.

(* is worker w at present inside a close it called from a handler *)
Definition inside (s : st) (w : nat) : bool :=
  match lock s with Some (Some w', _, _) => w =? w' | _ => false end.

(* worker w is in its semaphore-protected operation on the object at a *)
Definition in_op (a : nat) (w : option (ptr * bool)) : bool :=
  match w with Some (p, true) => fst p =? a | _ => false end.

(* src/flusher.cc:185-193, src/compactor.cc:124-131: the scan reads every
   database of the map *)
Definition scan_ok (s : st) : bool :=
  forallb (fun o => implb (o_map o) (o_live o)) (objs s).

(* src/log_reclaimer.cc:61-69: the pointers of the log-store databases *)
Fixpoint log_ptrs (l : list obj) (a : nat) : list ptr :=
  match l with
  | [] => []
  | o :: r => (if o_map o && o_log o then [(a, o_gen o)] else []) ++ log_ptrs r (S a)
  end.

(* src/flusher.cc:157-161, 203-207, src/compactor.cc:212-215: count the task and
   go on outside the lock *)
Definition take (s : st) (w a : nat) (o : obj) : st :=
  set_workers (set_objs s (upd (objs s) a (with_tasks o (S (o_tasks o)))))
              (upd (workers s) w (Some ((a, o_gen o), false))).

Definition step (s : st) (e : ev) : res :=
  match e with
  | EvOpen a lg =>
      (* src/db_mgr.cc:315-340.  Simplification: path and kvs name are the
         address; the allocator may give the address of a freed object *)
      match lock s with
      | Some _ => No
      | None =>
          match nth_error (objs s) a with
          | Some o => if o_live o then No
                      else Go (set_objs s (upd (objs s) a (fresh (S (o_gen o)) lg)))
          | None => if a =? length (objs s)
                    then Go (set_objs s (objs s ++ [fresh 0 lg])) else No
          end
      end
  | EvAsk a =>
      (* src/jungle.cc:486-556, src/flusher.cc:38-66: an element for the same
         address is merged; the caller owns an open handle *)
      match nth_error (objs s) a with
      | Some o =>
          if o_live o && o_map o then
            if existsb (fun p => fst p =? a) (queue s) then Go s
            else Go (set_queue s (queue s ++ [(a, o_gen o)]))
          else No
      | None => No
      end
  | EvServe w =>
      (* src/flusher.cc:147-167, 253-284 *)
      match lock s, nth_error (workers s) w, queue s with
      | None, Some None, p :: q =>
          match nth_error (objs s) (fst p) with
          | Some o =>
              if o_map o
              then Go (add_served (take (set_queue s q) w (fst p) o)
                                  (p, (fst p, o_gen o)))
              else Go (add_dropped (set_queue s q) p)
          | None => Go (add_dropped (set_queue s q) p)
          end
      | _, _, _ => No
      end
  | EvPick w a =>
      (* src/flusher.cc:168-209, src/compactor.cc:118-217.  Simplification: the
         conditions that choose the database are left open *)
      match lock s, nth_error (workers s) w, nth_error (objs s) a with
      | None, Some None, Some o =>
          if scan_ok s then (if o_map o then Go (take s w a o) else No) else Bad
      | _, _, _ => No
      end
  | EvEnter w =>
      (* src/jungle.cc:451-482, 1077-1079 (refused once the handle is being
         closed), src/log_mgr.cc: OpSemaWrapper, src/table_mgr.h: compaction
         locks.  Simplification: the check and taking the semaphore are one step *)
      match nth_error (workers s) w with
      | Some (Some (p, false)) =>
          if inside s w then No
          else if alive s p then
            match nth_error (objs s) (fst p) with
            | Some o => if o_map o
                        then Go (set_workers s (upd (workers s) w (Some (p, true))))
                        else No
            | None => No
            end
          else Bad
      | _ => No
      end
  | EvLeave w =>
      match nth_error (workers s) w with
      | Some (Some (p, true)) =>
          if alive s p
          then Go (set_workers s (upd (workers s) w (Some (p, false))))
          else Bad
      | _ => No
      end
  | EvEnd w =>
      (* src/flusher.cc:286-289, src/compactor.cc:268 *)
      match nth_error (workers s) w with
      | Some (Some (p, false)) =>
          if inside s w then No
          else if alive s p then
            match nth_error (objs s) (fst p) with
            | Some o => Go (set_workers
                        (set_objs s (upd (objs s) (fst p) (with_tasks o (o_tasks o - 1))))
                        (upd (workers s) w None))
            | None => No
            end
          else Bad
      | _ => No
      end
  | EvScan =>
      (* src/log_reclaimer.cc:57-71 *)
      match lock s, rcl s with
      | None, [] => if scan_ok s then Go (set_rcl s (log_ptrs (objs s) 0)) else Bad
      | _, _ => No
      end
  | EvReclaim =>
      (* src/log_reclaimer.cc:73-76, src/log_mgr.cc:1723-1734: the lock of the
         map is not held and no task is counted.  One step, since the close
         waits for a running reclaim (src/log_mgr.cc:2116-2125) *)
      match rcl s with
      | p :: r => if alive s p then Go (set_rcl s r) else Bad
      | [] => No
      end
  | EvClose o a =>
      (* src/db_mgr.cc:347-356; the count of handles going to zero and taking
         the lock are one step.  From a handler: src/flusher.cc:253-262 *)
      match lock s, nth_error (objs s) a with
      | None, Some ob =>
          if o_live ob && o_map ob then
            let s' := set_lock (set_objs s (upd (objs s) a (with_map ob false)))
                               (Some (o, a, 0)) in
            match o with
            | None => Go s'
            | Some w => match nth_error (workers s) w with
                        | Some (Some (_, false)) => Go s'
                        | _ => No
                        end
            end
          else No
      | _, _ => No
      end
  | EvTick =>
      (* src/jungle.cc:1063-1066 *)
      match lock s with
      | Some (o, a, t) =>
          match nth_error (objs s) a with
          | Some ob => if (0 <? o_tasks ob) && (t <? max_close_retry)
                       then Go (set_lock s (Some (o, a, S t))) else No
          | None => No
          end
      | None => No
      end
  | EvFree =>
      (* src/jungle.cc:1063, 1036-1045, src/db_mgr.cc:363-366 *)
      match lock s with
      | Some (o, a, t) =>
          match nth_error (objs s) a with
          | Some ob => if (o_tasks ob =? 0) && negb (existsb (in_op a) (workers s))
                       then Go (set_lock (set_objs s (upd (objs s) a (freed ob))) None)
                       else No
          | None => No
          end
      | None => No
      end
  | EvGiveUp =>
      match lock s with
      | Some (o, a, t) =>
          match nth_error (objs s) a with
          | Some ob => if (0 <? o_tasks ob) && negb (t <? max_close_retry)
                            && negb (existsb (in_op a) (workers s))
                       then Go (set_lock (set_objs s (upd (objs s) a (freed ob))) None)
                       else No
          | None => No
          end
      | None => No
      end
  end.

(* an execution; it ends at the first step that is not possible or bad *)
Fixpoint exec (s : st) (es : list ev) : res :=
  match es with
  | [] => Go s
  | e :: r => match step s e with Go s' => exec s' r | x => x end
  end.

(* src/db_mgr.cc:240-292: n worker threads, nothing open *)
Definition init (n : nat) : st :=
  {| objs := []; queue := []; workers := repeat None n; rcl := []; lock := None;
     served := []; dropped := [] |}.
