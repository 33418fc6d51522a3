(** The timers of delayed flush requests: the coordinator thread of the thread pool
    (src/simple_thread_pool.h), which runs without further threads (src/db_mgr.cc:179-181), the
    requests that set timers (src/jungle.cc:486-555) and the closing of a database, which cancels
    its timer (src/jungle.cc:1016-1052).

    Simplifications: time is a number of microseconds; every timer is a one-time task with a
    non-zero interval (the only use); a step is one access to shared memory or one section under a
    lock, so any number of threads may call; the waiting of the coordinator ends when its time is
    over or after somebody has woken it up since the last pass (WorkerModel.v has the protocol of
    the waiting itself). *)
From Verif Require Import Base.
Local Open Scope N_scope.

(** src/simple_thread_pool.h:108-112. *)
Inductive tst := Waiting | Running | Done.

(** src/simple_thread_pool.h:267-286: time of registration, interval, status; [k_db]: the database
    whose request it serves. *)
Record task := mkK { k_reg : N; k_int : N; k_st : tst; k_db : nat }.

(** Where the coordinator is: asleep or about to start a pass (with the time at which it wakes up
    by itself); about to execute a task; in the callback (src/jungle.cc:538-543), before it uses
    the logger of the database, before it wakes up the flusher, and before it sets the status. *)
Inductive cpc := Asleep (until : N) | Chosen (i : nat) (sleep : N) | UseLog (i : nat) (sleep : N) | DoWake (i : nat) (sleep : N) | Finish (i : nat) (sleep : N).

(** [e_ran]: the callback of task [i] starts; [e_cancel i]: a cancellation that reported success;
    [e_push]: a request has entered the queue of the flusher; [e_wake]: the flusher is woken up;
    [e_freed]: the callback uses the database after it was freed. *)
Inductive tev := ERan (i : nat) (now : N) | ECancel (i : nat) | EPush (d : nat) | ESched (d : nat) (found_running : bool)
               | EWake (d : nat) | EFreed (d : nat).

(** [s_job]: DBInternal::asyncFlushJob; [s_closed]: the cancellation of close is over;
    [s_free]: DBInternal::destroy has freed the objects; [s_woken]: somebody called invoke since the last
    pass. Newest event first. *)
Record tmst := mkM { s_now : N; s_tasks : list task; s_timed : list nat; s_pc : cpc; s_woken : bool;
                     s_job : nat -> option nat; s_closed : nat -> bool; s_free : nat -> bool; s_log : list tev }.

Definition MAX_SLEEP_US : N := 1000000.
(** src/simple_thread_pool.h:363-368. *)
Definition BUSY_US : N := 100.

Definition upd {A} (f : nat -> A) (d : nat) (x : A) : nat -> A := fun e => if Nat.eqb e d then x else f e.
Definition task_at (s : tmst) (i : nat) : option task := nth_error (s_tasks s) i.
Definition st_at (s : tmst) (i : nat) : tst := match task_at s i with Some k => k_st k | None => Done end.
Fixpoint set_st (x : tst) (i : nat) (l : list task) : list task :=
  match l, i with
  | [], _ => []
  | k :: l', O => mkK (k_reg k) (k_int k) x (k_db k) :: l'
  | k :: l', S i' => k :: set_st x i' l'
  end.

(** src/simple_thread_pool.h:176-187, timeToFire. *)
Definition due (now : N) (k : task) : bool := k_int k <? now - k_reg k.
Definition left (now : N) (k : task) : N := k_int k - (now - k_reg k).

(** src/simple_thread_pool.h:546-571: the search through the list of timers, under its lock.
    [kept]: entries passed so far.  [None]: the iterator is advanced past the end of the list. *)
Fixpoint scan (s : tmst) (kept l : list nat) (sleep : N) : option (option nat * list nat * N) :=
  match l with
  | [] => Some (None, kept, sleep)
  | i :: rest =>
      match task_at s i with
      | None => Some (None, kept ++ l, sleep)
      | Some k =>
          if due (s_now s) k then
            (* one-time: erased *)
            match k_st k with
            | Done => (* reset, then [entry++] on the element after the erased one *)
                match rest with
                | [] => None
                | j :: rest' => scan s (kept ++ [j]) rest' 0
                end
            | _ => Some (Some i, kept ++ rest, sleep)
            end
          else scan s (kept ++ [i]) rest (N.min (N.min sleep (left (s_now s) k)) MAX_SLEEP_US)
      end
  end.

(** Going to sleep, src/simple_thread_pool.h:515-524. *)
Definition asleep (now sleep : N) : cpc := Asleep (if BUSY_US <? sleep then now + (sleep - BUSY_US) else now).

Inductive top :=
| Tick (d : N)
| Pass                        (* the coordinator starts and does a pass *)
| Exec                        (* it starts to execute the chosen task *)
| Log | Wake | End            (* steps of the callback *)
| Push (d : nat)              (* flushLogsAsync, jungle.cc:520-522 *)
| Sched (d : nat) (delay : N) (* jungle.cc:531-549 *)
| CloseCancel (d : nat)       (* jungle.cc:1021-1027 *)
| CloseFree (d : nat).        (* jungle.cc:1029-1051 *)

(** A step: it cannot be taken, goes wrong, or gives a new state. *)
Inductive tres := Blocked | Wild | Go (s : tmst).

Definition with_pc (p : cpc) (s : tmst) : tmst :=
  mkM (s_now s) (s_tasks s) (s_timed s) p (s_woken s) (s_job s) (s_closed s) (s_free s) (s_log s).
Definition with_log (e : tev) (s : tmst) : tmst :=
  mkM (s_now s) (s_tasks s) (s_timed s) (s_pc s) (s_woken s) (s_job s) (s_closed s) (s_free s) (e :: s_log s).
Definition with_st (x : tst) (i : nat) (s : tmst) : tmst :=
  mkM (s_now s) (set_st x i (s_tasks s)) (s_timed s) (s_pc s) (s_woken s) (s_job s) (s_closed s) (s_free s) (s_log s).

Definition owner (s : tmst) (i : nat) : nat := match task_at s i with Some k => k_db k | None => O end.

Definition tstep (o : top) (s : tmst) : tres :=
  match o with
  | Tick d => Go (mkM (s_now s + d) (s_tasks s) (s_timed s) (s_pc s) (s_woken s) (s_job s) (s_closed s) (s_free s) (s_log s))
  | Pass =>
      match s_pc s with
      | Asleep until =>
          if s_woken s || (until <=? s_now s) then
            match scan s [] (s_timed s) MAX_SLEEP_US with
            | None => Wild
            | Some (pick, l, sleep) =>
                Go (mkM (s_now s) (s_tasks s) l
                        (match pick with Some i => Chosen i sleep | None => asleep (s_now s) sleep end)
                        false (s_job s) (s_closed s) (s_free s) (s_log s))
            end
          else Blocked
      | _ => Blocked
      end
  | Exec => (* src/simple_thread_pool.h:197-212, execute *)
      match s_pc s with
      | Chosen i sleep =>
          match st_at s i with
          | Waiting => Go (with_log (ERan i (s_now s)) (with_pc (UseLog i sleep) (with_st Running i s)))
          | _ => Go (with_pc (asleep (s_now s) sleep) s)
          end
      | _ => Blocked
      end
  | Log => (* jungle.cc:541, [p->myLog] *)
      match s_pc s with
      | UseLog i sleep => Go (with_pc (DoWake i sleep) (if s_free s (owner s i) then with_log (EFreed (owner s i)) s else s))
      | _ => Blocked
      end
  | Wake => (* jungle.cc:542 *)
      match s_pc s with
      | DoWake i sleep => Go (with_pc (Finish i sleep) (with_log (EWake (owner s i)) s))
      | _ => Blocked
      end
  | End =>
      match s_pc s with
      | Finish i sleep => Go (with_pc (asleep (s_now s) sleep) (with_st Done i s))
      | _ => Blocked
      end
  | Push d => if s_free s d then Blocked else Go (with_log (EPush d) s)
  | Sched d delay =>
      if s_free s d || s_closed s d || (delay =? 0) then Blocked
      else
        let fresh := Go (mkM (s_now s) (s_tasks s ++ [mkK (s_now s) delay Waiting d]) (s_timed s ++ [length (s_tasks s)])
                             (s_pc s) true (upd (s_job s) d (Some (length (s_tasks s)))) (s_closed s) (s_free s) (ESched d false :: s_log s)) in
        match s_job s d with
        | None => fresh
        | Some i => match st_at s i with
                    | Done => fresh
                    | Waiting => Go (with_log (ESched d false) s)
                    | Running => Go (with_log (ESched d true) s)
                    end
        end
  | CloseCancel d =>
      if s_closed s d then Blocked
      else
        let closed s := mkM (s_now s) (s_tasks s) (s_timed s) (s_pc s) (s_woken s) (s_job s) (upd (s_closed s) d true) (s_free s) (s_log s) in
        match s_job s d with
        | None => Go (closed s)
        | Some i => match st_at s i with (* src/simple_thread_pool.h:220-231, cancel *)
                    | Waiting => Go (closed (with_log (ECancel i) (with_st Done i s)))
                    | _ => Go (closed s)
                    end
        end
  | CloseFree d =>
      if s_closed s d && negb (s_free s d)
      then Go (mkM (s_now s) (s_tasks s) (s_timed s) (s_pc s) (s_woken s) (s_job s) (s_closed s) (upd (s_free s) d true) (s_log s))
      else Blocked
  end.

Definition tm_init : tmst := mkM 0 [] [] (Asleep 0) false (fun _ => None) (fun _ => false) (fun _ => false) [].

Fixpoint trun (os : list top) (s : tmst) : tres :=
  match os with
  | [] => Go s
  | o :: os' => match tstep o s with Go s' => trun os' s' | r => r end
  end.
