(** Asynchronous flush requests: the queue, the flusher threads, opening and closing of databases
    while requests wait (src/flusher.cc, src/flusher.h, src/jungle.cc:487-540, src/db_mgr.cc). *)
From Verif Require Import Base KeyModel LogFormatModel BloomModel MemTableModel LogMgrModel DbModel.
Local Open Scope N_scope.

(** FlushOptions (include/libjungle/params.h): sync only, or a flush. execDelayUs only delays the
    wake-up of a thread; callFsync is not modelled. *)
Record aopt := mkAO { ao_sync_only : bool; ao_flush : fopt }.
(** One call of DB::flushLogsAsync: the handle (a pointer), options, number, and whether there is
    a completion handler.  [a_id] and [a_uid] - which call, which database object - are not known
    to the program. *)
Record areq := mkAR { a_id : N; a_ptr : N; a_uid : N; a_opt : aopt; a_seq : N; a_cb : bool }.
(** FlusherQueueElem (flusher.h:28-58); one handler entry per request. *)
Record elem := mkEl { e_ptr : N; e_opt : aopt; e_seq : N; e_reqs : list areq }.
(** An open database: its handle, which object it is, its acknowledged writes, its state. The
    second and third are not known to the program. *)
Record hdl := mkHd { h_ptr : N; h_uid : N; h_hist : list rec; h_db : db }.
(** What a flusher thread is doing: it has popped an element ([j_found]: the handle is open) and
    comes to the sync, or to the flush. *)
Record job := mkJb { j_el : elem; j_found : bool; j_synced : bool }.
Record world := mkW { w_q : list elem; w_run : list job; w_dbs : list hdl; w_uid : N }.

(** FlusherQueue::push (flusher.cc:38-65). *)
Fixpoint q_push (r : areq) (q : list elem) : list elem :=
  match q with
  | [] => [mkEl (a_ptr r) (a_opt r) (a_seq r) [r]]
  | e :: t => if e_ptr e =? a_ptr r then mkEl (e_ptr e) (a_opt r) (a_seq r) (e_reqs e ++ [r]) :: t
              else e :: q_push r t
  end.

Definition h_at (p : N) (l : list hdl) : option hdl := find (fun x => h_ptr x =? p) l.
Definition h_set (p : N) (d : db) (more : list rec) (l : list hdl) : list hdl :=
  map (fun x => if h_ptr x =? p then mkHd (h_ptr x) (h_uid x) (h_hist x ++ more) d else x) l.
Fixpoint without {A} (n : nat) (l : list A) : list A :=
  match l, n with [], _ => [] | _ :: t, O => t | x :: t, S n' => x :: without n' t end.
Fixpoint put_at {A} (n : nat) (y : A) (l : list A) : list A :=
  match l, n with [], _ => [] | _ :: t, O => y :: t | x :: t, S n' => x :: put_at n' y t end.

(** [WPush]: flushLogsAsync.  [WPop]: a thread takes the first element and looks the handle up
    (flusher.cc:139-166).  [WSync n bad]: thread [n] syncs if it has to (211-213); [bad]: see
    [OSync].  [WFlush n]: it flushes if it has to, and calls the handlers (214-279).
    [WUser p o]: an operation of a user on the database [p].  [WOpen p], [WClose p]: a database is
    opened, at address [p], or closed; closing waits for the threads that work on it
    (db_mgr.cc, DBMgr::close).  [WStop]: DB::shutdown (jungle.cc:240-252, db_mgr.cc:245-278): the
    threads finish what they are doing, then the elements of the queue are deleted
    (flusher.cc:30-36). *)
Inductive wop := WPush (r : areq) | WPop | WSync (n : nat) (bad : N -> bool) | WFlush (n : nat)
  | WUser (p : N) (o : op) | WOpen (p : N) | WClose (p : N) | WStop.
(** What a completion handler is told. *)
Record answer := mkAn { an_req : areq; an_ok : bool }.
Definition tell (ok : bool) (e : elem) : list answer := map (fun r => mkAn r ok) (e_reqs e).

Section Hash.
Variable hash : key -> N * N.

Definition good {A} (x : res A) : bool := match x with Ok _ => true | _ => false end.

(** One step; [auto]: GlobalConfig::flusherAutoSync. *)
Definition w_step (c : cfg) (auto : bool) (o : wop) (w : world) : option (list answer * world) :=
  match o with
  | WPush r => Some ([], mkW (q_push r (w_q w)) (w_run w) (w_dbs w) (w_uid w))
  | WPop =>
      match w_q w with
      | [] => None
      | e :: q => Some ([], mkW q (w_run w ++ [mkJb e (match h_at (e_ptr e) (w_dbs w) with Some _ => true | None => false end) false])
                            (w_dbs w) (w_uid w))
      end
  | WSync n bad =>
      match nth_error (w_run w) n with
      | Some (mkJb e true false) =>
          match h_at (e_ptr e) (w_dbs w) with
          | None => None
          | Some x =>
              if auto || ao_sync_only (e_opt e)
              then match step hash c (OSync bad) (h_db x) with
                   | Some (y, d') =>
                       let dbs := h_set (e_ptr e) d' [] (w_dbs w) in
                       if good y then Some ([], mkW (w_q w) (put_at n (mkJb e true true) (w_run w)) dbs (w_uid w))
                       else Some (tell false e, mkW (w_q w) (without n (w_run w)) dbs (w_uid w))
                   | None => None
                   end
              else Some ([], mkW (w_q w) (put_at n (mkJb e true true) (w_run w)) (w_dbs w) (w_uid w))
          end
      | _ => None
      end
  | WFlush n =>
      match nth_error (w_run w) n with
      | Some (mkJb e false _) => Some (tell false e, mkW (w_q w) (without n (w_run w)) (w_dbs w) (w_uid w))
      | Some (mkJb e true true) =>
          match h_at (e_ptr e) (w_dbs w) with
          | None => None
          | Some x =>
              if ao_sync_only (e_opt e) then Some (tell true e, mkW (w_q w) (without n (w_run w)) (w_dbs w) (w_uid w))
              else match step hash c (OFlush (ao_flush (e_opt e)) (e_seq e)) (h_db x) with
                   | Some (y, d') => Some (tell (good y) e, mkW (w_q w) (without n (w_run w)) (h_set (e_ptr e) d' [] (w_dbs w)) (w_uid w))
                   | None => None
                   end
          end
      | _ => None
      end
  | WUser p o =>
      match h_at p (w_dbs w) with
      | None => None
      | Some x => match step hash c o (h_db x) with
                  | Some (y, d') => Some ([], mkW (w_q w) (w_run w)
                      (h_set p d' (match y with Ok l => l | _ => [] end) (w_dbs w)) (w_uid w))
                  | None => None
                  end
      end
  | WOpen p =>
      match h_at p (w_dbs w) with
      | Some _ => None
      | None => Some ([], mkW (w_q w) (w_run w) (w_dbs w ++ [mkHd p (w_uid w) [] (db_new c)]) (w_uid w + 1))
      end
  | WClose p =>
      match h_at p (w_dbs w) with
      | None => None
      | Some _ =>
          if existsb (fun j => j_found j && (e_ptr (j_el j) =? p)) (w_run w) then None
          else Some ([], mkW (w_q w) (w_run w) (filter (fun x => negb (h_ptr x =? p)) (w_dbs w)) (w_uid w))
      end
  | WStop => match w_run w with [] => Some ([], mkW [] [] [] (w_uid w)) | _ => None end
  end.

Definition w_new : world := mkW [] [] [] 0.

End Hash.
