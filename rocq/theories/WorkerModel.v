(** The background worker threads: the loop of a worker, its sleeping and waking, and the queue of flush
    requests in front of a flusher.  Any number of threads wake the worker; every load, store,
    compare-and-swap and lock operation on shared state is one step.
    Simplifications: the check for a new global configuration at the head of the loop
    (worker_mgr.cc:53-60) has no influence on what is modelled and is left out; the body of a pass is
    reduced to what it does to the queue and to the flag "do not sleep next time"; one worker is followed,
    the others that serve the same queue appear as the action [Steal]. *)
From Coq Require Import Arith List Bool.
Import ListNotations.
Local Open Scope nat_scope.

(** State of a worker, src/worker_mgr.h:35-46. *)
Inductive wst := NoInst | Stop | Idle | Working | Term.
(** State of the event awaiter, src/event_awaiter.h:29-34. *)
Inductive eas := eidle | eready | ewaiting | edone.
(** Who holds the mutex of the event awaiter, src/event_awaiter.h:93. *)
Inductive who := WkL | ClL (t : nat).

(** Where the worker is, src/worker_mgr.cc:50-90 and src/event_awaiter.h:51-69.
    L0a/L0b/L0c the test before sleeping (64-65), W0 the first compare-and-swap, W1 taking the mutex,
    W2 the second compare-and-swap, W2b entering the wait, W3 asleep, W3b taking the mutex back, W3c the
    store of [done], W3d releasing the mutex, W4 [reset] (67), L1 the test for termination (70),
    L2 IDLE to WORKING (79), L3 clearing the flag (80), L4 the start of the body (81), L5 the body under
    way, L6 WORKING to IDLE (85), LX leaving (88), Dead the thread has ended. *)
Inductive wpc := L0a | L0b | L0c | W0 | W1 | W2 | W2b | W3 | W3b | W3c | W3d | W4 | L1 | L2 | L3 | L4 | L5 | L6 | LX | Dead.
(** Where a thread that wakes the worker is, src/event_awaiter.h:72-90, src/jungle.cc:519-521 and 552.
    P is before the push of a request, C1 the first compare-and-swap of [invoke], C2 taking the mutex, C3 the
    second compare-and-swap or the notification, C4 releasing the mutex. *)
Inductive cpc := Out | P (d : nat) (dl : bool) | C1 | C2 | C3 | C4.

(** The shared state: worker_mgr.h:86-93 (status, doNotSleepNextTime, ea), event_awaiter.h:92-94, whether a
    sleeping worker has been notified, the queue of requests (flusher.h FlusherQueue::queue; database and
    whether it was given a delay), the request of the running pass, and how many passes have started. *)
Record st := mk { s_status : wst; s_dns : bool; s_ea : eas; s_lock : option who; s_pc : wpc; s_ntf : bool;
  s_c : nat -> cpc; s_q : list (nat * bool); s_cur : option (nat * bool); s_n : nat }.

(** src/worker_mgr.cc:25-29, src/event_awaiter.h:37: a worker just created; its thread starts in the
    constructor (flusher.cc:90). *)
Definition init : st := mk NoInst false eidle None L0a false (fun _ => Out) [] None 0.

Inductive act :=
| Wk                              (* the worker's next step *)
| WkWeak                          (* its compare_exchange_weak fails although the value is the expected one *)
| Spur                            (* it wakes up by the timer or spuriously *)
| Dns                             (* the body asks for another pass without sleeping *)
| Invoke (t : nat)                (* a thread calls invoke *)
| Request (t d : nat) (dl : bool) (* a thread requests an asynchronous flush; with a delay the timer makes the later steps *)
| Cl (t : nat)                    (* the next step of such a thread *)
| Steal                           (* another worker takes the first request *)
| Add                             (* addWorker *)
| Run | RunWeak                   (* run, or its weak compare-and-swap failing *)
| Halt.                           (* the first half of destroy *)

Definition wgo (p : wpc) (s : st) : st := mk (s_status s) (s_dns s) (s_ea s) (s_lock s) p (s_ntf s) (s_c s) (s_q s) (s_cur s) (s_n s).
Definition cgo (t : nat) (p : cpc) (s : st) : st :=
  mk (s_status s) (s_dns s) (s_ea s) (s_lock s) (s_pc s) (s_ntf s) (fun u => if u =? t then p else s_c s u) (s_q s) (s_cur s) (s_n s).
Definition set_ea (e : eas) (s : st) : st := mk (s_status s) (s_dns s) e (s_lock s) (s_pc s) (s_ntf s) (s_c s) (s_q s) (s_cur s) (s_n s).
Definition set_lock (l : option who) (s : st) : st := mk (s_status s) (s_dns s) (s_ea s) l (s_pc s) (s_ntf s) (s_c s) (s_q s) (s_cur s) (s_n s).
Definition set_ntf (b : bool) (s : st) : st := mk (s_status s) (s_dns s) (s_ea s) (s_lock s) (s_pc s) b (s_c s) (s_q s) (s_cur s) (s_n s).
Definition set_dns (b : bool) (s : st) : st := mk (s_status s) b (s_ea s) (s_lock s) (s_pc s) (s_ntf s) (s_c s) (s_q s) (s_cur s) (s_n s).
Definition set_status (w : wst) (s : st) : st := mk w (s_dns s) (s_ea s) (s_lock s) (s_pc s) (s_ntf s) (s_c s) (s_q s) (s_cur s) (s_n s).
Definition set_q (q : list (nat * bool)) (s : st) : st := mk (s_status s) (s_dns s) (s_ea s) (s_lock s) (s_pc s) (s_ntf s) (s_c s) q (s_cur s) (s_n s).

(** FlusherQueue::push, src/flusher.cc:38-64: a request for the same database is merged, with the new options. *)
Fixpoint push (d : nat) (dl : bool) (q : list (nat * bool)) : list (nat * bool) :=
  match q with [] => [(d, dl)] | (e, x) :: r => if e =? d then (e, dl) :: r else (e, x) :: push d dl r end.

(** The start of a pass: Flusher::work, src/flusher.cc:141-150, takes the first request (src/flusher.cc:67-76). *)
Definition begin_body (s : st) : st :=
  mk (s_status s) (s_dns s) (s_ea s) (s_lock s) L5 (s_ntf s) (s_c s) (tl (s_q s)) (hd_error (s_q s)) (S (s_n s)).
(** The end of a pass, src/flusher.cc:291-295: another pass follows at once if requests are left, unless the
    request of this pass came with a delay. *)
Definition end_body (s : st) : st :=
  let delayed := match s_cur s with Some (_, true) => true | _ => false end in
  let again := negb (match s_q s with [] => true | _ => false end) && negb delayed in
  mk (s_status s) (s_dns s || again) (s_ea s) (s_lock s) L6 (s_ntf s) (s_c s) (s_q s) None (s_n s).

(** One step of the worker, src/worker_mgr.cc:50-90, src/event_awaiter.h:39-70. *)
Definition wstep (s : st) : option st :=
  match s_pc s with
  | L0a => Some (wgo (match s_status s with Idle => L0c | _ => L0b end) s)
  | L0b => Some (wgo (match s_status s with Stop => L0c | _ => L1 end) s)
  | L0c => Some (wgo (if s_dns s then L1 else W0) s)
  | W0 => Some (match s_ea s with eidle => wgo W1 (set_ea eready s) | _ => wgo W4 s end)
  | W1 => match s_lock s with None => Some (wgo W2 (set_lock (Some WkL) s)) | Some _ => None end
  | W2 => Some (match s_ea s with eready => wgo W2b (set_ea ewaiting s) | _ => wgo W3d s end)
  | W2b => Some (wgo W3 (set_ntf false (set_lock None s)))
  | W3 => if s_ntf s then Some (wgo W3b s) else None
  | W3b => match s_lock s with None => Some (wgo W3c (set_lock (Some WkL) s)) | Some _ => None end
  | W3c => Some (wgo W3d (set_ea edone s))
  | W3d => Some (wgo W4 (set_lock None s))
  | W4 => Some (wgo L1 (set_ea eidle s))
  | L1 => Some (wgo (match s_status s with Term => LX | _ => L2 end) s)
  | L2 => Some (match s_status s with Idle => wgo L3 (set_status Working s) | _ => wgo L0a s end)
  | L3 => Some (wgo L4 (set_dns false s))
  | L4 => Some (begin_body s)
  | L5 => Some (end_body s)
  | L6 => Some (wgo L0a (match s_status s with Working => set_status Idle s | _ => s end))
  | LX => Some (wgo Dead (set_status NoInst s))
  | Dead => None
  end.

(** One step of a thread in [invoke] (src/event_awaiter.h:72-90) or in the request of a flush
    (src/jungle.cc:519-521, 552). *)
Definition cstep (t : nat) (s : st) : option st :=
  match s_c s t with
  | Out => None
  | P d dl => Some (cgo t C1 (set_q (push d dl (s_q s)) s))
  | C1 => Some (match s_ea s with eidle => cgo t Out (set_ea edone s) | _ => cgo t C2 s end)
  | C2 => match s_lock s with None => Some (cgo t C3 (set_lock (Some (ClL t)) s)) | Some _ => None end
  | C3 => Some (match s_ea s with
                | eready => cgo t C4 (set_ea edone s)
                | _ => cgo t C4 (match s_pc s with W3 => set_ntf true s | _ => s end)
                end)
  | C4 => Some (cgo t Out (set_lock None s))
  end.

(** One step of the system.  [WkWeak]: the weak compare-and-swaps of src/worker_mgr.cc:79 and 85.  [Add]: the
    store in addWorker (src/worker_mgr.cc:154, 101-103).  [Run], [RunWeak]: src/worker_mgr.cc:93-99.  [Halt]: the store
    in destroy (src/worker_mgr.cc:110); the wake-up that follows (115) is an [Invoke]. *)
Definition step (a : act) (s : st) : option st :=
  match a with
  | Wk => wstep s
  | WkWeak => match s_pc s with L2 | L6 => Some (wgo L0a s) | _ => None end
  | Spur => match s_pc s with W3 => Some (wgo W3b s) | _ => None end
  | Dns => match s_pc s with L5 => Some (set_dns true s) | _ => None end
  | Invoke t => match s_c s t with Out => Some (cgo t C1 s) | _ => None end
  | Request t d dl => match s_c s t with Out => Some (cgo t (P d dl) s) | _ => None end
  | Cl t => cstep t s
  | Steal => Some (set_q (tl (s_q s)) s)
  | Add => Some (set_status Stop s)
  | Run => Some (match s_status s with Stop => set_status Idle s | _ => s end)
  | RunWeak => Some s
  | Halt => Some (set_status Term s)
  end.

Fixpoint run (os : list act) (s : st) : option st :=
  match os with [] => Some s | a :: os' => match step a s with Some s' => run os' s' | None => None end end.
