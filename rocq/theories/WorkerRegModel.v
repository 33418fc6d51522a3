(** Starting the background thread that reclaims log files: every database opened in log-store mode asks
    for it, from the thread that opens it. *)
From Coq Require Import Arith List Bool.
From Verif Require Import WorkerModel.
Import ListNotations.
Local Open Scope nat_scope.

(** Where a thread is in DBMgr::addLogReclaimer, src/db_mgr.cc:280-295: R1 looks for the worker (283, under the
    lock of worker_mgr.cc:172), R2 creates one (286; its thread starts at once), R3 registers it (287,
    worker_mgr.cc:144-157), R4 calls run (288). *)
Inductive rpc := ROut | R1 | R2 | R3 (w : nat) | R4 (w : nat).
(** The registered worker of that name, the states of the workers created so far (numbered), the threads. *)
Record rst := rmk { r_reg : option nat; r_status : list wst; r_pc : nat -> rpc }.
Definition rinit : rst := rmk None [] (fun _ => ROut).
Inductive ract := Ask (t : nat) | RGo (t : nat).

(** Replace an element. *)
Fixpoint put (i : nat) (x : wst) (l : list wst) : list wst :=
  match l, i with [], _ => [] | _ :: r, 0 => x :: r | y :: r, S j => y :: put j x r end.
Definition rgo (t : nat) (p : rpc) (s : rst) : rst := rmk (r_reg s) (r_status s) (fun u => if u =? t then p else r_pc s u).

(** src/log_manifest.cc:205-216 and src/db_mgr.cc:280-295.  The result of addWorker is not looked at (287). *)
Definition rstep (a : ract) (s : rst) : option rst :=
  match a with
  | Ask t => match r_pc s t with ROut => Some (rgo t R1 s) | _ => None end
  | RGo t =>
    match r_pc s t with
    | ROut => None
    | R1 => Some (rgo t (match r_reg s with Some _ => ROut | None => R2 end) s)
    | R2 => Some (rgo t (R3 (length (r_status s))) (rmk (r_reg s) (r_status s ++ [NoInst]) (r_pc s)))
    | R3 w => Some (rgo t (R4 w) (match r_reg s with
                                  | Some _ => s
                                  | None => rmk (Some w) (put w Stop (r_status s)) (r_pc s)
                                  end))
    | R4 w => Some (rgo t ROut (match nth w (r_status s) NoInst with
                                | Stop => rmk (r_reg s) (put w Idle (r_status s)) (r_pc s)
                                | _ => s
                                end))
    end
  end.
Fixpoint rrun (os : list ract) (s : rst) : option rst :=
  match os with [] => Some s | a :: os' => match rstep a s with Some s' => rrun os' s' | None => None end end.
