(** Numbers of table files and log files, handed out to any number of threads. *)
From Verif Require Import Base.
Local Open Scope N_scope.

(** uint64_t arithmetic. *)
Definition inc64 (x : N) : N := (x + 1) mod 2 ^ 64.

(** src/table_manifest.cc:444-458, TableManifest::issueTableNumber, and src/log_manifest.cc:646-660,
    LogManifest::issueLogFileNumber, which is the same.  Each access of the atomic is a step of its
    own; compare_exchange_weak may fail for no reason ([spurious]). *)
Inductive npc :=
| NIdle
| NLoop              (* in the loop of lines 452-455 *)
| NHave (e : N)      (* expected = maxTableNum *)
| NTry (e v : N).    (* val = maxTableNum + 1 *)
Record nst := mkN { n_max : N; n_pc : nat -> npc; n_out : list (nat * N) }.   (* results so far *)
Definition n_set (t : nat) (p : npc) (s : nst) : nst := mkN (n_max s) (fun u => if Nat.eqb u t then p else n_pc s u) (n_out s).
Definition n_give (t : nat) (v : N) (s : nst) : nst :=
  mkN v (fun u => if Nat.eqb u t then NIdle else n_pc s u) (n_out s ++ [(t, v)]).

Inductive nev :=
| NFirst (t : nat) (spurious : bool)    (* line 447 *)
| NLoad (t : nat)                       (* line 452 *)
| NLoad2 (t : nat)                      (* line 453 *)
| NCas (t : nat) (spurious : bool).     (* line 454 *)
Definition nstep (e : nev) (s : nst) : option nst :=
  match e with
  | NFirst t sp => match n_pc s t with
                   | NIdle => Some (if negb sp && (n_max s =? NIL) then n_give t 0 s else n_set t NLoop s)
                   | _ => None
                   end
  | NLoad t => match n_pc s t with NLoop => Some (n_set t (NHave (n_max s)) s) | _ => None end
  | NLoad2 t => match n_pc s t with NHave e => Some (n_set t (NTry e (inc64 (n_max s))) s) | _ => None end
  | NCas t sp => match n_pc s t with
                 | NTry e v => Some (if negb sp && (n_max s =? e) then n_give t v s else n_set t NLoop s)
                 | _ => None
                 end
  end.
Fixpoint nruns (es : list nev) (s : nst) : option nst :=
  match es with [] => Some s | e :: es' => match nstep e s with Some s' => nruns es' s' | None => None end end.
(** [m]: NOT_INITIALIZED, or what the manifest said (src/table_manifest.cc:159,
    src/log_manifest.cc:287). *)
Definition n_new (m : N) : nst := mkN m (fun _ => NIdle) [].

(** src/log_mgr.cc:486-547, LogMgr::addNewLogFile by a thread that found file [cur] full, under
    addNewLogFileMutex.  src/log_manifest.cc:874-879, setMaxLogFileNum, uses compare_exchange_weak
    without a loop; its failure is caught by an assertion only (line 520), which is taken as
    compiled out.  The state: maxLogFileNum and the files created. *)
Definition add_log (cur : N) (spurious : bool) (s : N * list N) : N * list N :=
  let '(mx, fs) := s in
  if mx =? cur then (if spurious then mx else mx + 1, fs ++ [mx + 1]) else s.
