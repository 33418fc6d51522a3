(** The pool of table writers: a flush, a compaction or a split divides its work into pieces and
    hands them to leased writer threads (src/table_writer.h, src/table_writer.cc; the loops in
    src/table_set_batch.cc:215-291, src/table_compaction.cc:415-491, src/table_split.cc:254-317).

    A call is known by a number [t]; it has [cl_n t] pieces.  Any number of calls and writers run
    interleaved; each step below is one atomic action of one thread.  A write of a table takes time:
    it has a first step, in which the payload is read, and a last step.

    Simplifications: the two EventAwaiter objects are left out, as both loops look at the payload
    again after every wait of at most a second (table_writer.cc:133-138, table_set_batch.cc:276-279;
    the awaiter itself is the subject of WorkerModel.v): a thread may look at any time.  The stop
    signal is left out: writers are stopped after all worker threads (db_mgr.cc:260-262). *)
From Coq Require Import List Arith Bool Lia.
Import ListNotations.

(** src/db_config.cc:46-67, getMaxParallelWriters; [given]: maxParallelWritesPerJob; [mgr]: the
    global configuration (flushers, compactors, table writers) if there is one. *)
Definition max_parallel (given : nat) (read_only : bool) (mgr : option (nat * nat * nat)) : nat :=
  if negb (given =? 0) then given
  else if read_only then 1
  else match mgr with
       | None => 1
       | Some (fl, co, tw) =>
           let tasks := fl + co in
           if tasks =? 0 then 1
           else let r := (tw + tasks * 2 - 1) / tasks in
                if r =? 0 then 1 else if (r =? 1) && negb (tw =? 0) then 2 else r
       end.

(** One call: number of pieces, result of getMaxParallelWriters, and the pieces that are skipped
    because there is no table for them (table_set_batch.cc:243-251) or it cannot be created
    (table_compaction.cc:434-435, table_split.cc:272-273). *)
Record call := mkCall { cl_n : nat; cl_max : nat; cl_skip : nat -> bool }.

(** src/table_writer.cc:124-151, tableWriterLoop: waiting; about to look at the payload; about to
    read it; writing; the write is done; the payload is empty again. *)
Inductive wpc := Idle | Look | Do | Busy (t j : nat) | Fin | Tell.
(** TableWriterPkg (table_writer.h:154-179): inUse, the payload (the call and the number of the
    piece; None: not ready), and where its thread is. *)
Record writer := mkW { w_use : bool; w_pay : option (nat * nat); w_pc : wpc }.

(** Where the thread of a call is: not started; before piece [ii]; with the writers [ls], before
    piece [jj]; writing piece [jj] itself; waiting for the writer of piece [jj]; about to return
    the writers; after the loop; given up before piece [m] (table_compaction.cc:484-488,
    table_split.cc:314). *)
Inductive cpc := Out | Next (ii : nat) | Asg (ii : nat) (ls : list nat) (jj : nat) | Own (ii : nat) (ls : list nat) (jj : nat)
  | Wt (ii : nat) (ls : list nat) (jj : nat) | Rt (ii : nat) (ls : list nat) | End | Thrown (m : nat).

(** [s_cnt t j]: how often piece [j] of call [t] has been written.  [s_null]: a writer has read
    an empty payload, and done nothing for it (table_writer.cc:154,165). *)
Record st := mkS { s_w : nat -> writer; s_c : nat -> cpc; s_cnt : nat -> nat -> nat; s_null : bool }.

Definition put {A} (f : nat -> A) (i : nat) (v : A) : nat -> A := fun x => if x =? i then v else f x.
Definition set_w (s : st) (i : nat) (w : writer) : st := mkS (put (s_w s) i w) (s_c s) (s_cnt s) (s_null s).
Definition set_c (s : st) (t : nat) (p : cpc) : st := mkS (s_w s) (put (s_c s) t p) (s_cnt s) (s_null s).
Definition wrote (s : st) (t j : nat) : st := mkS (s_w s) (s_c s) (put (s_cnt s) t (put (s_cnt s t) j (S (s_cnt s t j)))) (s_null s).

Definition init : st := mkS (fun _ => mkW false None Idle) (fun _ => Out) (fun _ _ => 0) false.

Section Pool.
Variable nw : nat.              (* number of table writers *)
Variable calls : nat -> call.

(** src/table_writer.cc:97-114, leaseWriters: under the lock, the first idle ones, up to [num]. *)
Definition lease (num : nat) (s : st) : list nat := firstn num (filter (fun i => negb (w_use (s_w s i))) (seq 0 nw)).
Definition mark (b : bool) (ls : list nat) (s : st) : st :=
  mkS (fun i => if existsb (Nat.eqb i) ls then mkW b (w_pay (s_w s i)) (w_pc (s_w s i)) else s_w s i) (s_c s) (s_cnt s) (s_null s).

(** A step of writer [i] (tableWriterLoop, doTableWrite; table_writer.cc:124-175). *)
Definition wstep (i : nat) (s : st) : option st :=
  if nw <=? i then None else
  let w := s_w s i in
  let go p := set_w s i (mkW (w_use w) (w_pay w) p) in
  match w_pc w with
  | Idle => Some (go Look)
  | Look => Some (go (match w_pay w with None => Idle | Some _ => Do end))
  | Do => match w_pay w with
          | None => Some (let s1 := go Fin in mkS (s_w s1) (s_c s1) (s_cnt s1) true)
          | Some (t, j) => Some (go (Busy t j))
          end
  | Busy t j => Some (wrote (go Fin) t j)
  | Fin => Some (set_w s i (mkW (w_use w) None Tell))
  | Tell => Some (go Idle)
  end.

(** A step of call [t] (table_set_batch.cc:216-291; the others alike). *)
Definition cstep (t : nat) (s : st) : option st :=
  let c := calls t in
  match s_c s t with
  | Out => Some (set_c s t (Next 0))
  | Next ii =>
      if ii <? cl_n c then
        let ls := lease (min (ii + cl_max c) (cl_n c) - ii - 1) s in
        Some (set_c (mark true ls s) t (Asg ii ls ii))
      else Some (set_c s t End)
  | Asg ii ls jj =>
      let upto := ii + length ls + 1 in
      if jj <? upto then
        if cl_skip c jj then Some (set_c s t (Asg ii ls (S jj)))
        else match nth_error ls (jj - ii) with
             | Some i => Some (set_c (set_w s i (mkW (w_use (s_w s i)) (Some (t, jj)) (w_pc (s_w s i)))) t (Asg ii ls (S jj)))
             | None => Some (set_c s t (Own ii ls jj))
             end
      else Some (set_c s t (Wt ii ls ii))
  | Own ii ls jj => Some (set_c (wrote s t jj) t (Asg ii ls (S jj)))
  | Wt ii ls jj =>
      match nth_error ls (jj - ii) with
      | Some i => match w_pay (s_w s i) with
                  | None => Some (set_c s t (Wt ii ls (S jj)))
                  | Some _ => Some s           (* waits, and looks again *)
                  end
      | None => Some (set_c s t (Rt ii ls))
      end
  | Rt ii ls => Some (set_c (mark false ls s) t (Next (ii + length ls + 1)))
  | End | Thrown _ => None
  end.

(** A compaction or split gives up once the leased writers are done (table_compaction.cc:484-488,
    table_split.cc:314): the exception returns the writers too. *)
Definition xstep (t : nat) (s : st) : option st :=
  match s_c s t with
  | Rt ii ls => Some (set_c (mark false ls s) t (Thrown (ii + length ls + 1)))
  | _ => None
  end.

Inductive act := W (i : nat) | C (t : nat) | X (t : nat).
Definition step (a : act) (s : st) : option st := match a with W i => wstep i s | C t => cstep t s | X t => xstep t s end.
Fixpoint run (os : list act) (s : st) : option st :=
  match os with
  | [] => Some s
  | a :: t => match step a s with Some s' => run t s' | None => None end
  end.
End Pool.
