(** Batches over several databases (src/global_batch.cc).

    Part 1: what a global batch consists of and what its execution does to the databases.
    Part 2: the write mutexes it takes, with any number of threads.
    Part 3: when its records become visible to readers. *)
From Verif Require Import Base KeyModel.
From Coq Require Import Arith.

(** A database: its path and, within a database group, the number of the store
    (src/db_group.cc:103-104, 117: a store of a group has the path of the group). *)
Record dbid := mkDbId { d_path : key; d_kvs : nat }.

(** ** Part 1 *)

(** GlobalBatch::addBatch, src/global_batch.cc:45-57.  pairList is a std::set ordered by path
    (23-27): here the sorted list.  [B] is the type of batches. *)
Fixpoint gb_insert {B : Type} (d : dbid) (b : B) (l : list (dbid * B)) : list (dbid * B) :=
  match l with
  | [] => [(d, b)]
  | (d', b') :: l' =>
      match kcmp (d_path d) (d_path d') with
      | Lt => (d, b) :: l
      | Eq => l                                   (* 50-54: "duplicate", ignored *)
      | Gt => (d', b') :: gb_insert d b l'
      end
  end.
Definition gb_add {B : Type} (ro : dbid -> bool) (d : dbid) (b : B) (l : list (dbid * B)) : list (dbid * B) :=
  if ro d then l else gb_insert d b l.            (* 46-47 *)
Definition gb_of {B : Type} (ro : dbid -> bool) (adds : list (dbid * B)) : list (dbid * B) :=
  fold_left (fun l a => gb_add ro (fst a) (snd a) l) adds [].

Inductive gb_result := GbOk | GbInvalid | GbUndefined.
(** What execute() writes (66-138): every batch is checked first (95-98); then each is written up to
    its first failing record ([room d b] is the number of records that do not fail), whatever happened
    to the others (107-122); the result is then always success.  Checking looks at the first record
    (src/log_mgr.cc:765) of a batch that may have none: undefined behaviour.
    Simplification: checking and writing one database's batch are functions of that database and the
    batch; LogMgrModel.v models them. *)
Fixpoint gb_check {R : Type} (valid : dbid -> list R -> bool) (l : list (dbid * list R)) : gb_result :=
  match l with
  | [] => GbOk
  | (_, []) :: _ => GbUndefined
  | (d, b) :: l' => if valid d b then gb_check valid l' else GbInvalid
  end.
Definition gb_execute {R : Type} (valid : dbid -> list R -> bool) (room : dbid -> list R -> nat) (l : list (dbid * list R))
  : gb_result * list (dbid * list R) :=
  match gb_check valid l with
  | GbOk => (GbOk, map (fun p => (fst p, firstn (room (fst p) (snd p)) (snd p))) l)
  | r => (r, [])
  end.

(** ** Part 2 *)

(** One step of a writing thread as far as write mutexes are concerned. *)
Inductive act := ALock (d : dbid) | AWork | AUnlock (d : dbid).
(** GlobalBatchExecutor::execute: 69-73, 75-122, 83-93. *)
Definition batch_prog {B : Type} (l : list (dbid * B)) (work : nat) : list act :=
  map (fun p => ALock (fst p)) l ++ repeat AWork work ++ flat_map (fun p => [AWork; AUnlock (fst p)]) l.
(** LogMgr::setMulti and setSN (src/log_mgr.cc:616, 705): one mutex. *)
Definition single_prog (d : dbid) (work : nat) : list act := ALock d :: repeat AWork work ++ [AUnlock d].

(** The programs that the threads still have to run, and who owns each mutex.  (The mutex is
    recursive; no program takes one twice.) *)
Record lst := mkLst { l_progs : list (list act); l_owner : dbid -> option nat }.
Definition dbid_eqb (a b : dbid) : bool := keqb (d_path a) (d_path b) && Nat.eqb (d_kvs a) (d_kvs b).
Fixpoint set_nth {A : Type} (n : nat) (x : A) (l : list A) : list A :=
  match l, n with
  | [], _ => []
  | _ :: l', O => x :: l'
  | y :: l', S n' => y :: set_nth n' x l'
  end.
Definition own (d : dbid) (o : option nat) (f : dbid -> option nat) : dbid -> option nat :=
  fun x => if dbid_eqb x d then o else f x.
(** The next step of thread [t]; None if it has finished or has to wait. *)
Definition lstep (t : nat) (s : lst) : option lst :=
  match nth t (l_progs s) [] with
  | [] => None
  | ALock d :: p => match l_owner s d with
                    | None => Some (mkLst (set_nth t p (l_progs s)) (own d (Some t) (l_owner s)))
                    | Some _ => None
                    end
  | AWork :: p => Some (mkLst (set_nth t p (l_progs s)) (l_owner s))
  | AUnlock d :: p => Some (mkLst (set_nth t p (l_progs s)) (own d None (l_owner s)))
  end.
Fixpoint lruns (ts : list nat) (s : lst) : option lst :=
  match ts with [] => Some s | t :: ts' => match lstep t s with Some s' => lruns ts' s' | None => None end end.
Definition l_new (ps : list (list act)) : lst := mkLst ps (fun _ => None).

(** ** Part 3 *)

(** One global batch over databases 0 .. n-1, and any number of readers.  Database [d] had the
    largest number [base d] before, and gets [cnt d] records, numbered from [base d + 1].
    Simplifications: the write mutexes are held, so nobody else writes; no write of the batch fails;
    the databases are handled in any order (the code has a fixed one); no flush runs. *)
Section Visibility.
Variable n : nat.
Variables base cnt : nat -> nat.

Inductive gread :=
| GIdle
| GFwd (d f : nat)           (* src/log_mgr.cc:741: fwdVisibleSeqBarrier loaded, not 0 *)
| GStat (d f : nat)          (* 744-746: the status is this batch's *)
| GBar (d : nat)             (* will load visibleSeqBarrier, 759 *)
| GGot (d lim : nat)         (* the barrier is known; 0: none *)
| GSaw (d k : nat).          (* looked up: the first [k] records of the batch are visible *)

Record gst := mkGst {
  g_bar : nat -> nat;        (* visibleSeqBarrier *)
  g_set : nat -> bool;       (* it was set for this batch *)
  g_done : nat -> nat;       (* records written *)
  g_stat : nat -> bool;      (* globalBatchStatus points to this batch's status *)
  g_fwd : nat -> nat;        (* fwdVisibleSeqBarrier *)
  g_vis : bool;              (* the status is VISIBLE *)
  g_clr : nat -> bool;       (* the barrier was cleared *)
  g_rd : nat -> gread }.
Definition fset {A : Type} (f : nat -> A) (k : nat) (x : A) : nat -> A := fun i => if Nat.eqb i k then x else f i.

Inductive gev :=
| GSetBar (d : nat)          (* src/global_batch.cc:76-81 *)
| GWrite (d : nat)           (* 112 *)
| GSetStat (d : nat)         (* 117, src/log_mgr.cc:733-735 *)
| GSetFwd (d : nat)          (* src/log_mgr.cc:736 *)
| GVisible                   (* 126 *)
| GClrBar (d : nat)          (* 88 *)
| GClrStat (d : nat)         (* 89 *)
| GClrFwd (d : nat)          (* 89 *)
| GLoad (t d : nat)          (* a reader: src/log_mgr.cc:741-742 *)
| GNext (t : nat)            (* its next step *)
| GEnd (t : nat).            (* its result was returned *)

Definition all_dbs (p : nat -> bool) : bool := forallb p (seq 0 n).
(** The barrier hides records above it; 0 hides nothing. *)
Definition shows (d lim done : nat) : nat := if Nat.eqb lim 0 then done else Nat.min done (lim - base d).

Definition gstep (e : gev) (s : gst) : option gst :=
  match e with
  | GSetBar d => if Nat.ltb d n && negb (g_set s d)
                 then Some (mkGst (fset (g_bar s) d (base d)) (fset (g_set s) d true) (g_done s) (g_stat s) (g_fwd s) (g_vis s) (g_clr s) (g_rd s)) else None
  | GWrite d => if Nat.ltb d n && all_dbs (g_set s) && Nat.ltb (g_done s d) (cnt d)
                then Some (mkGst (g_bar s) (g_set s) (fset (g_done s) d (S (g_done s d))) (g_stat s) (g_fwd s) (g_vis s) (g_clr s) (g_rd s)) else None
  | GSetStat d => if Nat.ltb d n && all_dbs (g_set s) && Nat.eqb (g_done s d) (cnt d) && negb (g_vis s)
                  then Some (mkGst (g_bar s) (g_set s) (g_done s) (fset (g_stat s) d true) (g_fwd s) (g_vis s) (g_clr s) (g_rd s)) else None
  | GSetFwd d => if Nat.ltb d n && g_stat s d && negb (g_vis s)
                 then Some (mkGst (g_bar s) (g_set s) (g_done s) (g_stat s) (fset (g_fwd s) d (base d + cnt d)) (g_vis s) (g_clr s) (g_rd s)) else None
  | GVisible => if all_dbs (fun d => negb (Nat.eqb (g_fwd s d) 0)) && negb (g_vis s)
                then Some (mkGst (g_bar s) (g_set s) (g_done s) (g_stat s) (g_fwd s) true (g_clr s) (g_rd s)) else None
  | GClrBar d => if Nat.ltb d n && g_vis s
                 then Some (mkGst (fset (g_bar s) d 0) (g_set s) (g_done s) (g_stat s) (g_fwd s) (g_vis s) (fset (g_clr s) d true) (g_rd s)) else None
  | GClrStat d => if g_clr s d
                  then Some (mkGst (g_bar s) (g_set s) (g_done s) (fset (g_stat s) d false) (g_fwd s) (g_vis s) (g_clr s) (g_rd s)) else None
  | GClrFwd d => if g_clr s d && negb (g_stat s d)
                 then Some (mkGst (g_bar s) (g_set s) (g_done s) (g_stat s) (fset (g_fwd s) d 0) (g_vis s) (g_clr s) (g_rd s)) else None
  | GLoad t d => match g_rd s t with
                 | GIdle => Some (mkGst (g_bar s) (g_set s) (g_done s) (g_stat s) (g_fwd s) (g_vis s) (g_clr s)
                                    (fset (g_rd s) t (if Nat.eqb (g_fwd s d) 0 then GBar d else GFwd d (g_fwd s d))))
                 | _ => None
                 end
  | GNext t =>
      let go := fun x => Some (mkGst (g_bar s) (g_set s) (g_done s) (g_stat s) (g_fwd s) (g_vis s) (g_clr s) (fset (g_rd s) t x)) in
      match g_rd s t with
      | GFwd d f => go (if g_stat s d then GStat d f else GBar d)       (* 744-748 *)
      | GStat d f => go (if g_vis s then GGot d f else GBar d)          (* 749-752 *)
      | GBar d => go (GGot d (g_bar s d))                               (* 759 *)
      | GGot d lim => go (GSaw d (shows d lim (g_done s d)))            (* src/log_mgr.cc:920-936 *)
      | _ => None
      end
  | GEnd t => match g_rd s t with
              | GSaw _ _ => Some (mkGst (g_bar s) (g_set s) (g_done s) (g_stat s) (g_fwd s) (g_vis s) (g_clr s) (fset (g_rd s) t GIdle))
              | _ => None
              end
  end.
Fixpoint gruns (es : list gev) (s : gst) : option gst :=
  match es with [] => Some s | e :: es' => match gstep e s with Some s' => gruns es' s' | None => None end end.
Definition g_new : gst := mkGst (fun _ => 0) (fun _ => false) (fun _ => 0) (fun _ => false) (fun _ => 0) false (fun _ => false) (fun _ => GIdle).
End Visibility.
