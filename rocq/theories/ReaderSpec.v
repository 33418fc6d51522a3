(** Executions of a lookup among other operations. *)
From Coq Require Import List NArith Bool Lia Arith.
From Verif Require Import Base LogFormatModel KeyModel BloomModel MemTableModel LsmModel LsmProofs5 ReaderModel.
Import ListNotations.
Local Open Scope N_scope.

Section Hash.
Variable hash : key -> N * N.
Variable part : key -> N.
Variable c : tcfg.
Variable k : key.

(** A moment of the execution: the records flushed so far, the tables, the lookup, and the
    flushed records of all moments since the lookup was called. *)
Record conf := mkC { f_recs : list rec; f_tabs : lsm; f_rd : rdst; f_past : list (list rec) }.

(** A lookup called in state [s]. *)
Definition called (R : list rec) (s : lsm) : conf := mkC R s RStart [R].

(** One operation of another thread. *)
Definition other (b : conf) (o : lop) (s' : lsm) : conf :=
  mkC (f_recs b ++ lflushed o) s' (rrefresh s' (f_rd b)) ((f_recs b ++ lflushed o) :: f_past b).
(** One step of the lookup. *)
Definition own (b : conf) : conf := mkC (f_recs b) (f_tabs b) (rstep hash part c k (f_tabs b) (f_rd b)) (f_past b).

(** While the lookup has the list of the tables of level 0 but did not read them yet, none of
    these tables becomes the source of a compaction. *)
Definition no_source (b : conf) (s' : lsm) : Prop :=
  match f_rd b with
  | RListed _ O ts => forall t, In t ts -> b_src (refresh 0 s' t) = b_src t
  | _ => True
  end.

(** Executions; [calm]: with [no_source] at each step. *)
Inductive rexec (calm : bool) : conf -> conf -> Prop :=
| rx_none : forall a, rexec calm a a
| rx_other : forall a b o s', rexec calm a b -> lop_ok o -> o <> LReload -> lstep hash part c o (f_tabs b) = Some s' -> l_next s' <= NIL ->
    (calm = true -> no_source b s') -> rexec calm a (other b o s')
| rx_own : forall a b, rexec calm a b -> rexec calm a (own b).

End Hash.
