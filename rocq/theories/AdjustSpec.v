(** Vocabulary for the change of the number of level-0 partitions. *)
From Coq Require Import List NArith Bool Lia Arith.
From Verif Require Import Base LogFormatModel KeyModel BloomModel MemTableModel LsmModel LsmProofs2 LsmProofs5 AdjustModel.
Import ListNotations.
Local Open Scope N_scope.

(** In every partition the table that was being compacted comes before the one that took over
    from it. *)
Definition older_first (l : list tbl) : Prop :=
  forall h, by_hash h l = filter b_src (by_hash h l) ++ filter (fun t => negb (b_src t)) (by_hash h l).

Section Hash.
Variable hash : key -> N * N.
(** The partition of a key, given the number of partitions. *)
Variable hp : N -> key -> N.

(** Executions that may change the number of partitions: all operations of LsmModel.v, one
    compaction of a change that is interrupted (the database keeps its number), and a change
    that is completed.  [R] is the list of all records flushed, in order. *)
Inductive areach : tcfg -> list rec -> lsm -> Prop :=
| ar_new : forall c, tc_ext c = true -> 0 < tc_parts c <= NIL -> areach c [] (lsm_new c)
| ar_step : forall c R s o s', areach c R s -> lop_ok o -> lstep hash (hp (tc_parts c)) c o s = Some s' -> l_next s' <= NIL ->
    areach c (R ++ lflushed o) s'
| ar_keep : forall c R s over mk fin sel num s', areach c R s -> (forall j, mk j = true) ->
    compact_keep hash c over mk fin sel num s = Some s' -> l_next s' <= NIL -> areach c R s'
| ar_adjust : forall c R s p ov mk s', areach c R s -> (forall n j, mk n j = true) -> 0 < p <= NIL ->
    older_first (l_zero s) -> adjust hash c p ov mk s = Some s' -> l_next s' <= NIL -> areach (with_parts p c) R s'.

(** Any number of operations without a reload. *)
Inductive quiet (c : tcfg) : list rec -> lsm -> list rec -> lsm -> Prop :=
| qu_none : forall R s, quiet c R s R s
| qu_step : forall R s R1 s1 o s2, quiet c R s R1 s1 -> o <> LReload -> lop_ok o -> lstep hash (hp (tc_parts c)) c o s1 = Some s2 ->
    l_next s2 <= NIL -> quiet c R s (R1 ++ lflushed o) s2.

End Hash.
