(** What the log-store mode is measured against (ReclaimModel.v). *)
From Verif Require Import Base KeyModel LogFormatModel LogManifestModel BloomModel MemTableModel LogMgrModel DbModel DbProofs RecoverModel ReclaimModel.
Local Open Scope N_scope.

(** The writes acknowledged by a call. *)
Definition acks (o : lop) (x : lans) : list rec :=
  match o, x with LWrite _, AWrite y => acked y | _, _ => [] end.

(** The condition on a call: that of DbProofs.v on writes (numbers away from the top of the range, no
    number lowered on a full file, a first write before batches). *)
Definition guard (c : cfg) (h : list rec) (s : lsdb) (o : lop) : Prop :=
  match o with LWrite o => allowed c h (p_db (l_p s)) o | _ => True end.

(** A run from a new database: the calls with their answers, the acknowledged writes, the state. *)
Inductive lreach (hash : key -> N * N) (c : cfg) : list (lop * lans) -> list rec -> lsdb -> Prop :=
| lr_new : lreach hash c [] [] (l_new c)
| lr_step : forall tr h s o x s', lreach hash c tr h s -> guard c h s o -> l_step hash c o s = Some (x, s') ->
    lreach hash c (tr ++ [(o, x)]) (h ++ acks o x) s'.

(** The calls other than the evictions. *)
Definition is_evict (o : lop) : bool := match o with LEvict _ => true | _ => false end.
Definition calls (tr : list (lop * lans)) : list (lop * lans) := filter (fun e => negb (is_evict (fst e))) tr.

(** What a crash would leave is the same. *)
Definition same_disk (s s' : lsdb) : Prop :=
  p_disk (l_p s') = p_disk (l_p s) /\ p_dur (l_p s') = p_dur (l_p s) /\
  p_man (l_p s') = p_man (l_p s) /\ p_old (l_p s') = p_old (l_p s).

(** No memtable is away. *)
Definition none_freed (s : lsdb) : Prop := forall n, l_out s n = false.

(** No batch is being written. *)
Definition idle (s : lsdb) : Prop := d_bat (p_db (l_p s)) = None.
