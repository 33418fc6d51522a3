(** What the statements about checkpoints say. *)
From Verif Require Import Base KeyModel LogFormatModel MemTableModel LogMgrModel DbModel DbProofs CheckpointModel.
From Coq Require Import Sorted.
Local Open Scope N_scope.

(** [l] is the ascending list of the newest [n] numbers among those that satisfy [P]. *)
Definition newest_n (n : nat) (P : N -> Prop) (l : list N) : Prop :=
  StronglySorted N.lt l /\ (length l <= n)%nat /\ (forall c, In c l -> P c) /\
  (forall c, P c -> In c l \/ length l = n /\ forall x, In x l -> c < x).

(** The checkpoint is in the log and its record has not been flushed. *)
Definition pending (x : cdb) (c : N) : Prop :=
  (exists f, In f (g_files (d_log (cd_db x))) /\ In c (m_chks (f_mt f))) /\
  (forall F, lm_flushed_seq (d_log (cd_db x)) = Ok F -> F < c).
(** Every partition of level 0 has a table with the checkpoint. *)
Definition in_tables (x : cdb) (c : N) : Prop :=
  forall q, In q (cd_parts x) -> exists t s, In t q /\ In (c, s) (t_chk t).

(** The conditions on the operations are those of [allowed]; compactions can start and end at any
    time, and ForestDB drops old snapshot markers at will. *)
Definition callowed (c : cfg) (h : list rec) (x : cdb) (o : cop) : Prop :=
  match o with CDb o' _ => allowed c h (cd_db x) o' | _ => True end.

(** [h]: acknowledged writes; [ks]: numbers delivered by the calls of checkpoint(), with the
    number that was the flushed mark then (0: nothing flushed). *)
Section Reach.
Variable hash : key -> N * N.
Variable part : key -> N -> N.

Definition flushed_of (x : cdb) : N := match lm_flushed_seq (d_log (cd_db x)) with Ok F => F | _ => 0 end.

Inductive creach (lim : nat) (c : cfg) (np : nat) : list rec -> list (N * N) -> cdb -> Prop :=
| creach_new : creach lim c np [] [] (cdb_new c np)
| creach_step : forall h ks x o y x', creach lim c np h ks x -> callowed c h x o ->
    c_step hash part lim c o x = Some (y, x') ->
    creach lim c np (h ++ acked y) (ks ++ map (fun k => (k, flushed_of x)) (c_chk o x)) x'.

(** The same without compactions and without lost markers, and with a checkpoint only after the
    first write. *)
Definition quiet (h : list rec) (o : cop) : Prop :=
  match o with
  | CDb (OChk _) _ => h <> []
  | CDb _ mark => forall p, mark p = 0
  | _ => False
  end.
Inductive qreach (lim : nat) (c : cfg) (np : nat) : list rec -> list (N * N) -> cdb -> Prop :=
| qreach_new : qreach lim c np [] [] (cdb_new c np)
| qreach_step : forall h ks x o y x', qreach lim c np h ks x -> callowed c h x o -> quiet h o ->
    c_step hash part lim c o x = Some (y, x') ->
    qreach lim c np (h ++ acked y) (ks ++ map (fun k => (k, flushed_of x)) (c_chk o x)) x'.

(** Operations of the handle only: no compaction. *)
Inductive clater (lim : nat) (c : cfg) (h : list rec) (x : cdb) : list rec -> cdb -> Prop :=
| clater_now : clater lim c h x h x
| clater_step : forall h1 x1 o mark y x2, clater lim c h x h1 x1 -> allowed c h1 (cd_db x1) o ->
    c_step hash part lim c (CDb o mark) x1 = Some (y, x2) -> clater lim c h x (h1 ++ acked y) x2.
End Reach.
