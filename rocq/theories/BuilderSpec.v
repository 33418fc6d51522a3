(** Words used in the statements about building databases. *)
From Coq Require Import Sorted.
From Verif Require Import Base KeyModel LogFormatModel MemTableModel LsmModel LsmProofs LsmProofs2 LsmProofs5 BuilderModel.
Local Open Scope N_scope.

(** Keys ascending, each once. *)
Definition ascending (rs : list rec) : Prop := StronglySorted (fun a b => klt (r_key a) (r_key b)) rs.

(** The records as the user gave them, with the sequence numbers that they get: their own, or the
    next one of a counter. *)
Fixpoint numbered (ctr : N) (rs : list rec) : list rec :=
  match rs with
  | [] => []
  | r :: rs' => mkRec (if r_seq r =? NIL then ctr else r_seq r) INS (r_key r) (r_meta r) (r_val r) ::
                numbered (if r_seq r =? NIL then ctr + 1 else ctr) rs'
  end.

(** Table files that are described truthfully and do not overlap. *)
Record files_ok (fs : list tdata) : Prop := {
  fo_nums : NoDup (map td_num fs);
  fo_asc : forall f, In f fs -> ascending (td_docs f);
  fo_first : forall f, In f fs -> td_min f <> [] /\ (exists r rest, td_docs f = r :: rest /\ r_key r = td_min f);
  fo_plain : forall f r, In f fs -> In r (td_docs f) -> is_cmd r = false;
  fo_apart : forall f g, In f fs -> In g fs -> f <> g ->
    (forall r, In r (td_docs f) -> klt (r_key r) (td_min g)) \/ (forall r, In r (td_docs g) -> klt (r_key r) (td_min f)) }.

(** The table with number 0, if there is one, has the smallest keys. *)
Definition zero_smallest (fs : list tdata) : Prop :=
  forall f g, In f fs -> In g fs -> td_num f = 0 -> kle (td_min f) (td_min g).

Definition all_docs (fs : list tdata) : list rec := concat (map td_docs fs).

(** Histories of the table section that start with a given one that holds [R0]. *)
Inductive lreach_from (hash : key -> N * N) (part : key -> N) (c : tcfg) (R0 : list rec) (s0 : lsm) : list rec -> lsm -> Prop :=
| lf_start : lreach_from hash part c R0 s0 R0 s0
| lf_step : forall R s o s', lreach_from hash part c R0 s0 R s -> lop_ok o -> lstep hash part c o s = Some s' -> l_next s' <= NIL ->
    lreach_from hash part c R0 s0 (R ++ lflushed o) s'.

(** Table files written by a Builder that do not overlap, and of which each but the first begins with
    its smallest key. *)
Definition apart_files (fs : list tdata) : Prop :=
  (forall f, In f fs -> td_num f <> 0 -> forall r, In r (td_docs f) -> kle (td_min f) (r_key r)) /\
  (forall f g, In f fs -> In g fs -> td_num f < td_num g -> forall r, In r (td_docs f) -> klt (r_key r) (td_min g)).

(** What the records count for against the size limit of a file. *)
Fixpoint total_size (rs : list rec) : N :=
  match rs with [] => 0 | r :: t => (blen (r_key r) + blen (r_val r) + blen (r_meta r) + 96) + total_size t end.
