(** What nearest-key search should do, and the conditions under which it does. *)
From Verif Require Import Base KeyModel LogFormatModel MemTableModel LogMgrModel DbModel LsmModel FullModel DbIterProofs4.
Local Open Scope N_scope.

(** Key [a] may be returned for search key [k]. *)
Definition side (o : sopt) (k a : key) : Prop :=
  match o with GE => kle k a | G => klt k a | SE => kle a k | S_ => klt a k | EQ => a = k end.
(** Key [a] is strictly closer than [b] (both on the side asked for). *)
Definition nearer (o : sopt) (a b : key) : Prop := if is_greater o then klt a b else klt b a.

(** Only the first table of a level may be empty. *)
Definition filled (ts : list tbl) : Prop := match ts with [] => True | _ :: l => forall t, In t l -> b_docs t <> [] end.

(** Every key with a record in a log file that has been flushed is still in some table. *)
Definition flushed_kept (f : fdb) : Prop :=
  forall lf r, In lf (g_files (d_log (fd_db f))) -> In r (m_seq (f_mt lf)) -> is_cmd r = false ->
    valid_number (m_flushed (f_mt lf)) = true -> r_seq r <= m_flushed (f_mt lf) -> exists d, in_tabs (fd_lsm f) d /\ r_key d = r_key r.

