(** Building a database from table files, and building the table files from records
    (src/jungle_builder.cc, include/libjungle/jungle_builder.h).  Simplifications: calls of ForestDB
    and of the file system succeed (except that ForestDB refuses an empty key); no compression; the
    directory holds no database yet. *)
From Verif Require Import Base KeyModel LogFormatModel BloomModel MemTableModel LsmModel.
Local Open Scope N_scope.

(** ** From table files *)

(** include/libjungle/jungle_builder.h:49-66, TableData, together with the records in the file of
    that number. *)
Record tdata := mkTD { td_num : N; td_min : key; td_max : N; td_docs : list rec }.

(** src/jungle_builder.cc:53-64: the number of "the table with the smallest key", and the largest
    sequence number.  [std::string::operator<] compares like SizedBuf::cmp. *)
Definition minkey_number (fs : list tdata) : N :=
  snd (fold_left (fun st f => if kltb (td_min f) (fst st) then (td_min f, td_num f) else st) fs ([], 0)).
Definition max_seqnum (fs : list tdata) : N := fold_left (fun m f => N.max (td_max f) m) fs 0.

(** src/jungle_builder.cc:66-82: level 1.  The files have no bloom filter
    (table_file.cc:446-453). *)
Definition as_tbl (mn : N) (f : tdata) : tbl :=
  mkT (td_num f) false 0 (if mn =? td_num f then [] else td_min f) (td_docs f) None.
Definition level_one (fs : list tdata) : list tbl :=
  fold_left (fun l f => add_tbl (as_tbl (minkey_number fs) f) l) fs [].
Definition max_number (fs : list tdata) : N := fold_left (fun m f => N.max (td_num f) m) fs 0.

(** src/jungle_builder.cc:84-93: level 0, one empty table per partition. *)
Fixpoint zero_tbls (c : tcfg) (base : N) (n : nat) (h : N) (l : list tbl) : list tbl :=
  match n with
  | O => l
  | S n' => zero_tbls c base n' (h + 1) (add_tbl (new_tbl c (base + 1 + h) h []) l)
  end.

(** src/jungle_builder.cc:27-114, buildFromTableFiles: the table section and the first sequence
    number of the log section. *)
Definition build (c : tcfg) (fs : list tdata) : lsm :=
  mkL (max_number fs + tc_parts c + 1)
      (zero_tbls c (max_number fs) (N.to_nat (tc_parts c)) 0 [])
      (match fs with [] => [] | _ => [level_one fs] end).
Definition first_seqnum (fs : list tdata) : N := max_seqnum fs + 1.

(** ** From records *)

(** include/libjungle/jungle_builder.h:104-122, the fields of Builder.  [w_cur]: number and content
    of the file being written. *)
Record bst := mkW { w_cur : option (N * list rec); w_min : key; w_est : N; w_docs : N; w_max : N;
                    w_ctr : N; w_idx : N; w_tabs : list tdata }.
(** include/libjungle/jungle_builder.h:76-88. *)
Definition b_init : bst := mkW None [] 0 0 0 1 0 [].

(** src/jungle_builder.cc:250-281, finalizeFile. *)
Definition finalize (b : bst) : bst :=
  match w_cur b with
  | Some (n, docs) => mkW None [] 0 0 (w_max b) (w_ctr b) (w_idx b) (w_tabs b ++ [mkTD n (w_min b) (w_max b) docs])
  | None => b
  end.

(** src/jungle_builder.cc:150-171. *)
Definition with_file (limit : N) (b : bst) : N * list rec * bst :=
  let fresh b := (w_idx b, [], mkW None (w_min b) (w_est b) (w_docs b) (w_max b) (w_ctr b) (w_idx b + 1) (w_tabs b)) in
  match w_cur b with
  | None => fresh b
  | Some (n, docs) => if limit <? w_est b then fresh (finalize b) else (n, docs, b)
  end.

(** src/table_mgr.cc:35. *)
Definition APPROX_META_SIZE : N := 96.

(** src/jungle_builder.cc:223-235: what is stored.  The type of the record is not looked at. *)
Definition as_stored (ctr : N) (r : rec) : rec :=
  mkRec (if r_seq r =? NIL then ctr else r_seq r) INS (r_key r) (r_meta r) (r_val r).

(** src/jungle_builder.cc:147-248, set; [false]: FDB_SET_FAIL.  [limit]: maxL1TableSize. *)
Definition b_set (limit : N) (r : rec) (b0 : bst) : bst * bool :=
  let '(n, docs, b) := with_file limit b0 in
  let r' := as_stored (w_ctr b) r in
  let ctr := if r_seq r =? NIL then w_ctr b + 1 else w_ctr b in
  let mx := N.max (w_max b) (r_seq r') in
  let mn := match w_min b with [] => r_key r | _ => w_min b end in
  match r_key r with
  | [] => (mkW (Some (n, docs)) mn (w_est b) (w_docs b) mx ctr (w_idx b) (w_tabs b), false)
  | _ => (mkW (Some (n, fd_set r' docs)) mn
              (w_est b + (blen (r_key r) + blen (r_val r) + blen (r_meta r) + APPROX_META_SIZE)) (w_docs b + 1)
              mx ctr (w_idx b) (w_tabs b), true)
  end.
Fixpoint b_sets (limit : N) (rs : list rec) (b : bst) : bst :=
  match rs with [] => b | r :: rs' => b_sets limit rs' (fst (b_set limit r b)) end.

(** src/jungle_builder.cc:283-289, commit. *)
Definition b_tables (b : bst) : list tdata := w_tabs (if w_docs b =? 0 then b else finalize b).
Definition b_commit (c : tcfg) (b : bst) : lsm := build c (b_tables b).

(** The whole use of a Builder: init, a call of set for each record, commit. *)
Definition built_files (limit : N) (rs : list rec) : list tdata := b_tables (b_sets limit rs b_init).
Definition built (c : tcfg) (limit : N) (rs : list rec) : lsm := b_commit c (b_sets limit rs b_init).
