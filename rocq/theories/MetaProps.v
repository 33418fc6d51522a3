(** C40: record metadata stored in tables round-trips. *)
From Verif Require Import Base FileModel LogFormatModel MetaModel MetaProofs.
Local Open Scope N_scope.

(** User metadata, tombstone flag, compression flag and original length are read back, and the
    shared status variable of the serializer stays OK. *)
Theorem C40_meta_round_trip : forall user m,
  im_origlen m < 2 ^ 32 /\ (im_compressed m = false -> im_origlen m = 0) ->
  raw_to_user (user_to_raw user m) imeta0 [] false = (m, Some user, false) /\
  read_imeta (user_to_raw user m) imeta0 false = (m, false) /\
  (exists fl, tf_extract_flags (user_to_raw user m) false = (fl, false) /\
     tf_is_tombstone fl = im_tombstone m /\ tf_is_compressed fl = im_compressed m).
Proof.
  exact (fun user m H => conj (raw_round_trip user m H)
    (conj (read_imeta_round_trip user m H) (extract_flags_round_trip user m))).
Qed.
Print Assumptions C40_meta_round_trip.

(** Whole records: any list of insertions and deletions written to a table is read back
    unchanged, compressed or not, in any order of reading (each read also leaves the shared
    status as it found it). *)
Theorem C40_table_record_round_trip :
  forall (comp : rec -> option (list N)) (decomp : option (list N -> N -> option (list N))) rs,
  Forall (fun r => (r_type r = INS \/ r_type r = DEL) /\ blen (r_val r) < 2 ^ 32 /\
     (forall c, comp r = Some c -> c <> [] -> r_type r <> DEL ->
        exists f, decomp = Some f /\ f c (blen (r_val r)) = Some (r_val r))) rs ->
  tf_get_all decomp (map (tf_set_doc comp) rs) false = (map Some rs, false).
Proof. exact tf_round_trip_all. Qed.
Print Assumptions C40_table_record_round_trip.

(** Non-trivial instances: user metadata that itself begins with the identifier byte 1, an
    empty one, a deletion and a compressed value. *)
Definition ex_comp (r : rec) : option (list N) :=
  match r_val r with 0 :: _ => Some [blen (r_val r)] | _ => None end.
Definition ex_decomp : option (list N -> N -> option (list N)) :=
  Some (fun c n => match c with [m] => if m =? n then Some (repeat 0 (N.to_nat n)) else None | _ => None end).
Definition ex_table_recs : list rec :=
  [ mkRec 1 INS [107] [1;0;0;0;0;0;0;0;1] [5;6]; mkRec 2 DEL [108] [] []; mkRec 3 INS [109] [9] [0;0;0;0] ].
Example ex_table_recs_ok :
  Forall (fun r => (r_type r = INS \/ r_type r = DEL) /\ blen (r_val r) < 2 ^ 32 /\
     (forall c, ex_comp r = Some c -> c <> [] -> r_type r <> DEL ->
        exists f, ex_decomp = Some f /\ f c (blen (r_val r)) = Some (r_val r))) ex_table_recs.
Proof.
  constructor; [|constructor; [|constructor; [|constructor]]]; cbn [r_type r_val].
  - split; [left; reflexivity|]. split; [reflexivity|]. intros c H; discriminate H.
  - split; [right; reflexivity|]. split; [reflexivity|]. intros c H; discriminate H.
  - split; [left; reflexivity|]. split; [reflexivity|]. intros c H _ _. unfold ex_decomp. eexists. split; [reflexivity|].
    injection H as <-. vm_compute. reflexivity.
Qed.
Example ex_table_recs_run :
  map (fun d => blen (d_meta d)) (map (tf_set_doc ex_comp) ex_table_recs) = [18; 9; 14].
Proof. reflexivity. Qed.
