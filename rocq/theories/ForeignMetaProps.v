(** C138: how a record is read does not depend on the records read before. *)
From Verif Require Import Base FileModel LogFormatModel MetaModel MetaProofs ForeignMetaSpec ForeignMetaProofs.
Local Open Scope N_scope.

(** After one document with metadata that is cut off, a deletion written by the library is read as
    an insertion, with the header as user metadata, by every later reader of the process; by itself
    it is read as a deletion. *)
Theorem C138_foreign_refuted : exists d r, r_type r = DEL /\
  forall decomp, let t := tf_set_doc (fun _ => None) r in
    alone decomp t = Some r /\
    exists r', nth_error (fst (tf_get_all decomp [d; t] false)) 1 = Some (Some r') /\ r_type r' = INS /\ r_meta r' <> r_meta r.
Proof.
  exists (mkDoc [97] [1] [5] 1), (mkRec 2 DEL [98] [] []). split; [reflexivity|]. intros decomp t. split; [reflexivity|].
  eexists. split; [reflexivity|]. split; [reflexivity|]. discriminate.
Qed.
Print Assumptions C138_foreign_refuted.

(** If no header is cut off, as in all documents written by the library, each document is read as
    if it were the only one.  Missing: other documents (refuted above). *)
Theorem C138_independent_partial : forall decomp ds, Forall (fun d => whole (d_meta d)) ds ->
  tf_get_all decomp ds false = (map (alone decomp) ds, false).
Proof. exact independent. Qed.
Print Assumptions C138_independent_partial.

(** A case: a foreign document without the identifier, one with it and enough bytes, and a deletion
    by the library. *)
Definition fm_docs : list doc :=
  [ mkDoc [97] [7] [5] 1; mkDoc [98] [1;0;0;0;0;0;0;0;0;9;9;9;9;9] [6] 2; tf_set_doc (fun _ => None) (mkRec 3 DEL [99] [8] []) ].
Example C138_case : Forall (fun d => whole (d_meta d)) fm_docs /\
  fst (tf_get_all None fm_docs false) =
    [Some (mkRec 1 INS [97] [7] [5]); Some (mkRec 2 INS [98] [9;9;9;9;9] [6]); Some (mkRec 3 DEL [99] [8] [])].
Proof.
  split; [|vm_compute; reflexivity].
  constructor; [left; intros l H; discriminate H|]. constructor; [right; left; apply Nat.leb_le; vm_compute; reflexivity|].
  constructor; [|constructor]. right. right. exists [8], {| im_tombstone := true; im_compressed := false; im_origlen := 0 |}.
  split; [reflexivity|]. split; [reflexivity|]. reflexivity.
Qed.
