(** Words for C138. *)
From Verif Require Import Base FileModel LogFormatModel MetaModel.
Local Open Scope N_scope.

(** Metadata in which no field of the header is cut off: it does not start with the identifier 1,
    or it has room for the longest header, or it was written by the library. *)
Definition whole (raw : list N) : Prop :=
  (forall l, raw <> 1 :: l) \/ (13 <= length raw)%nat \/
  (exists user m, raw = user_to_raw user m /\ im_origlen m < 2 ^ 32 /\ (im_compressed m = false -> im_origlen m = 0)).

(** What a document says by itself, in a process that has read nothing before. *)
Definition alone (decomp : option (list N -> N -> option (list N))) (d : doc) : option rec :=
  fst (tf_get_rec decomp d false false).
