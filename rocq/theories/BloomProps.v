(** C24: bloom filters have no false negatives. *)
From Verif Require Import Base FileModel BloomModel BloomProofs.
Local Open Scope N_scope.

(** For every filter size and number of hash functions, whatever 128-bit hash the keys have:
    after adding any keys, every one of them is reported as present, also after more keys were
    added; no operation touches memory outside the bit array. *)
Theorem C24_no_false_negatives : forall size count hps hps', 0 < size ->
  exists b b', bl_set_all hps (bl_create size count) = Some b /\ bl_set_all hps' b = Some b' /\
    forall hp, In hp (hps ++ hps') -> bl_check hp b' = Some true.
Proof. exact bl_no_false_negative. Qed.
Print Assumptions C24_no_false_negatives.

(** Saving (also over an older image of the same filter) and loading keeps every member. *)
Theorem C24_saved_no_false_negatives : forall size count hps old,
  0 < size -> size <= 2 ^ 35 - 8 -> 3 <= count ->
  (length old <= 8 + N.to_nat ((size + 7) / 8))%nat ->
  exists b b', bl_set_all hps (bl_create size count) = Some b /\ bl_load (bl_save b old) = Some b' /\
    (forall hp, In hp hps -> bl_check hp b' = Some true).
Proof. exact bl_saved_no_false_negative. Qed.
Print Assumptions C24_saved_no_false_negatives.

(** The filter is not trivial: an empty one rejects everything. *)
Theorem C24_empty_rejects : forall size count hp, 0 < size -> 0 < count ->
  bl_check hp (bl_create size count) = Some false.
Proof. exact bl_empty_negative. Qed.
Print Assumptions C24_empty_rejects.

(** The bit array under the filter is an array of independent bits. *)
Theorem C24_bitmap_laws : forall b i v,
  bm_bits b <= 8 * blen (bm_bytes b) /\ is_bytes (bm_bytes b) -> i < bm_bits b ->
  exists b', bm_set b i v = Some b' /\
    (bm_bits b' <= 8 * blen (bm_bytes b') /\ is_bytes (bm_bytes b')) /\ bm_bits b' = bm_bits b /\
    length (bm_bytes b') = length (bm_bytes b) /\
    forall j, j < bm_bits b -> bm_get b' j = (if j =? i then Some v else bm_get b j).
Proof. exact bm_set_spec. Qed.
Print Assumptions C24_bitmap_laws.

Example ex_bloom :
  match bl_set_all [(17, 2 ^ 63 + 5); (3, 9)] (bl_create 100 3) with
  | Some b => bm_bits (bl_map b) = 104 /\ bl_check (17, 2 ^ 63 + 5) b = Some true /\ bl_check (18, 1) b = Some false
              /\ match bl_load (bl_save b []) with Some b' => bl_check (3, 9) b' = Some true | None => False end
  | None => False
  end.
Proof. vm_compute. repeat split. Qed.
