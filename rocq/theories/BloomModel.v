(** Bit array and bloom filter. *)
From Verif Require Import Base FileModel.
Local Open Scope N_scope.

(** src/generic_bitmap.h:199-206: number of bits and the byte array ([memorySizeByte] is its
    length).  The single lock (generic_bitmap.h:153-157) makes get and set atomic. *)
Record bitmap := { bm_bits : N; bm_bytes : list N }.

(** generic_bitmap.h:36-50, the zeroing constructor. *)
Definition bm_create (num_bits : N) : bitmap :=
  {| bm_bits := num_bits; bm_bytes := repeat 0 (N.to_nat ((num_bits + 7) / 8)) |}.

(** generic_bitmap.h:136-143, masks8. *)
Definition mask8 (off : N) : N := N.shiftr 0x80 off.

(** generic_bitmap.h:160-166, calcTable[prev][offset][val] (uint8_t arithmetic). *)
Definition calc_table (prev off : N) (val : bool) : N :=
  if val then N.lor prev (mask8 off) else N.land prev (255 - mask8 off).

(** generic_bitmap.h:169-184, parse and getInternal.  Reading outside the array is undefined
    behaviour ([None]). *)
Definition bm_get (b : bitmap) (idx : N) : option bool :=
  let offset := N.land idx 7 in
  let byte_idx := N.shiftr idx 3 in
  if byte_idx <? blen (bm_bytes b)
  then Some (negb (N.land (nth (N.to_nat byte_idx) (bm_bytes b) 0) (mask8 offset) =? 0))
  else None.

Definition upd (l : list N) (i : nat) (v : N) : list N := firstn i l ++ v :: skipn (S i) l.

(** generic_bitmap.h:186-194, setInternal. *)
Definition bm_set (b : bitmap) (idx : N) (val : bool) : option bitmap :=
  let offset := N.land idx 7 in
  let byte_idx := N.shiftr idx 3 in
  if byte_idx <? blen (bm_bytes b)
  then let prev := nth (N.to_nat byte_idx) (bm_bytes b) 0 in
       Some {| bm_bits := bm_bits b;
               bm_bytes := upd (bm_bytes b) (N.to_nat byte_idx) (calc_table prev offset val) |}
  else None.

(** src/bloomfilter.h:61-62. *)
Record bloom := { bl_count : N; bl_map : bitmap }.

(** src/bloomfilter.cc:36-39, the constructor: rounds the size up to a multiple of 8. *)
Definition bl_create (bitmap_size hash_count : N) : bloom :=
  {| bl_count := hash_count; bl_map := bm_create ((bitmap_size + 7) / 8 * 8) |}.

(** src/bloomfilter.cc:30-34, gen_hash (uint64_t arithmetic wraps). *)
Definition gen_hash (idx : N) (hp : N * N) : N := (fst hp + idx * snd hp) mod 2 ^ 64.

(** [gen_hash(ii, hash_pair) % bitmap.size()]; a zero size is undefined behaviour. *)
Definition bl_index (b : bloom) (ii : N) (hp : N * N) : option N :=
  if bm_bits (bl_map b) =? 0 then None else Some (gen_hash ii hp mod bm_bits (bl_map b)).

(** src/bloomfilter.cc:50-63, set: the loop over the hash functions [ii .. hashCount). *)
Fixpoint bl_set_loop (n : nat) (ii : N) (hp : N * N) (b : bloom) : option bloom :=
  match n with
  | O => Some b
  | S n' =>
      match bl_index b ii hp with
      | None => None
      | Some i => match bm_set (bl_map b) i true with
                  | None => None
                  | Some m => bl_set_loop n' (ii + 1) hp {| bl_count := bl_count b; bl_map := m |}
                  end
      end
  end.
Definition bl_set (hp : N * N) (b : bloom) : option bloom := bl_set_loop (N.to_nat (bl_count b)) 0 hp b.

(** src/bloomfilter.cc:65-84, check. *)
Fixpoint bl_check_loop (n : nat) (ii : N) (hp : N * N) (b : bloom) : option bool :=
  match n with
  | O => Some true
  | S n' =>
      match bl_index b ii hp with
      | None => None
      | Some i => match bm_get (bl_map b) i with
                  | None => None
                  | Some false => Some false
                  | Some true => bl_check_loop n' (ii + 1) hp b
                  end
      end
  end.
Definition bl_check (hp : N * N) (b : bloom) : option bool := bl_check_loop (N.to_nat (bl_count b)) 0 hp b.

(** Adding several keys in any order (each [set] may come from a different thread; the bit
    operations of different calls commute, see BloomProofs.v). *)
Fixpoint bl_set_all (hps : list (N * N)) (b : bloom) : option bloom :=
  match hps with
  | [] => Some b
  | hp :: hps' => match bl_set hp b with Some b' => bl_set_all hps' b' | None => None end
  end.

(** src/table_file.cc:496-527, saveBloomFilter into a file with the given previous content.
    An empty filter is not saved.  The length field is a uint32_t. *)
Definition bl_save (b : bloom) (old : list N) : list N :=
  if bm_bits (bl_map b) =? 0 then old
  else
    let data_size := bm_bits (bl_map b) / 8 in
    let f1 := pwrite old 0 (u32 0 ++ u32 (data_size mod 2 ^ 32)) in
    pwrite f1 8 (firstn (N.to_nat data_size) (bm_bytes (bl_map b))).

(** src/table_file.cc:446-494, loadBloomFilter.  [None]: no filter (empty file or failed read);
    the assertion data_size == buf.size is [None] as well (abort).  The hash count is the
    constant 3 (line 481) and moveBitmapFrom (bloomfilter.cc:86-88) sets the bit count from the
    byte count. *)
Definition bl_load (f : list N) : option bloom :=
  if (length f =? 0)%nat then None
  else match pread f 0 8 with
       | None => None
       | Some h =>
           let data_size := get_be (firstn 4 (skipn 4 h)) in
           if N.of_nat (length f - 8) =? data_size then
             match pread f 8 (length f - 8) with
             | None => None
             | Some d => Some {| bl_count := 3; bl_map := {| bm_bits := blen d * 8; bm_bytes := d |} |}
             end
           else None
       end.
