(** Words for C136. *)
From Verif Require Import Base KeyModel VictimModel.
Local Open Scope N_scope.

(** [t] is in the level, no other job works on it, its active data has [w] bytes and its file
    [tot]. *)
Definition free_table (ts : list vtab) (t : vtab) (w tot : N) : Prop :=
  In t ts /\ v_locked t = false /\ v_stats t = Some (w, tot).

(** The file is big enough to be compacted and has reached the configured percentage of the active
    data. *)
Definition stale (c : vcfg) (w tot : N) : Prop := 0 < w /\ vc_file c <= tot /\ vc_factor c * w <= 100 * tot.
(** The active data exceeds one and a half times the limit of a table. *)
Definition too_big (c : vcfg) (w : N) : Prop := 3 * vc_max c < 2 * w.

(** File sizes are below 2^64 / 100, and table numbers are not the largest 64-bit number. *)
Definition sizes_ok (ts : list vtab) : Prop := forall t w tot, In t ts -> v_stats t = Some (w, tot) -> 100 * tot < 2 ^ 64.
Definition numbers_ok (ts : list vtab) : Prop := forall t, In t ts -> v_num t < 2 ^ 64 - 1.

(** The mean of the active sizes of the tables that no other job works on and that are not small. *)
Definition big_sizes (c : vcfg) (ts : list vtab) : list N :=
  flat_map (fun t => match v_locked t, v_stats t with
                     | false, Some (w, tot) => if vc_file c <? tot then [w] else []
                     | _, _ => []
                     end) ts.
Definition mean (l : list N) : N := fold_right N.add 0 l / N.of_nat (length l).
