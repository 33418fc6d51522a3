(** Properties C110 and C111: sample keys. *)
From Coq Require Import List NArith Bool Lia Arith Sorted.
From Verif Require Import Base KeyModel SamplerModel SamplerProofs.
Import ListNotations.
Local Open Scope N_scope.

(** C110: the keys returned are different, not more than requested, keys of records of the
    database, and live when they were looked up if only live keys were requested. *)
Theorem C110_samples : forall lo live rs max n out, get_samples lo live rs max n = Some out ->
  NoDup out /\ (length out <= n)%nat /\
  forall k, In k out -> (exists q, In (q, k) rs) /\ (lo = true -> exists j, live j k = true).
Proof. exact samples_fine. Qed.
Print Assumptions C110_samples.

(** Overwritten key, deleted key, other numbers of samples. *)
Definition ex_recs : list srec := [(1, [1]); (2, [2]); (3, [1]); (4, [3]); (5, [4]); (6, [2]); (7, [5])].
Definition ex_live (j : nat) (k : key) : bool := negb (keqb k [3]).
Example C110_case :
  get_samples false ex_live ex_recs 7 3 = Some [[1]; [4]; [5]] /\ get_samples true ex_live ex_recs 7 6 = Some [[2]; [1]; [4]; [5]] /\
  get_samples true ex_live ex_recs 7 0 = None.
Proof. vm_compute. auto. Qed.

(** C111: if each sequence number from 1 on belongs to another key, all live if that is requested,
    exactly the requested number of keys is returned. *)
Theorem C111_enough : forall lo live ks n, NoDup ks -> (lo = true -> forall j k, In k ks -> live j k = true) -> (0 < n <= length ks)%nat ->
  exists out, get_samples lo live (dense 1 ks) (N.of_nat (length ks)) n = Some out /\ length out = n.
Proof. exact samples_enough. Qed.
Print Assumptions C111_enough.

(** C111: where the samples are: at a fixed distance. *)
Theorem C111_positions : forall lo live ks n, NoDup ks -> (lo = true -> forall j k, In k ks -> live j k = true) -> (0 < n < length ks)%nat ->
  let step := ((length ks - 1) / n)%nat in
  exists out, get_samples lo live (dense 1 ks) (N.of_nat (length ks)) n = Some out /\
    forall i, (i < n)%nat -> nth_error out i = nth_error ks (step * (i + 1)).
Proof.
  intros lo live ks n Hnd Hl Hn step. destruct (samples_dense lo live ks Hnd Hl n) as (out & A & B); [lia|]. exists out. split; [exact A|].
  destruct (Nat.eqb_spec n (length ks)); [lia|].
  assert (P : forall rem p st i, 1 <= p -> (i < rem)%nat -> nth_error (picked ks rem p st) i = Some (nth_error ks (N.to_nat (p - 1 + N.of_nat i * st)))).
  { clear. induction rem as [|rem IH]; intros p st i Hp Hi; [lia|]. cbn [picked]. destruct i as [|i]; cbn [nth_error].
    - f_equal. f_equal. lia.
    - rewrite IH by lia. f_equal. f_equal. lia. }
  intros i Hi. pose proof (P n (1 + (N.of_nat (length ks) - 1) / N.of_nat n) ((N.of_nat (length ks) - 1) / N.of_nat n) i ltac:(lia) Hi) as Q.
  rewrite <- B, nth_error_map in Q. destruct (nth_error out i) as [k|] eqn:E; [|discriminate]. injection Q as ->. f_equal.
  assert (D : (N.of_nat (length ks) - 1) / N.of_nat n = N.of_nat step).
  { unfold step. rewrite Nnat.Nat2N.inj_div. f_equal. lia. }
  rewrite D. lia.
Qed.
Print Assumptions C111_positions.

Example C111_case : get_samples true (fun _ _ => true) (dense 1 [[1]; [2]; [3]; [4]; [5]; [6]; [7]; [8]]) 8 3 = Some [[3]; [5]; [7]].
Proof. reflexivity. Qed.
(** The condition matters: two keys, but only one sample of two. *)
Example C111_overwritten : get_samples false (fun _ _ => true) [(1, [1]); (5, [2])] 5 2 = Some [[2]].
Proof. reflexivity. Qed.
