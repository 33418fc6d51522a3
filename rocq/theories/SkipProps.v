(** C78-C82: the concurrent index (SkipModel.v), stated with SkipSpec.v. *)
From Coq Require Import NArith Arith List Bool Lia.
From Verif Require Import Base SkipModel SkipSpec SkipProofs SkipProofs2 SkipProofs3 SkipProofs4.
Import ListNotations.
Local Open Scope nat_scope.

(** * Schedules for the examples *)

Fixpoint goes (T k : nat) : list ev := match k with O => [] | S i => Go T false :: goes T i end.

(** [T] runs [j] alone to its end. *)
Fixpoint finish_call (key : nat -> N) (top : nat -> nat) (maxl : nat) (weak : bool) (T fuel : nat) (s : st) : option st :=
  match fuel with
  | O => None
  | S i => if idle (s_th s T) then Some s
           else match step key top maxl weak (Go T false) s with Some s1 => finish_call key top maxl weak T i s1 | None => None end
  end.
Definition call key top maxl weak (T : nat) (j : job) (s : st) : option st :=
  match step key top maxl weak (Start T j) s with Some s1 => finish_call key top maxl weak T 200 s1 | None => None end.

(** Node 2 has key 10, node 3 key 20, node 4 key 30, all others key 40. *)
Definition xkey (n : nat) : N :=
  (match n with O => 0 | 1%nat => 1000 | 2%nat => 10 | 3%nat => 20 | 4%nat => 30 | _ => 40 end)%N.
Definition flat (n : nat) : nat := 0.
Definition tall (n : nat) : nat := if n =? 2 then 2 else 0.

Lemma xkey_ordered : ordered xkey.
Proof.
  split; [reflexivity|]. split; [discriminate|]. intros x U. unfold user in U. destruct x as [|[|[|[|[|x]]]]]; [lia|lia|split; reflexivity..].
Qed.

Lemma reach_run : forall key top maxl es s s', reach key top maxl s -> (forall e, In e es -> guard key e) -> run key top maxl false es s = Some s' -> reach key top maxl s'.
Proof.
  intros key top maxl es. induction es as [|e es IH]; intros s s' H G R; cbn [run] in R; [injection R as <-; exact H|].
  destruct (step key top maxl false e s) as [s1|] eqn:E; [|discriminate]. apply (IH s1); [|intros x X; apply G; right; exact X|exact R].
  apply (reach_step key top maxl e s); [exact H|apply G; left; reflexivity|exact E].
Qed.

Lemma reach_finish : forall key top maxl T fuel s s', reach key top maxl s -> finish_call key top maxl false T fuel s = Some s' -> reach key top maxl s'.
Proof.
  intros key top maxl T fuel. induction fuel as [|i IH]; intros s s' H R; cbn [finish_call] in R; [discriminate|]. destruct (idle (s_th s T)); [injection R as <-; exact H|].
  destruct (step key top maxl false (Go T false) s) as [s1|] eqn:E; [|discriminate]. apply (IH s1); [|exact R]. apply (reach_step key top maxl (Go T false) s); [exact H|exact Logic.I|exact E].
Qed.

Lemma reach_call : forall key top maxl T j s s', reach key top maxl s -> guard key (Start T j) -> call key top maxl false T j s = Some s' -> reach key top maxl s'.
Proof.
  intros key top maxl T j s s' H G R. unfold call in R. destruct (step key top maxl false (Start T j) s) as [s1|] eqn:E; [|discriminate].
  apply (reach_finish key top maxl T 200 s1); [|exact R]. apply (reach_step key top maxl (Start T j) s); [exact H|exact G|exact E].
Qed.

Definition then_ (o : option st) (f : st -> option st) : option st := match o with Some s => f s | None => None end.
Notation "o >> f" := (then_ o f) (at level 50, left associativity, only parsing).

Lemma reach_then : forall key top maxl o (f : st -> option st), (forall s, o = Some s -> reach key top maxl s) -> (forall s s', reach key top maxl s -> f s = Some s' -> reach key top maxl s') ->
  forall s, o >> f = Some s -> reach key top maxl s.
Proof. intros key top maxl o f A B s H. destruct o as [s0|]; [|discriminate]. apply (B s0); [apply A; reflexivity|exact H]. Qed.

(** * C78: searches *)

(** A search that ended, among any number of insertions, erasures and searches: the answer was in the
    index at some moment of the call and fits the query, and no entry that was there all the time and
    fits better was missed. *)
Theorem C78_search : forall key top maxl s T t0 t1 q m r, ordered key -> reach key top maxl s ->
  s_th s T = Done t0 t1 (JFind q m) (RFound r) -> t0 < t1 /\ found_ok key s t0 t1 q m r.
Proof. intros key top maxl s T t0 t1 q m r O H E. destruct (reach_inv2 key top maxl O s H) as [_ IT]. specialize (IT T). rewrite E in IT. destruct IT as (A & _ & B). split; assumption. Qed.

Theorem C78_next : forall key top maxl s T t0 t1 n r, ordered key -> reach key top maxl s ->
  s_th s T = Done t0 t1 (JNext n) (RFound r) -> t0 < t1 /\ found_ok key s t0 t1 (key n) GT r.
Proof. intros key top maxl s T t0 t1 n r O H E. destruct (reach_inv2 key top maxl O s H) as [_ IT]. specialize (IT T). rewrite E in IT. destruct IT as (A & _ & B). split; assumption. Qed.

(** A search never ends with anything but an answer. *)
Theorem C78_answers : forall key top maxl s T t0 t1 j r, ordered key -> reach key top maxl s -> s_th s T = Done t0 t1 j r ->
  match j with JFind _ _ | JNext _ => exists x, r = RFound x | _ => True end.
Proof.
  intros key top maxl s T t0 t1 j r O H E. destruct (reach_inv2 key top maxl O s H) as [_ IT]. specialize (IT T). rewrite E in IT. destruct IT as (_ & _ & B).
  destruct j, r; try exact Logic.I; try destruct B; eexists; reflexivity.
Qed.

(** Entries 10, 20, 30; thread 2 looks for the entry at or below 25, thread 1 erases 20 meanwhile;
    the answer is 10. *)
Definition three : option st :=
  Some sl_new >> call xkey flat 8 false 0 (JIns 2 true) >> call xkey flat 8 false 0 (JIns 3 true) >> call xkey flat 8 false 0 (JIns 4 true).
Definition seen : option st :=
  three >> run xkey flat 8 false (Start 2 (JFind 25 SMEQ) :: goes 2 2) >> call xkey flat 8 false 1 (JErase 3) >> finish_call xkey flat 8 false 2 100.

Lemma three_reach : forall s, three = Some s -> reach xkey flat 8 s.
Proof.
  unfold three. do 3 (apply reach_then; [|intros s s' A B; refine (reach_call _ _ _ _ _ _ _ A _ B); exact Logic.I]). intros s H. injection H as <-. apply reach_new.
Qed.

Lemma seen_reach : forall s, seen = Some s -> reach xkey flat 8 s.
Proof.
  unfold seen. apply reach_then; [|intros s s' A B; apply (reach_finish _ _ _ _ _ _ _ A B)]. apply reach_then; [|intros s s' A B; refine (reach_call _ _ _ _ _ _ _ A _ B); exact Logic.I].
  apply reach_then; [|intros s s' A B; refine (reach_run _ _ _ _ _ _ A _ B)]; [apply three_reach|]. intros e [<-|X]; [split; [discriminate|split; [reflexivity|left; reflexivity]]|].
  cbn in X. destruct X as [<-|[<-|[]]]; exact Logic.I.
Qed.

Example C78_case : exists s t0 t1, seen = Some s /\ reach xkey flat 8 s /\ ordered xkey /\ s_th s 2 = Done t0 t1 (JFind 25 SMEQ) (RFound (Some 2)) /\ throughout s t0 t1 2 /\
  exists d, s_died s 3 = Some d /\ t0 < d < t1.
Proof.
  destruct seen as [s|] eqn:E; [|exfalso; vm_compute in E; discriminate]. assert (R := seen_reach s E).
  assert (X : s_th s 2 = Done 75 112 (JFind 25 SMEQ) (RFound (Some 2)) /\ s_born s 2 = Some 11 /\ s_died s 2 = None /\ s_died s 3 = Some 97).
  { assert (Y : match seen with Some s => s_th s 2 = Done 75 112 (JFind 25 SMEQ) (RFound (Some 2)) /\ s_born s 2 = Some 11 /\ s_died s 2 = None /\ s_died s 3 = Some 97 | None => False end) by (vm_compute; repeat split).
    rewrite E in Y. exact Y. }
  destruct X as (X1 & X2 & X3 & X4). exists s, 75, 112. split; [reflexivity|]. split; [exact R|]. split; [exact xkey_ordered|]. split; [exact X1|]. split.
  - exists 11. split; [exact X2|]. split; [lia|]. intros d D. congruence.
  - exists 97. split; [exact X4|lia].
Qed.

(** * C79: insertions and erasures *)

(** An insertion that returned put the entry in, at a moment of the call. *)
Theorem C79_insert : forall key top maxl s T t0 t1 n d, ordered key -> reach key top maxl s -> s_th s T = Done t0 t1 (JIns n d) ROk ->
  exists b, s_born s n = Some b /\ t0 < b < t1.
Proof. intros key top maxl s T t0 t1 n d O H E. destruct (reach_inv2 key top maxl O s H) as [_ IT]. specialize (IT T). rewrite E in IT. apply IT. Qed.

(** An insertion that was refused met another entry with the same key. *)
Theorem C79_duplicate : forall key top maxl s T t0 t1 n d, ordered key -> reach key top maxl s -> s_th s T = Done t0 t1 (JIns n d) RDup ->
  exists y, y <> n /\ key y = key n /\ alive_in s t0 t1 y.
Proof. intros key top maxl s T t0 t1 n d O H E. destruct (reach_inv2 key top maxl O s H) as [_ IT]. specialize (IT T). rewrite E in IT. apply IT. Qed.

(** An erasure that returned 0 took the entry out, at a moment of the call. *)
Theorem C79_erase : forall key top maxl s T t0 t1 n, ordered key -> reach key top maxl s -> s_th s T = Done t0 t1 (JErase n) ROk ->
  exists d, s_died s n = Some d /\ t0 < d < t1.
Proof. intros key top maxl s T t0 t1 n O H E. destruct (reach_inv2 key top maxl O s H) as [_ IT]. specialize (IT T). rewrite E in IT. apply IT. Qed.

(** The entries that are in the index (inserted, not erased) have different keys. *)
Theorem C79_one_entry_per_key : forall key top maxl s x y bx by_, ordered key -> reach key top maxl s ->
  s_born s x = Some bx -> s_died s x = None -> s_born s y = Some by_ -> s_died s y = None -> key x = key y -> x = y.
Proof.
  intros key top maxl s x y bx by_ O H Bx Dx By Dy E. destruct (reach_inv2 key top maxl O s H) as [I _].
  assert (L : forall z b, s_born s z = Some b -> s_died s z = None -> linked top s z 0).
  { intros z b B D. destruct (si_born _ _ _ I z b B) as (U & P & _). split; [exact U|]. split; [lia|]. destruct (s_ph s z) eqn:Pz; try exact Logic.I; try destruct P;
      (destruct (si_dead _ _ _ I z U) as [d X]; [rewrite Pz; exact Logic.I|rewrite Pz; discriminate|congruence]). }
  apply (si_uk _ _ _ I 0); [apply (L x bx Bx Dx)|apply (L y by_ By Dy)|exact E].
Qed.

(** Nothing is lost: every entry in the index is met by a walk along the bottom layer, which visits
    entries in the order of their keys. *)
Theorem C79_nothing_lost : forall key top maxl s z b, ordered key -> reach key top maxl s -> s_born s z = Some b -> s_died s z = None ->
  exists k, walk s 0 k = z /\ forall i, i < k -> walk s 0 i <> tail /\ (key (walk s 0 i) < key (walk s 0 (S i)))%N.
Proof.
  intros key top maxl s z b O H B D. destruct (reach_inv2 key top maxl O s H) as [I _]. apply (walk_meets key top O s 0 z I).
  destruct (si_born _ _ _ I z b B) as (U & P & _). split; [exact U|]. split; [lia|]. destruct (s_ph s z) eqn:Pz; try exact Logic.I; try destruct P;
    (destruct (si_dead _ _ _ I z U) as [d X]; [rewrite Pz; exact Logic.I|rewrite Pz; discriminate|congruence]).
Qed.

(** No thread ever follows a null pointer, and when no call is under way no node is left locked. *)
Theorem C79_no_null : forall key top maxl s T, ordered key -> reach key top maxl s -> s_th s T <> Crash CNull.
Proof. intros key top maxl s T O H E. destruct (reach_inv2 key top maxl O s H) as [_ IT]. specialize (IT T). rewrite E in IT. exact IT. Qed.

Theorem C79_released : forall key top maxl s, ordered key -> reach key top maxl s -> (forall T, idle (s_th s T) = true) -> forall x, s_own s x = None.
Proof. intros key top maxl s O. apply (all_released key top maxl O s). Qed.

(** Threads 1 and 2 insert nodes 5 and 6, which have the same key 40, step by step in turns. *)
Fixpoint turns (k : nat) : list ev := match k with O => [] | S i => Go 1 false :: Go 2 false :: turns i end.
Definition race : option st := three >> run xkey flat 8 false (Start 1 (JIns 5 true) :: Start 2 (JIns 6 true) :: turns 8) >> finish_call xkey flat 8 false 1 100 >> finish_call xkey flat 8 false 2 100.

Lemma turns_go : forall k e, In e (turns k) -> exists T, e = Go T false.
Proof. induction k as [|k IH]; intros e X; [destruct X|]. destruct X as [<-|[<-|X]]; [eexists; reflexivity|eexists; reflexivity|apply IH, X]. Qed.

Lemma race_reach : forall s, race = Some s -> reach xkey flat 8 s.
Proof.
  unfold race. do 2 (apply reach_then; [|intros s s' A B; apply (reach_finish _ _ _ _ _ _ _ A B)]).
  apply reach_then; [|intros s s' A B; refine (reach_run _ _ _ _ _ _ A _ B)]; [apply three_reach|]. intros e [<-|[<-|X]]; [exact Logic.I|exact Logic.I|]. destruct (turns_go 8 e X) as [T ->]. exact Logic.I.
Qed.

Example C79_case : exists s, race = Some s /\ reach xkey flat 8 s /\ s_th s 1 = Done 75 112 (JIns 5 true) ROk /\ s_th s 2 = Done 76 129 (JIns 6 true) RDup /\
  s_born s 5 = Some 101 /\ s_died s 5 = None /\ walk s 0 4 = 5 /\ walk s 0 5 = tail.
Proof.
  destruct race as [s|] eqn:E; [|exfalso; vm_compute in E; discriminate]. exists s. split; [reflexivity|]. split; [apply race_reach, E|].
  assert (Y : match race with Some s => s_th s 1 = Done 75 112 (JIns 5 true) ROk /\ s_th s 2 = Done 76 129 (JIns 6 true) RDup /\
    s_born s 5 = Some 101 /\ s_died s 5 = None /\ walk s 0 4 = 5 /\ walk s 0 5 = tail | None => False end) by (vm_compute; repeat split).
  rewrite E in Y. exact Y.
Qed.

Example C79_erase_case : exists s, seen = Some s /\ reach xkey flat 8 s /\ s_th s 1 = Done 78 109 (JErase 3) ROk /\ s_died s 3 = Some 97.
Proof.
  destruct seen as [s|] eqn:E; [|exfalso; vm_compute in E; discriminate]. exists s. split; [reflexivity|]. split; [apply seen_reach, E|].
  assert (Y : match seen with Some s => s_th s 1 = Done 78 109 (JErase 3) ROk /\ s_died s 3 = Some 97 | None => False end) by (vm_compute; repeat split).
  rewrite E in Y. exact Y.
Qed.

(** * C80: the step to the next entry *)

(** A finished call of skiplist_next from an entry with key [q]; the second form is the one that went
    through a search (977). *)
Definition next_call (key : nat -> N) (j : job) (q : N) : Prop := (exists n, j = JNext n /\ key n = q) \/ j = JFind q GT.

(** The step to the next entry goes forward, unless an entry from here on was erased before. *)
Theorem C80_next_forward_partial : forall key top maxl s T t0 t1 j q y, ordered key -> reach key top maxl s ->
  s_th s T = Done t0 t1 j (RFound (Some y)) -> next_call key j q ->
  (q < key y)%N \/ exists x d, s_died s x = Some d /\ d < t1 /\ (q <= key x)%N.
Proof.
  intros key top maxl s T t0 t1 j q y O H E C. destruct (reach_AI key top maxl O s H) as [_ N]. specialize (N T). rewrite E in N. destruct C as [(n & -> & <-)| ->]; cbn [NI] in N.
  - left. exact N.
  - right. exact N.
Qed.

(** It never goes back. *)
Theorem C80_next_not_back_partial : forall key top maxl s T t0 t1 j q y, ordered key -> reach key top maxl s ->
  s_th s T = Done t0 t1 j (RFound (Some y)) -> next_call key j q -> (q <= key y)%N.
Proof.
  intros key top maxl s T t0 t1 j q y O H E [(n & -> & <-)| ->].
  - destruct (C78_next key top maxl s T t0 t1 n _ O H E) as [_ [A _]]. apply (A y eq_refl).
  - destruct (C78_search key top maxl s T t0 t1 q GT _ O H E) as [_ [A _]]. apply (A y eq_refl).
Qed.

(** While entry 20 is being erased, the step from entry 10 arrives at entry 10 again. *)
Definition again : option st := three >> run xkey flat 8 false (Start 1 (JErase 3) :: goes 1 19) >> call xkey flat 8 false 2 (JNext 2).

Lemma goes_go : forall T k e, In e (goes T k) -> e = Go T false.
Proof. intros T. induction k as [|k IH]; intros e X; [destruct X|]. destruct X as [<-|X]; [reflexivity|apply IH, X]. Qed.

Lemma again_reach : forall s, again = Some s -> reach xkey flat 8 s.
Proof.
  unfold again. apply reach_then; [|intros s s' A B; refine (reach_call _ _ _ _ _ _ _ A _ B); exact Logic.I].
  apply reach_then; [|intros s s' A B; refine (reach_run _ _ _ _ _ _ A _ B)]; [apply three_reach|]. intros e [<-|X]; [exact Logic.I|]. rewrite (goes_go 1 19 e X). exact Logic.I.
Qed.

Theorem C80_same_entry_again_refuted : exists s T t0 t1 j y, reach xkey flat 8 s /\ ordered xkey /\ next_call xkey j (xkey 2) /\
  s_th s T = Done t0 t1 j (RFound (Some y)) /\ y = 2 /\ throughout s t0 t1 4 /\ (xkey 2 < xkey 4)%N.
Proof.
  destruct again as [s|] eqn:E; [|exfalso; vm_compute in E; discriminate].
  assert (Y : match again with Some s => s_th s 2 = Done 95 101 (JFind 10 GT) (RFound (Some 2)) /\ s_born s 4 = Some 63 /\ s_died s 4 = None | None => False end) by (vm_compute; repeat split).
  rewrite E in Y. destruct Y as (Y1 & Y2 & Y3). exists s, 2, 95, 101, (JFind 10 GT), 2. split; [apply again_reach, E|]. split; [exact xkey_ordered|]. split; [right; reflexivity|].
  split; [exact Y1|]. split; [reflexivity|]. split; [|reflexivity]. exists 63. split; [exact Y2|]. split; [lia|]. intros d D. congruence.
Qed.

(** * C81: erasing an entry that was found *)

(** When calls do not overlap, an erasure never uses an array entry it did not set and never follows a
    null pointer; it says "gone" only for an entry erased before the call; and an erased entry that
    nobody refers to can be freed. *)
Theorem C81_serial_safe_partial : forall key top maxl s T c, ordered key -> (forall x, top x < maxl) -> reach1 key top maxl s -> s_th s T <> Crash c.
Proof. intros key top maxl s T c O M. apply (serial_no_crash key top maxl O M s T c). Qed.

Theorem C81_serial_gone_partial : forall key top maxl s T t0 t1 n, ordered key -> (forall x, top x < maxl) -> reach1 key top maxl s ->
  s_th s T = Done t0 t1 (JErase n) RGone -> exists d, s_died s n = Some d /\ d < t0.
Proof. intros key top maxl s T t0 t1 n O M H. apply (serial_gone key top maxl O M s H). Qed.

Theorem C81_serial_free_partial : forall key top maxl s n d, ordered key -> (forall x, top x < maxl) -> reach1 key top maxl s ->
  (forall T, idle (s_th s T) = true) -> s_died s n = Some d -> s_rc s n = 0 -> exists s', free_node n s = Some s'.
Proof. intros key top maxl s n d O M. apply (serial_freeable key top maxl O M s n d). Qed.

(** Insert node 2 (three layers high), 3 and 4, erase 2 and 3: serial. *)
Definition serial : option st :=
  Some sl_new >> call xkey tall 8 false 0 (JIns 2 true) >> call xkey tall 8 false 1 (JIns 3 true) >> call xkey tall 8 false 0 (JIns 4 true)
    >> call xkey tall 8 false 1 (JErase 2) >> call xkey tall 8 false 0 (JErase 3) >> call xkey tall 8 false 1 (JErase 3).

Lemma reach1_finish : forall key top maxl T fuel s s', reach1 key top maxl s -> finish_call key top maxl false T fuel s = Some s' -> reach1 key top maxl s'.
Proof.
  intros key top maxl T fuel. induction fuel as [|i IH]; intros s s' H R; cbn [finish_call] in R; [discriminate|]. destruct (idle (s_th s T)); [injection R as <-; exact H|].
  destruct (step key top maxl false (Go T false) s) as [s1|] eqn:E; [|discriminate]. apply (IH s1); [|exact R]. apply (reach1_step key top maxl (Go T false) s); [exact H|exact Logic.I|discriminate|exact E].
Qed.

Lemma reach1_call : forall key top maxl T j s s', reach1 key top maxl s -> guard key (Start T j) -> (forall U, idle (s_th s U) = true) -> call key top maxl false T j s = Some s' ->
  reach1 key top maxl s' /\ forall U, idle (s_th s' U) = true.
Proof.
  intros key top maxl T j s s' H G I R. unfold call in R. destruct (step key top maxl false (Start T j) s) as [s1|] eqn:E; [|discriminate].
  assert (R1 : reach1 key top maxl s1) by (apply (reach1_step key top maxl (Start T j) s); [exact H|exact G|intros; apply I|exact E]).
  split; [apply (reach1_finish key top maxl T 200 s1); [exact R1|exact R]|].
  assert (I1 : forall U, U <> T -> idle (s_th s1 U) = true).
  { intros U N. cbn [step] in E. destruct (start T j s) as [[p s2]|] eqn:E1; [|discriminate]. cbn [put] in E. injection E as <-. cbn. rewrite upd_ne by exact N. rewrite (start_th _ _ _ _ _ E1). apply I. }
  assert (F : forall fuel s1, (forall U, U <> T -> idle (s_th s1 U) = true) -> finish_call key top maxl false T fuel s1 = Some s' -> forall U, idle (s_th s' U) = true).
  { clear. induction fuel as [|i IH]; intros s1 I1 R U; cbn [finish_call] in R; [discriminate|]. destruct (idle (s_th s1 T)) eqn:Id.
    - injection R as <-. destruct (Nat.eq_dec U T) as [->|N]; [exact Id|apply I1, N].
    - destruct (step key top maxl false (Go T false) s1) as [s2|] eqn:E; [|discriminate]. refine (IH s2 _ R U). intros V N. cbn [step] in E.
      destruct (step1 key top maxl false T false (s_th s1 T) s1) as [[p s3]|] eqn:E1; [|discriminate]. cbn [put] in E. injection E as <-. cbn. rewrite upd_ne by exact N. rewrite (step1_th _ _ _ _ _ _ _ _ _ E1). apply I1, N. }
  apply (F 200 s1 I1 R).
Qed.

Lemma serial_reach : forall s, serial = Some s -> reach1 xkey tall 8 s /\ forall U, idle (s_th s U) = true.
Proof.
  assert (K : forall o T j, (forall s, o = Some s -> reach1 xkey tall 8 s /\ forall U, idle (s_th s U) = true) -> guard xkey (Start T j) ->
    forall s, o >> call xkey tall 8 false T j = Some s -> reach1 xkey tall 8 s /\ forall U, idle (s_th s U) = true).
  { intros o T j A G s H. destruct o as [s0|]; [|discriminate]. destruct (A s0 eq_refl) as [B C]. apply (reach1_call xkey tall 8 T j s0 s B G C H). }
  unfold serial. do 6 (apply K; [|exact Logic.I]). intros s H. injection H as <-. split; [apply reach1_new|reflexivity].
Qed.

Example C81_case : exists s, serial = Some s /\ reach1 xkey tall 8 s /\ (forall x, tall x < 8) /\ (forall T, idle (s_th s T) = true) /\
  s_tl s = 0 /\ (exists t0 t1, s_th s 1 = Done t0 t1 (JErase 3) RGone) /\ (exists d, s_died s 2 = Some d) /\ s_rc s 2 = 0 /\ walk s 0 1 = 4.
Proof.
  destruct serial as [s|] eqn:E; [|exfalso; vm_compute in E; discriminate]. destruct (serial_reach s E) as [A B]. exists s. split; [reflexivity|]. split; [exact A|]. split; [intros x; unfold tall; destruct (x =? 2); lia|]. split; [exact B|].
  assert (Y : match serial with Some s => s_tl s = 0 /\ (exists t0 t1, s_th s 1 = Done t0 t1 (JErase 3) RGone) /\ (exists d, s_died s 2 = Some d) /\ s_rc s 2 = 0 /\ walk s 0 1 = 4 | None => False end)
    by (vm_compute; repeat split; repeat eexists; reflexivity).
  rewrite E in Y. exact Y.
Qed.

(** Two insertions at the same time leave top_layer too low; a later erasure, with no other call under
    way, works with entries of prevs[] that were never set. *)
Definition low : option st :=
  Some sl_new >> call xkey tall 8 false 0 (JIns 3 true) >> run xkey tall 8 false (Start 2 (JIns 4 true) :: goes 2 21) >> call xkey tall 8 false 1 (JIns 2 true)
    >> finish_call xkey tall 8 false 2 100.

Lemma low_reach : forall s, low = Some s -> reach xkey tall 8 s.
Proof.
  unfold low. apply reach_then; [|intros s s' A B; apply (reach_finish _ _ _ _ _ _ _ A B)]. apply reach_then; [|intros s s' A B; refine (reach_call _ _ _ _ _ _ _ A _ B); exact Logic.I].
  apply reach_then; [|intros s s' A B; refine (reach_run _ _ _ _ _ _ A _ B)].
  - apply reach_then; [|intros s s' A B; refine (reach_call _ _ _ _ _ _ _ A _ B); exact Logic.I]. intros s H. injection H as <-. apply reach_new.
  - intros e [<-|X]; [exact Logic.I|]. rewrite (goes_go 2 21 e X). exact Logic.I.
Qed.

Theorem C81_unset_prevs_refuted : exists s s', reach xkey tall 8 s /\ ordered xkey /\ (forall x, tall x < 8) /\
  s_th s 0 = Done 0 22 (JIns 3 true) ROk /\ (exists t0 t1, s_th s 1 = Done t0 t1 (JIns 2 true) ROk) /\ (exists t0 t1, s_th s 2 = Done t0 t1 (JIns 4 true) ROk) /\ (forall T, 2 < T -> s_th s T = Idle) /\
  run xkey tall 8 false (Start 1 (JErase 2) :: goes 1 5) s = Some s' /\ s_th s' 1 = Crash CUninit.
Proof.
  destruct low as [s|] eqn:E; [|exfalso; vm_compute in E; discriminate]. exists s.
  assert (Y : match low with Some s => s_th s 0 = Done 0 22 (JIns 3 true) ROk /\ (exists t0 t1, s_th s 1 = Done t0 t1 (JIns 2 true) ROk) /\ (exists t0 t1, s_th s 2 = Done t0 t1 (JIns 4 true) ROk) /\
    (forall T, 2 < T -> s_th s T = Idle) /\ match run xkey tall 8 false (Start 1 (JErase 2) :: goes 1 5) s with Some s' => s_th s' 1 = Crash CUninit | None => False end | None => False end).
  { vm_compute. split; [reflexivity|]. split; [repeat eexists; reflexivity|]. split; [repeat eexists; reflexivity|]. split; [|reflexivity]. intros T L. destruct T as [|[|[|T]]]; try lia; reflexivity. }
  rewrite E in Y. destruct Y as (Y1 & Y2 & Y3 & Y4 & Y5). destruct (run xkey tall 8 false (Start 1 (JErase 2) :: goes 1 5) s) as [s'|] eqn:R; [|destruct Y5]. exists s'.
  split; [apply low_reach, E|]. split; [exact xkey_ordered|]. split; [intros x; unfold tall; destruct (x =? 2); lia|]. repeat split; assumption.
Qed.

(** An insertion reads an entry that another thread erased and freed meanwhile, as
    skiplist_wait_for_free allows. *)
Definition freed : option st :=
  Some sl_new >> call xkey flat 8 false 0 (JIns 3 true) >> run xkey flat 8 false (Start 1 (JIns 2 true) :: goes 1 3) >> call xkey flat 8 false 2 (JErase 3) >> run xkey flat 8 false (Free 3 :: goes 1 3).

Lemma freed_reach : forall s, freed = Some s -> reach xkey flat 8 s.
Proof.
  unfold freed. apply reach_then; [|intros s s' A B; refine (reach_run _ _ _ _ _ _ A _ B)].
  - apply reach_then; [|intros s s' A B; refine (reach_call _ _ _ _ _ _ _ A _ B); exact Logic.I]. apply reach_then; [|intros s s' A B; refine (reach_run _ _ _ _ _ _ A _ B)].
    + apply reach_then; [|intros s s' A B; refine (reach_call _ _ _ _ _ _ _ A _ B); exact Logic.I]. intros s H. injection H as <-. apply reach_new.
    + intros e [<-|X]; [exact Logic.I|]. rewrite (goes_go 1 3 e X). exact Logic.I.
  - intros e [<-|X]; [exact Logic.I|]. rewrite (goes_go 1 3 e X). exact Logic.I.
Qed.

Theorem C81_use_after_free_refuted : exists s t0 t1, reach xkey flat 8 s /\ ordered xkey /\ s_th s 2 = Done t0 t1 (JErase 3) ROk /\ s_freed s 3 = true /\ s_uaf s = true.
Proof.
  destruct freed as [s|] eqn:E; [|exfalso; vm_compute in E; discriminate].
  assert (Y : match freed with Some s => s_th s 2 = Done 27 57 (JErase 3) ROk /\ s_freed s 3 = true /\ s_uaf s = true | None => False end) by (vm_compute; repeat split).
  rewrite E in Y. exists s, 27, 57. split; [apply freed_reach, E|]. split; [exact xkey_ordered|]. exact Y.
Qed.

(** Two erasures of one entry at the same time, one of which succeeds: the flag that says the entry was
    removed is cleared again, so waiting until it is safe to free it never ends. *)
Definition twice : option st :=
  Some sl_new >> call xkey flat 8 false 0 (JIns 3 true) >> run xkey flat 8 false (Start 2 (JErase 3) :: goes 2 1) >> call xkey flat 8 false 1 (JErase 3) >> finish_call xkey flat 8 false 2 50.

Lemma twice_reach : forall s, twice = Some s -> reach xkey flat 8 s.
Proof.
  unfold twice. apply reach_then; [|intros s s' A B; apply (reach_finish _ _ _ _ _ _ _ A B)]. apply reach_then; [|intros s s' A B; refine (reach_call _ _ _ _ _ _ _ A _ B); exact Logic.I].
  apply reach_then; [|intros s s' A B; refine (reach_run _ _ _ _ _ _ A _ B)].
  - apply reach_then; [|intros s s' A B; refine (reach_call _ _ _ _ _ _ _ A _ B); exact Logic.I]. intros s H. injection H as <-. apply reach_new.
  - intros e [<-|X]; [exact Logic.I|]. rewrite (goes_go 2 1 e X). exact Logic.I.
Qed.

Theorem C81_never_safe_to_free_refuted : exists s t0 t1 t2 t3, reach xkey flat 8 s /\ ordered xkey /\ s_th s 1 = Done t0 t1 (JErase 3) ROk /\ s_th s 2 = Done t2 t3 (JErase 3) RGone /\
  s_rc s 3 = 0 /\ free_node 3 s = None.
Proof.
  destruct twice as [s|] eqn:E; [|exfalso; vm_compute in E; discriminate].
  assert (Y : match twice with Some s => s_th s 1 = Done 25 55 (JErase 3) ROk /\ s_th s 2 = Done 23 59 (JErase 3) RGone /\ s_rc s 3 = 0 /\ free_node 3 s = None | None => False end) by (vm_compute; repeat split).
  rewrite E in Y. exists s, 25, 55, 23, 59. split; [apply twice_reach, E|]. split; [exact xkey_ordered|]. exact Y.
Qed.

(** * C82: compare-and-swap that may fail for no reason *)

(** With the weak form (61, 86-90) an insertion returns success though the entry is in no layer and is
    not found; and a node can stay locked when all calls have returned. *)
Theorem C82_lost_insertion_refuted : exists es s t0 t1 t2 t3, run xkey flat 8 true es sl_new = Some s /\ ordered xkey /\
  s_th s 1 = Done t0 t1 (JIns 3 true) ROk /\ t1 < t2 /\ s_th s 2 = Done t2 t3 (JFind (xkey 3) EQ) (RFound None) /\ s_died s 3 = None.
Proof.
  exists (Start 1 (JIns 3 true) :: goes 1 9 ++ Go 1 true :: goes 1 12 ++ Start 2 (JFind (xkey 3) EQ) :: goes 2 3).
  match goal with |- exists s t0 t1 t2 t3, ?r = _ /\ _ => destruct r as [s|] eqn:E end; [|exfalso; vm_compute in E; discriminate].
  exists s, 0, 22, 23, 26. split; [reflexivity|]. split; [exact xkey_ordered|].
  match type of E with ?r = _ => assert (Y : match r with Some s => s_th s 1 = Done 0 22 (JIns 3 true) ROk /\ 22 < 23 /\ s_th s 2 = Done 23 26 (JFind (xkey 3) EQ) (RFound None) /\ s_died s 3 = None | None => False end)
    by (vm_compute; repeat split; apply le_n) end.
  rewrite E in Y. exact Y.
Qed.

Theorem C82_left_locked_refuted : exists es s t0 t1, run xkey flat 8 true es sl_new = Some s /\ s_th s 1 = Done t0 t1 (JIns 3 true) ROk /\ (forall T, T <> 1 -> s_th s T = Idle) /\ s_own s head = Some 1.
Proof.
  exists (Start 1 (JIns 3 true) :: goes 1 21 ++ [Go 1 true]).
  match goal with |- exists s t0 t1, ?r = _ /\ _ => destruct r as [s|] eqn:E end; [|exfalso; vm_compute in E; discriminate].
  exists s, 0, 22. split; [reflexivity|].
  match type of E with ?r = _ => assert (Y : match r with Some s => s_th s 1 = Done 0 22 (JIns 3 true) ROk /\ (forall T, T <> 1 -> s_th s T = Idle) /\ s_own s head = Some 1 | None => False end)
    by (vm_compute; split; [reflexivity|split; [intros T N; destruct T as [|[|T]]; [reflexivity|congruence|reflexivity]|reflexivity]]) end.
  rewrite E in Y. exact Y.
Qed.

Print Assumptions C78_search.
Print Assumptions C78_next.
Print Assumptions C78_answers.
Print Assumptions C79_insert.
Print Assumptions C79_duplicate.
Print Assumptions C79_erase.
Print Assumptions C79_one_entry_per_key.
Print Assumptions C79_nothing_lost.
Print Assumptions C79_no_null.
Print Assumptions C79_released.
Print Assumptions C80_next_forward_partial.
Print Assumptions C80_next_not_back_partial.
Print Assumptions C80_same_entry_again_refuted.
Print Assumptions C81_serial_safe_partial.
Print Assumptions C81_serial_gone_partial.
Print Assumptions C81_serial_free_partial.
Print Assumptions C81_unset_prevs_refuted.
Print Assumptions C81_use_after_free_refuted.
Print Assumptions C81_never_safe_to_free_refuted.
Print Assumptions C82_lost_insertion_refuted.
Print Assumptions C82_left_locked_refuted.
