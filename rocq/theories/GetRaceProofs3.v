(** The invariant of a get, and that it answers from a state between its beginning and its end. *)
From Coq Require Import Sorting.Sorted.
From Verif Require Import Base KeyModel LogFormatModel MemTableModel LogMgrModel DbModel KeyProofs MemTableProofs DbProofs GetRaceModel GetRaceSpec
  GetRaceProofs GetRaceProofs2.
Local Open Scope N_scope.

Definition part_of (p : option (list rec)) : list rec := match p with Some l => l | None => [] end.
Definition of_key (k : key) (r : rec) : bool := keqb (r_key r) k && negb (is_cmd r).

Definition to_ask (w0 : list rec) (k : key) (fs : list gfile) (ns : list N) : Prop :=
  forall f y, In f fs -> In y (gf_recs f) -> In y w0 -> of_key k y = true -> flagged f y \/ In (gf_num f) ns.
Definition desc (ns : list N) : Prop := StronglySorted (fun a b => b < a) ns.
Definition sees (w0 : list rec) (fs : list gfile) (n chk : N) : Prop :=
  forall f y, In f fs -> gf_num f = n -> In y (gf_recs f) -> In y w0 -> chk = NIL \/ r_seq y <= chk.

(** [b0]: acknowledged when the get began; [bs]: now. *)
Definition RI (b0 bs : list (list rec)) (p : option (list rec)) (fs : list gfile) (r : rd) : Prop :=
  let w0 := concat b0 in
  let w := concat bs ++ part_of p in
  let k := rd_key r in
  match rd_ph r with
  | GHigh mn => forall f y, In f fs -> In y (gf_recs f) -> In y w0 -> gf_num f < mn -> flagged f y
  | GWalk mn mx => (forall f y, In f fs -> In y (gf_recs f) -> In y w0 -> gf_num f < mn -> flagged f y) /\
      forall f y, In f fs -> In y (gf_recs f) -> In y w0 -> gf_num f <= mx
  | GScan ns => to_ask w0 k fs ns /\ desc ns
  | GMax n chk ns => to_ask w0 k fs (n :: ns) /\ desc (n :: ns) /\ sees w0 fs n chk /\
      (chk <> NIL -> exists x, In x w /\ r_seq x = chk)
  | GBar n chk ns => to_ask w0 k fs (n :: ns) /\ desc (n :: ns) /\ sees w0 fs n chk /\
      (chk = NIL -> p = None) /\
      (chk <> NIL -> (exists x, In x w /\ chk <= r_seq x) /\ forall x, In x w -> r_seq x <= chk -> In x (concat bs))
  | GTab => to_ask w0 k fs []
  | GDone x => exists b, begins b0 b /\ begins b bs /\ x = spec_get (concat b) k
  end.

Lemma begins_refl : forall (A : Type) (l : list A), begins l l.
Proof. intros A l. exists []. symmetry. apply app_nil_r. Qed.
Lemma begins_trans : forall (A : Type) (a b c : list A), begins a b -> begins b c -> begins a c.
Proof. intros A a b c (t & ->) (u & ->). exists (t ++ u). symmetry. apply app_assoc. Qed.
Lemma begins_concat : forall (A : Type) (a b : list (list A)) x, begins a b -> In x (concat a) -> In x (concat b).
Proof. intros A a b x (t & ->) H. rewrite concat_app. apply in_or_app. left. exact H. Qed.

(** ** Steps of others *)
Lemma ri_env : forall b0 bs p fs bs' p' fs' r, RI b0 bs p fs r ->
  (forall f' y, In f' fs' -> In y (gf_recs f') -> In y (concat b0) ->
     exists f, In f fs /\ In y (gf_recs f) /\ gf_num f = gf_num f' /\ (flagged f y -> flagged f' y)) ->
  (forall x, In x (concat bs ++ part_of p) -> In x (concat bs' ++ part_of p')) ->
  (forall x y, In x (concat bs' ++ part_of p') -> In y (concat bs ++ part_of p) -> r_seq x <= r_seq y -> In x (concat bs ++ part_of p)) ->
  begins bs bs' ->
  (p = None -> (exists n ns, rd_ph r = GBar n NIL ns) -> p' = None) ->
  RI b0 bs' p' fs' r.
Proof.
  intros b0 bs p fs bs' p' fs' [k ph] H E1 E2 E3 E4 E5. unfold RI in *. cbn [rd_key rd_ph] in *.
  assert (T : forall ns, to_ask (concat b0) k fs ns -> to_ask (concat b0) k fs' ns).
  { intros ns T f' y Hf' Hy Hw Hk. destruct (E1 f' y Hf' Hy Hw) as (f & Hf & Hy0 & En & Hfl).
    destruct (T f y Hf Hy0 Hw Hk) as [A|A]; [left; exact (Hfl A)|right; rewrite <- En; exact A]. }
  assert (S : forall n chk, sees (concat b0) fs n chk -> sees (concat b0) fs' n chk).
  { intros n chk S f' y Hf' En Hy Hw. destruct (E1 f' y Hf' Hy Hw) as (f & Hf & Hy0 & En0 & _). apply (S f y Hf); [congruence|exact Hy0|exact Hw]. }
  destruct ph as [mn|mn mx|ns|n chk ns|n chk ns| |x].
  - intros f' y Hf' Hy Hw L. destruct (E1 f' y Hf' Hy Hw) as (f & Hf & Hy0 & En & Hfl). apply Hfl. apply (H f y Hf Hy0 Hw). lia.
  - destruct H as [H H']. split.
    + intros f' y Hf' Hy Hw L. destruct (E1 f' y Hf' Hy Hw) as (f & Hf & Hy0 & En & Hfl). apply Hfl. apply (H f y Hf Hy0 Hw). lia.
    + intros f' y Hf' Hy Hw. destruct (E1 f' y Hf' Hy Hw) as (f & Hf & Hy0 & En & _). rewrite <- En. exact (H' f y Hf Hy0 Hw).
  - destruct H as [H1 H2]. split; [apply T; exact H1|exact H2].
  - destruct H as (H1 & H2 & H3 & H4). split; [apply T; exact H1|]. split; [exact H2|]. split; [apply S; exact H3|].
    intro C. destruct (H4 C) as (x & Hx & Ex). exists x. split; [apply E2; exact Hx|exact Ex].
  - destruct H as (H1 & H2 & H3 & H4 & H5). split; [apply T; exact H1|]. split; [exact H2|]. split; [apply S; exact H3|]. split.
    + intros ->. apply E5; [apply H4; reflexivity|]. exists n, ns. reflexivity.
    + intro C. destruct (H5 C) as ((x & Hx & Lx) & H6). split; [exists x; split; [apply E2; exact Hx|exact Lx]|].
      intros y Hy Ly. apply (begins_concat _ bs bs' y E4). apply H6; [|exact Ly]. apply (E3 y x Hy Hx). lia.
  - apply T. exact H.
  - destruct H as (b & B1 & B2 & B3). exists b. split; [exact B1|]. split; [exact (begins_trans _ _ _ _ B2 E4)|exact B3].
Qed.

(** ** Which state a record is the answer of *)
Lemma find_app : forall (A : Type) (q : A -> bool) a b, find q (a ++ b) = match find q a with Some x => Some x | None => find q b end.
Proof. intros A q a b. induction a as [|x a IH]; [reflexivity|]. cbn [app find]. destruct (q x); [reflexivity|exact IH]. Qed.

Lemma last_write_in : forall h k r, last_write h k = Some r -> In r h /\ of_key k r = true.
Proof. intros h k r E. unfold last_write in E. apply find_some in E. destruct E as [E1 E2]. split; [apply in_rev; exact E1|exact E2]. Qed.

Lemma last_write_none : forall h k, last_write h k = None -> forall y, In y h -> of_key k y = false.
Proof. intros h k E y Hy. unfold last_write in E. apply (find_none _ _ E). apply -> in_rev. exact Hy. Qed.

Lemma last_write_max : forall h k, StronglySorted blt h -> forall r, In r h -> of_key k r = true ->
  (forall y, In y h -> of_key k y = true -> r_seq y <= r_seq r) -> last_write h k = Some r.
Proof.
  intros h k Hs r Hr Hk Hm. destruct (last_write h k) as [z|] eqn:E.
  - destruct (last_write_in _ _ _ E) as [Hz Hzk]. specialize (Hm z Hz Hzk). f_equal.
    (* [z] is the last one of the key *)
    apply in_split in Hr. destruct Hr as (a & b & ->). unfold last_write in E. rewrite rev_app_distr in E. cbn [rev] in E.
    rewrite <- app_assoc in E. rewrite find_app in E. cbn [app find] in E.
    apply ss_app in Hs. destruct Hs as (_ & S2 & _). inversion_clear S2 as [|? ? S3 S4]. rewrite Forall_forall in S4.
    destruct (find _ (rev b)) as [v|] eqn:Ev.
    + injection E as ->. apply find_some in Ev. destruct Ev as [Ev _]. apply in_rev in Ev. specialize (S4 z Ev). unfold blt in S4. lia.
    + unfold of_key in Hk. rewrite Hk in E. injection E as ->. reflexivity.
  - assert (N := last_write_none _ _ E r Hr). congruence.
Qed.

Lemma last_write_seq : forall h k r, StronglySorted blt h -> last_write h k = Some r ->
  forall y, In y h -> of_key k y = true -> r_seq y <= r_seq r.
Proof.
  intros h k r Hs E y Hy Hk. destruct (last_write_in _ _ _ E) as [Hr _]. unfold last_write in E.
  apply in_split in Hy. destruct Hy as (a & b & ->). rewrite rev_app_distr in E. cbn [rev] in E. rewrite <- app_assoc, find_app in E.
  apply ss_app in Hs. destruct Hs as (_ & S2 & _). inversion_clear S2 as [|? ? S3 S4]. rewrite Forall_forall in S4.
  destruct (find _ (rev b)) as [v|] eqn:Ev.
  - injection E as ->. apply find_some in Ev. destruct Ev as [Ev _]. apply in_rev in Ev. specialize (S4 r Ev). unfold blt in S4. lia.
  - cbn [app find] in E. unfold of_key in Hk. rewrite Hk in E. injection E as ->. lia.
Qed.

Lemma in_concat_split : forall (bs : list (list rec)) r, In r (concat bs) -> exists a g t, bs = a ++ g :: t /\ In r g.
Proof.
  intros bs r H. apply in_concat in H. destruct H as (g & Hg & Hr). apply in_split in Hg. destruct Hg as (a & t & ->).
  exists a, g, t. split; [reflexivity|exact Hr].
Qed.

Lemma nodup_key : forall (g : list rec) x y, NoDup (map r_key g) -> In x g -> In y g -> r_key x = r_key y -> x = y.
Proof.
  intros g x y. induction g as [|z g IH]; intros Hn Hx Hy E; [destruct Hx|]. cbn [map] in Hn. inversion_clear Hn as [|? ? N1 N2].
  destruct Hx as [->|Hx]; destruct Hy as [->|Hy]; [reflexivity| | |exact (IH N2 Hx Hy E)].
  - exfalso. apply N1. rewrite E. apply in_map. exact Hy.
  - exfalso. apply N1. rewrite <- E. apply in_map. exact Hx.
Qed.

Lemma of_key_key : forall k x, of_key k x = true -> r_key x = k.
Proof. intros k x E. unfold of_key in E. apply andb_prop in E. apply keqb_true. exact (proj1 E). Qed.

Lemma rec_dec : forall a b : rec, {a = b} + {a <> b}.
Proof. decide equality; try apply N.eq_dec; apply list_eq_dec; apply N.eq_dec. Qed.

(** The state in which [r] has just become visible. *)
Lemma pick : forall b0 bs k r, begins b0 bs -> StronglySorted blt (concat bs) -> (forall g, In g bs -> NoDup (map r_key g)) ->
  In r (concat bs) -> of_key k r = true ->
  (forall y, In y (concat b0) -> of_key k y = true -> r_seq y <= r_seq r) ->
  exists b, begins b0 b /\ begins b bs /\ last_write (concat b) k = Some r.
Proof.
  intros b0 bs k r (t & ->) Hs Hn Hr Hk Hm. rewrite concat_app in Hs, Hr.
  destruct (in_dec rec_dec r (concat b0)) as [I|I].
  - exists b0. split; [apply begins_refl|]. split; [exists t; reflexivity|].
    apply ss_app in Hs. apply last_write_max; [exact (proj1 Hs)|exact I|exact Hk|exact Hm].
  - apply in_app_or in Hr. destruct Hr as [Hr|Hr]; [contradiction|].
    destruct (in_concat_split t r Hr) as (a & g & u & -> & Hg). exists (b0 ++ a ++ [g]). split; [exists (a ++ [g]); reflexivity|].
    split; [exists u; rewrite <- !app_assoc; reflexivity|].
    assert (Hs2 : StronglySorted blt (concat (b0 ++ a ++ [g]))).
    { rewrite !concat_app in *. cbn [concat] in *. rewrite app_nil_r. rewrite !app_assoc in *. apply ss_app in Hs. exact (proj1 Hs). }
    apply last_write_max; [exact Hs2| |exact Hk|].
    + rewrite !concat_app. cbn [concat]. rewrite app_nil_r. apply in_or_app. right. apply in_or_app. right. exact Hg.
    + intros y Hy Hyk. rewrite !concat_app in Hy, Hs2. cbn [concat] in Hy, Hs2. rewrite app_nil_r in Hy, Hs2. rewrite app_assoc in Hy, Hs2.
      apply in_app_or in Hy. destruct Hy as [Hy|Hy].
      * apply ss_app in Hs2. destruct Hs2 as (_ & _ & S3). specialize (S3 y r Hy Hg). unfold blt in S3. lia.
      * assert (Hng : NoDup (map r_key g)) by (apply Hn; apply in_or_app; right; apply in_or_app; right; left; reflexivity).
        rewrite (nodup_key g y r Hng Hy Hg); [lia|]. rewrite (of_key_key k y Hyk), (of_key_key k r Hk). reflexivity.
Qed.

Lemma found_spec : forall h k r, last_write h k = Some r -> found r = spec_get h k.
Proof. intros h k r E. unfold spec_get, found. rewrite E. reflexivity. Qed.
