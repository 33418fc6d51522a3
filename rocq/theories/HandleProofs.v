(** Opening and closing: what holds when closes do not overlap other calls. *)
From Coq Require Import Arith List Bool Lia.
From Verif Require Import HandleModel.
Import ListNotations.
Local Open Scope nat_scope.

Definition is_close (p : pc) : bool := match p with CLoad _ | CCas _ | CLock _ | CFree _ | CSub _ => true | _ => false end.
(** No close overlaps another call; opens may overlap opens; the compare-and-swap is a strong one. *)
Definition alone (a : act) (s : st) : Prop :=
  match a with
  | Open _ => forall t, is_close (s_pc s t) = false
  | Close _ _ => forall t, s_pc s t = Out
  | Weak _ => False
  | _ => True
  end.
Inductive sreach : st -> Prop :=
| sr_init : sreach init
| sr_step : forall s a s', sreach s -> alone a s -> step a s = Some s' -> sreach s'.

Definition own (p : pc) : option nat := match p with OAssign o | ODup o => Some o | _ => None end.
Definition held_all (o : nat) (l : list (option nat)) : Prop := forall h, In h l -> h = Some o.

Definition invA (s : st) : Prop :=
  (forall t, is_close (s_pc s t) = false) /\ s_bad s = false /\
  match s_map s with
  | Some o => s_live s o = true /\ s_ref s o = length (s_held s) /\ held_all o (s_held s) /\ o < s_next s
  | None => s_held s = []
  end /\
  (forall t o, s_pc s t = OGot o -> s_map s = Some o /\ s_lock s = true) /\
  (s_lock s = true -> exists t o, s_pc s t = OGot o) /\
  (forall t t' o o', s_pc s t = OGot o -> s_pc s t' = OGot o' -> t = t') /\
  (forall t o, own (s_pc s t) = Some o -> s_map s <> Some o /\ o < s_next s /\ s_live s o = true) /\
  (forall t t' o, own (s_pc s t) = Some o -> own (s_pc s t') = Some o -> t = t') /\
  (forall o, s_live s o = true -> s_map s = Some o \/ exists t, own (s_pc s t) = Some o) /\
  (forall t o, s_pc s t = ODup o \/ s_pc s t = OAgain -> s_map s <> None).

Definition invB (s : st) : Prop :=
  s_bad s = false /\ (forall o, s_live s o = true -> o < s_next s) /\
  exists t o, (forall t', t' <> t -> s_pc s t' = Out) /\ s_live s o = true /\ (forall o', s_live s o' = true -> o' = o) /\
  ((s_pc s t = CLoad o \/ s_pc s t = CCas o) /\ s_map s = Some o /\ s_ref s o = S (length (s_held s)) /\ held_all o (s_held s) /\ s_lock s = false
   \/ s_pc s t = CSub o /\ s_map s = Some o /\ s_ref s o = S (length (s_held s)) /\ s_held s <> [] /\ held_all o (s_held s) /\ s_lock s = false
   \/ s_pc s t = CLock o /\ s_map s = Some o /\ s_held s = [] /\ s_lock s = false
   \/ s_pc s t = CFree o /\ s_map s = None /\ s_held s = []).

Lemma take_in : forall o l l', take o l = Some l' -> In (Some o) l /\ length l = S (length l') /\ forall h, In h l' -> In h l.
Proof.
  induction l as [|h l IH]; intros l' H; [discriminate|]. cbn [take] in H. destruct h as [x|].
  - destruct (Nat.eqb_spec x o) as [->|N].
    + injection H as <-. repeat split; [now left|intros h Hh; now right].
    + destruct (take o l) as [l1|] eqn:E; [|discriminate]. injection H as <-. destruct (IH l1 eq_refl) as (H1 & H2 & H3).
      repeat split; [now right|cbn [length]; lia|]. intros h [<-|Hh]; [now left|right; auto].
  - destruct (take o l) as [l1|] eqn:E; [|discriminate]. injection H as <-. destruct (IH l1 eq_refl) as (H1 & H2 & H3).
    repeat split; [now right|cbn [length]; lia|]. intros h [<-|Hh]; [now left|right; auto].
Qed.
Lemma upd_eq : forall B n (v : B) f, upd n v f n = v.
Proof. intros. unfold upd. now rewrite Nat.eqb_refl. Qed.
Lemma upd_ne : forall B n m (v : B) f, m <> n -> upd n v f m = f m.
Proof. intros. unfold upd. now rewrite (proj2 (Nat.eqb_neq m n)). Qed.
Ltac updc t t' := destruct (Nat.eq_dec t' t) as [->|]; [rewrite ?upd_eq in *|rewrite ?upd_ne in * by assumption].

Lemma init_A : invA init.
Proof. unfold invA, init; cbn. repeat split; try discriminate; try reflexivity. intros t o [|]; discriminate. Qed.

Ltac fields := cbn [s_map s_lock s_ref s_live s_next s_pc s_held s_bad at_pc with_lock with_map with_ref with_live give touch] in *.
Ltac split9 := split; [|split; [|split; [|split; [|split; [|split; [|split; [|split; [|split]]]]]]]].

(** A thread in an open changes its place only. *)
Lemma move_A : forall t p s, invA s -> is_close p = false -> own p = None -> own (s_pc s t) = None -> (forall o, p <> OGot o) -> (forall o, s_pc s t <> OGot o) ->
  (p = OAgain -> s_map s <> None) -> invA (at_pc t p s).
Proof.
  intros t p s (A1 & A2 & A3 & A4 & A5 & A5b & A6 & A7 & A8 & A9) H1 H2 H3 H4 H5 H6. unfold invA; fields. split9.
  - intro t'; updc t t'; auto.
  - exact A2.
  - exact A3.
  - intros t' o; updc t t'; [intro E; exfalso; exact (H4 o E)|apply A4].
  - intro L; destruct (A5 L) as (t1 & o & E); exists t1, o; rewrite upd_ne; [exact E|intros ->; exact (H5 o E)].
  - intros t1 t2 o o'. updc t t1; [intro E; exfalso; exact (H4 o E)|]. updc t t2; [intros _ E; exfalso; exact (H4 o' E)|apply A5b].
  - intros t' o; updc t t'; [rewrite H2; discriminate|apply A6].
  - intros t1 t2 o; updc t t1; [rewrite H2; discriminate|]; updc t t2; [rewrite H2; discriminate|apply A7].
  - intros o L. destruct (A8 o L) as [E|(t1 & E)]; [now left|]. right. exists t1. rewrite upd_ne; [exact E|intros ->; congruence].
  - intros t' o. updc t t'; [|apply (A9 t' o)]. intros [E|E]; [subst p; cbn in H2; discriminate|auto].
Qed.

(** The path is found: the lock is kept for the reference. *)
Lemma found_A : forall t o s, invA s -> s_pc s t = OFind \/ s_pc s t = OAgain -> s_lock s = false -> s_map s = Some o ->
  invA (at_pc t (OGot o) (with_lock true s)).
Proof.
  intros t o s (A1 & A2 & A3 & A4 & A5 & A5b & A6 & A7 & A8 & A9) E L Em. unfold invA; fields.
  assert (NG : forall t1 o1, s_pc s t1 <> OGot o1) by (intros t1 o1 F; apply A4 in F; destruct F; congruence).
  assert (NO : own (s_pc s t) = None) by (destruct E as [-> | ->]; reflexivity). split9.
  - intro t'; updc t t'; auto.
  - exact A2.
  - exact A3.
  - intros t' o'; updc t t'; [intro F; injection F as <-; auto|intro F; destruct (NG _ _ F)].
  - intros _; exists t, o; now rewrite upd_eq.
  - intros t1 t2 o1 o2. updc t t1; [|intro F; destruct (NG _ _ F)]. updc t t2; [reflexivity|intros _ F; destruct (NG _ _ F)].
  - intros t' o'; updc t t'; [discriminate|apply A6].
  - intros t1 t2 o'; updc t t1; [discriminate|]; updc t t2; [discriminate|apply A7].
  - intros o' Lv; destruct (A8 o' Lv) as [F|(t1 & F)]; [now left|right; exists t1; rewrite upd_ne; [exact F|intros ->; congruence]].
  - intros t' o'. rewrite Em. discriminate.
Qed.

Lemma step_A : forall a s s', invA s -> alone a s -> step a s = Some s' -> invA s' \/ invB s'.
Proof.
  intros a s s' HA HG H. pose proof HA as HA0. destruct HA as (A1 & A2 & A3 & A4 & A5 & A5b & A6 & A7 & A8 & A9).
  destruct a as [t|t o|t|t|o]; cbn [step] in H.
  - (* Open *) left. destruct (s_pc s t) eqn:E; try discriminate. injection H as <-. apply move_A; auto; try (intros; congruence); try reflexivity. rewrite E. reflexivity.
  - (* Close *) right. cbn [alone] in HG. rewrite (HG t) in H. destruct (take o (s_held s)) as [l|] eqn:E; [|discriminate]. injection H as <-.
    destruct (take_in _ _ _ E) as (T1 & T2 & T3).
    destruct (s_map s) as [x|] eqn:Em; [|rewrite A3 in T1; destruct T1]. destruct A3 as (B1 & B2 & B3 & B4).
    assert (x = o) by (specialize (B3 _ T1); congruence). subst x.
    assert (HL : forall o', s_live s o' = true -> o' = o). { intros o' L. destruct (A8 o' L) as [F|(t1 & F)]; [congruence|]. rewrite HG in F. discriminate. }
    unfold invB; fields. split; [exact A2|]. split; [intros o' L; rewrite (HL o' L); exact B4|]. exists t, o.
    split; [intros t' N; rewrite upd_ne by assumption; apply HG|]. split; [exact B1|]. split; [exact HL|]. left. rewrite upd_eq. split; [now left|].
    split; [first [exact Em|reflexivity]|]. split; [lia|]. split; [intros h Hh; apply B3; auto|].
    destruct (s_lock s) eqn:L; [|reflexivity]. destruct (A5 eq_refl) as (t1 & o1 & F). rewrite HG in F. discriminate.
  - (* Go *) left. destruct (s_pc s t) as [| |x| |x|x| |x|x|x|x|x] eqn:E; try (specialize (A1 t); rewrite E in A1; discriminate); try discriminate.
    + (* OFind *) destruct (s_lock s) eqn:L; [discriminate|]. destruct (s_map s) as [o|] eqn:Em; injection H as <-.
      * apply found_A; auto.
      * apply move_A; auto; try (intros; congruence); try reflexivity. rewrite E. reflexivity.
    + (* OGot *) injection H as <-. destruct (A4 t x E) as (M & L). rewrite M in A3. destruct A3 as (B1 & B2 & B3 & B4).
      assert (U : forall t' o', t' <> t -> s_pc s t' <> OGot o') by (intros t' o' N F; apply N; eapply A5b; eassumption).
      unfold invA; fields. rewrite B1, A2, M. split9.
      * intro t'; updc t t'; auto.
      * reflexivity.
      * split; [exact B1|split; [rewrite upd_eq; cbn [length]; lia|split; [|exact B4]]]. intros h [<-|Hh]; [reflexivity|auto].
      * intros t' o'. updc t t'; [discriminate|]. intro F. destruct (U t' o'); auto.
      * discriminate.
      * intros t1 t2 o1 o2. updc t t1; [discriminate|]. intro F. destruct (U t1 o1); auto.
      * intros t' o'; updc t t'; [discriminate|intro F; destruct (A6 t' o' F) as (Q & R); rewrite M in Q; split; assumption].
      * intros t1 t2 o'; updc t t1; [discriminate|]; updc t t2; [discriminate|apply A7].
      * intros o' Lv; destruct (A8 o' Lv) as [F|(t1 & F)]; [left; congruence|right; exists t1; rewrite upd_ne; [exact F|intros ->; rewrite E in F; discriminate]].
      * discriminate.
    + (* OLoad *) injection H as <-. unfold invA; fields.
      assert (NX : s_map s <> Some (s_next s)) by (intro F; rewrite F in A3; lia).
      assert (NW : forall t', own (s_pc s t') <> Some (s_next s)) by (intros t' F; apply A6 in F; lia).
      assert (NL : own (s_pc s t) = None) by (rewrite E; reflexivity). split9.
      * intro t'; updc t t'; auto.
      * exact A2.
      * destruct (s_map s) as [o|]; [|exact A3]. destruct A3 as (B1 & B2 & B3 & B4). rewrite !upd_ne by congruence. repeat split; auto.
      * intros t' o'. updc t t'; [discriminate|apply A4].
      * intro L. destruct (A5 L) as (t1 & o1 & F). exists t1, o1. rewrite upd_ne; [exact F|intros ->; congruence].
      * intros t1 t2 o1 o2. updc t t1; [discriminate|]. updc t t2; [discriminate|apply A5b].
      * intros t' o'. updc t t'; [intro F; injection F as <-; rewrite upd_eq; auto|]. intro F. rewrite upd_ne by (intros ->; exact (NW t' F)). destruct (A6 t' o' F) as (Q1 & Q2 & Q3). auto.
      * intros t1 t2 o'. updc t t1; updc t t2; auto; [intros F1 F2|intros F1 F2|apply A7]; [injection F1 as <-; destruct (NW _ F2)|injection F2 as <-; destruct (NW _ F1)].
      * intros o'. updc (s_next s) o'; [intros _; right; exists t; rewrite upd_eq; reflexivity|]. intro Lv. destruct (A8 o' Lv) as [F|(t1 & F)]; [now left|right; exists t1; rewrite upd_ne; [exact F|intros ->; congruence]].
      * intros t' o'. updc t t'; [intros [F|F]; discriminate|apply (A9 t' o')].
    + (* OAssign *) destruct (s_lock s) eqn:L; [discriminate|]. assert (OX : own (s_pc s t) = Some x) by (rewrite E; reflexivity). destruct (A6 t x OX) as (X1 & X2 & X3).
      assert (NG : forall t1 o1, s_pc s t1 <> OGot o1) by (intros t1 o1 F; apply A4 in F; destruct F; congruence).
      destruct (s_map s) as [y|] eqn:Em; injection H as <-; unfold invA; fields; rewrite ?L, ?Em.
      * split9.
        -- intro t'; updc t t'; auto.
        -- exact A2.
        -- exact A3.
        -- intros t' o'. updc t t'; [discriminate|intro F; destruct (NG _ _ F)].
        -- discriminate.
        -- intros t1 t2 o1 o2. updc t t1; [discriminate|intro F; destruct (NG _ _ F)].
        -- intros t' o'. updc t t'; [intro F; injection F as <-; auto|apply A6].
        -- intros t1 t2 o'. updc t t1; updc t t2; auto; [intros F1 F2|intros F1 F2|apply A7].
           ++ symmetry. apply (A7 t2 t o'); [exact F2|rewrite OX; exact F1].
           ++ apply (A7 t1 t o'); [exact F1|rewrite OX; exact F2].
        -- intros o' Lv. destruct (A8 o' Lv) as [F|(t1 & F)]; [now left|right]. updc t t1; [exists t; rewrite upd_eq; rewrite OX in F; exact F|exists t1; rewrite upd_ne by assumption; exact F].
        -- discriminate.
      * split9.
        -- intro t'; updc t t'; auto.
        -- exact A2.
        -- rewrite A3. rewrite upd_eq. repeat split; auto. intros h [<-|[]]; reflexivity.
        -- intros t' o'. updc t t'; [discriminate|intro F; destruct (NG _ _ F)].
        -- discriminate.
        -- intros t1 t2 o1 o2. updc t t1; [discriminate|intro F; destruct (NG _ _ F)].
        -- intros t' o'. updc t t'; [discriminate|]. intro F. destruct (A6 t' o' F) as (Q1 & Q2 & Q3). split; [|auto]. intro G. injection G as <-. apply n. apply (A7 t' t x); assumption.
        -- intros t1 t2 o'; updc t t1; [discriminate|]; updc t t2; [discriminate|apply A7].
        -- intros o' Lv. destruct (A8 o' Lv) as [F|(t1 & F)]; [discriminate|]. updc t t1; [left; rewrite OX in F; congruence|right; exists t1; rewrite upd_ne by assumption; exact F].
        -- discriminate.
    + (* ODup *) injection H as <-. assert (OX : own (s_pc s t) = Some x) by (rewrite E; reflexivity). destruct (A6 t x OX) as (X1 & X2 & X3).
      assert (NM := A9 t x (or_introl E)). unfold invA; fields. split9.
      * intro t'; updc t t'; auto.
      * exact A2.
      * destruct (s_map s) as [o|]; [|exact A3]. rewrite upd_ne by congruence. exact A3.
      * intros t' o'. updc t t'; [discriminate|apply A4].
      * intro L. destruct (A5 L) as (t1 & o1 & F). exists t1, o1. rewrite upd_ne; [exact F|intros ->; congruence].
      * intros t1 t2 o1 o2. updc t t1; [discriminate|]. updc t t2; [discriminate|apply A5b].
      * intros t' o'. updc t t'; [discriminate|]. intro F. destruct (A6 t' o' F) as (Q1 & Q2 & Q3). rewrite upd_ne; [auto|]. intros ->. apply n. apply (A7 t' t x); assumption.
      * intros t1 t2 o'; updc t t1; [discriminate|]; updc t t2; [discriminate|apply A7].
      * intros o'. updc x o'; [discriminate|]. intro Lv. destruct (A8 o' Lv) as [F|(t1 & F)]; [now left|right; exists t1; rewrite upd_ne; [exact F|intros ->; congruence]].
      * intros t' o'. updc t t'; [intros _; exact NM|apply (A9 t' o')].
    + (* OAgain *) destruct (s_lock s) eqn:L; [discriminate|]. destruct (s_map s) as [o|] eqn:Em; injection H as <-.
      * apply found_A; auto.
      * destruct (A9 t 0 (or_intror E)). reflexivity.
  - destruct HG.
  - (* Use *) left. destruct (take o (s_held s)) as [l|] eqn:E; [|discriminate]. injection H as <-. destruct (take_in _ _ _ E) as (T1 & _ & _).
    destruct (s_map s) as [x|] eqn:Em; [|rewrite A3 in T1; destruct T1]. assert (x = o) by (destruct A3 as (_ & _ & B3 & _); specialize (B3 _ T1); congruence). subst x.
    assert (Bl : s_live s o = true) by apply A3.
    unfold invA; fields. rewrite Bl, A2, Em. split9; auto.
Qed.

Lemma out_A : forall s, (forall t, s_pc s t = Out) -> s_bad s = false -> s_lock s = false ->
  match s_map s with
  | Some o => s_live s o = true /\ s_ref s o = length (s_held s) /\ held_all o (s_held s) /\ o < s_next s
  | None => s_held s = []
  end -> (forall o, s_live s o = true -> s_map s = Some o) -> invA s.
Proof.
  intros s H1 H2 H3 H4 H5. unfold invA. split9; auto.
  - intro t. rewrite H1. reflexivity.
  - intros t o. rewrite H1. discriminate.
  - congruence.
  - intros t t' o o'. rewrite H1. discriminate.
  - intros t o. rewrite H1. discriminate.
  - intros t t' o. rewrite H1. discriminate.
  - intros t o. rewrite H1. intros [|]; discriminate.
Qed.

Lemma step_B : forall a s s', invB s -> alone a s -> step a s = Some s' -> invA s' \/ invB s'.
Proof.
  intros a s s' (B1 & B2 & t & o & B3 & B4 & B5 & B6) HG H.
  assert (Hc : is_close (s_pc s t) = true) by (destruct B6 as [([-> | ->] & _)|[(-> & _)|[(-> & _)|(-> & _)]]]; reflexivity).
  destruct a as [t1|t1 o1|t1|t1|o1]; cbn [step alone] in *.
  - rewrite HG in Hc. discriminate.
  - rewrite HG in Hc. discriminate.
  - destruct (Nat.eq_dec t1 t) as [->|N]; [|rewrite B3 in H by assumption; discriminate].
    destruct B6 as [([E|E] & M & R & Ha & L)|[(E & M & R & Hn & Ha & L)|[(E & M & Hn & L)|(E & M & Hn)]]]; rewrite E in H.
    + injection H as <-. right. unfold invB; fields. rewrite R, B4, B1. cbn [Nat.eqb]. split; [reflexivity|]. split; [exact B2|]. exists t, o.
      split; [intros t' N; rewrite upd_ne by assumption; auto|]. split; [exact B4|]. split; [exact B5|]. left. rewrite upd_eq. auto.
    + rewrite R in H. destruct (s_held s) as [|h l] eqn:Eh; cbn [length Nat.eqb] in H; injection H as <-; right; unfold invB; fields; rewrite B4, B1.
      * split; [reflexivity|]. split; [exact B2|]. exists t, o. split; [intros t' N; rewrite upd_ne by assumption; auto|]. split; [exact B4|]. split; [exact B5|].
        right. right. left. rewrite upd_eq. auto.
      * split; [reflexivity|]. split; [exact B2|]. exists t, o. split; [intros t' N; rewrite upd_ne by assumption; auto|]. split; [exact B4|]. split; [exact B5|].
        right. left. rewrite upd_eq, Eh. repeat split; auto. discriminate.
    + injection H as <-. left. apply out_A; fields.
      * intro t'. updc t t'; auto.
      * rewrite B4, B1. reflexivity.
      * exact L.
      * rewrite M, upd_eq, R. repeat split; auto. cbn. lia.
      * intros o' Lv. rewrite (B5 o' Lv). exact M.
    + rewrite L in H. injection H as <-. right. unfold invB; fields. rewrite M, Nat.eqb_refl, B4, B1. split; [reflexivity|]. split; [exact B2|]. exists t, o.
      split; [intros t' N; rewrite upd_ne by assumption; auto|]. split; [exact B4|]. split; [exact B5|]. right. right. right. rewrite upd_eq. auto.
    + injection H as <-. left. apply out_A; fields.
      * intro t'. updc t t'; auto.
      * rewrite B4, B1. reflexivity.
      * reflexivity.
      * rewrite M. exact Hn.
      * intros o'. updc o o'; [discriminate|]. intro Lv. destruct n. auto.
  - destruct HG.
  - destruct (take o1 (s_held s)) as [l|] eqn:E; [|discriminate]. injection H as <-. destruct (take_in _ _ _ E) as (T1 & _ & _).
    right. assert (o1 = o). { destruct B6 as [(_ & _ & _ & Ha & _)|[(_ & _ & _ & _ & Ha & _)|[(_ & _ & Hn & _)|(_ & _ & Hn)]]]; try (rewrite Hn in T1; destruct T1); specialize (Ha _ T1); congruence. }
    subst o1. unfold invB; fields. rewrite B4, B1. split; [reflexivity|]. split; [exact B2|]. exists t, o. repeat (split; [assumption|]). exact B6.
Qed.

Lemma sreach_inv : forall s, sreach s -> invA s \/ invB s.
Proof.
  intros s H. induction H as [|s a s' H IH G E]; [left; exact init_A|]. destruct IH as [IH|IH]; [eapply step_A|eapply step_B]; eassumption.
Qed.

(** Every handle given out is the one registered object, which exists; nothing deleted was read. *)
Lemma handles_valid : forall s, sreach s -> s_bad s = false /\ forall h, In h (s_held s) -> exists o, h = Some o /\ s_live s o = true /\ s_map s = Some o.
Proof.
  intros s H. apply sreach_inv in H. destruct H as [(A1 & A2 & A3 & _)|(B1 & B2 & t & o & B3 & B4 & B5 & B6)].
  - split; [exact A2|]. intros h Hh. destruct (s_map s) as [o|]; [|rewrite A3 in Hh; destruct Hh]. exists o. destruct A3 as (C1 & C2 & C3 & C4). auto.
  - split; [exact B1|]. intros h Hh. exists o. destruct B6 as [(_ & M & _ & Ha & _)|[(_ & M & _ & _ & Ha & _)|[(_ & _ & Hn & _)|(_ & _ & Hn)]]]; try (rewrite Hn in Hh; destruct Hh); auto.
Qed.

(** With no call running: as many references as handles; the last close has deleted everything. *)
Definition invN (s : st) : Prop := (forall t, is_close (s_pc s t) = false) -> s_map s <> None -> s_held s <> [].
Lemma step_N : forall a s s', invA s \/ invB s -> invN s -> alone a s -> step a s = Some s' -> invN s'.
Proof.
  intros a s s' HI HN HG H HC HM. destruct a as [t|t o|t|t|o]; cbn [step alone] in *.
  - destruct (s_pc s t) eqn:E; try discriminate. injection H as <-. fields. apply HN; [exact HG|exact HM].
  - rewrite HG in H. destruct (take o (s_held s)) as [l|]; [|discriminate]. injection H as <-. fields. specialize (HC t). rewrite upd_eq in HC. discriminate.
  - destruct (s_pc s t) as [| |x| |x|x| |x|x|x|x|x] eqn:E; try discriminate.
    + assert (HC' : forall t', is_close (s_pc s t') = false).
      { destruct HI as [(A1 & _)|(_ & _ & t0 & o & B3 & _ & _ & B6)]; [exact A1|]. intro t'. destruct (Nat.eq_dec t0 t) as [->|N].
        - rewrite E in B6. destruct B6 as [([|] & _)|[(? & _)|[(? & _)|(? & _)]]]; discriminate.
        - rewrite (B3 t) in E by congruence. discriminate. }
      destruct (s_lock s); [discriminate|]. destruct (s_map s) eqn:M; injection H as <-; fields; [apply HN; [exact HC'|rewrite M; discriminate]|congruence].
    + injection H as <-. fields. discriminate.
    + injection H as <-. fields. apply HN; [|exact HM]. intro t'. specialize (HC t'). updc t t'; [rewrite E; reflexivity|exact HC].
    + destruct (s_lock s); [discriminate|]. destruct (s_map s) eqn:M; injection H as <-; fields; [|discriminate].
      apply HN; [|rewrite M; discriminate]. intro t'. specialize (HC t'). updc t t'; [rewrite E; reflexivity|exact HC].
    + injection H as <-. fields. apply HN; [|exact HM]. intro t'. specialize (HC t'). updc t t'; [rewrite E; reflexivity|exact HC].
    + destruct (s_lock s); [discriminate|]. destruct (s_map s) eqn:M; injection H as <-; fields; [|discriminate].
      apply HN; [|rewrite M; discriminate]. intro t'. specialize (HC t'). updc t t'; [rewrite E; reflexivity|exact HC].
    + injection H as <-. fields. specialize (HC t). rewrite upd_eq in HC. destruct HI as [(A1 & _)|(_ & _ & t0 & o & B3 & _ & _ & B6)]; [specialize (A1 t); rewrite E in A1; discriminate|].
      destruct (Nat.eq_dec t0 t) as [->|N]; [|rewrite (B3 t) in E by congruence; discriminate]. rewrite E in B6.
      destruct B6 as [([F|F] & M & R & _)|[(? & _)|[(? & _)|(? & _)]]]; try discriminate. injection F as <-. rewrite R in HC. discriminate.
    + exfalso. specialize (HC t). destruct (s_ref s x =? 1); injection H as <-; fields; rewrite upd_eq in HC; discriminate.
    + destruct (s_lock s); [discriminate|]. injection H as <-. fields. specialize (HC t). rewrite upd_eq in HC. discriminate.
    + injection H as <-. fields. destruct HI as [(A1 & _)|(_ & _ & t0 & o & B3 & _ & _ & B6)]; [specialize (A1 t); rewrite E in A1; discriminate|].
      destruct (Nat.eq_dec t0 t) as [->|N]; [|rewrite (B3 t) in E by congruence; discriminate]. rewrite E in B6.
      destruct B6 as [([|] & _)|[(? & _)|[(? & _)|(_ & M & _)]]]; try discriminate. congruence.
    + injection H as <-. fields. destruct HI as [(A1 & _)|(_ & _ & t0 & o & B3 & _ & _ & B6)]; [specialize (A1 t); rewrite E in A1; discriminate|].
      destruct (Nat.eq_dec t0 t) as [->|N]; [|rewrite (B3 t) in E by congruence; discriminate]. rewrite E in B6.
      destruct B6 as [([|] & _)|[(_ & _ & _ & Hn & _)|[(? & _)|(? & _)]]]; try discriminate. exact Hn.
  - destruct HG.
  - destruct (take o (s_held s)) as [l|]; [|discriminate]. injection H as <-. fields. apply HN; assumption.
Qed.
Lemma sreach_N : forall s, sreach s -> invN s.
Proof.
  intros s H. induction H as [|s a s' H IH G E]; [intros _ M; cbn in M; congruence|]. eapply step_N; [exact (sreach_inv s H)|exact IH|exact G|exact E].
Qed.

Lemma closed_quiet : forall s, sreach s -> (forall t, s_pc s t = Out) ->
  (forall o, s_map s = Some o -> s_ref s o = length (s_held s) /\ s_held s <> [] /\ forall o', s_live s o' = true -> o' = o) /\
  (s_held s = [] -> s_map s = None /\ forall o, s_live s o = false).
Proof.
  intros s H HO. assert (HN := sreach_N s H). unfold invN in HN. assert (HC : forall t, is_close (s_pc s t) = false) by (intro t; rewrite HO; reflexivity).
  apply sreach_inv in H. destruct H as [(A1 & A2 & A3 & A4 & A5 & A5b & A6 & A7 & A8 & A9)|(B1 & B2 & t & o & B3 & B4 & B5 & B6)].
  - split.
    + intros o M. specialize (HN HC). rewrite M in A3. split; [apply A3|]. split; [apply HN; rewrite M; discriminate|].
      intros o' L. destruct (A8 o' L) as [F|(t & F)]; [congruence|]. rewrite HO in F. discriminate.
    + intros Hh. assert (M : s_map s = None) by (destruct (s_map s); [exfalso; apply HN; [exact HC|discriminate|exact Hh]|reflexivity]). split; [exact M|].
      intros o. destruct (s_live s o) eqn:L; [|reflexivity]. destruct (A8 o L) as [F|(t & F)]; [congruence|]. rewrite HO in F. discriminate.
  - rewrite HO in B6. destruct B6 as [([|] & _)|[(? & _)|[(? & _)|(? & _)]]]; discriminate.
Qed.
