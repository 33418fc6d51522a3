(** The invariant of the skiplist, kept by every step of every thread. *)
From Coq Require Import NArith Arith List Bool Lia.
From Verif Require Import Base SkipModel SkipSpec.
Local Open Scope nat_scope.

Lemma upd_eq : forall A (f : nat -> A) x v, upd f x v x = v.
Proof. intros; unfold upd; rewrite Nat.eqb_refl; reflexivity. Qed.
Lemma upd_ne : forall A (f : nat -> A) x v y, y <> x -> upd f x v y = f y.
Proof. intros A f x v y H; unfold upd. apply Nat.eqb_neq in H. rewrite H. reflexivity. Qed.
Lemma upd2_eq : forall A (f : nat -> nat -> A) x l v, upd2 f x l v x l = v.
Proof. intros; unfold upd2; rewrite !Nat.eqb_refl; reflexivity. Qed.
Lemma upd2_ne : forall A (f : nat -> nat -> A) x l v y k, (y <> x \/ k <> l) -> upd2 f x l v y k = f y k.
Proof.
  intros A f x l v y k H; unfold upd2. destruct (Nat.eqb_spec y x) as [->|]; [|reflexivity].
  destruct (Nat.eqb_spec k l) as [->|]; [destruct H; congruence|reflexivity].
Qed.

Section Proofs.
Variable key : nat -> N.
Variable top : nat -> nat.
Variable maxl : nat.
Hypothesis key_head : key head = 0%N.
Hypothesis key_user : forall x, user x -> (0 < key x < key tail)%N.

Definition past (p : phase) : Prop := match p with Live | Del _ _ | Dead => True | _ => False end.

(** Linked in layer [l]. *)
Definition linked (s : st) (x l : nat) : Prop :=
  user x /\ l <= top x /\ match s_ph s x with Ins _ k => l < k | Live => True | Del _ k => k <= l | _ => False end.
Definition at_ (s : st) (l x : nat) : Prop := x = head \/ linked s x l.

(** [y] follows [x] in layer [l]. *)
Definition follows (s : st) (l x y : nat) : Prop :=
  (y = tail \/ linked s y l) /\ (key x < key y)%N /\ (forall z, linked s z l -> (key x < key z)%N -> (key y <= key z)%N).

Record SI (s : st) : Prop := {
  si_nx : forall l x, at_ s l x -> follows s l x (s_nx s x l);
  si_uk : forall l x y, linked s x l -> linked s y l -> key x = key y -> x = y;
  si_head : s_ph s head = Live;
  si_tail : s_ph s tail = Live;
  si_ins : forall z T k, s_ph s z = Ins T (S k) -> exists w, w_node w = z /\ (s_th s T = ILink w (S k) \/ s_th s T = IFull w);
  si_del : forall z T k, s_ph s z = Del T k -> exists w, w_node w = z /\ s_th s T = EUnl w k;
  si_own : forall x T, s_own s x = Some T -> x = head \/ user x /\ past (s_ph s x);
  si_born : forall x b, s_born s x = Some b -> user x /\ past (s_ph s x) /\ b < s_clk s;
  si_past : forall x, user x -> past (s_ph s x) -> exists b, s_born s x = Some b;
  si_died : forall x d, s_died s x = Some d -> d < s_clk s /\ past (s_ph s x) /\ s_ph s x <> Live;
  si_dead : forall x, user x -> past (s_ph s x) -> s_ph s x <> Live -> exists d, s_died s x = Some d
}.

(** ** What a thread knows *)

Definition okp (s : st) (l x : nat) : Prop := x = head \/ (user x /\ l <= top x /\ past (s_ph s x)).
Definition oky (l y : nat) : Prop := y = tail \/ (user y /\ l <= top y).
(** Fully linked at some time after [t0]. *)
Definition since (s : st) (t0 x : nat) : Prop :=
  exists b, s_born s x = Some b /\ forall d, s_died s x = Some d -> t0 < d.
(** Fully linked since before [t0]. *)
Definition pres (s : st) (t0 z : nat) : Prop := fl s z = true /\ exists b, s_born s z = Some b /\ b < t0.

Definition vk (T : nat) (s : st) (n : nat) (P : nat -> nat) (k : nat) : Prop :=
  s_own s (P k) = Some T /\ (P k = head \/ user (P k) /\ k <= top (P k)) /\ fl s (P k) = true /\ (key (P k) < key n)%N.
Definition vn (s : st) (n : nat) (Q : nat -> nat) (k : nat) : Prop := s_nx s n k = Q k /\ (key n < key (Q k))%N.
Definition ver (ins : bool) (T : nat) (s : st) (n : nat) (P Q : nat -> nat) (a : nat) : Prop :=
  forall k, a <= k -> k <= top n -> vk T s n P k /\ vn s n Q k /\ s_nx s (P k) k = (if ins then Q k else n).
Definition mono (n : nat) (P : nat -> nat) (a : nat) : Prop :=
  forall k j, a <= k -> k < j -> j <= top n -> P k = P j \/ (key (P j) < key (P k))%N.
Definition curok (n : nat) (P : nat -> nat) (l cur : nat) : Prop := l + 1 <= top n -> P (l + 1) = cur \/ (key (P (l + 1)%nat) < key cur)%N.
Definition holds (T : nat) (s : st) (n : nat) (P : nat -> nat) (a : nat) : Prop :=
  forall k, a <= k -> k <= top n -> s_own s (P k) = Some T /\ (key (P k) < key n)%N.

Definition jobok (T : nat) (s : st) (w : work) : Prop :=
  w_t0 w < s_clk s /\
  match w_job w with
  | JIns n d => user n /\ s_ph s n = Ins T 0 /\ (d = false -> forall x, user x -> key x = key n -> x = n)
  | JErase n => user n /\ s_own s n = Some T /\ fl s n = true
  | JFind q m => (0 < q)%N /\ ((q < key tail)%N \/ m = SM /\ q = key tail)
  | JNext n => n = head \/ user n /\ past (s_ph s n)
  end.

Definition pos (ins : bool) (T : nat) (s : st) (w : work) (n l cur : nat) : Prop :=
  (key cur < key n)%N /\ ver ins T s n (w_prev w) (w_next w) (l + 1) /\ mono n (w_prev w) (l + 1) /\ curok n (w_prev w) l cur.

Definition srch (T : nat) (s : st) (w : work) (l cur : nat) : Prop :=
  jobok T s w /\ okp s l cur /\
  match w_job w with
  | JIns n _ => pos true T s w n l cur
  | JErase n => pos false T s w n l cur
  | JFind q _ => (key cur < q)%N /\ (cur = head \/ since s (w_t0 w) cur)
  | JNext n => cur = n /\ l = 0
  end.

(** Nothing that was there all the time lies between [cur] and [y]. *)
Definition nothing (s : st) (w : work) (cur y : nat) : Prop :=
  forall z, pres s (w_t0 w) z -> (key cur < key z)%N -> (key y <= key z)%N.

Definition cand (s : st) (w : work) (l cur y : nat) (f : bool) : Prop :=
  oky l y /\ (key cur < key y)%N /\
  match w_job w with
  | JIns _ _ => True
  | JErase n => (f = false -> l <= top n -> y = n \/ (key y < key n)%N) /\ (f = true -> l <= top n /\ (key n < key y)%N)
  | _ => l = 0 -> nothing s w cur y
  end.

Definition cands (s : st) (w : work) (l cur y : nat) (f : bool) : Prop :=
  (user y /\ l <= top y) /\ (key cur < key y)%N /\
  match w_job w with
  | JIns _ _ => True
  | JErase n => (f = false -> l <= top n -> (key y < key n)%N) /\ (f = true -> l <= top n /\ (key n <= key y)%N)
  | _ => l = 0 -> nothing s w cur y /\ ~ pres s (w_t0 w) y
  end.

Definition lck (T : nat) (s : st) (w : work) (l cur y : nat) : Prop :=
  srch T s w l cur /\
  match w_job w with
  | JIns n _ | JErase n => l <= top n /\ w_prev w l = cur /\ w_next w l = y /\ oky l y /\ (key n < key y)%N
  | _ => False
  end.

Definition isins (w : work) : bool := match w_job w with JIns _ _ => true | _ => false end.

Definition lkd (T : nat) (s : st) (w : work) (l cur y : nat) : Prop := lck T s w l cur y /\ s_own s cur = Some T.
Definition llok (w : work) (l cur ll : nat) : Prop :=
  ll = l \/ ll = l + 1 /\ l + 1 <= top (w_node w) /\ w_prev w (l + 1) = cur.

Definition clrok (T : nat) (s : st) (w : work) (k : nat) (a : after) : Prop :=
  w_t0 w < s_clk s /\
  match w_job w with
  | JIns n _ =>
      holds T s n (w_prev w) k /\ mono n (w_prev w) k /\
      match a with
      | Retry => jobok T s w
      | Fin ROk => exists b, s_born s n = Some b /\ w_t0 w < b
      | Fin RDup => exists y, y <> n /\ key y = key n /\ since s (w_t0 w) y
      | _ => False
      end
  | JErase n =>
      holds T s n (w_prev w) k /\ mono n (w_prev w) k /\ user n /\ s_own s n = Some T /\
      match a with
      | Retry => fl s n = true
      | Fin ROk => exists d, s_died s n = Some d /\ w_t0 w < d
      | _ => False
      end
  | _ => match a with Retry => jobok T s w | _ => False end
  end.

Definition linkok (T : nat) (s : st) (w : work) (k : nat) : Prop :=
  match w_job w with
  | JIns n _ =>
      w_t0 w < s_clk s /\ user n /\ s_ph s n = Ins T k /\ mono n (w_prev w) 0 /\
      forall j, j <= top n -> vk T s n (w_prev w) j /\ vn s n (w_next w) j /\ s_nx s (w_prev w j) j = (if j <? k then n else w_next w j)
  | _ => False
  end.

Definition unlok (T : nat) (s : st) (w : work) (k : nat) : Prop :=
  match w_job w with
  | JErase n =>
      w_t0 w < s_clk s /\ user n /\ s_own s n = Some T /\ s_ph s n = Del T k /\ k <= top n /\ mono n (w_prev w) 0 /\
      (exists d, s_died s n = Some d /\ w_t0 w < d) /\
      forall j, j <= top n -> vk T s n (w_prev w) j /\ vn s n (w_next w) j /\ s_nx s (w_prev w j) j = (if j <? k then w_next w j else n)
  | _ => False
  end.

Definition postok (T : nat) (s : st) (w : work) : Prop :=
  match w_job w with JIns _ _ | JErase _ => clrok T s w 0 (Fin ROk) | _ => False end.

Definition eraser (T : nat) (s : st) (w : work) (mine : bool) : Prop :=
  w_t0 w < s_clk s /\
  match w_job w with JErase n => user n /\ past (s_ph s n) /\ (mine = true -> s_own s n = Some T) | _ => False end.

Definition doneok (s : st) (t0 t1 : nat) (j : job) (r : res) : Prop :=
  t0 < t1 /\ t1 <= s_clk s /\
  match j, r with
  | JIns n _, ROk => exists b, s_born s n = Some b /\ t0 < b < t1
  | JIns n _, RDup => exists y, y <> n /\ key y = key n /\ alive_in s t0 t1 y
  | JErase n, ROk => exists d, s_died s n = Some d /\ t0 < d < t1
  | JErase _, RGone => True
  | JFind q m, RFound x => found_ok key s t0 t1 q m x
  | JNext n, RFound x => found_ok key s t0 t1 (key n) GT x
  | _, _ => False
  end.

Definition TI (T : nat) (s : st) (p : pc) : Prop :=
  match p with
  | Idle => True
  | Done t0 t1 j r => doneok s t0 t1 j r
  | Crash CNull => False
  | Crash CUninit => True
  | Top w => jobok T s w /\ match w_job w with JNext _ => False | _ => True end
  | SRead w l cur => srch T s w l cur
  | SGot w l cur y f => srch T s w l cur /\ cand s w l cur y f
  | SSkip w l cur y f => srch T s w l cur /\ cands s w l cur y f
  | SLock w l cur y => lck T s w l cur y
  | SVal1 w l cur y ll => lkd T s w l cur y /\ llok w l cur ll
  | SVal2 w l cur y ll => lkd T s w l cur y /\ llok w l cur ll /\ fl s cur = true
  | SStore w l cur y => lkd T s w l cur y /\ fl s cur = true /\ isins w = true
  | ARead w l cur y => lkd T s w l cur y /\ fl s cur = true /\ (isins w = true -> s_nx s (w_node w) l = y)
  | AGot w l cur y z =>
      lkd T s w l cur y /\ fl s cur = true /\ (isins w = true -> s_nx s (w_node w) l = y) /\
      (s_nx s cur l = z \/ isins w = false /\ s_nx s cur l = w_node w /\ s_nx s (w_node w) l = z)
  | ASkip w l cur y z => lkd T s w l cur y /\ fl s cur = true /\ isins w = false /\ s_nx s cur l = z /\ z = w_node w
  | Clr w k a => clrok T s w k a /\ match w_job w with JIns n _ | JErase n => k <= top n | _ => False end
  | ILink w k => linkok T s w k /\ k <= top (w_node w)
  | IFull w => linkok T s w (top (w_node w) + 1)
  | IUnl w => postok T s w
  | Cnt w _ => postok T s w
  | Scan w _ => postok T s w
  | ERm w | ECas w => eraser T s w false
  | ESet w | ECheck w | EBack w => eraser T s w true
  | EMark w => match w_job w with
               | JErase n => jobok T s w /\ ver false T s n (w_prev w) (w_next w) 0 /\ mono n (w_prev w) 0
               | _ => False end
  | EUnl w k => unlok T s w k
  | EFin w => match w_job w with
              | JErase n => w_t0 w < s_clk s /\ s_own s n = Some T /\ exists d, s_died s n = Some d /\ w_t0 w < d
              | _ => False end
  end.

Definition Inv (s : st) : Prop := SI s /\ forall T, TI T s (s_th s T).

(** ** What a step of thread [T] leaves alone *)

Record Fr (T : nat) (s s' : st) : Prop := {
  fr_own : forall x U, U <> T -> s_own s x = Some U -> s_own s' x = Some U;
  fr_nxo : forall x l U, U <> T -> s_own s x = Some U -> s_nx s' x l = s_nx s x l;
  fr_nxi : forall x l U k, U <> T -> s_ph s x = Ins U k -> s_nx s' x l = s_nx s x l;
  fr_phi : forall x U k, U <> T -> s_ph s x = Ins U k -> s_ph s' x = Ins U k;
  fr_pho : forall x U, U <> T -> s_own s x = Some U -> s_ph s' x = s_ph s x;
  fr_past : forall x, past (s_ph s x) -> past (s_ph s' x);
  fr_b1 : forall x b, s_born s x = Some b -> s_born s' x = Some b;
  fr_b2 : forall x b, s_born s' x = Some b -> s_born s x = Some b \/ b = s_clk s;
  fr_d1 : forall x d, s_died s x = Some d -> s_died s' x = Some d;
  fr_d2 : forall x d, s_died s' x = Some d -> s_died s x = Some d \/ d = s_clk s;
  fr_fl : forall x, fl s' x = true -> fl s x = true \/ s_born s' x = Some (s_clk s);
  fr_clk : s_clk s' = s_clk s + 1
}.

Lemma fl_live : forall s x, fl s x = true <-> s_ph s x = Live.
Proof. intros s x; unfold fl. destruct (s_ph s x); split; congruence. Qed.

Lemma fl_ph : forall s s' x, s_ph s' x = s_ph s x -> fl s' x = fl s x.
Proof. intros s s' x H; unfold fl. rewrite H. reflexivity. Qed.

Section Frame.
Variables (T U : nat) (s s' : st).
Hypothesis F : Fr T s s'.
Hypothesis HU : U <> T.

Lemma okp_fr : forall l x, okp s l x -> okp s' l x.
Proof. intros l x [H|(A & B & C)]; [left; exact H|right]. split; [exact A|]. split; [exact B|]. apply (fr_past _ _ _ F), C. Qed.

Lemma since_fr : forall t0 x, t0 < s_clk s -> since s t0 x -> since s' t0 x.
Proof.
  intros t0 x Ht (b & Hb & Hd). exists b. split; [apply (fr_b1 _ _ _ F), Hb|]. intros d H. destruct (fr_d2 _ _ _ F x d H) as [X| ->]; [apply Hd, X|exact Ht].
Qed.

Lemma pres_fr : forall t0 x, t0 < s_clk s -> pres s' t0 x -> pres s t0 x.
Proof.
  intros t0 x Ht (A & b & Hb & Hl). split.
  - destruct (fr_fl _ _ _ F x A) as [X|X]; [exact X|]. rewrite X in Hb. injection Hb as <-. lia.
  - exists b. split; [|exact Hl]. destruct (fr_b2 _ _ _ F x b Hb) as [X| ->]; [exact X|lia].
Qed.

Lemma vk_fr : forall n P k, vk U s n P k -> vk U s' n P k.
Proof.
  intros n P k (A & B & C & D). split; [apply (fr_own _ _ _ F _ _ HU A)|]. split; [exact B|]. split; [|exact D].
  rewrite (fl_ph s s'); [exact C|]. apply (fr_pho _ _ _ F _ _ HU A).
Qed.

Lemma jobok_fr : forall w, jobok U s w -> jobok U s' w.
Proof.
  intros w [A B]. split; [rewrite (fr_clk _ _ _ F); lia|]. destruct (w_job w) as [n d|n|q m|n].
  - destruct B as (B1 & B2 & B3). split; [exact B1|]. split; [apply (fr_phi _ _ _ F _ _ _ HU B2)|exact B3].
  - destruct B as (B1 & B2 & B3). split; [exact B1|]. split; [apply (fr_own _ _ _ F _ _ HU B2)|].
    rewrite (fl_ph s s'); [exact B3|]. apply (fr_pho _ _ _ F _ _ HU B2).
  - exact B.
  - destruct B as [B|[B1 B2]]; [left; exact B|right]. split; [exact B1|]. apply (fr_past _ _ _ F), B2.
Qed.

Lemma vn_fr : forall w n Q k, jobok U s w -> (w_job w = JErase n \/ exists d, w_job w = JIns n d) -> vn s n Q k -> vn s' n Q k.
Proof.
  intros w n Q k [_ J] E [A B]. split; [|exact B]. destruct E as [E|[d E]]; rewrite E in J.
  - rewrite (fr_nxo _ _ _ F n k U HU (proj1 (proj2 J))). exact A.
  - rewrite (fr_nxi _ _ _ F n k U 0 HU (proj1 (proj2 J))). exact A.
Qed.

Lemma ver_fr : forall ins w n P Q a, jobok U s w -> (w_job w = JErase n \/ exists d, w_job w = JIns n d) -> ver ins U s n P Q a -> ver ins U s' n P Q a.
Proof.
  intros ins w n P Q a J E V k Hk Ht. destruct (V k Hk Ht) as (A & B & C). split; [apply vk_fr, A|]. split; [apply (vn_fr w); assumption|].
  rewrite (fr_nxo _ _ _ F _ k U HU (proj1 A)). exact C.
Qed.

Lemma srch_fr : forall w l cur, srch U s w l cur -> srch U s' w l cur.
Proof.
  intros w l cur (A & B & C). split; [apply jobok_fr, A|]. split; [apply okp_fr, B|]. destruct (w_job w) as [n d|n|q m|n] eqn:E.
  - destruct C as (C1 & C2 & C3). split; [exact C1|]. split; [|exact C3]. apply (ver_fr true w); [exact A|right; exists d; exact E|exact C2].
  - destruct C as (C1 & C2 & C3). split; [exact C1|]. split; [|exact C3]. apply (ver_fr false w); [exact A|left; exact E|exact C2].
  - destruct C as [C1 [C2|C2]]; (split; [exact C1|]); [left; exact C2|right]. apply since_fr; [apply A|exact C2].
  - exact C.
Qed.

Lemma nothing_fr : forall w cur y, w_t0 w < s_clk s -> nothing s w cur y -> nothing s' w cur y.
Proof. intros w cur y Ht H z Hz. apply H. apply pres_fr; assumption. Qed.

Lemma cand_fr : forall w l cur y f, w_t0 w < s_clk s -> cand s w l cur y f -> cand s' w l cur y f.
Proof.
  intros w l cur y f Ht (A & B & C). split; [exact A|]. split; [exact B|]. destruct (w_job w); try exact C; intros H; apply nothing_fr; auto.
Qed.

Lemma cands_fr : forall w l cur y f, w_t0 w < s_clk s -> cands s w l cur y f -> cands s' w l cur y f.
Proof.
  intros w l cur y f Ht (A & B & C). split; [exact A|]. split; [exact B|].
  destruct (w_job w); try exact C; intros H; (split; [apply nothing_fr; [exact Ht|apply C, H]|intros X; apply (proj2 (C H)), pres_fr; assumption]).
Qed.

Lemma lck_fr : forall w l cur y, lck U s w l cur y -> lck U s' w l cur y.
Proof. intros w l cur y [A B]. split; [apply srch_fr, A|exact B]. Qed.

Lemma lkd_fr : forall w l cur y, lkd U s w l cur y -> lkd U s' w l cur y.
Proof. intros w l cur y [A B]. split; [apply lck_fr, A|apply (fr_own _ _ _ F _ _ HU B)]. Qed.

Lemma fl_fr : forall x, s_own s x = Some U -> fl s x = true -> fl s' x = true.
Proof. intros x H E. rewrite (fl_ph s s'); [exact E|apply (fr_pho _ _ _ F _ _ HU H)]. Qed.

Lemma nx_fr : forall w l cur y, lkd U s w l cur y -> s_nx s' cur l = s_nx s cur l.
Proof. intros w l cur y [_ A]. apply (fr_nxo _ _ _ F _ _ U HU A). Qed.

Lemma nxn_fr : forall w l cur y k, lkd U s w l cur y -> s_nx s' (w_node w) k = s_nx s (w_node w) k.
Proof.
  intros w l cur y k [[((_ & J) & _) B] _]. unfold w_node. destruct (w_job w) as [n d|n|q m|n]; try destruct B.
  - apply (fr_nxi _ _ _ F n k U 0 HU (proj1 (proj2 J))).
  - apply (fr_nxo _ _ _ F n k U HU (proj1 (proj2 J))).
Qed.

Lemma holds_fr : forall n P a, holds U s n P a -> holds U s' n P a.
Proof. intros n P a H k Hk Ht. destruct (H k Hk Ht) as [A B]. split; [apply (fr_own _ _ _ F _ _ HU A)|exact B]. Qed.

Lemma clrok_fr : forall w k a, clrok U s w k a -> clrok U s' w k a.
Proof.
  intros w k a [H0 H]. split; [rewrite (fr_clk _ _ _ F); lia|]. destruct (w_job w) as [n d|n|q m|n] eqn:E.
  - destruct H as (A & B & C). split; [apply holds_fr, A|]. split; [exact B|]. destruct a as [|[]]; try exact C.
    + apply jobok_fr, C.
    + destruct C as (b & C1 & C2). exists b. split; [apply (fr_b1 _ _ _ F), C1|exact C2].
    + destruct C as (y & C1 & C2 & C3). exists y. split; [exact C1|]. split; [exact C2|]. apply since_fr; assumption.
  - destruct H as (A & B & C & D & G). split; [apply holds_fr, A|]. split; [exact B|]. split; [exact C|]. split; [apply (fr_own _ _ _ F _ _ HU D)|].
    destruct a as [|[]]; try exact G.
    + apply fl_fr; assumption.
    + destruct G as (b & C1 & C2). exists b. split; [apply (fr_d1 _ _ _ F), C1|exact C2].
  - destruct a; [apply jobok_fr, H|exact H].
  - destruct a; [apply jobok_fr, H|exact H].
Qed.

Lemma alive_fr : forall t0 t1 y, t0 < s_clk s -> alive_in s t0 t1 y -> alive_in s' t0 t1 y.
Proof.
  intros t0 t1 y Ht (b & B1 & B2 & B3). exists b. split; [apply (fr_b1 _ _ _ F), B1|]. split; [exact B2|].
  intros d Hd. destruct (fr_d2 _ _ _ F y d Hd) as [X| ->]; [apply B3, X|exact Ht].
Qed.

Lemma thr_fr : forall t0 t1 z, t0 < s_clk s -> throughout s' t0 t1 z -> throughout s t0 t1 z.
Proof.
  intros t0 t1 z Ht (b & B1 & B2 & B3). exists b. split; [destruct (fr_b2 _ _ _ F z b B1) as [X| ->]; [exact X|lia]|]. split; [exact B2|].
  intros d Hd. apply B3, (fr_d1 _ _ _ F), Hd.
Qed.

Lemma found_fr : forall t0 t1 q m r, t0 < s_clk s -> found_ok key s t0 t1 q m r -> found_ok key s' t0 t1 q m r.
Proof.
  intros t0 t1 q m r Ht [A B]. split.
  - intros y Hy. destruct (A y Hy) as [A1 A2]. split; [exact A1|]. apply alive_fr; assumption.
  - intros z Hz. apply B. apply thr_fr; assumption.
Qed.

Lemma done_fr : forall t0 t1 j r, doneok s t0 t1 j r -> doneok s' t0 t1 j r.
Proof.
  intros t0 t1 j r (A & B & C). split; [exact A|]. split; [rewrite (fr_clk _ _ _ F); lia|]. destruct j as [n d|n|q m|n], r as [| | |x]; try exact C.
  - destruct C as (b & C1 & C2). exists b. split; [apply (fr_b1 _ _ _ F), C1|exact C2].
  - destruct C as (y & C1 & C2 & C3). exists y. split; [exact C1|]. split; [exact C2|]. apply alive_fr; [lia|assumption].
  - destruct C as (b & C1 & C2). exists b. split; [apply (fr_d1 _ _ _ F), C1|exact C2].
  - apply found_fr; [lia|exact C].
  - apply found_fr; [lia|exact C].
Qed.

Lemma link_fr : forall w k, linkok U s w k -> linkok U s' w k.
Proof.
  intros w k H. unfold linkok in *. destruct (w_job w) as [n d|n|q m|n]; try exact H. destruct H as (A & B & C & D & E).
  split; [rewrite (fr_clk _ _ _ F); lia|]. split; [exact B|]. split; [apply (fr_phi _ _ _ F _ _ _ HU C)|]. split; [exact D|].
  intros j Hj. destruct (E j Hj) as (E1 & [E2 E2'] & E3). split; [apply vk_fr, E1|]. split.
  - split; [|exact E2']. rewrite (fr_nxi _ _ _ F n j U k HU C). exact E2.
  - rewrite (fr_nxo _ _ _ F _ j U HU (proj1 E1)). exact E3.
Qed.

Lemma unl_fr : forall w k, unlok U s w k -> unlok U s' w k.
Proof.
  intros w k H. unfold unlok in *. destruct (w_job w) as [n d|n|q m|n]; try exact H. destruct H as (A & B & C & D & D' & D2 & (d & G1 & G2) & E).
  split; [rewrite (fr_clk _ _ _ F); lia|]. split; [exact B|]. split; [apply (fr_own _ _ _ F _ _ HU C)|].
  split; [rewrite (fr_pho _ _ _ F _ _ HU C); exact D|]. split; [exact D'|]. split; [exact D2|]. split; [exists d; split; [apply (fr_d1 _ _ _ F), G1|exact G2]|].
  intros j Hj. destruct (E j Hj) as (E1 & [E2 E2'] & E3). split; [apply vk_fr, E1|]. split.
  - split; [|exact E2']. rewrite (fr_nxo _ _ _ F n j U HU C). exact E2.
  - rewrite (fr_nxo _ _ _ F _ j U HU (proj1 E1)). exact E3.
Qed.

Lemma eraser_fr : forall w m, eraser U s w m -> eraser U s' w m.
Proof.
  intros w m [A B]. split; [rewrite (fr_clk _ _ _ F); lia|]. destruct (w_job w) as [n d|n|q mm|n]; try exact B. destruct B as (B1 & B2 & B3).
  split; [exact B1|]. split; [apply (fr_past _ _ _ F), B2|]. intros E. apply (fr_own _ _ _ F _ _ HU), B3, E.
Qed.

Lemma post_fr : forall w, postok U s w -> postok U s' w.
Proof. intros w H. unfold postok in *. destruct (w_job w); try exact H; apply clrok_fr, H. Qed.

Lemma TI_fr : forall p, TI U s p -> TI U s' p.
Proof.
  intros p H. destruct p; cbn [TI] in *; try exact H.
  - apply done_fr, H.
  - split; [apply jobok_fr, H|apply H].
  - apply srch_fr, H.
  - split; [apply srch_fr, H|apply cand_fr; apply H].
  - split; [apply srch_fr, H|apply cands_fr; apply H].
  - apply lck_fr, H.
  - split; [apply lkd_fr, H|apply H].
  - split; [apply lkd_fr, H|]. split; [apply H|]. apply fl_fr; apply H.
  - split; [apply lkd_fr, H|]. split; [apply fl_fr; apply H|apply H].
  - split; [apply lkd_fr, H|]. split; [apply fl_fr; apply H|]. rewrite (nxn_fr w l cur y l (proj1 H)). apply H.
  - split; [apply lkd_fr, H|]. split; [apply fl_fr; apply H|]. rewrite (nxn_fr w l cur y l (proj1 H)), (nx_fr w l cur y (proj1 H)). apply H.
  - split; [apply lkd_fr, H|]. split; [apply fl_fr; apply H|]. rewrite (nx_fr w l cur y (proj1 H)). apply H.
  - split; [apply clrok_fr, H|apply H].
  - split; [apply link_fr, H|apply H].
  - apply link_fr, H.
  - apply post_fr, H.
  - apply post_fr, H.
  - apply post_fr, H.
  - apply eraser_fr, H.
  - apply eraser_fr, H.
  - apply eraser_fr, H.
  - apply eraser_fr, H.
  - apply eraser_fr, H.
  - destruct (w_job w) eqn:E; try exact H. destruct H as (A & B & C). split; [apply jobok_fr, A|]. split; [|exact C].
    apply (ver_fr false w); [exact A|left; exact E|exact B].
  - apply unl_fr, H.
  - destruct (w_job w) eqn:E; try exact H. destruct H as (A & B & d & C). split; [rewrite (fr_clk _ _ _ F); lia|]. split; [apply (fr_own _ _ _ F _ _ HU B)|].
    exists d. split; [apply (fr_d1 _ _ _ F); apply C|apply C].
Qed.
End Frame.

(** ** Steps that change no link, phase or flag *)

Definition after_ (T : nat) (p : pc) (s : st) : st := set_clk (s_clk s + 1) (set_th (upd (s_th s) T p) s).

(** Equal but for ref_count, removed and the like. *)
Definition eqm (s s' : st) : Prop :=
  s_nx s' = s_nx s /\ s_ph s' = s_ph s /\ s_own s' = s_own s /\ s_born s' = s_born s /\ s_died s' = s_died s /\ s_clk s' = s_clk s /\ s_th s' = s_th s.

Lemma eqm_fr : forall T s s', s_nx s' = s_nx s -> s_ph s' = s_ph s -> s_own s' = s_own s -> s_born s' = s_born s -> s_died s' = s_died s ->
  s_clk s' = s_clk s + 1 -> Fr T s s'.
Proof.
  intros T s s' E1 E2 E3 E4 E5 E6. constructor; intros *; unfold fl; rewrite ?E1, ?E2, ?E3, ?E4, ?E5, ?E6; auto.
Qed.

Lemma linked_eq : forall s s' x l, s_ph s' = s_ph s -> linked s x l -> linked s' x l.
Proof. intros s s' x l E H. unfold linked in *. rewrite E. exact H. Qed.

Lemma linked_ph : forall s s' x l, s_ph s' x = s_ph s x -> linked s x l -> linked s' x l.
Proof. intros s s' x l E H. unfold linked in *. rewrite E. exact H. Qed.

Lemma SI_gen : forall s s', (forall l x, at_ s l x -> s_nx s' x l = s_nx s x l) -> s_ph s' = s_ph s ->
  (forall x T, s_own s' x = Some T -> s_own s x = Some T \/ x = head \/ user x /\ past (s_ph s x)) ->
  s_born s' = s_born s -> s_died s' = s_died s -> s_clk s <= s_clk s' ->
  (forall z T k, s_ph s z = Ins T (S k) -> exists w, w_node w = z /\ (s_th s' T = ILink w (S k) \/ s_th s' T = IFull w)) ->
  (forall z T k, s_ph s z = Del T k -> exists w, w_node w = z /\ s_th s' T = EUnl w k) -> SI s -> SI s'.
Proof.
  intros s s' E1 E2 E3 E4 E5 E6 HI HD I.
  assert (L : forall x l, linked s x l <-> linked s' x l) by (intros x l; split; apply linked_eq; congruence).
  constructor; rewrite ?E2, ?E4, ?E5.
  - intros l x H. assert (A : at_ s l x) by (destruct H as [H|H]; [left; exact H|right; apply L, H]). rewrite (E1 l x A).
    destruct (si_nx s I l x A) as (B & C & D). split; [destruct B as [B|B]; [left; exact B|right; apply L, B]|]. split; [exact C|].
    intros z Hz. apply D, L, Hz.
  - intros l x y Hx Hy. apply (si_uk s I l); apply L; assumption.
  - apply (si_head s I).
  - apply (si_tail s I).
  - exact HI.
  - exact HD.
  - intros x T H. destruct (E3 x T H) as [X|X]; [apply (si_own s I x T X)|exact X].
  - intros x b H. destruct (si_born s I x b H) as (A & B & C). repeat split; auto; lia.
  - apply (si_past s I).
  - intros x d H. destruct (si_died s I x d H) as (A & B & C). repeat split; auto; lia.
  - apply (si_dead s I).
Qed.

Definition plain (p : pc) : Prop := match p with ILink _ (S _) | IFull _ | EUnl _ _ => False | _ => True end.

Lemma SI_quiet2 : forall T p s s1, SI s -> (forall l x, at_ s l x -> s_nx s1 x l = s_nx s x l) -> s_ph s1 = s_ph s ->
  (forall x T, s_own s1 x = Some T -> s_own s x = Some T \/ x = head \/ user x /\ past (s_ph s x)) ->
  s_born s1 = s_born s -> s_died s1 = s_died s -> s_clk s1 = s_clk s -> s_th s1 = s_th s -> plain (s_th s T) -> SI (after_ T p s1).
Proof.
  intros T p s s1 I E1 E2 E3 E4 E5 E6 E7 Hp. apply (SI_gen s); try assumption; cbn.
  - rewrite E6. lia.
  - intros z U k H. destruct (si_ins s I z U k H) as (w & A & B). exists w. split; [exact A|]. rewrite E7. destruct (Nat.eq_dec U T) as [->|N].
    + destruct B as [B|B]; rewrite B in Hp; destruct Hp.
    + rewrite (upd_ne _ _ _ _ _ N). exact B.
  - intros z U k H. destruct (si_del s I z U k H) as (w & A & B). exists w. split; [exact A|]. rewrite E7. destruct (Nat.eq_dec U T) as [->|N].
    + rewrite B in Hp; destruct Hp.
    + rewrite (upd_ne _ _ _ _ _ N). exact B.
Qed.

Lemma SI_quiet : forall T p s s1, SI s -> eqm s s1 -> plain (s_th s T) -> SI (after_ T p s1).
Proof.
  intros T p s s1 I (E1 & E2 & E3 & E4 & E5 & E6 & E7) Hp. apply (SI_quiet2 T p s s1); try assumption.
  - intros l x _. rewrite E1. reflexivity.
  - intros x U. rewrite E3. auto.
Qed.

Lemma quiet : forall T p s s1, SI s -> eqm s s1 -> plain (s_th s T) -> TI T s p ->
  SI (after_ T p s1) /\ TI T (after_ T p s1) p /\ Fr T s (after_ T p s1).
Proof.
  intros T p s s1 I E Hp H. split; [apply (SI_quiet T p s s1); assumption|]. destruct E as (E1 & E2 & E3 & E4 & E5 & E6 & E7). split.
  - apply (TI_fr (S T) T s); [|lia|exact H]. apply eqm_fr; cbn; try assumption. rewrite E6. reflexivity.
  - apply eqm_fr; cbn; try assumption. rewrite E6. reflexivity.
Qed.

(** ** Pieces *)

Lemma key_pos : forall s l x, okp s l x -> x <> tail.
Proof. intros s l x [H|(H & _)]; unfold head, tail, user in *; lia. Qed.

Lemma user_tail : forall x, user x -> x <> tail.
Proof. unfold user, tail. intros. lia. Qed.
Lemma user_head : forall x, user x -> x <> head.
Proof. unfold user, head. intros. lia. Qed.

Lemma key_low : forall x y, user x -> (key y < key x)%N -> y <> tail.
Proof. intros x y H K E. subst y. destruct (key_user x H). lia. Qed.

Lemma live_linked : forall s x l, user x -> l <= top x -> fl s x = true -> linked s x l.
Proof. intros s x l A B C. apply fl_live in C. split; [exact A|]. split; [exact B|]. rewrite C. exact Logic.I. Qed.

Lemma okp_at : forall s l x, okp s l x -> fl s x = true -> at_ s l x.
Proof. intros s l x [H|(A & B & _)] F; [left; exact H|right; apply live_linked; assumption]. Qed.

Lemma linked_oky : forall s l y, (y = tail \/ linked s y l) -> oky l y.
Proof. intros s l y [H|(A & B & _)]; [left; exact H|right; split; assumption]. Qed.

Lemma key_inj0 : forall s l x y, SI s -> at_ s l x -> at_ s l y -> key x = key y -> x = y.
Proof.
  intros s l x y I [->|Hx] [->|Hy] E.
  - reflexivity.
  - rewrite key_head in E. destruct (key_user y (proj1 Hy)). lia.
  - rewrite key_head in E. destruct (key_user x (proj1 Hx)). lia.
  - apply (si_uk s I l); assumption.
Qed.

(** Only one node of a layer points to a given node. *)
Lemma one_pred : forall s l x y z, SI s -> at_ s l x -> at_ s l y -> s_nx s x l = z -> s_nx s y l = z -> x = y.
Proof.
  assert (W : forall s l x y z, SI s -> at_ s l x -> at_ s l y -> s_nx s x l = z -> s_nx s y l = z -> (key x < key y)%N -> False).
  { intros s l x y z I Hx Hy Ex Ey L. destruct (si_nx s I l x Hx) as (_ & _ & D). destruct (si_nx s I l y Hy) as (_ & K & _). rewrite Ex in D. rewrite Ey in K.
    destruct Hy as [->|Hy]; [rewrite key_head in L; lia|]. specialize (D y Hy L). lia. }
  intros s l x y z I Hx Hy Ex Ey. destruct (N.lt_trichotomy (key x) (key y)) as [L|[L|L]].
  - destruct (W s l x y z I Hx Hy Ex Ey L).
  - apply (key_inj0 s l); assumption.
  - destruct (W s l y x z I Hy Hx Ey Ex L).
Qed.

Lemma vk_at : forall T s n P k, vk T s n P k -> at_ s k (P k).
Proof. intros T s n P k (_ & B & C & _). destruct B as [B|[B1 B2]]; [left; exact B|right; apply live_linked; assumption]. Qed.

(** The successor of a node that is held by a thread which is not changing links is fully linked. *)
Lemma succ_live : forall s T l x, Inv s -> at_ s l x -> s_own s x = Some T -> plain (s_th s T) -> fl s (s_nx s x l) = true.
Proof.
  intros s T l x [I H] A O Hp. destruct (si_nx s I l x A) as (B & _ & _). set (z := s_nx s x l) in *. apply fl_live.
  destruct B as [->|(B1 & B2 & B3)]; [apply (si_tail s I)|]. destruct (s_ph s z) as [|U k| |U k|] eqn:E; [destruct B3| |reflexivity| |destruct B3].
  - exfalso. destruct k as [|k]; [lia|]. destruct (si_ins s I z U k E) as (w & W & Hw). specialize (H U).
    assert (L : exists m, l < m /\ linkok U s w m).
    { destruct Hw as [Hw|Hw]; rewrite Hw in H; cbn [TI] in H.
      - exists (S k). split; [exact B3|apply H].
      - rewrite W in H. exists (top z + 1). split; [lia|exact H]. }
    destruct L as (m & Lm & L). unfold linkok, w_node in *. destruct (w_job w) as [n d|n|q mm|n]; try destruct L. subst n. destruct H1 as (_ & _ & _ & L).
    destruct (L l B2) as (V & _ & V2). destruct (Nat.ltb_spec l m) as [_|]; [|lia].
    assert (X : x = w_prev w l) by (apply (one_pred s l _ _ z I A (vk_at _ _ _ _ _ V)); [reflexivity|exact V2]). destruct V as [V _]. rewrite <- X in V.
    assert (U = T) by congruence. subst U. destruct Hw as [Hw|Hw]; rewrite Hw in Hp; destruct Hp.
  - exfalso. destruct (si_del s I z U k E) as (w & W & Hw). specialize (H U). rewrite Hw in H. cbn [TI] in H. unfold unlok, w_node in *.
    destruct (w_job w) as [n d|n|q mm|n]; try destruct H. subst n. destruct H0 as (_ & _ & _ & _ & _ & _ & L).
    destruct (L l B2) as (V & _ & V2). destruct (Nat.ltb_spec l k) as [|_]; [lia|].
    assert (X : x = w_prev w l) by (apply (one_pred s l _ _ z I A (vk_at _ _ _ _ _ V)); [reflexivity|exact V2]). destruct V as [V _]. rewrite <- X in V.
    assert (U = T) by congruence. subst U. rewrite Hw in Hp; destruct Hp.
Qed.

Lemma live_since : forall s t0 y, SI s -> user y -> fl s y = true -> since s t0 y.
Proof.
  intros s t0 y I Hu Hf. apply fl_live in Hf. destruct (si_past s I y Hu) as [b Hb]; [rewrite Hf; exact Logic.I|]. exists b. split; [exact Hb|].
  intros d Hd. destruct (si_died s I y d Hd) as (_ & _ & X). congruence.
Qed.

Lemma since_alive : forall s t0 y, SI s -> since s t0 y -> alive_in s t0 (s_clk s) y.
Proof. intros s t0 y I (b & A & B). exists b. split; [exact A|]. split; [apply (si_born s I y b A)|exact B]. Qed.

Lemma thr_pres : forall s t0 z, SI s -> throughout s t0 (s_clk s) z -> pres s t0 z.
Proof.
  intros s t0 z I (b & A & B & C). destruct (si_born s I z b A) as (U & P & _). split; [|exists b; split; assumption].
  apply fl_live. destruct (s_ph s z) eqn:E; try destruct P; [reflexivity| |]; exfalso.
  - destruct (si_dead s I z U) as [d Hd]; [rewrite E; exact Logic.I|congruence|]. specialize (C d Hd). destruct (si_died s I z d Hd). lia.
  - destruct (si_dead s I z U) as [d Hd]; [rewrite E; exact Logic.I|congruence|]. specialize (C d Hd). destruct (si_died s I z d Hd). lia.
Qed.

Lemma pres_linked : forall s t0 z, SI s -> pres s t0 z -> linked s z 0.
Proof. intros s t0 z I (A & b & B & _). apply live_linked; [apply (si_born s I z b B)|lia|exact A]. Qed.

(** ** The way out of a failed attempt, and of a finished one *)

Lemma retry_ok : forall T s w s1, clrok T s w (w_top top w + 1) Retry -> SI s -> TI T s (fst (retry key w s1)) /\ snd (retry key w s1) = s1.
Proof.
  intros T s w s1 [H0 H] I. unfold retry. destruct (w_job w) as [n d|n|q m|n] eqn:E; cbn [fst snd].
  - split; [|reflexivity]. cbn [TI]. rewrite E. split; [apply H|exact Logic.I].
  - split; [|reflexivity]. cbn [TI]. split; [exact H0|]. rewrite E. destruct H as (_ & _ & A & B & C). split; [exact A|]. split; [|intros _; exact B].
    apply fl_live in C. rewrite C. exact Logic.I.
  - split; [|reflexivity]. cbn [TI]. rewrite E. split; [exact H|exact Logic.I].
  - destruct (Nat.eqb_spec n head) as [->|N]; cbn [fst snd]; (split; [|reflexivity]); cbn [TI].
    + split; [exact H|]. split; [left; reflexivity|]. rewrite E. split; reflexivity.
    + destruct H as [_ H]. rewrite E in H. destruct H as [H|[H _]]; [congruence|]. split; [|exact Logic.I]. split; [exact H0|]. cbn [w_job].
      destruct (key_user n H). split; [|left]; lia.
Qed.

Lemma clear_ok : forall T s w k a s1, clrok T s w k a -> SI s -> s_clk s1 = s_clk s ->
  TI T s (fst (clear key top w k a s1)) /\ eqm s1 (snd (clear key top w k a s1)).
Proof.
  intros T s w k a s1 H I Hc. unfold clear.
  destruct (match w_job w with JIns n _ | JErase n => k <=? top n | _ => false end) eqn:M; cbn [fst snd].
  { split; [|repeat split]. cbn [TI]. split; [exact H|]. destruct (w_job w); try discriminate; apply Nat.leb_le, M. }
  destruct a as [|r].
  - cut (TI T s (fst (retry key w s1)) /\ snd (retry key w s1) = s1); [intros [X ->]; split; [exact X|repeat split]|].
    apply retry_ok; [|exact I]. destruct H as [H0 H]. split; [exact H0|]. destruct (w_job w) as [n d|n|q m|n] eqn:E; try exact H.
    + destruct H as (_ & _ & H). split; [|split; [|exact H]].
      * intros j A B. unfold w_top, w_node in A. rewrite E in A. lia.
      * intros j i A B C. unfold w_top, w_node in A. rewrite E in A. lia.
    + destruct H as (_ & _ & H). split; [|split; [|exact H]].
      * intros j A B. unfold w_top, w_node in A. rewrite E in A. lia.
      * intros j i A B C. unfold w_top, w_node in A. rewrite E in A. lia.
  - destruct H as [H0 H]. destruct (w_job w) as [n d|n|q m|n] eqn:E; try destruct H; cbn [fst snd finish].
    + unfold finish. cbn [fst snd]. split; [|destruct r; repeat split]. cbn [TI].
      replace (s_clk (match r with ROk => drop (w_prev w 0) s1 | _ => s1 end)) with (s_clk s) by (destruct r; cbn; congruence). split; [exact H0|]. split; [lia|]. rewrite E.
      destruct H1 as [_ H1]. destruct r; try exact H1.
      * destruct H1 as (b & B1 & B2). exists b. split; [exact B1|]. destruct (si_born s I n b B1) as (_ & _ & X). lia.
      * destruct H1 as (y & B1 & B2 & B3). exists y. split; [exact B1|]. split; [exact B2|]. apply since_alive; assumption.
    + destruct H1 as (_ & A & B & C). split; [|destruct r; repeat split]. cbn [TI]. rewrite E. split; [exact H0|]. split; [exact B|]. destruct r; try destruct C. exists x. exact H1.
Qed.

Definition Good (T : nat) (s : st) (p : pc) (s1 : st) : Prop := SI (after_ T p s1) /\ TI T (after_ T p s1) p /\ Fr T s (after_ T p s1).

Lemma eqm_tr : forall s s1 s2, eqm s s1 -> eqm s1 s2 -> eqm s s2.
Proof. intros s s1 s2 (A1 & A2 & A3 & A4 & A5 & A6 & A7) (B1 & B2 & B3 & B4 & B5 & B6 & B7). repeat split; congruence. Qed.

Lemma quiet_clear : forall T s w k a s1 p s2, SI s -> plain (s_th s T) -> clrok T s w k a -> eqm s s1 -> clear key top w k a s1 = (p, s2) -> Good T s p s2.
Proof.
  intros T s w k a s1 p s2 I Hp C E H. destruct (clear_ok T s w k a s1 C I) as [A B]; [apply E|]. rewrite H in A, B. cbn [fst snd] in A, B.
  apply quiet; try assumption. apply (eqm_tr s s1); assumption.
Qed.

Lemma ver_holds : forall ins T s n P Q a, ver ins T s n P Q a -> holds T s n P a.
Proof. intros ins T s n P Q a V k A B. destruct (V k A B) as ((O & _ & _ & K) & _). split; assumption. Qed.

Lemma srch_clr : forall T s w l cur, srch T s w l cur -> clrok T s w (l + 1) Retry.
Proof.
  intros T s w l cur (J & O & P). split; [apply J|]. destruct (w_job w) as [n d|n|q m|n] eqn:E.
  - destruct P as (_ & V & M & _). split; [apply (ver_holds _ _ _ _ _ _ _ V)|]. split; [exact M|exact J].
  - destruct P as (_ & V & M & _). split; [apply (ver_holds _ _ _ _ _ _ _ V)|]. split; [exact M|]. destruct J as [_ J]. rewrite E in J. exact J.
  - exact J.
  - exact J.
Qed.

Lemma mono_low : forall n P l, mono n P (l + 1) -> curok n P l (P l) -> mono n P l.
Proof.
  intros n P l M C k j A B D. destruct (Nat.eq_dec k l) as [->|N]; [|apply M; lia]. destruct (C ltac:(lia)) as [C1|C1].
  - destruct (Nat.eq_dec j (l + 1)) as [->|N]; [left; symmetry; exact C1|]. rewrite <- C1. apply M; lia.
  - right. destruct (Nat.eq_dec j (l + 1)) as [->|N]; [exact C1|]. destruct (M (l + 1) j ltac:(lia) ltac:(lia) D) as [M1|M1]; [rewrite <- M1; exact C1|lia].
Qed.

Lemma lkd_mono : forall T s w l cur y n, lck T s w l cur y -> (w_job w = JErase n \/ exists d, w_job w = JIns n d) -> mono n (w_prev w) l.
Proof.
  intros T s w l cur y n [(J & O & P) Q] E. destruct E as [E|[d E]]; rewrite E in P, Q; destruct P as (_ & _ & M & C), Q as (_ & <- & _); apply mono_low; assumption.
Qed.

Lemma lkd_holds : forall T s w l cur y n, lkd T s w l cur y -> (w_job w = JErase n \/ exists d, w_job w = JIns n d) -> holds T s n (w_prev w) l.
Proof.
  intros T s w l cur y n [[(J & O & P) Q] W] E k A B. destruct E as [E|[d E]]; rewrite E in P, Q; destruct P as (K & V & _), Q as (_ & Q & _).
  - destruct (Nat.eq_dec k l) as [->|N]; [rewrite Q; split; assumption|]. apply (ver_holds _ _ _ _ _ _ _ V); lia.
  - destruct (Nat.eq_dec k l) as [->|N]; [rewrite Q; split; assumption|]. apply (ver_holds _ _ _ _ _ _ _ V); lia.
Qed.

Lemma lkd_clr : forall T s w l cur y, lkd T s w l cur y -> clrok T s w l Retry.
Proof.
  intros T s w l cur y H. assert (J := proj1 (proj1 (proj1 H))). split; [apply J|]. destruct (w_job w) as [n d|n|q m|n] eqn:E.
  - split; [apply (lkd_holds T s w l cur y n H); right; exists d; exact E|]. split; [|exact J]. apply (lkd_mono T s w l cur y n (proj1 H)). right; exists d; exact E.
  - split; [apply (lkd_holds T s w l cur y n H); left; exact E|]. split; [|destruct J as [_ J]; rewrite E in J; exact J].
    apply (lkd_mono T s w l cur y n (proj1 H)). left; exact E.
  - exact J.
  - exact J.
Qed.

Lemma lkd_clr2 : forall T s w l cur y ll, lkd T s w l cur y -> llok w l cur ll -> clrok T s w ll Retry.
Proof.
  intros T s w l cur y ll H [->|(-> & _)]; [apply (lkd_clr T s w l cur y H)|]. apply (srch_clr T s w l cur). apply H.
Qed.

Ltac inv_some H := injection H as H1 H2; subst.

Lemma eqm_refl : forall s, eqm s s.
Proof. intros s. repeat split. Qed.
Ltac eqm_tac := solve [repeat split | unfold dropc; match goal with |- context [match w_job ?w with _ => _ end] => destruct (w_job w); repeat split end].

Lemma some_inj : forall A (x y : A), Some x = Some y -> x = y.
Proof. congruence. Qed.

Lemma st_Top : forall T spur s w p s1, SI s -> s_th s T = Top w -> TI T s (Top w) -> step1 key top maxl false T spur (Top w) s = Some (p, s1) -> Good T s p s1.
Proof.
  intros T spur s w p s1 I Ht [J JN] H. unfold step1 in H.
  assert (G : forall l, match w_job w with JIns n _ | JErase n => top n <= l | _ => True end -> TI T s (SRead w l head)).
  { intros l L. cbn [TI]. split; [exact J|]. split; [left; reflexivity|]. destruct J as [_ J]. destruct (w_job w) as [n d|n|q m|n].
    - unfold pos. rewrite key_head. destruct (key_user n (proj1 J)) as [K _]. split; [exact K|]. split; [intros k A B; lia|]. split; [intros k j A B C; lia|intros A; lia].
    - unfold pos. rewrite key_head. destruct (key_user n (proj1 J)) as [K _]. split; [exact K|]. split; [intros k A B; lia|]. split; [intros k j A B C; lia|intros A; lia].
    - rewrite key_head. split; [apply J|left; reflexivity].
    - destruct JN. }
  assert (X : forall l, match w_job w with JIns n _ | JErase n => top n <= l | _ => True end -> Good T s (SRead w l head) (grab head s)).
  { intros l L. apply quiet; [exact I|eqm_tac|rewrite Ht; exact Logic.I|apply G, L]. }
  destruct (w_job w) as [n d|n|q m|n] eqn:E.
  - injection H as <- <-. apply X. lia.
  - destruct (Nat.ltb_spec (s_tl s) (top n)).
    + injection H as <- <-. apply quiet; [exact I|eqm_tac|rewrite Ht; exact Logic.I|exact Logic.I].
    + injection H as <- <-. apply X. assumption.
  - injection H as <- <-. apply X. exact Logic.I.
  - destruct JN.
Qed.

Lemma st_SRead : forall T spur s w l cur p s1, SI s -> s_th s T = SRead w l cur -> TI T s (SRead w l cur) ->
  step1 key top maxl false T spur (SRead w l cur) s = Some (p, s1) -> Good T s p s1.
Proof.
  intros T spur s w l cur p s1 I Ht J H. cbn [TI] in J. unfold step1 in H. assert (Hp : plain (s_th s T)) by (rewrite Ht; exact Logic.I).
  destruct (s_wl s cur); [discriminate|]. destruct (fl s cur) eqn:F.
  - destruct (Nat.eqb_spec cur tail) as [->|N]; [destruct (key_pos s l tail (proj1 (proj2 J)) eq_refl)|]. injection H as <- <-.
    apply quiet; [exact I|eqm_tac|exact Hp|]. cbn [TI]. split; [exact J|].
    assert (A := okp_at s l cur (proj1 (proj2 J)) F). destruct (si_nx s I l cur A) as (B & C & D). split; [apply (linked_oky s), B|]. split; [exact C|].
    destruct J as (J & _ & P). destruct (w_job w) as [n d|n|q m|n] eqn:E.
    + exact Logic.I.
    + split; [|discriminate]. intros _ Hl. destruct J as [_ J]. rewrite E in J. destruct J as (J1 & _ & J3).
      assert (L := live_linked s n l J1 Hl J3). destruct P as [K _]. specialize (D n L K).
      destruct (N.eq_dec (key (s_nx s cur l)) (key n)) as [E2|]; [left|right; lia]. destruct B as [B|B].
      * rewrite B in E2. destruct (key_user n J1). lia.
      * apply (si_uk s I l); assumption.
    + intros -> z Hz K. apply D; [apply (pres_linked s _ z I Hz)|exact K].
    + intros -> z Hz K. apply D; [apply (pres_linked s _ z I Hz)|exact K].
  - injection H as H. apply (quiet_clear _ _ _ _ _ _ _ _ I Hp) in H; [exact H|apply (srch_clr _ _ _ _ _ J)|eqm_tac].
Qed.

Lemma finish_good : forall T s w r s1 p s2, SI s -> plain (s_th s T) -> eqm s s1 -> doneok s (w_t0 w) (s_clk s) (w_job w) r -> finish w r s1 = (p, s2) -> Good T s p s2.
Proof.
  intros T s w r s1 p s2 I Hp E D H. unfold finish in H. injection H as <- <-. apply quiet; [exact I|exact E|exact Hp|]. cbn [TI].
  replace (s_clk s1) with (s_clk s) by (symmetry; apply E). exact D.
Qed.

Lemma srch_move : forall T s w l cur y, SI s -> srch T s w l cur -> oky l y -> (key cur < key y)%N -> fl s y = true ->
  match w_job w with JIns n _ | JErase n => (key y < key n)%N | JFind q _ => (key y < q)%N | JNext _ => False end -> srch T s w l y.
Proof.
  intros T s w l cur y I (J & O & P) Hy K F L. split; [exact J|]. assert (Y : y <> tail).
  { intros ->. destruct J as [_ J]. destruct (w_job w) as [n d|n|q m|n]; [| | |destruct L].
    - destruct (key_user n (proj1 J)). lia.
    - destruct (key_user n (proj1 J)). lia.
    - destruct J as [_ [J|[_ ->]]]; lia. }
  destruct Hy as [Hy|[Y1 Y2]]; [congruence|]. assert (F2 := F). apply fl_live in F2.
  split; [right; split; [exact Y1|]; split; [exact Y2|rewrite F2; exact Logic.I]|]. destruct (w_job w) as [n d|n|q m|n].
  - destruct P as (_ & V & M & C). split; [exact L|]. split; [exact V|]. split; [exact M|]. intros Hl. right. destruct (C Hl) as [ -> |C1]; lia.
  - destruct P as (_ & V & M & C). split; [exact L|]. split; [exact V|]. split; [exact M|]. intros Hl. right. destruct (C Hl) as [ -> |C1]; lia.
  - split; [exact L|]. right. apply live_since; assumption.
  - destruct L.
Qed.

Lemma okp_low : forall s l x, okp s l x -> okp s (l - 1) x.
Proof. intros s l x [H|(A & B & C)]; [left; exact H|right; repeat split; [exact A|lia|exact C]]. Qed.

Lemma srch_down : forall T s w l cur, srch T s w l cur -> match w_job w with JIns n _ | JErase n => top n < l | JFind _ _ => True | JNext _ => False end -> srch T s w (l - 1) cur.
Proof.
  intros T s w l cur (J & O & P) L. split; [exact J|]. split; [apply okp_low, O|]. destruct (w_job w) as [n d|n|q m|n].
  - destruct P as (K & _). split; [exact K|]. split; [intros k A B; lia|]. split; [intros k j A B C; lia|intros A; lia].
  - destruct P as (K & _). split; [exact K|]. split; [intros k A B; lia|]. split; [intros k j A B C; lia|intros A; lia].
  - exact P.
  - destruct L.
Qed.

Lemma pos_set : forall ins T s w n l cur y, pos ins T s w n l cur -> pos ins T s (set_next (set_prev w l cur) l y) n l cur.
Proof.
  intros ins T s w n l cur y (K & V & M & C). unfold pos, set_next, set_prev. cbn [w_prev w_next].
  assert (X : forall f v k, l + 1 <= k -> @upd nat f l v k = f k) by (intros f v k A; apply upd_ne; lia).
  split; [exact K|]. split.
  - intros k A B. destruct (V k A B) as (V1 & V2 & V3). unfold vk, vn. rewrite !X by exact A. split; [exact V1|]. split; [exact V2|exact V3].
  - split.
    + intros k j A B D. rewrite !X by lia. apply M; assumption.
    + intros A. rewrite X by lia. apply C, A.
Qed.

Lemma srch_lck : forall T s w l cur y, srch T s w l cur -> oky l y ->
  match w_job w with JIns n _ | JErase n => l <= top n /\ (key n < key y)%N | _ => False end -> lck T s (set_next (set_prev w l cur) l y) l cur y.
Proof.
  intros T s w l cur y (J & O & P) Hy L. split.
  - split; [exact J|]. split; [exact O|]. cbn [set_next set_prev w_job]. destruct (w_job w) as [n d|n|q m|n]; [| |destruct L|destruct L]; apply pos_set, P.
  - cbn [set_next set_prev w_job w_prev w_next]. destruct (w_job w) as [n d|n|q m|n]; [| |destruct L|destruct L]; destruct L; rewrite !upd_eq; auto.
Qed.

Lemma fl_user : forall s l y, oky l y -> fl s y = true -> y <> tail -> user y.
Proof. intros s l y [H|[H _]] _ N; [congruence|exact H]. Qed.

Lemma decide_ok : forall T s w l cur y f s1 p s2, SI s -> plain (s_th s T) -> srch T s w l cur -> cand s w l cur y f -> fl s y = true -> wanted w y = false -> eqm s s1 ->
  decide key top w l cur y f s1 = (p, s2) -> Good T s p s2.
Proof.
  intros T s w l cur y f s1 p s2 I Hp HS (Hy & K & HC) F W E H. unfold decide in H. assert (HS' := HS). destruct HS' as (J & O & P). destruct (w_job w) as [n d|n|q m|n] eqn:EJ.
  - (* insert *)
    destruct J as [J0 J]. rewrite EJ in J. destruct J as (J1 & J2 & J3).
    destruct (N.ltb_spec (key y) (key n)) as [L|L].
    { injection H as <- <-. apply quiet; [exact I|exact E|exact Hp|]. cbn [TI]. apply (srch_move T s w l cur y I HS Hy K F). rewrite EJ. exact L. }
    assert (Yn : y <> n) by (intros ->; apply fl_live in F; congruence).
    assert (Yu : key y = key n -> user y).
    { intros X. apply (fl_user s l); [exact Hy|exact F|]. intros ->. destruct (key_user n J1). lia. }
    destruct (d && (key y =? key n)%N) eqn:Dp.
    { apply andb_prop in Dp. destruct Dp as [_ X]. apply N.eqb_eq in X. apply (quiet_clear T s w (l + 1) (Fin RDup) _ p s2 I Hp) in H; [exact H| |exact E].
      destruct (srch_clr T s w l cur HS) as [_ C]. split; [exact J0|]. rewrite EJ in C |- *. destruct C as (C1 & C2 & _). split; [exact C1|]. split; [exact C2|].
      exists y. split; [exact Yn|]. split; [exact X|]. apply live_since; auto. }
    assert (Lt : (key n < key y)%N).
    { destruct (N.eq_dec (key y) (key n)) as [X|X]; [|lia]. exfalso. destruct d.
      - rewrite X, N.eqb_refl in Dp. discriminate.
      - apply Yn, (J3 eq_refl); auto. }
    destruct (Nat.leb_spec l (top n)) as [Lt2|Lt2].
    { injection H as <- <-. apply quiet; [exact I|exact E|exact Hp|]. cbn [TI]. apply srch_lck; [exact HS|exact Hy|]. rewrite EJ. split; assumption. }
    injection H as <- <-. apply quiet; [exact I|exact E|exact Hp|]. cbn [TI]. apply srch_down; [exact HS|]. rewrite EJ. exact Lt2.
  - (* erase *)
    destruct J as [J0 J]. rewrite EJ in J. destruct J as (J1 & J2 & J3). unfold wanted in W. rewrite EJ in W. apply Nat.eqb_neq in W. destruct HC as [C1 C2].
    destruct ((key y <? key n)%N || (l <=? top n) && negb f) eqn:Cd.
    { assert (L : (key y < key n)%N).
      { apply orb_prop in Cd. destruct Cd as [Cd|Cd]; [apply N.ltb_lt, Cd|]. apply andb_prop in Cd. destruct Cd as [Cd1 Cd2]. apply Nat.leb_le in Cd1.
        apply negb_true_iff in Cd2. destruct (C1 Cd2 Cd1); [congruence|assumption]. }
      destruct (Nat.eqb_spec y tail) as [->|Yt]; [destruct (key_low n tail J1 L eq_refl)|]. injection H as <- <-. apply quiet; [exact I|exact E|exact Hp|].
      cbn [TI]. apply (srch_move T s w l cur y I HS Hy K F). rewrite EJ. exact L. }
    apply orb_false_elim in Cd. destruct Cd as [_ Cd]. destruct (Nat.leb_spec l (top n)) as [Lt2|Lt2].
    { cbn [andb] in Cd. apply negb_false_iff in Cd. injection H as <- <-. apply quiet; [exact I|exact E|exact Hp|]. cbn [TI]. apply srch_lck; [exact HS|exact Hy|].
      rewrite EJ. split; [assumption|]. apply C2, Cd. }
    injection H as <- <-. apply quiet; [exact I|exact E|exact Hp|]. cbn [TI]. apply srch_down; [exact HS|]. rewrite EJ. exact Lt2.
  - (* find *)
    destruct J as [J0 J]. rewrite EJ in J. destruct J as (J1 & J2). destruct P as [P1 P2].
    destruct (N.ltb_spec (key y) q) as [L|L].
    { injection H as <- <-. apply quiet; [exact I|exact E|exact Hp|]. cbn [TI]. apply (srch_move T s w l cur y I HS Hy K F). rewrite EJ. exact L. }
    assert (Ya : y <> tail -> alive_in s (w_t0 w) (s_clk s) y).
    { intros X. apply since_alive; [exact I|]. apply live_since; [exact I| |exact F]. apply (fl_user s l); assumption. }
    assert (Tk : forall z, throughout s (w_t0 w) (s_clk s) z -> (key z < key tail)%N) by (intros z (b & B & _); apply key_user, (si_born s I z b B)).
    assert (Fin_ : forall r, found_ok key s (w_t0 w) (s_clk s) q m r -> doneok s (w_t0 w) (s_clk s) (w_job w) (RFound r)).
    { intros r X. rewrite EJ. split; [exact J0|]. split; [lia|exact X]. }
    destruct (match m with SMEQ | EQ | GTEQ => (key y =? q)%N | _ => false end) eqn:Eq1.
    { assert (Q : key y = q) by (destruct m; try discriminate; apply N.eqb_eq, Eq1).
      apply (finish_good _ _ _ _ _ _ _ I Hp) in H; [exact H|exact E|]. apply Fin_. split.
      - intros z Hz. injection Hz as <-. split; [destruct m; try discriminate; cbn [meets]; lia|]. apply Ya. intros ->.
        destruct J2 as [J2|[-> _]]; [lia|discriminate].
      - intros z Hz A. exists y. split; [reflexivity|]. destruct m; try discriminate; cbn [asked nearer] in *; lia. }
    destruct (Nat.ltb_spec 0 l) as [Ll|Ll].
    { injection H as <- <-. apply quiet; [exact I|exact E|exact Hp|]. cbn [TI]. apply srch_down; [exact HS|]. rewrite EJ. exact Logic.I. }
    assert (l = 0) by lia. subst l. specialize (HC eq_refl).
    assert (NB : forall z, throughout s (w_t0 w) (s_clk s) z -> (key cur < key z)%N -> (key y <= key z)%N) by (intros z Hz; apply HC, (thr_pres s _ z I Hz)).
    destruct m.
    + assert (X : found_ok key s (w_t0 w) (s_clk s) q SM (if cur =? head then None else Some cur)).
      { split.
        - intros z Hz. destruct (Nat.eqb_spec cur head) as [|Nh]; [discriminate|]. injection Hz as <-. split; [exact P1|]. destruct P2 as [P2|P2]; [congruence|]. apply since_alive; assumption.
        - intros z Hz A. cbn [asked nearer] in *. destruct (N.le_gt_cases (key z) (key cur)) as [X|X]; [|specialize (NB z Hz X); lia].
          destruct (Nat.eqb_spec cur head) as [->|Nh]; [|exists cur; split; [reflexivity|exact X]]. exfalso. rewrite key_head in X.
          destruct Hz as (b & B & _). destruct (key_user z (proj1 (si_born s I z b B))). lia. }
      destruct (cur =? head); apply (finish_good _ _ _ _ _ _ _ I Hp) in H; [exact H|exact E|apply Fin_, X|exact H|exact E|apply Fin_, X].
    + assert (Nq : key y <> q) by (apply N.eqb_neq, Eq1).
      assert (X : found_ok key s (w_t0 w) (s_clk s) q SMEQ (if cur =? head then None else Some cur)).
      { split.
        - intros z Hz. destruct (Nat.eqb_spec cur head) as [|Nh]; [discriminate|]. injection Hz as <-. split; [cbn [meets]; lia|]. destruct P2 as [P2|P2]; [congruence|]. apply since_alive; assumption.
        - intros z Hz A. cbn [asked nearer] in *. destruct (N.le_gt_cases (key z) (key cur)) as [X|X]; [|specialize (NB z Hz X); lia].
          destruct (Nat.eqb_spec cur head) as [->|Nh]; [|exists cur; split; [reflexivity|exact X]]. exfalso. rewrite key_head in X.
          destruct Hz as (b & B & _). destruct (key_user z (proj1 (si_born s I z b B))). lia. }
      destruct (cur =? head); apply (finish_good _ _ _ _ _ _ _ I Hp) in H; [exact H|exact E|apply Fin_, X|exact H|exact E|apply Fin_, X].
    + assert (Nq : key y <> q) by (apply N.eqb_neq, Eq1). apply (finish_good _ _ _ _ _ _ _ I Hp) in H; [exact H|exact E|]. apply Fin_. split; [discriminate|].
      intros z Hz A. cbn [asked] in A. specialize (NB z Hz ltac:(lia)). lia.
    + assert (X : found_ok key s (w_t0 w) (s_clk s) q GTEQ (if y =? tail then None else Some y)).
      { split.
        - intros z Hz. destruct (Nat.eqb_spec y tail) as [|Nh]; [discriminate|]. injection Hz as <-. split; [exact L|]. apply Ya, Nh.
        - intros z Hz A. cbn [asked nearer] in *. specialize (NB z Hz ltac:(lia)). destruct (Nat.eqb_spec y tail) as [->|Nh]; [specialize (Tk z Hz); lia|].
          exists y. split; [reflexivity|exact NB]. }
      destruct (y =? tail); apply (finish_good _ _ _ _ _ _ _ I Hp) in H; [exact H|exact E|apply Fin_, X|exact H|exact E|apply Fin_, X].
    + assert (X : found_ok key s (w_t0 w) (s_clk s) q GT (if y =? tail then None else Some y)).
      { split.
        - intros z Hz. destruct (Nat.eqb_spec y tail) as [|Nh]; [discriminate|]. injection Hz as <-. split; [exact L|]. apply Ya, Nh.
        - intros z Hz A. cbn [asked nearer] in *. specialize (NB z Hz ltac:(lia)). destruct (Nat.eqb_spec y tail) as [->|Nh]; [specialize (Tk z Hz); lia|].
          exists y. split; [reflexivity|exact NB]. }
      destruct (y =? tail); apply (finish_good _ _ _ _ _ _ _ I Hp) in H; [exact H|exact E|apply Fin_, X|exact H|exact E|apply Fin_, X].
  - (* next *)
    destruct P as [-> ->]. specialize (HC eq_refl). apply (finish_good _ _ _ _ _ _ _ I Hp) in H; [exact H|exact E|]. rewrite EJ. split; [apply J|]. split; [lia|]. split.
    + intros z Hz. destruct (Nat.eqb_spec y tail) as [|Nh]; [discriminate|]. injection Hz as <-. split; [cbn [meets]; lia|]. apply since_alive; [exact I|].
      apply live_since; [exact I|apply (fl_user s 0); assumption|exact F].
    + intros z Hz A. cbn [asked nearer] in *. specialize (HC z (thr_pres s _ z I Hz) A). destruct (Nat.eqb_spec y tail) as [->|Nh].
      * destruct Hz as (b & B & _). destruct (key_user z (proj1 (si_born s I z b B))). lia.
      * exists y. split; [reflexivity|exact HC].
Qed.

Lemma st_SGot : forall T spur s w l cur y f p s1, SI s -> s_th s T = SGot w l cur y f -> TI T s (SGot w l cur y f) ->
  step1 key top maxl false T spur (SGot w l cur y f) s = Some (p, s1) -> Good T s p s1.
Proof.
  intros T spur s w l cur y f p s1 I Ht [J C] H. unfold step1 in H. assert (Hp : plain (s_th s T)) by (rewrite Ht; exact Logic.I).
  destruct (fl s y && negb (wanted w y)) eqn:D.
  - apply andb_prop in D. destruct D as [D1 D2]. apply negb_true_iff in D2. injection H as H.
    apply (decide_ok T s w l cur y f (touch y s) p s1 I Hp J C D1 D2); [eqm_tac|exact H].
  - injection H as <- <-. apply quiet; [exact I|eqm_tac|exact Hp|]. cbn [TI]. split; [exact J|]. destruct C as (Hy & K & C).
    assert (Yt : y <> tail).
    { intros ->. assert (X : fl s tail = true) by apply fl_live, (si_tail s I). rewrite X in D. cbn [andb] in D. apply negb_false_iff in D.
      unfold wanted in D. destruct J as ((_ & J) & _). destruct (w_job w); try discriminate. apply Nat.eqb_eq in D. subst n. destruct (user_tail _ (proj1 J) eq_refl). }
    destruct Hy as [Hy|Hy]; [congruence|]. split; [exact Hy|]. split; [exact K|]. unfold wanted in *. destruct (w_job w) as [n d|n|q m|n] eqn:EJ.
    + exact Logic.I.
    + destruct C as [C1 C2]. destruct (Nat.eqb_spec y n) as [->|Yn].
      * split; [intros X; rewrite orb_true_r in X; discriminate|]. intros _. split; [apply Hy|lia].
      * rewrite orb_false_r. split; [intros X Y; destruct (C1 X Y); [congruence|assumption]|]. intros X. destruct (C2 X). split; [assumption|lia].
    + intros X. split; [apply C, X|]. intros [A _]. rewrite A in D. discriminate.
    + intros X. split; [apply C, X|]. intros [A _]. rewrite A in D. discriminate.
Qed.

Lemma st_SSkip : forall T spur s w l cur y f p s1, SI s -> s_th s T = SSkip w l cur y f -> TI T s (SSkip w l cur y f) ->
  step1 key top maxl false T spur (SSkip w l cur y f) s = Some (p, s1) -> Good T s p s1.
Proof.
  intros T spur s w l cur y f p s1 I Ht [J C] H. unfold step1 in H. assert (Hp : plain (s_th s T)) by (rewrite Ht; exact Logic.I).
  destruct C as ((Hu & Hl) & K & C). destruct (s_wl s y); [discriminate|]. destruct (fl s y) eqn:F.
  - destruct (Nat.eqb_spec y tail) as [->|N]; [destruct (user_tail _ Hu eq_refl)|]. injection H as <- <-.
    apply quiet; [exact I|eqm_tac|exact Hp|]. cbn [TI]. split; [exact J|]. assert (A := live_linked s y l Hu Hl F).
    destruct (si_nx s I l y (or_intror A)) as (B & K2 & D). split; [apply (linked_oky s), B|]. split; [lia|].
    destruct J as ((_ & J) & _). destruct (w_job w) as [n d|n|q m|n] eqn:EJ.
    + exact Logic.I.
    + destruct C as [C1 C2]. split.
      * intros X Y. specialize (C1 X Y). destruct J as (J1 & _ & J3). assert (L := live_linked s n l J1 Y J3). specialize (D n L C1).
        destruct (N.eq_dec (key (s_nx s y l)) (key n)) as [E2|]; [left|right; lia]. destruct B as [B|B].
        -- rewrite B in E2. destruct (key_user n J1). lia.
        -- apply (si_uk s I l); assumption.
      * intros X. destruct (C2 X). split; [assumption|lia].
    + intros -> z Hz Kz. destruct (C eq_refl) as [C1 C2]. specialize (C1 z Hz Kz). apply D; [apply (pres_linked s _ z I Hz)|].
      destruct (N.eq_dec (key y) (key z)) as [X|X]; [|lia]. assert (y = z) by (apply (si_uk s I 0); [exact A|apply (pres_linked s _ z I Hz)|exact X]). subst z. destruct (C2 Hz).
    + intros -> z Hz Kz. destruct (C eq_refl) as [C1 C2]. specialize (C1 z Hz Kz). apply D; [apply (pres_linked s _ z I Hz)|].
      destruct (N.eq_dec (key y) (key z)) as [X|X]; [|lia]. assert (y = z) by (apply (si_uk s I 0); [exact A|apply (pres_linked s _ z I Hz)|exact X]). subst z. destruct (C2 Hz).
  - injection H as H. apply (quiet_clear _ _ _ _ _ _ _ _ I Hp) in H; [exact H|apply (srch_clr _ _ _ _ _ J)|eqm_tac].
Qed.

Lemma Fr_acq : forall U s s1 x T p, s_own s x = None -> s_nx s1 = s_nx s -> s_ph s1 = s_ph s -> s_own s1 = upd (s_own s) x (Some T) -> s_born s1 = s_born s -> s_died s1 = s_died s ->
  s_clk s1 = s_clk s -> Fr U s (after_ T p s1).
Proof.
  intros U s s1 x T p N E1 E2 E3 E4 E5 E6.
  constructor; intros *; unfold fl, after_; cbn [s_nx s_ph s_own s_born s_died s_clk set_clk set_th]; rewrite ?E1, ?E2, ?E3, ?E4, ?E5, ?E6; auto.
  intros _ H. rewrite upd_ne; [exact H|]. intros ->. congruence.
Qed.

Lemma Fr_rel : forall s s1 x T p, s_own s x = Some T -> s_nx s1 = s_nx s -> s_ph s1 = s_ph s -> s_own s1 = upd (s_own s) x None -> s_born s1 = s_born s -> s_died s1 = s_died s ->
  s_clk s1 = s_clk s -> Fr T s (after_ T p s1).
Proof.
  intros s s1 x T p N E1 E2 E3 E4 E5 E6.
  constructor; intros *; unfold fl, after_; cbn [s_nx s_ph s_own s_born s_died s_clk set_clk set_th]; rewrite ?E1, ?E2, ?E3, ?E4, ?E5, ?E6; auto.
  intros D H. rewrite upd_ne; [exact H|]. intros ->. congruence.
Qed.

Lemma w_top_job : forall w n, (w_job w = JErase n \/ exists d, w_job w = JIns n d) -> w_top top w = top n /\ w_node w = n.
Proof. intros w n [E|[d E]]; unfold w_top, w_node; rewrite E; split; reflexivity. Qed.

Lemma lck_job : forall T s w l cur y, lck T s w l cur y -> exists n, (w_job w = JErase n \/ exists d, w_job w = JIns n d) /\ user n /\ l <= top n /\ w_prev w l = cur /\ w_next w l = y /\
  (key cur < key n)%N /\ (key n < key y)%N /\ oky l y /\ okp s l cur /\ pos (isins w) T s w n l cur /\ jobok T s w.
Proof.
  intros T s w l cur y [(J & O & P) Q]. unfold isins. destruct (w_job w) as [n d|n|q m|n] eqn:E; try destruct Q.
  - exists n. assert (J' := proj2 J). rewrite E in J'. destruct H0 as (A & B & C & D). split; [right; exists d; reflexivity|]. assert (P0 := proj1 P). split; [apply J'|]. split; [assumption|]. split; [exact A|]. split; [exact B|]. split; [exact P0|]. split; [exact D|]. split; [exact C|]. split; [exact O|]. split; [exact P|exact J].
  - exists n. assert (J' := proj2 J). rewrite E in J'. destruct H0 as (A & B & C & D). split; [left; reflexivity|]. assert (P0 := proj1 P). split; [apply J'|]. split; [assumption|]. split; [exact A|]. split; [exact B|]. split; [exact P0|]. split; [exact D|]. split; [exact C|]. split; [exact O|]. split; [exact P|exact J].
Qed.

Lemma st_SLock : forall T spur s w l cur y p s1, SI s -> s_th s T = SLock w l cur y -> TI T s (SLock w l cur y) ->
  step1 key top maxl false T spur (SLock w l cur y) s = Some (p, s1) -> Good T s p s1.
Proof.
  intros T spur s w l cur y p s1 I Ht J H. cbn [TI] in J. unfold step1 in H. assert (Hp : plain (s_th s T)) by (rewrite Ht; exact Logic.I).
  destruct (lck_job T s w l cur y J) as (n & EJ & Un & Ln & Pl & Nl & K1 & K2 & Oy & Ok & (P0 & PV & PM & PC) & Jo). destruct (w_top_job w n EJ) as [Wt Wn]. rewrite Wt in H.
  destruct ((l <? top n) && (w_prev w (l + 1) =? cur)) eqn:D.
  - injection H as <- <-. apply andb_prop in D. destruct D as [D1 D2]. apply Nat.ltb_lt in D1. apply Nat.eqb_eq in D2.
    apply quiet; [exact I|eqm_tac|exact Hp|]. cbn [TI]. split; [|right; rewrite Wn; repeat split; [lia|exact D2]]. split; [exact J|].
    destruct (PV (l + 1) ltac:(lia) ltac:(lia)) as ((X & _) & _). rewrite D2 in X. exact X.
  - destruct (s_own s cur) as [o|] eqn:O.
    { injection H as H. apply (quiet_clear _ _ _ _ _ _ _ _ I Hp) in H; [exact H|apply (srch_clr _ _ _ _ _ (proj1 J))|eqm_tac]. }
    cbn [negb andb] in H. injection H as <- <-. split; [|split].
    + apply (SI_quiet2 T _ s); try reflexivity; try assumption. cbn. intros x U X. destruct (Nat.eq_dec x cur) as [->|Nx].
      * right. destruct Ok as [Ok|(Ok1 & _ & Ok2)]; [left; exact Ok|right; split; assumption].
      * left. rewrite upd_ne in X by exact Nx. exact X.
    + assert (F : Fr (S T) s (after_ T (SVal1 w l cur y l) (touch cur (set_own (upd (s_own s) cur (Some T)) s)))) by (apply (Fr_acq (S T) s _ cur T); try reflexivity; exact O).
      cbn [TI]. split; [|left; reflexivity]. split; [apply (lck_fr (S T) T s _ F); [lia|exact J]|]. cbn. apply upd_eq.
    + apply (Fr_acq T s _ cur T); try reflexivity; exact O.
Qed.

Lemma st_SVal1 : forall T spur s w l cur y ll p s1, SI s -> s_th s T = SVal1 w l cur y ll -> TI T s (SVal1 w l cur y ll) ->
  step1 key top maxl false T spur (SVal1 w l cur y ll) s = Some (p, s1) -> Good T s p s1.
Proof.
  intros T spur s w l cur y ll p s1 I Ht [J L] H. unfold step1 in H. assert (Hp : plain (s_th s T)) by (rewrite Ht; exact Logic.I).
  destruct (fl s cur) eqn:F.
  - injection H as <- <-. apply quiet; [exact I|eqm_tac|exact Hp|]. cbn [TI]. auto.
  - injection H as H. apply (quiet_clear _ _ _ _ _ _ _ _ I Hp) in H; [exact H|apply (lkd_clr2 _ _ _ _ _ _ _ J L)|eqm_tac].
Qed.

Lemma st_SVal2 : forall T spur s w l cur y ll p s1, SI s -> s_th s T = SVal2 w l cur y ll -> TI T s (SVal2 w l cur y ll) ->
  step1 key top maxl false T spur (SVal2 w l cur y ll) s = Some (p, s1) -> Good T s p s1.
Proof.
  intros T spur s w l cur y ll p s1 I Ht (J & L & Fc) H. unfold step1 in H. assert (Hp : plain (s_th s T)) by (rewrite Ht; exact Logic.I).
  destruct (fl s y) eqn:F.
  - destruct (w_job w) eqn:EJ.
    + injection H as <- <-. apply quiet; [exact I|eqm_tac|exact Hp|]. cbn [TI]. unfold isins. rewrite EJ. auto.
    + injection H as <- <-. apply quiet; [exact I|eqm_tac|exact Hp|]. cbn [TI]. unfold isins. rewrite EJ. split; [exact J|]. split; [exact Fc|discriminate].
    + injection H as <- <-. apply quiet; [exact I|eqm_tac|exact Hp|]. cbn [TI]. unfold isins. rewrite EJ. split; [exact J|]. split; [exact Fc|discriminate].
    + injection H as <- <-. apply quiet; [exact I|eqm_tac|exact Hp|]. cbn [TI]. unfold isins. rewrite EJ. split; [exact J|]. split; [exact Fc|discriminate].
  - injection H as H. apply (quiet_clear _ _ _ _ _ _ _ _ I Hp) in H; [exact H|apply (lkd_clr2 _ _ _ _ _ _ _ J L)|eqm_tac].
Qed.

Lemma st_SStore : forall T spur s w l cur y p s1, SI s -> s_th s T = SStore w l cur y -> TI T s (SStore w l cur y) ->
  step1 key top maxl false T spur (SStore w l cur y) s = Some (p, s1) -> Good T s p s1.
Proof.
  intros T spur s w l cur y p s1 I Ht (J & Fc & Is) H. unfold step1 in H. assert (Hp : plain (s_th s T)) by (rewrite Ht; exact Logic.I). injection H as <- <-.
  unfold isins in Is. destruct (w_job w) as [n d|n|q m|n] eqn:EJ; try discriminate. assert (Wn : w_node w = n) by (unfold w_node; rewrite EJ; reflexivity). rewrite Wn.
  assert (Jn : s_ph s n = Ins T 0 /\ user n) by (destruct J as [[((_ & J) & _) _] _]; rewrite EJ in J; tauto). destruct Jn as [Jn Un].
  assert (NO : forall U, s_own s n <> Some U).
  { intros U X. destruct (si_own s I n U X) as [X2|[_ X2]]; [destruct (user_head _ Un X2)|rewrite Jn in X2; exact X2]. }
  split; [|split].
  - apply (SI_quiet2 T _ s); try reflexivity; try assumption.
    + cbn. intros l' x [ -> |(A & _ & B)].
      * apply upd2_ne. left. intros X. symmetry in X. exact (user_head _ Un X).
      * apply upd2_ne. left. intros ->. rewrite Jn in B. lia.
    + cbn. auto.
  - cbn [TI]. assert (Xk : forall x k, (key x < key n)%N -> upd2 (s_nx s) n l y x k = s_nx s x k) by (intros x k X; apply upd2_ne; left; intros ->; lia).
    split; [|split; [exact Fc|intros _; cbn; rewrite Wn; apply upd2_eq]]. destruct J as [[(J0 & J1 & J2) J3] J4]. split; [|exact J4]. split; [|exact J3].
    assert (J0' : jobok T (after_ T (ARead w l cur y) (set_nx (upd2 (s_nx s) n l y) s)) w) by (destruct J0 as [J0 J0']; split; [cbn; lia|exact J0']).
    split; [exact J0'|]. split; [exact J1|]. rewrite EJ in J2 |- *. destruct J2 as (K & V & M). split; [exact K|]. split; [|exact M].
    intros k A B. destruct (V k A B) as (V1 & [V2 V2'] & V3). split; [exact V1|]. split.
    + split; [|exact V2']. cbn. rewrite upd2_ne by (right; lia). exact V2.
    + cbn. rewrite Xk; [exact V3|apply V1].
  - constructor; intros *; unfold fl, after_; cbn [s_nx s_ph s_own s_born s_died s_clk set_clk set_th set_nx]; auto.
    + intros D X. apply upd2_ne. left. intros ->. exact (NO _ X).
    + intros D X. apply upd2_ne. left. intros ->. congruence.
Qed.

Lemma st_ARead : forall T spur s w l cur y p s1, SI s -> s_th s T = ARead w l cur y -> TI T s (ARead w l cur y) ->
  step1 key top maxl false T spur (ARead w l cur y) s = Some (p, s1) -> Good T s p s1.
Proof.
  intros T spur s w l cur y p s1 I Ht (J & Fc & Is) H. unfold step1 in H. assert (Hp : plain (s_th s T)) by (rewrite Ht; exact Logic.I).
  destruct (s_wl s cur); [discriminate|]. rewrite Fc in H. injection H as <- <-. apply quiet; [exact I|eqm_tac|exact Hp|]. cbn [TI]. auto.
Qed.

Lemma st_AGot : forall T spur s w l cur y z p s1, Inv s -> s_th s T = AGot w l cur y z -> TI T s (AGot w l cur y z) ->
  step1 key top maxl false T spur (AGot w l cur y z) s = Some (p, s1) -> Good T s p s1.
Proof.
  intros T spur s w l cur y z p s1 [I IT] Ht (J & Fc & Is & Zz) H. unfold step1 in H. assert (Hp : plain (s_th s T)) by (rewrite Ht; exact Logic.I).
  assert (J' := proj1 J). destruct (lck_job T s w l cur y J') as (n & EJ & Un & Ln & Pl & Nl & K1 & K2 & Oy & Ok & (P0 & PV & PM & PC) & Jo).
  destruct (w_top_job w n EJ) as [Wt Wn]. rewrite Wn in *.
  assert (At := okp_at s l cur Ok Fc).
  assert (Er : isins w = false -> s_own s n = Some T /\ fl s n = true).
  { intros X. unfold isins in X. destruct Jo as [_ Jo]. destruct EJ as [E|[d E]]; rewrite E in X, Jo; [tauto|discriminate]. }
  assert (Fz : fl s z = true).
  { destruct Zz as [<-|(X & X1 & X2)]; [apply (succ_live s T l cur (conj I IT) At (proj2 J) Hp)|]. destruct (Er X) as [Er1 Er2]. rewrite <- X2.
    apply (succ_live s T l n (conj I IT)); [right; apply live_linked; assumption|exact Er1|exact Hp]. }
  rewrite Fz in H. cbn [andb] in H. destruct (wanted w z) eqn:W; cbn [negb] in H.
  - injection H as <- <-. apply quiet; [exact I|eqm_tac|exact Hp|]. cbn [TI]. unfold wanted in W. destruct (w_job w) as [n' d|n'|q m|n'] eqn:EJ2; try discriminate.
    apply Nat.eqb_eq in W. assert (n' = n) by (destruct EJ as [E|[d E]]; congruence). subst n' z. assert (X : isins w = false) by (unfold isins; rewrite EJ2; reflexivity).
    split; [exact J|]. split; [exact Fc|]. split; [exact X|]. split; [|symmetry; exact Wn]. destruct Zz as [Z|(_ & Z1 & Z2)]; [exact Z|].
    exfalso. destruct (Er X) as [_ Er2]. destruct (si_nx s I l n (or_intror (live_linked s n l Un Ln Er2))) as (_ & Y & _). rewrite Z2 in Y. lia.
  - destruct (Nat.eqb_spec z y) as [->|Nz].
    2:{ injection H as H. apply (quiet_clear _ _ _ _ _ _ _ _ I Hp) in H; [exact H|apply (lkd_clr _ _ _ _ _ _ J)|eqm_tac]. }
    injection H as H.
    assert (V : ver (isins w) T s n (w_prev w) (w_next w) l).
    { intros k A B. destruct (Nat.eq_dec k l) as [->|Nk]; [|apply PV; lia]. unfold vk, vn. rewrite Pl, Nl. split; [|split].
      - split; [apply J|]. split; [destruct Ok as [Ok|(Ok1 & Ok2 & _)]; [left; exact Ok|right; split; assumption]|]. split; assumption.
      - split; [|exact K2]. destruct (isins w) eqn:X; [apply Is; reflexivity|]. destruct Zz as [Z|(_ & _ & Z)]; [|exact Z]. exfalso. destruct (Er eq_refl) as [_ Er2].
        destruct (si_nx s I l cur At) as (_ & _ & Y). specialize (Y n (live_linked s n l Un Ln Er2) K1). rewrite Z in Y. lia.
      - destruct (isins w) eqn:X; [destruct Zz as [Z|(Z & _)]; [exact Z|discriminate]|]. destruct Zz as [Z|(_ & Z & _)]; [|exact Z]. exfalso. destruct (Er eq_refl) as [_ Er2].
        destruct (si_nx s I l cur At) as (_ & _ & Y). specialize (Y n (live_linked s n l Un Ln Er2) K1). rewrite Z in Y. lia. }
    assert (M := lkd_mono T s w l cur y n J' EJ).
    unfold agreed in H. destruct (Nat.ltb_spec 0 l) as [L|L].
    + injection H as <- <-. apply quiet; [exact I|eqm_tac|exact Hp|]. cbn [TI]. split; [exact Jo|]. split; [apply okp_low, Ok|].
      assert (X : pos (isins w) T s w n (l - 1) cur).
      { unfold pos. replace (l - 1 + 1) with l by lia. split; [exact K1|]. split; [exact V|]. split; [exact M|]. intros _. left.
        replace (l - 1 + 1) with l by lia. exact Pl. }
      unfold isins in X. destruct EJ as [E|[d E]]; rewrite E in X |- *; exact X.
    + assert (l = 0) by lia. subst l. destruct (w_job w) as [n' d|n'|q m|n'] eqn:EJ2.
      * assert (n' = n) by (destruct EJ as [E|[d' E]]; congruence). subst n'. injection H as <- <-. apply quiet; [exact I|eqm_tac|exact Hp|]. cbn [TI].
        rewrite Wn. split; [|lia]. unfold linkok. rewrite EJ2. destruct Jo as [Jo1 Jo2]. rewrite EJ2 in Jo2. split; [exact Jo1|]. split; [exact Un|]. split; [apply Jo2|]. split; [exact M|].
        intros j Hj. destruct (V j ltac:(lia) Hj) as (V1 & V2 & V3). split; [exact V1|]. split; [exact V2|]. unfold isins in V3. rewrite EJ2 in V3. exact V3.
      * assert (n' = n) by (destruct EJ as [E|[d' E]]; congruence). subst n'. injection H as <- <-. apply quiet; [exact I|eqm_tac|exact Hp|]. cbn [TI]. rewrite EJ2.
        unfold isins in V. rewrite EJ2 in V. auto.
      * destruct EJ as [E|[d E]]; discriminate.
      * destruct EJ as [E|[d E]]; discriminate.
Qed.

Lemma st_ASkip : forall T spur s w l cur y z p s1, SI s -> s_th s T = ASkip w l cur y z -> TI T s (ASkip w l cur y z) ->
  step1 key top maxl false T spur (ASkip w l cur y z) s = Some (p, s1) -> Good T s p s1.
Proof.
  intros T spur s w l cur y z p s1 I Ht (J & Fc & Is & Z1 & Z2) H. unfold step1 in H. assert (Hp : plain (s_th s T)) by (rewrite Ht; exact Logic.I).
  destruct (lck_job T s w l cur y (proj1 J)) as (n & EJ & Un & Ln & Pl & Nl & K1 & K2 & Oy & Ok & _ & Jo). destruct (w_top_job w n EJ) as [Wt Wn].
  assert (Er : fl s n = true).
  { unfold isins in Is. destruct Jo as [_ Jo]. destruct EJ as [E|[d E]]; rewrite E in Is, Jo; [apply Jo|discriminate]. }
  assert (Zn : z = n) by congruence. clear Z2. rewrite Zn in H, Z1. clear Zn z Ht. destruct (s_wl s n); [discriminate|]. rewrite Er in H. destruct (Nat.eqb_spec n tail) as [->|N]; [destruct (user_tail _ Un eq_refl)|].
  injection H as <- <-. apply quiet; [exact I|eqm_tac|exact Hp|]. cbn [TI]. split; [exact J|]. split; [exact Fc|]. split; [rewrite Is; discriminate|].
  right. rewrite Wn. auto.
Qed.

Lemma clrok_next : forall T s w k a, clrok T s w k a -> clrok T s w (k + 1) a.
Proof.
  intros T s w k a [H0 H]. split; [exact H0|]. destruct (w_job w) as [n d|n|q m|n]; try exact H.
  - destruct H as (A & B & C). split; [intros j X Y; apply A; lia|]. split; [intros i j X Y Z; apply B; lia|exact C].
  - destruct H as (A & B & C). split; [intros j X Y; apply A; lia|]. split; [intros i j X Y Z; apply B; lia|exact C].
Qed.

Lemma mono_ne : forall n P k j, mono n P k -> k < j -> j <= top n -> (k = top n \/ P k <> P (k + 1)) -> P j <> P k.
Proof.
  intros n P k j M A B D. destruct D as [D|D]; [lia|]. destruct (M k (k + 1) ltac:(lia) ltac:(lia) ltac:(lia)) as [X|X]; [congruence|].
  destruct (Nat.eq_dec j (k + 1)) as [->|N]; [congruence|]. destruct (M (k + 1) j ltac:(lia) ltac:(lia) B) as [Y|Y]; [congruence|]. intros E. rewrite E in Y. lia.
Qed.

Lemma holds_rel : forall T s n P k x, holds T s n P k -> mono n P k -> x = P k -> k <= top n -> (k = top n \/ P k <> P (k + 1)) ->
  holds T (set_own (upd (s_own s) x None) s) n P (k + 1).
Proof.
  intros T s n P k x Hh M -> L D j A B. destruct (Hh j ltac:(lia) B) as [H1 H2]. split; [|exact H2]. cbn.
  rewrite upd_ne; [exact H1|]. apply (mono_ne n P k j M); [lia|exact B|exact D].
Qed.

Lemma good_clear : forall T s w k a s0 s1 p s2, SI s -> plain (s_th s T) -> eqm s0 s1 ->
  s_nx s0 = s_nx s -> s_ph s0 = s_ph s -> s_born s0 = s_born s -> s_died s0 = s_died s -> s_clk s0 = s_clk s -> s_th s0 = s_th s ->
  (forall x U, s_own s0 x = Some U -> s_own s x = Some U) -> (forall p, Fr T s (after_ T p s0)) ->
  clrok T s0 w k a -> clear key top w k a s1 = (p, s2) -> Good T s p s2.
Proof.
  intros T s w k a s0 s1 p s2 I Hp E E1 E2 E3 E4 E5 E6 E7 F C H.
  assert (I0 : SI s0).
  { apply (SI_gen s); try assumption; rewrite ?E5, ?E6; try lia.
    - intros l x _. rewrite E1. reflexivity.
    - intros x U X. left. apply E7, X.
    - apply (si_ins s I).
    - apply (si_del s I). }
  destruct (clear_ok T s0 w k a s1 C I0) as [A B]; [apply E|]. rewrite H in A, B. cbn [fst snd] in A, B. assert (E' := eqm_tr s0 s1 s2 E B). clear E B. rename E' into E.
  destruct (quiet T p s0 s2 I0 E) as (Q1 & Q2 & _); [rewrite E6; exact Hp|exact A|]. split; [exact Q1|]. split; [exact Q2|].
  specialize (F p). destruct E as (G1 & G2 & G3 & G4 & G5 & G6 & G7).
  destruct F; constructor; unfold fl in *; cbn in *; rewrite ?G1, ?G2, ?G3, ?G4, ?G5, ?G6; assumption.
Qed.

Lemma st_Clr : forall T spur s w k a p s1, SI s -> s_th s T = Clr w k a -> TI T s (Clr w k a) ->
  step1 key top maxl false T spur (Clr w k a) s = Some (p, s1) -> Good T s p s1.
Proof.
  intros T spur s w k a p s1 I Ht [J L] H. unfold step1 in H. assert (Hp : plain (s_th s T)) by (rewrite Ht; exact Logic.I).
  cbn [negb andb] in H. rewrite andb_true_r in H.
  destruct ((k =? w_top top w) || negb (w_prev w k =? w_prev w (k + 1))) eqn:D.
  2:{ injection H as H. apply (quiet_clear _ _ _ _ _ _ _ _ I Hp) in H; [exact H|apply clrok_next, J|eqm_tac]. }
  injection H as H.
  assert (D' : k = w_top top w \/ w_prev w k <> w_prev w (k + 1)).
  { apply orb_prop in D. destruct D as [D|D]; [left; apply Nat.eqb_eq, D|right]. apply negb_true_iff, Nat.eqb_neq in D. exact D. }
  assert (X : s_own s (w_prev w k) = Some T /\ clrok T (set_own (upd (s_own s) (w_prev w k) None) s) w (k + 1) a).
  { destruct J as [J0 J]. destruct (w_job w) as [n d|n|q m|n] eqn:E; [| |destruct L|destruct L].
    - assert (Wt : w_top top w = top n) by (unfold w_top, w_node; rewrite E; reflexivity). rewrite Wt in D'. destruct J as (J1 & J2 & J3).
      split; [apply J1; lia|]. split; [exact J0|]. rewrite E. split; [apply (holds_rel T s n _ k); auto|]. split; [intros i j X Y Z; apply J2; lia|].
      destruct a; [|exact J3]. destruct J3 as [J3 J4]. split; [exact J3|]. rewrite E in J4 |- *. exact J4.
    - assert (Wt : w_top top w = top n) by (unfold w_top, w_node; rewrite E; reflexivity). rewrite Wt in D'. destruct J as (J1 & J2 & J3 & J4 & J5).
      destruct (J1 k ltac:(lia) L) as [O1 O2]. split; [exact O1|]. split; [exact J0|]. rewrite E. split; [apply (holds_rel T s n _ k); auto|]. split; [intros i j X Y Z; apply J2; lia|].
      split; [exact J3|]. split; [|exact J5]. cbn. rewrite upd_ne; [exact J4|]. intros X. rewrite X in O2. lia. }
  destruct X as [X1 X2].
  apply (good_clear T s w (k + 1) a (set_own (upd (s_own s) (w_prev w k) None) s) _ p s1 I Hp) in H; try reflexivity; [exact H|eqm_tac| | |exact X2].
  - cbn. intros x U Y. destruct (Nat.eq_dec x (w_prev w k)) as [->|N]; [rewrite upd_eq in Y; discriminate|]. rewrite upd_ne in Y by exact N. exact Y.
  - intros p'. apply (Fr_rel s _ (w_prev w k)); try reflexivity. exact X1.
Qed.

Lemma st_IUnl : forall T spur s w p s1, SI s -> s_th s T = IUnl w -> TI T s (IUnl w) -> step1 key top maxl false T spur (IUnl w) s = Some (p, s1) -> Good T s p s1.
Proof.
  intros T spur s w p s1 I Ht J H. unfold step1 in H. assert (Hp : plain (s_th s T)) by (rewrite Ht; exact Logic.I). injection H as <- <-.
  apply quiet; [exact I|eqm_tac|exact Hp|exact J].
Qed.

Lemma st_Cnt : forall T spur s w add p s1, SI s -> s_th s T = Cnt w add -> TI T s (Cnt w add) -> step1 key top maxl false T spur (Cnt w add) s = Some (p, s1) -> Good T s p s1.
Proof.
  intros T spur s w add p s1 I Ht J H. unfold step1 in H. assert (Hp : plain (s_th s T)) by (rewrite Ht; exact Logic.I). injection H as <- <-.
  apply quiet; [exact I|eqm_tac|exact Hp|exact J].
Qed.

Lemma st_Scan : forall T spur s w ii p s1, SI s -> s_th s T = Scan w ii -> TI T s (Scan w ii) -> step1 key top maxl false T spur (Scan w ii) s = Some (p, s1) -> Good T s p s1.
Proof.
  intros T spur s w ii p s1 I Ht J H. unfold step1 in H. assert (Hp : plain (s_th s T)) by (rewrite Ht; exact Logic.I). cbn [TI] in J.
  assert (C : clrok T s w 0 (Fin ROk)) by (unfold postok in J; destruct (w_job w); try destruct J; split; assumption). destruct ii as [|i].
  - injection H as H. apply (quiet_clear _ _ _ _ _ _ _ _ I Hp) in H; [exact H|exact C|eqm_tac].
  - destruct (0 <? s_cnt s i).
    + injection H as H. apply (quiet_clear _ _ _ _ _ _ _ _ I Hp) in H; [exact H|exact C|eqm_tac].
    + injection H as <- <-. apply quiet; [exact I|eqm_tac|exact Hp|exact J].
Qed.

Lemma st_ERm : forall T spur s w p s1, SI s -> s_th s T = ERm w -> TI T s (ERm w) -> step1 key top maxl false T spur (ERm w) s = Some (p, s1) -> Good T s p s1.
Proof.
  intros T spur s w p s1 I Ht J H. unfold step1 in H. assert (Hp : plain (s_th s T)) by (rewrite Ht; exact Logic.I). cbn [TI] in J. destruct (s_rm s (w_node w)).
  - apply some_inj in H. apply (finish_good T s w RGone s p s1 I Hp (eqm_refl s)) in H; [exact H|]. destruct J as [J0 J]. destruct (w_job w); try destruct J. split; [exact J0|]. split; [lia|exact Logic.I].
  - injection H as <- <-. apply quiet; [exact I|eqm_tac|exact Hp|exact J].
Qed.

Lemma st_ECas : forall T spur s w p s1, SI s -> s_th s T = ECas w -> TI T s (ECas w) -> step1 key top maxl false T spur (ECas w) s = Some (p, s1) -> Good T s p s1.
Proof.
  intros T spur s w p s1 I Ht J H. unfold step1 in H. assert (Hp : plain (s_th s T)) by (rewrite Ht; exact Logic.I). cbn [TI] in J. destruct (s_own s (w_node w)) eqn:O.
  - injection H as <- <-. apply quiet; [exact I|eqm_tac|exact Hp|exact J].
  - cbn [negb andb] in H. injection H as <- <-. destruct J as [J0 J]. unfold w_node in *. destruct (w_job w) as [n d|n|q m|n] eqn:E; try destruct J. destruct H0 as [H0 _]. split; [|split].
    + apply (SI_quiet2 T _ s); try reflexivity; try assumption. cbn. intros x U X. destruct (Nat.eq_dec x n) as [->|Nx].
      * right. right. split; assumption.
      * left. rewrite upd_ne in X by exact Nx. exact X.
    + cbn [TI]. split; [cbn; lia|]. rewrite E. split; [assumption|]. split; [exact H0|]. intros _. cbn. apply upd_eq.
    + apply (Fr_acq T s _ n T); try reflexivity; exact O.
Qed.

Lemma st_ESet : forall T spur s w p s1, SI s -> s_th s T = ESet w -> TI T s (ESet w) -> step1 key top maxl false T spur (ESet w) s = Some (p, s1) -> Good T s p s1.
Proof.
  intros T spur s w p s1 I Ht J H. unfold step1 in H. assert (Hp : plain (s_th s T)) by (rewrite Ht; exact Logic.I). injection H as <- <-.
  apply quiet; [exact I|eqm_tac|exact Hp|exact J].
Qed.

Lemma st_ECheck : forall T spur s w p s1, SI s -> s_th s T = ECheck w -> TI T s (ECheck w) -> step1 key top maxl false T spur (ECheck w) s = Some (p, s1) -> Good T s p s1.
Proof.
  intros T spur s w p s1 I Ht J H. unfold step1 in H. assert (Hp : plain (s_th s T)) by (rewrite Ht; exact Logic.I). cbn [TI] in J. destruct (fl s (w_node w)) eqn:F.
  - injection H as <- <-. apply quiet; [exact I|eqm_tac|exact Hp|]. cbn [TI]. destruct J as [J0 J]. unfold w_node in F. destruct (w_job w) as [n d|n|q m|n] eqn:E; try destruct J.
    split; [|exact Logic.I]. split; [exact J0|]. rewrite E. destruct H0 as [_ H0]. auto.
  - injection H as <- <-. apply quiet; [exact I|eqm_tac|exact Hp|exact J].
Qed.

Lemma rel_good : forall T s w r s1 p s2 n, SI s -> plain (s_th s T) -> s_own s n = Some T -> eqm (set_own (upd (s_own s) n None) s) s1 ->
  doneok s (w_t0 w) (s_clk s) (w_job w) r -> finish w r s1 = (p, s2) -> Good T s p s2.
Proof.
  intros T s w r s1 p s2 n I Hp O E D H. unfold finish in H. injection H as <- <-. destruct E as (E1 & E2 & E3 & E4 & E5 & E6 & E7). cbn in E1, E2, E3, E4, E5, E6, E7.
  split; [|split].
  - apply (SI_quiet2 T _ s); try assumption.
    + intros l x _. rewrite E1. reflexivity.
    + rewrite E3. intros x U Y. left. destruct (Nat.eq_dec x n) as [->|N]; [rewrite upd_eq in Y; discriminate|]. rewrite upd_ne in Y by exact N. exact Y.
  - cbn [TI]. rewrite E6. set (s' := after_ _ _ s1). assert (F : Fr T s s') by (apply (Fr_rel s s1 n T); assumption).
    apply (done_fr T (S T) s); [exact F|lia|exact D].
  - apply (Fr_rel s s1 n T); assumption.
Qed.

Lemma st_EBack : forall T spur s w p s1, SI s -> s_th s T = EBack w -> TI T s (EBack w) -> step1 key top maxl false T spur (EBack w) s = Some (p, s1) -> Good T s p s1.
Proof.
  intros T spur s w p s1 I Ht J H. unfold step1 in H. assert (Hp : plain (s_th s T)) by (rewrite Ht; exact Logic.I). cbn [TI] in J. destruct J as [J0 J].
  unfold w_node in H. destruct (w_job w) as [n d|n|q m|n] eqn:E; try destruct J. destruct H1 as [_ H1]. apply some_inj in H.
  apply (rel_good T s w RGone _ p s1 n I Hp (H1 eq_refl)) in H; [exact H|eqm_tac|]. rewrite E. split; [exact J0|]. split; [lia|exact Logic.I].
Qed.

Lemma st_EFin : forall T spur s w p s1, SI s -> s_th s T = EFin w -> TI T s (EFin w) -> step1 key top maxl false T spur (EFin w) s = Some (p, s1) -> Good T s p s1.
Proof.
  intros T spur s w p s1 I Ht J H. unfold step1 in H. assert (Hp : plain (s_th s T)) by (rewrite Ht; exact Logic.I). cbn [TI] in J.
  unfold w_node in H. destruct (w_job w) as [n d|n|q m|n] eqn:E; try destruct J. destruct H1 as (H1 & dd & H2 & H3). apply some_inj in H.
  apply (rel_good T s w ROk _ p s1 n I Hp H1) in H; [exact H|eqm_tac|]. rewrite E. split; [assumption|]. split; [lia|]. exists dd. split; [exact H2|].
  destruct (si_died s I n dd H2). lia.
Qed.

(** ** Steps that change links and phases *)

Lemma st_ILink : forall T spur s w k p s1, SI s -> s_th s T = ILink w k -> TI T s (ILink w k) -> step1 key top maxl false T spur (ILink w k) s = Some (p, s1) -> Good T s p s1.
Proof.
  intros T spur s w k p s1 I Ht [J Lk] H. unfold step1 in H. unfold linkok in J. destruct (w_job w) as [n d|n|q m|n] eqn:E; try (exfalso; exact J).
  assert (Wn : w_node w = n) by (unfold w_node; rewrite E; reflexivity). rewrite Wn in *. destruct J as (J0 & Un & Pn & M & V).
  destruct (V k Lk) as ((O & B & Fc & K1) & (Nn & K2) & Nk). rewrite Nat.ltb_irrefl in Nk. assert (At : at_ s k (w_prev w k)) by (apply (vk_at T s n); repeat split; assumption).
  destruct (s_wl s (w_prev w k)); [discriminate|]. rewrite Nk, Nat.eqb_refl in H. cbn [negb andb] in H. set (c := w_prev w k) in *.
  assert (Hp : (p = ILink w (k + 1) /\ k < top n \/ p = IFull w /\ k = top n) /\ s1 = touch c (set_ph (upd (s_ph s) n (Ins T (k + 1))) (set_nx (upd2 (s_nx s) c k n) s))).
  { apply some_inj in H. destruct (Nat.ltb_spec k (top n)) as [L|L]; injection H as <- <-; (split; [|reflexivity]).
    - left. split; [reflexivity|exact L].
    - right. split; [reflexivity|lia]. }
  destruct Hp as [Hp ->]. clear H. unfold Good. set (s1 := touch c _). set (s' := after_ T p s1).
  assert (Xn : s_nx s' = upd2 (s_nx s) c k n) by reflexivity. assert (Xp : s_ph s' = upd (s_ph s) n (Ins T (k + 1))) by reflexivity.
  assert (Xo : s_own s' = s_own s) by reflexivity. assert (Xt : s_th s' = upd (s_th s) T p) by reflexivity.
  assert (Xc : s_clk s' = s_clk s + 1) by reflexivity. assert (Xb : s_born s' = s_born s) by reflexivity. assert (Xd : s_died s' = s_died s) by reflexivity.
  clearbody s'. clear s1.
  assert (Pe : forall x, x <> n -> s_ph s' x = s_ph s x) by (intros x N; rewrite Xp; apply upd_ne, N).
  assert (Cn : forall x, (key x < key n)%N -> x <> n) by (intros x X ->; lia).
  assert (Lk1 : forall x l, linked s' x l -> linked s x l \/ x = n /\ l = k).
  { intros x l (A1 & A2 & A3). destruct (Nat.eq_dec x n) as [->|N].
    - rewrite Xp, upd_eq in A3. destruct (Nat.eq_dec l k) as [->|Nl]; [right; split; reflexivity|left]. split; [exact A1|]. split; [exact A2|]. rewrite Pn. lia.
    - left. split; [exact A1|]. split; [exact A2|]. rewrite <- (Pe x N). exact A3. }
  assert (Lk2 : forall x l, linked s x l -> linked s' x l).
  { intros x l (A1 & A2 & A3). split; [exact A1|]. split; [exact A2|]. destruct (Nat.eq_dec x n) as [->|N].
    - rewrite Xp, upd_eq. rewrite Pn in A3. lia.
    - rewrite (Pe x N). exact A3. }
  assert (Lkn : linked s' n k) by (split; [exact Un|]; split; [exact Lk|]; rewrite Xp, upd_eq; lia).
  assert (NLn : ~ linked s n k) by (intros (_ & _ & X); rewrite Pn in X; lia).
  destruct (si_nx s I k c At) as (F1 & F2 & F3). rewrite Nk in F1, F2, F3.
  assert (Tail2 : forall y l, y = tail \/ linked s y l -> y = tail \/ linked s' y l) by (intros y l [X|X]; [left; exact X|right; apply Lk2, X]).
  assert (Pn' : forall x, past (s_ph s x) -> x <> n) by (intros x X ->; rewrite Pn in X; exact X).
  assert (Wo : forall x U, s_own s x = Some U -> x <> n).
  { intros x U X ->. destruct (si_own s I n U X) as [Y|[_ Y]]; [exact (user_head _ Un Y)|exact (Pn' n Y eq_refl)]. }
  split; [|split].
  - constructor; rewrite ?Xo, ?Xb, ?Xd, ?Xc.
    + intros l x Hx. destruct (Nat.eq_dec l k) as [->|Nl].
      * destruct (Nat.eq_dec x c) as [->|Nc].
        -- rewrite Xn, upd2_eq. split; [right; exact Lkn|]. split; [exact K1|]. intros z Hz Kz. destruct (Lk1 z k Hz) as [Z|[-> _]]; [specialize (F3 z Z Kz); lia|lia].
        -- rewrite Xn, upd2_ne by (left; exact Nc). destruct (Nat.eq_dec x n) as [->|Nx].
           ++ rewrite Nn. split; [apply Tail2, F1|]. split; [exact K2|]. intros z Hz Kz. destruct (Lk1 z k Hz) as [Z|[-> _]]; [|lia]. apply F3; [exact Z|lia].
           ++ assert (Ax : at_ s k x) by (destruct Hx as [Hx|Hx]; [left; exact Hx|right; destruct (Lk1 x k Hx) as [Z|[-> _]]; [exact Z|congruence]]).
              destruct (si_nx s I k x Ax) as (G1 & G2 & G3). split; [apply Tail2, G1|]. split; [exact G2|]. intros z Hz Kz. destruct (Lk1 z k Hz) as [Z|[-> _]]; [apply G3; assumption|].
              destruct (N.lt_trichotomy (key x) (key c)) as [Y|[Y|Y]].
              ** destruct At as [Ac|Ac]; [rewrite Ac, key_head in Y; lia|]. specialize (G3 c Ac Y). lia.
              ** destruct Nc. apply (key_inj0 s k); assumption.
              ** destruct Ax as [->|Ax]; [rewrite key_head in Y; lia|]. specialize (F3 x Ax Y). lia.
      * rewrite Xn, upd2_ne by (right; exact Nl).
        assert (Ax : at_ s l x) by (destruct Hx as [Hx|Hx]; [left; exact Hx|right; destruct (Lk1 x l Hx) as [Z|[_ ->]]; [exact Z|congruence]]).
        destruct (si_nx s I l x Ax) as (G1 & G2 & G3). split; [apply Tail2, G1|]. split; [exact G2|]. intros z Hz Kz. apply G3; [|exact Kz].
        destruct (Lk1 z l Hz) as [Z|[_ ->]]; [exact Z|congruence].
    + intros l x y Hx Hy Ke. destruct (Lk1 x l Hx) as [X|[X0 X]], (Lk1 y l Hy) as [Y|[Y0 Y]]; subst.
      * apply (si_uk s I l); assumption.
      * specialize (F3 x X). lia.
      * specialize (F3 y Y). lia.
      * reflexivity.
    + rewrite Pe; [apply (si_head s I)|]. intros X. symmetry in X. exact (user_head _ Un X).
    + rewrite Pe; [apply (si_tail s I)|]. intros X. symmetry in X. exact (user_tail _ Un X).
    + intros z U k0 Hz. rewrite Xt. destruct (Nat.eq_dec z n) as [->|Nz].
      * rewrite Xp, upd_eq in Hz. injection Hz as <- Hk. rewrite upd_eq. exists w. split; [exact Wn|]. rewrite <- Hk. destruct Hp as [[-> _]|[-> _]]; auto.
      * rewrite (Pe z Nz) in Hz. destruct (si_ins s I z U k0 Hz) as (w2 & A1 & A2). destruct (Nat.eq_dec U T) as [->|NU].
        -- rewrite Ht in A2. destruct A2 as [A2|A2]; [injection A2 as <- _; congruence|discriminate].
        -- rewrite upd_ne by exact NU. exists w2. split; assumption.
    + intros z U k0 Hz. rewrite Xt. destruct (Nat.eq_dec z n) as [->|Nz]; [rewrite Xp, upd_eq in Hz; discriminate|].
      rewrite (Pe z Nz) in Hz. destruct (si_del s I z U k0 Hz) as (w2 & A1 & A2). destruct (Nat.eq_dec U T) as [->|NU]; [congruence|].
      rewrite upd_ne by exact NU. exists w2. split; assumption.
    + intros x U X. rewrite (Pe x (Wo x U X)). apply (si_own s I x U X).
    + intros x b X. destruct (si_born s I x b X) as (A1 & A2 & A3). rewrite (Pe x (Pn' x A2)). repeat split; auto; lia.
    + intros x A1 A2. apply (si_past s I x A1). destruct (Nat.eq_dec x n) as [->|Nx]; [rewrite Xp, upd_eq in A2; destruct A2|]. rewrite <- (Pe x Nx). exact A2.
    + intros x b X. destruct (si_died s I x b X) as (A1 & A2 & A3). rewrite (Pe x (Pn' x A2)). repeat split; auto; lia.
    + intros x A1 A2 A3. destruct (Nat.eq_dec x n) as [->|Nx]; [rewrite Xp, upd_eq in A2; destruct A2|]. rewrite (Pe x Nx) in A2, A3. apply (si_dead s I x A1 A2 A3).
  - assert (X : linkok T s' w (k + 1)).
    { unfold linkok. rewrite E, Xc. split; [lia|]. split; [exact Un|]. split; [rewrite Xp; apply upd_eq|]. split; [exact M|].
      intros j Hj. destruct (V j Hj) as ((V1 & V2 & V3 & V4) & (V5 & V6) & V7). split; [|split].
      - split; [rewrite Xo; exact V1|]. split; [exact V2|]. split; [|exact V4]. rewrite (fl_ph s s'); [exact V3|]. apply Pe, Cn, V4.
      - split; [|exact V6]. rewrite Xn, upd2_ne; [exact V5|]. left. intros X. apply (Cn c K1). symmetry. exact X.
      - destruct (Nat.eq_dec j k) as [->|Nj].
        + fold c. rewrite Xn, upd2_eq. destruct (Nat.ltb_spec k (k + 1)); [reflexivity|lia].
        + rewrite Xn, upd2_ne by (right; exact Nj). rewrite V7. destruct (Nat.ltb_spec j k), (Nat.ltb_spec j (k + 1)); try reflexivity; lia. }
    destruct Hp as [[-> L]|[-> ->]]; cbn [TI].
    + split; [exact X|]. rewrite Wn. lia.
    + rewrite Wn. exact X.
  - constructor; rewrite ?Xo, ?Xb, ?Xd, ?Xc; auto.
    + intros x l U NU X. rewrite Xn. apply upd2_ne. left. intros ->. congruence.
    + intros x l U k0 NU X. rewrite Xn. apply upd2_ne. left. intros ->. apply fl_live in Fc. congruence.
    + intros x U k0 NU X. rewrite Pe; [exact X|]. intros ->. congruence.
    + intros x U NU X. apply Pe, (Wo x U X).
    + intros x X. rewrite (Pe x (Pn' x X)). exact X.
    + intros x X. left. rewrite <- (fl_ph s s'); [exact X|]. apply Pe. intros ->. apply fl_live in X. rewrite Xp, upd_eq in X. discriminate.
Qed.

Lemma st_IFull : forall T spur s w p s1, SI s -> s_th s T = IFull w -> TI T s (IFull w) -> step1 key top maxl false T spur (IFull w) s = Some (p, s1) -> Good T s p s1.
Proof.
  intros T spur s w p s1 I Ht J H. unfold step1 in H. cbn [TI] in J. unfold linkok in J. destruct (w_job w) as [n d|n|q m|n] eqn:E; try (exfalso; exact J).
  assert (Wn : w_node w = n) by (unfold w_node; rewrite E; reflexivity). rewrite Wn in *. destruct J as (J0 & Un & Pn & M & V). apply some_inj in H. injection H as <- <-.
  unfold Good. set (s1 := set_born _ _). set (s' := after_ T (IUnl w) s1).
  assert (Xn : s_nx s' = s_nx s) by reflexivity. assert (Xp : s_ph s' = upd (s_ph s) n Live) by reflexivity.
  assert (Xo : s_own s' = s_own s) by reflexivity. assert (Xt : s_th s' = upd (s_th s) T (IUnl w)) by reflexivity.
  assert (Xc : s_clk s' = s_clk s + 1) by reflexivity. assert (Xb : s_born s' = upd (s_born s) n (Some (s_clk s))) by reflexivity. assert (Xd : s_died s' = s_died s) by reflexivity.
  clearbody s'. clear s1.
  assert (Pe : forall x, x <> n -> s_ph s' x = s_ph s x) by (intros x N; rewrite Xp; apply upd_ne, N).
  assert (L : forall x l, linked s x l <-> linked s' x l).
  { intros x l. unfold linked. destruct (Nat.eq_dec x n) as [->|N]; [|rewrite (Pe x N); tauto]. rewrite Xp, upd_eq, Pn. split; intros (A & B & C); repeat split; auto; lia. }
  assert (Pn' : forall x, past (s_ph s x) -> x <> n) by (intros x X ->; rewrite Pn in X; exact X).
  assert (Pm : forall x, past (s_ph s x) -> past (s_ph s' x)) by (intros x X; rewrite (Pe x (Pn' x X)); exact X).
  assert (Bn : forall b, s_born s n <> Some b) by (intros b X; destruct (si_born s I n b X) as (_ & A & _); exact (Pn' n A eq_refl)).
  assert (Dn : forall b, s_died s n <> Some b) by (intros b X; destruct (si_died s I n b X) as (_ & A & _); exact (Pn' n A eq_refl)).
  split; [|split].
  - constructor; rewrite ?Xo, ?Xd, ?Xc.
    + intros l x H. assert (A : at_ s l x) by (destruct H as [H|H]; [left; exact H|right; apply L, H]). rewrite Xn.
      destruct (si_nx s I l x A) as (B & C & D). split; [destruct B as [B|B]; [left; exact B|right; apply L, B]|]. split; [exact C|]. intros z Hz. apply D, L, Hz.
    + intros l x y Hx Hy. apply (si_uk s I l); apply L; assumption.
    + rewrite Pe; [apply (si_head s I)|]. intros X. symmetry in X. exact (user_head _ Un X).
    + rewrite Pe; [apply (si_tail s I)|]. intros X. symmetry in X. exact (user_tail _ Un X).
    + intros z U k0 Hz. rewrite Xt. destruct (Nat.eq_dec z n) as [->|Nz]; [rewrite Xp, upd_eq in Hz; discriminate|].
      rewrite (Pe z Nz) in Hz. destruct (si_ins s I z U k0 Hz) as (w2 & A1 & A2). destruct (Nat.eq_dec U T) as [->|NU].
      -- rewrite Ht in A2. destruct A2 as [A2|A2]; [discriminate|injection A2 as <-; congruence].
      -- rewrite upd_ne by exact NU. exists w2. split; assumption.
    + intros z U k0 Hz. rewrite Xt. destruct (Nat.eq_dec z n) as [->|Nz]; [rewrite Xp, upd_eq in Hz; discriminate|].
      rewrite (Pe z Nz) in Hz. destruct (si_del s I z U k0 Hz) as (w2 & A1 & A2). destruct (Nat.eq_dec U T) as [->|NU]; [congruence|].
      rewrite upd_ne by exact NU. exists w2. split; assumption.
    + intros x U X. destruct (si_own s I x U X) as [Y|[Y1 Y2]]; [left; exact Y|right; split; [exact Y1|apply Pm, Y2]].
    + intros x b X. rewrite Xb in X. destruct (Nat.eq_dec x n) as [->|Nx].
      * rewrite upd_eq in X. injection X as <-. rewrite Xp, upd_eq. repeat split; [exact Un|lia].
      * rewrite upd_ne in X by exact Nx. destruct (si_born s I x b X) as (A1 & A2 & A3). repeat split; auto; lia.
    + intros x A1 A2. rewrite Xb. destruct (Nat.eq_dec x n) as [->|Nx]; [rewrite upd_eq; exists (s_clk s); reflexivity|]. rewrite upd_ne by exact Nx. rewrite (Pe x Nx) in A2. apply (si_past s I x A1 A2).
    + intros x b X. destruct (si_died s I x b X) as (A1 & A2 & A3). rewrite (Pe x (Pn' x A2)). repeat split; auto; lia.
    + intros x A1 A2 A3. destruct (Nat.eq_dec x n) as [->|Nx]; [rewrite Xp, upd_eq in A3; congruence|]. rewrite (Pe x Nx) in A2, A3. apply (si_dead s I x A1 A2 A3).
  - cbn [TI]. unfold postok. rewrite E. split; [rewrite Xc; lia|]. rewrite E. split.
    + intros j _ Hj. destruct (V j Hj) as ((V1 & _ & _ & V4) & _). rewrite Xo. split; assumption.
    + split; [exact M|]. exists (s_clk s). rewrite Xb, upd_eq. split; [reflexivity|exact J0].
  - constructor; rewrite ?Xo, ?Xd, ?Xc, ?Xn; auto.
    + intros x U k0 NU X. rewrite Pe; [exact X|]. intros ->. congruence.
    + intros x U NU X. apply Pe. intros ->. destruct (si_own s I n U X) as [Y|[_ Y]]; [exact (user_head _ Un Y)|exact (Pn' n Y eq_refl)].
    + intros x b X. rewrite Xb. destruct (Nat.eq_dec x n) as [->|Nx]; [destruct (Bn b X)|]. rewrite upd_ne by exact Nx. exact X.
    + intros x b X. rewrite Xb in X. destruct (Nat.eq_dec x n) as [->|Nx]; [rewrite upd_eq in X; injection X as <-; right; reflexivity|]. rewrite upd_ne in X by exact Nx. left. exact X.
    + intros x X. destruct (Nat.eq_dec x n) as [->|Nx]; [right; rewrite Xb; apply upd_eq|left]. rewrite <- (fl_ph s s' x (Pe x Nx)). exact X.
Qed.

Lemma st_EMark : forall T spur s w p s1, SI s -> s_th s T = EMark w -> TI T s (EMark w) -> step1 key top maxl false T spur (EMark w) s = Some (p, s1) -> Good T s p s1.
Proof.
  intros T spur s w p s1 I Ht J H. unfold step1 in H. cbn [TI] in J. destruct (w_job w) as [n d|n|q m|n] eqn:E; try (exfalso; exact J).
  assert (Wn : w_node w = n) by (unfold w_node; rewrite E; reflexivity). rewrite Wn in *. destruct J as ((J0 & J) & V & M). rewrite E in J. destruct J as (Un & On & Fn).
  apply fl_live in Fn. destruct (s_wl s n); [discriminate|]. apply some_inj in H. injection H as <- <-.
  unfold Good. set (s1 := set_died _ _). set (s' := after_ T (EUnl w 0) s1).
  assert (Xn : s_nx s' = s_nx s) by reflexivity. assert (Xp : s_ph s' = upd (s_ph s) n (Del T 0)) by reflexivity.
  assert (Xo : s_own s' = s_own s) by reflexivity. assert (Xt : s_th s' = upd (s_th s) T (EUnl w 0)) by reflexivity.
  assert (Xc : s_clk s' = s_clk s + 1) by reflexivity. assert (Xb : s_born s' = s_born s) by reflexivity. assert (Xd : s_died s' = upd (s_died s) n (Some (s_clk s))) by reflexivity.
  clearbody s'. clear s1.
  assert (Pe : forall x, x <> n -> s_ph s' x = s_ph s x) by (intros x N; rewrite Xp; apply upd_ne, N).
  assert (L : forall x l, linked s x l <-> linked s' x l).
  { intros x l. unfold linked. destruct (Nat.eq_dec x n) as [->|N]; [|rewrite (Pe x N); tauto]. rewrite Xp, upd_eq, Fn. split; intros (A & B & C); repeat split; auto; lia. }
  assert (Pm : forall x, past (s_ph s x) -> past (s_ph s' x)).
  { intros x X. destruct (Nat.eq_dec x n) as [->|N]; [rewrite Xp, upd_eq; exact Logic.I|]. rewrite (Pe x N); exact X. }
  assert (Dn : forall b, s_died s n <> Some b) by (intros b X; destruct (si_died s I n b X) as (_ & _ & A); exact (A Fn)).
  assert (Cn : forall x, (key x < key n)%N -> x <> n) by (intros x X ->; lia).
  split; [|split].
  - constructor; rewrite ?Xo, ?Xb, ?Xc.
    + intros l x H. assert (A : at_ s l x) by (destruct H as [H|H]; [left; exact H|right; apply L, H]). rewrite Xn.
      destruct (si_nx s I l x A) as (B & C & D). split; [destruct B as [B|B]; [left; exact B|right; apply L, B]|]. split; [exact C|]. intros z Hz. apply D, L, Hz.
    + intros l x y Hx Hy. apply (si_uk s I l); apply L; assumption.
    + rewrite Pe; [apply (si_head s I)|]. intros X. symmetry in X. exact (user_head _ Un X).
    + rewrite Pe; [apply (si_tail s I)|]. intros X. symmetry in X. exact (user_tail _ Un X).
    + intros z U k0 Hz. rewrite Xt. destruct (Nat.eq_dec z n) as [->|Nz]; [rewrite Xp, upd_eq in Hz; discriminate|].
      rewrite (Pe z Nz) in Hz. destruct (si_ins s I z U k0 Hz) as (w2 & A1 & A2). destruct (Nat.eq_dec U T) as [->|NU].
      -- rewrite Ht in A2. destruct A2 as [A2|A2]; discriminate.
      -- rewrite upd_ne by exact NU. exists w2. split; assumption.
    + intros z U k0 Hz. rewrite Xt. destruct (Nat.eq_dec z n) as [->|Nz].
      * rewrite Xp, upd_eq in Hz. injection Hz as <- <-. rewrite upd_eq. exists w. split; [exact Wn|reflexivity].
      * rewrite (Pe z Nz) in Hz. destruct (si_del s I z U k0 Hz) as (w2 & A1 & A2). destruct (Nat.eq_dec U T) as [->|NU]; [congruence|].
        rewrite upd_ne by exact NU. exists w2. split; assumption.
    + intros x U X. destruct (si_own s I x U X) as [Y|[Y1 Y2]]; [left; exact Y|right; split; [exact Y1|apply Pm, Y2]].
    + intros x b X. destruct (si_born s I x b X) as (A1 & A2 & A3). repeat split; auto; lia.
    + intros x A1 A2. apply (si_past s I x A1). destruct (Nat.eq_dec x n) as [->|Nx]; [rewrite Fn; exact Logic.I|]. rewrite (Pe x Nx) in A2. exact A2.
    + intros x b X. rewrite Xd in X. destruct (Nat.eq_dec x n) as [->|Nx].
      * rewrite upd_eq in X. injection X as <-. rewrite Xp, upd_eq. repeat split; [lia|discriminate].
      * rewrite upd_ne in X by exact Nx. destruct (si_died s I x b X) as (A1 & A2 & A3). rewrite (Pe x Nx). repeat split; auto; lia.
    + intros x A1 A2 A3. rewrite Xd. destruct (Nat.eq_dec x n) as [->|Nx]; [rewrite upd_eq; exists (s_clk s); reflexivity|]. rewrite upd_ne by exact Nx.
      rewrite (Pe x Nx) in A2, A3. apply (si_dead s I x A1 A2 A3).
  - cbn [TI]. unfold unlok. rewrite E, Xo, Xc, Xp, Xd, !upd_eq. split; [lia|]. split; [exact Un|]. split; [exact On|]. split; [reflexivity|]. split; [lia|]. split; [exact M|].
    split; [exists (s_clk s); split; [reflexivity|exact J0]|].
    intros j Hj. destruct (V j ltac:(lia) Hj) as ((V1 & V2 & V3 & V4) & V5 & V7). split; [|split].
    + split; [rewrite Xo; exact V1|]. split; [exact V2|]. split; [|exact V4]. rewrite (fl_ph s s'); [exact V3|]. apply Pe, Cn, V4.
    + unfold vn. rewrite Xn. exact V5.
    + rewrite Xn. exact V7.
  - constructor; rewrite ?Xo, ?Xb, ?Xc, ?Xn; auto.
    + intros x U k0 NU X. rewrite Pe; [exact X|]. intros ->. congruence.
    + intros x U NU X. apply Pe. intros ->. congruence.
    + intros x b X. rewrite Xd. destruct (Nat.eq_dec x n) as [->|Nx]; [destruct (Dn b X)|]. rewrite upd_ne by exact Nx. exact X.
    + intros x b X. rewrite Xd in X. destruct (Nat.eq_dec x n) as [->|Nx]; [rewrite upd_eq in X; injection X as <-; right; reflexivity|]. rewrite upd_ne in X by exact Nx. left. exact X.
    + intros x X. left. destruct (Nat.eq_dec x n) as [->|Nx]; [apply fl_live in X; rewrite Xp, upd_eq in X; discriminate|]. rewrite <- (fl_ph s s' x (Pe x Nx)). exact X.
Qed.

Lemma st_EUnl : forall T spur s w k p s1, SI s -> s_th s T = EUnl w k -> TI T s (EUnl w k) -> step1 key top maxl false T spur (EUnl w k) s = Some (p, s1) -> Good T s p s1.
Proof.
  intros T spur s w k p s1 I Ht J H. unfold step1 in H. cbn [TI] in J. unfold unlok in J. destruct (w_job w) as [n d|n|q m|n] eqn:E; try (exfalso; exact J).
  assert (Wn : w_node w = n) by (unfold w_node; rewrite E; reflexivity). rewrite Wn in *. destruct J as (J0 & Un & On & Pn & Lk & M & Dd & V).
  destruct (V k Lk) as ((O & B & Fc & K1) & (Nn & K2) & Nk). rewrite Nat.ltb_irrefl in Nk. assert (At : at_ s k (w_prev w k)) by (apply (vk_at T s n); repeat split; assumption).
  destruct (s_wl s (w_prev w k)); [discriminate|]. rewrite Nk, Nat.eqb_refl in H. cbn [negb andb] in H. set (c := w_prev w k) in *. set (e := w_next w k) in *.
  assert (Hp : exists f, (p = EUnl w (k + 1) /\ k < top n /\ f = Del T (k + 1) \/ p = Cnt w false /\ k = top n /\ f = Dead) /\
     s1 = set_ph (upd (s_ph s) n f) (touch c (set_nx (upd2 (s_nx s) c k e) s))).
  { destruct (Nat.ltb_spec k (top n)) as [L|L]; apply some_inj in H; injection H as <- <-; eexists; (split; [|reflexivity]).
    - left. repeat split. exact L.
    - right. repeat split. lia. }
  destruct Hp as (f & Hp & ->). clear H. unfold Good. set (s1 := set_ph _ _). set (s' := after_ T p s1).
  assert (Xn : s_nx s' = upd2 (s_nx s) c k e) by reflexivity. assert (Xp : s_ph s' = upd (s_ph s) n f) by reflexivity.
  assert (Xo : s_own s' = s_own s) by reflexivity. assert (Xt : s_th s' = upd (s_th s) T p) by reflexivity.
  assert (Xc : s_clk s' = s_clk s + 1) by reflexivity. assert (Xb : s_born s' = s_born s) by reflexivity. assert (Xd : s_died s' = s_died s) by reflexivity.
  clearbody s'. clear s1.
  assert (Pe : forall x, x <> n -> s_ph s' x = s_ph s x) by (intros x N; rewrite Xp; apply upd_ne, N).
  assert (Cn : forall x, (key x < key n)%N -> x <> n) by (intros x X ->; lia).
  assert (Lk1 : forall x l, linked s' x l -> linked s x l /\ ~ (x = n /\ l = k)).
  { intros x l (A1 & A2 & A3). destruct (Nat.eq_dec x n) as [->|N].
    - rewrite Xp, upd_eq in A3. split.
      + split; [exact A1|]. split; [exact A2|]. rewrite Pn. destruct Hp as [(_ & _ & ->)|(_ & _ & ->)]; [lia|destruct A3].
      + intros [_ ->]. destruct Hp as [(_ & _ & ->)|(_ & _ & ->)]; [lia|exact A3].
    - split; [|tauto]. split; [exact A1|]. split; [exact A2|]. rewrite <- (Pe x N). exact A3. }
  assert (Lk2 : forall x l, linked s x l -> x <> n \/ l <> k -> linked s' x l).
  { intros x l (A1 & A2 & A3) D. split; [exact A1|]. split; [exact A2|]. destruct (Nat.eq_dec x n) as [->|N].
    - rewrite Xp, upd_eq. rewrite Pn in A3. destruct Hp as [(_ & _ & ->)|(_ & -> & ->)]; lia.
    - rewrite (Pe x N). exact A3. }
  assert (Ln : linked s n k) by (split; [exact Un|]; split; [exact Lk|]; rewrite Pn; lia).
  destruct (si_nx s I k c At) as (_ & _ & F3). rewrite Nk in F3. destruct (si_nx s I k n (or_intror Ln)) as (G1 & _ & G3). rewrite Nn in G1, G3.
  assert (Pm : forall x, past (s_ph s x) -> past (s_ph s' x)).
  { intros x X. destruct (Nat.eq_dec x n) as [->|N]; [rewrite Xp, upd_eq; destruct Hp as [(_ & _ & ->)|(_ & _ & ->)]; exact Logic.I|]. rewrite (Pe x N); exact X. }
  assert (Nfl : f <> Live) by (destruct Hp as [(_ & _ & ->)|(_ & _ & ->)]; discriminate).
  split; [|split].
  - constructor; rewrite ?Xo, ?Xb, ?Xd, ?Xc.
    + intros l x Hx. destruct (Nat.eq_dec l k) as [->|Nl].
      * assert (Ax : at_ s k x /\ x <> n).
        { destruct Hx as [->|Hx]; [split; [left; reflexivity|intros X; symmetry in X; exact (user_head _ Un X)]|].
          destruct (Lk1 x k Hx) as [Z1 Z2]. split; [right; exact Z1|]. intros ->. apply Z2. split; reflexivity. }
        destruct Ax as [Ax Nx]. destruct (Nat.eq_dec x c) as [->|Nc].
        -- rewrite Xn, upd2_eq. split; [destruct G1 as [G1|G1]; [left; exact G1|right; apply Lk2; [exact G1|left; intros X; rewrite X in K2; lia]]|]. split; [lia|].
           intros z Hz Kz. destruct (Lk1 z k Hz) as [Z1 Z2]. specialize (F3 z Z1 Kz). destruct (N.eq_dec (key z) (key n)) as [X|X].
           ++ exfalso. apply Z2. split; [apply (si_uk s I k); assumption|reflexivity].
           ++ apply G3; [exact Z1|lia].
        -- rewrite Xn, upd2_ne by (left; exact Nc). destruct (si_nx s I k x Ax) as (D1 & D2 & D3). split; [|split; [exact D2|]].
           ++ destruct D1 as [D1|D1]; [left; exact D1|right]. apply Lk2; [exact D1|]. left. intros X. apply Nc. apply (one_pred s k x c n I Ax At X Nk).
           ++ intros z Hz. apply D3. apply (Lk1 z k Hz).
      * rewrite Xn, upd2_ne by (right; exact Nl).
        assert (Ax : at_ s l x) by (destruct Hx as [Hx|Hx]; [left; exact Hx|right; apply (Lk1 x l Hx)]).
        destruct (si_nx s I l x Ax) as (D1 & D2 & D3). split; [|split; [exact D2|]].
        -- destruct D1 as [D1|D1]; [left; exact D1|right]. apply Lk2; [exact D1|right; exact Nl].
        -- intros z Hz. apply D3. apply (Lk1 z l Hz).
    + intros l x y Hx Hy. apply (si_uk s I l); [apply (Lk1 x l Hx)|apply (Lk1 y l Hy)].
    + rewrite Pe; [apply (si_head s I)|]. intros X. symmetry in X. exact (user_head _ Un X).
    + rewrite Pe; [apply (si_tail s I)|]. intros X. symmetry in X. exact (user_tail _ Un X).
    + intros z U k0 Hz. rewrite Xt. destruct (Nat.eq_dec z n) as [->|Nz]; [rewrite Xp, upd_eq in Hz; destruct Hp as [(_ & _ & ->)|(_ & _ & ->)]; discriminate|].
      rewrite (Pe z Nz) in Hz. destruct (si_ins s I z U k0 Hz) as (w2 & A1 & A2). destruct (Nat.eq_dec U T) as [->|NU].
      -- rewrite Ht in A2. destruct A2 as [A2|A2]; discriminate.
      -- rewrite upd_ne by exact NU. exists w2. split; assumption.
    + intros z U k0 Hz. rewrite Xt. destruct (Nat.eq_dec z n) as [->|Nz].
      * rewrite Xp, upd_eq in Hz. destruct Hp as [(-> & _ & ->)|(_ & _ & ->)]; [|discriminate]. injection Hz as <- <-. rewrite upd_eq. exists w. split; [exact Wn|reflexivity].
      * rewrite (Pe z Nz) in Hz. destruct (si_del s I z U k0 Hz) as (w2 & A1 & A2). destruct (Nat.eq_dec U T) as [->|NU]; [rewrite Ht in A2; injection A2 as <- _; congruence|].
        rewrite upd_ne by exact NU. exists w2. split; assumption.
    + intros x U X. destruct (si_own s I x U X) as [Y|[Y1 Y2]]; [left; exact Y|right; split; [exact Y1|apply Pm, Y2]].
    + intros x b X. destruct (si_born s I x b X) as (A1 & A2 & A3). repeat split; auto; lia.
    + intros x A1 A2. apply (si_past s I x A1). destruct (Nat.eq_dec x n) as [->|Nx]; [rewrite Pn; exact Logic.I|]. rewrite (Pe x Nx) in A2. exact A2.
    + intros x b X. destruct (si_died s I x b X) as (A1 & A2 & A3). split; [lia|]. split; [apply Pm, A2|]. destruct (Nat.eq_dec x n) as [->|Nx]; [rewrite Xp, upd_eq; exact Nfl|].
      rewrite (Pe x Nx). exact A3.
    + intros x A1 A2 A3. apply (si_dead s I x A1).
      * destruct (Nat.eq_dec x n) as [->|Nx]; [rewrite Pn; exact Logic.I|]. rewrite (Pe x Nx) in A2. exact A2.
      * destruct (Nat.eq_dec x n) as [->|Nx]; [rewrite Pn; discriminate|]. rewrite (Pe x Nx) in A3. exact A3.
  - destruct Hp as [(-> & L & ->)|(-> & -> & ->)]; cbn [TI].
    + unfold unlok. rewrite E, Xo, Xc, Xd. split; [lia|]. split; [exact Un|]. split; [exact On|]. split; [rewrite Xp; apply upd_eq|]. split; [lia|]. split; [exact M|]. split; [exact Dd|].
      intros j Hj. destruct (V j Hj) as ((V1 & V2 & V3 & V4) & (V5 & V6) & V7). split; [|split].
      * split; [rewrite Xo; exact V1|]. split; [exact V2|]. split; [|exact V4]. rewrite (fl_ph s s'); [exact V3|]. apply Pe, Cn, V4.
      * split; [|exact V6]. rewrite Xn, upd2_ne; [exact V5|]. left. intros X. apply (Cn c K1). symmetry. exact X.
      * destruct (Nat.eq_dec j k) as [->|Nj].
        -- fold c e. rewrite Xn, upd2_eq. destruct (Nat.ltb_spec k (k + 1)); [reflexivity|lia].
        -- rewrite Xn, upd2_ne by (right; exact Nj). rewrite V7. destruct (Nat.ltb_spec j k), (Nat.ltb_spec j (k + 1)); try reflexivity; lia.
    + unfold postok. rewrite E. split; [rewrite Xc; lia|]. rewrite E, Xo, Xd. split; [|split; [exact M|split; [exact Un|split; [exact On|exact Dd]]]].
      intros j _ Hj. destruct (V j Hj) as ((V1 & _ & _ & V4) & _). rewrite Xo. split; assumption.
  - constructor; rewrite ?Xo, ?Xb, ?Xd, ?Xc; auto.
    + intros x l U NU X. rewrite Xn. apply upd2_ne. left. intros ->. congruence.
    + intros x l U k0 NU X. rewrite Xn. apply upd2_ne. left. intros ->. apply fl_live in Fc. congruence.
    + intros x U k0 NU X. rewrite Pe; [exact X|]. intros ->. congruence.
    + intros x U NU X. apply Pe. intros ->. congruence.
    + intros x X. left. destruct (Nat.eq_dec x n) as [->|Nx]; [apply fl_live in X; rewrite Xp, upd_eq in X; congruence|]. rewrite <- (fl_ph s s' x (Pe x Nx)). exact X.
Qed.

(** ** The start of a call *)

Lemma start_good : forall T j s p s1, SI s -> guard key (Start T j) -> start T j s = Some (p, s1) -> Good T s p s1.
Proof.
  intros T j s p s1 I G H. unfold start in H. destruct (idle (s_th s T)) eqn:Id; [|discriminate].
  assert (Hp : plain (s_th s T)) by (destruct (s_th s T); try discriminate; exact Logic.I).
  assert (Q : forall p, TI T (after_ T p s) p -> Good T s p s).
  { intros p0 X. split; [apply (SI_quiet T p0 s s I (eqm_refl s) Hp)|]. split; [exact X|]. apply eqm_fr; reflexivity. }
  destruct j as [n d|n|q m|n].
  - destruct (s_ph s n) eqn:Pn; try discriminate. injection H as <- <-.
    assert (Un : user n).
    { unfold user. destruct n as [|[|n]]; [| |lia]; [assert (X := si_head s I); unfold head in X|assert (X := si_tail s I); unfold tail in X]; congruence. }
    set (w := mkW _ _ _ _). set (s1 := set_wl _ _). set (s' := after_ T (Top w) s1).
    assert (Xp : s_ph s' = upd (s_ph s) n (Ins T 0)) by reflexivity. assert (Xt : s_th s' = upd (s_th s) T (Top w)) by reflexivity.
    assert (Pe : forall x, x <> n -> s_ph s' x = s_ph s x) by (intros x N; rewrite Xp; apply upd_ne, N).
    assert (Pn' : forall x, past (s_ph s x) -> x <> n) by (intros x X ->; rewrite Pn in X; exact X).
    assert (Pb : forall x, past (s_ph s' x) -> x <> n) by (intros x X ->; rewrite Xp, upd_eq in X; exact X).
    assert (L : forall x l, linked s x l <-> linked s' x l).
    { intros x l. unfold linked. destruct (Nat.eq_dec x n) as [->|N]; [|rewrite (Pe x N); tauto]. rewrite Xp, upd_eq, Pn. split; intros (A & B & C); [destruct C|lia]. }
    split; [|split].
    + fold s'. constructor.
      * intros l x H. assert (A : at_ s l x) by (destruct H as [H|H]; [left; exact H|right; apply L, H]). change (s_nx s') with (s_nx s).
        destruct (si_nx s I l x A) as (B & C & D). split; [destruct B as [B|B]; [left; exact B|right; apply L, B]|]. split; [exact C|]. intros z Hz. apply D, L, Hz.
      * intros l x y Hx Hy. apply (si_uk s I l); apply L; assumption.
      * rewrite Pe; [apply (si_head s I)|]. intros X. symmetry in X. exact (user_head _ Un X).
      * rewrite Pe; [apply (si_tail s I)|]. intros X. symmetry in X. exact (user_tail _ Un X).
      * intros z U k0 Hz. rewrite Xt. destruct (Nat.eq_dec z n) as [->|Nz]; [rewrite Xp, upd_eq in Hz; discriminate|].
        rewrite (Pe z Nz) in Hz. destruct (si_ins s I z U k0 Hz) as (w2 & A1 & A2). destruct (Nat.eq_dec U T) as [->|NU].
        -- destruct A2 as [A2|A2]; rewrite A2 in Hp; destruct Hp.
        -- rewrite upd_ne by exact NU. exists w2. split; assumption.
      * intros z U k0 Hz. rewrite Xt. destruct (Nat.eq_dec z n) as [->|Nz]; [rewrite Xp, upd_eq in Hz; discriminate|].
        rewrite (Pe z Nz) in Hz. destruct (si_del s I z U k0 Hz) as (w2 & A1 & A2). destruct (Nat.eq_dec U T) as [->|NU]; [rewrite A2 in Hp; destruct Hp|].
        rewrite upd_ne by exact NU. exists w2. split; assumption.
      * intros x U X. change (s_own s') with (s_own s) in X. destruct (si_own s I x U X) as [Y|[Y1 Y2]]; [left; exact Y|right]. rewrite (Pe x (Pn' x Y2)). split; assumption.
      * intros x b X. change (s_born s') with (s_born s) in X. destruct (si_born s I x b X) as (A1 & A2 & A3). rewrite (Pe x (Pn' x A2)). split; [exact A1|]. split; [exact A2|]. cbn. lia.
      * intros x A1 A2. rewrite (Pe x (Pb x A2)) in A2. apply (si_past s I x A1 A2).
      * intros x b X. change (s_died s') with (s_died s) in X. destruct (si_died s I x b X) as (A1 & A2 & A3). rewrite (Pe x (Pn' x A2)). split; [cbn; lia|]. split; assumption.
      * intros x A1 A2 A3. assert (Nx := Pb x A2). rewrite (Pe x Nx) in A2, A3. apply (si_dead s I x A1 A2 A3).
    + fold s'. cbn [TI]. split; [|exact Logic.I]. split; [cbn; lia|]. cbn [w w_job]. split; [exact Un|]. split; [rewrite Xp; apply upd_eq|]. intros ->. exact G.
    + fold s'. constructor; auto.
      * intros x U k0 NU X. rewrite Pe; [exact X|]. intros ->. congruence.
      * intros x U NU X. apply Pe. intros ->. destruct (si_own s I n U X) as [Y|[_ Y]]; [exact (user_head _ Un Y)|exact (Pn' n Y eq_refl)].
      * intros x X. rewrite (Pe x (Pn' x X)). exact X.
      * intros x X. left. rewrite <- (fl_ph s s'); [exact X|]. apply Pe. apply Pb. apply fl_live in X. rewrite X. exact Logic.I.
  - destruct (s_born s n) eqn:Bn; [|discriminate]. injection H as <- <-. apply Q. cbn [TI]. split; [cbn; lia|]. cbn [w_job]. destruct (si_born s I n _ Bn) as (A & B & _).
    split; [exact A|]. split; [exact B|discriminate].
  - injection H as <- <-. apply Q. cbn [TI w_job]. split; [|exact Logic.I]. split; [cbn; lia|]. exact (proj2 G).
  - assert (X : (n = head \/ user n /\ past (s_ph s n)) -> Good T s (SRead (mkW (JNext n) (s_clk s) (fun _ => head) (fun _ => head)) 0 n) s).
    { intros Y. apply Q. cbn [TI]. split; [split; [cbn; lia|exact Y]|]. split; [|cbn [w_job]; auto].
      destruct Y as [Y|[Y1 Y2]]; [left; exact Y|right]. split; [exact Y1|]. split; [lia|exact Y2]. }
    destruct (s_born s n) eqn:Bn.
    + injection H as <- <-. apply X. right. destruct (si_born s I n _ Bn) as (A & B & _). split; assumption.
    + destruct (Nat.eqb_spec n head) as [->|]; [|discriminate]. injection H as <- <-. apply X. left. reflexivity.
Qed.

(** ** Every step keeps the invariant *)

Lemma good_inv : forall T s p s1, Inv s -> s_th s1 = s_th s -> Good T s p s1 -> Inv (after_ T p s1).
Proof.
  intros T s p s1 [I IT] E (A & B & F). split; [exact A|]. intros U. cbn [after_ set_clk set_th s_th]. change (s_th (after_ T p s1)) with (upd (s_th s1) T p). rewrite E.
  destruct (Nat.eq_dec U T) as [->|N]; [rewrite upd_eq; exact B|]. rewrite upd_ne by exact N. apply (TI_fr T U s _ F N), IT.
Qed.

Lemma clear_th : forall w k a s, s_th (snd (clear key top w k a s)) = s_th s.
Proof.
  intros w k a s. unfold clear. destruct (match w_job w with JIns n _ | JErase n => k <=? top n | _ => false end); [reflexivity|].
  destruct a; [|destruct (w_job w), r; reflexivity]. unfold retry. destruct (w_job w); try reflexivity. destruct (n =? head); reflexivity.
Qed.

Lemma decide_th : forall w l cur y f s, s_th (snd (decide key top w l cur y f s)) = s_th s.
Proof.
  intros w l cur y f s. unfold decide. destruct (w_job w).
  - destruct (key y <? key n)%N; [reflexivity|]. destruct (nodup && (key y =? key n)%N); [rewrite clear_th; reflexivity|]. destruct (l <=? top n); reflexivity.
  - destruct ((key y <? key n)%N || (l <=? top n) && negb f); [destruct (y =? tail); reflexivity|]. destruct (l <=? top n); reflexivity.
  - destruct (key y <? q)%N; [reflexivity|]. destruct (match m with SMEQ | EQ | GTEQ => (key y =? q)%N | _ => false end); [reflexivity|]. destruct (0 <? l); [reflexivity|].
    destruct m, (cur =? head), (y =? tail); reflexivity.
  - reflexivity.
Qed.

Lemma step1_th : forall T spur p s p' s1, step1 key top maxl false T spur p s = Some (p', s1) -> s_th s1 = s_th s.
Proof.
  intros T spur p s p' s1 H. assert (X : forall x : pc * st, Some x = Some (p', s1) -> s_th (snd x) = s_th s -> s_th s1 = s_th s) by (intros x E; injection E as ->; auto).
  destruct p; unfold step1 in H; cbn [negb andb] in H; try discriminate; cbv zeta in H;
  repeat match type of H with
         | (if ?c then _ else _) = _ => destruct c
         | match ?c with _ => _ end = _ => destruct c
         end; try discriminate; try (apply X in H; [exact H|]; rewrite ?clear_th, ?decide_th; try reflexivity; unfold dropc; try (destruct (w_job w); reflexivity)).
  - unfold agreed. destruct (0 <? l); [reflexivity|]. destruct (w_job w); reflexivity.
  - destruct ((k =? w_top top w) || negb (w_prev w k =? w_prev w (k + 1))); reflexivity.
  - destruct (s_nx s (w_prev w k) k =? w_next w k), (k <? top (w_node w)); reflexivity.
  - destruct (s_nx s (w_prev w k) k =? w_node w); reflexivity.
  - destruct (s_nx s (w_prev w k) k =? w_node w); reflexivity.
Qed.

Lemma step1_good : forall T spur s p s1, Inv s -> step1 key top maxl false T spur (s_th s T) s = Some (p, s1) -> Good T s p s1.
Proof.
  intros T spur s p s1 HI H. assert (I := proj1 HI). assert (J := proj2 HI T). destruct (s_th s T) eqn:Ht; try discriminate H.
  - apply (st_Top T spur s _ p s1 I Ht J H).
  - apply (st_SRead T spur s _ _ _ p s1 I Ht J H).
  - apply (st_SGot T spur s _ _ _ _ _ p s1 I Ht J H).
  - apply (st_SSkip T spur s _ _ _ _ _ p s1 I Ht J H).
  - apply (st_SLock T spur s _ _ _ _ p s1 I Ht J H).
  - apply (st_SVal1 T spur s _ _ _ _ _ p s1 I Ht J H).
  - apply (st_SVal2 T spur s _ _ _ _ _ p s1 I Ht J H).
  - apply (st_SStore T spur s _ _ _ _ p s1 I Ht J H).
  - apply (st_ARead T spur s _ _ _ _ p s1 I Ht J H).
  - apply (st_AGot T spur s _ _ _ _ _ p s1 HI Ht J H).
  - apply (st_ASkip T spur s _ _ _ _ _ p s1 I Ht J H).
  - apply (st_Clr T spur s _ _ _ p s1 I Ht J H).
  - apply (st_ILink T spur s _ _ p s1 I Ht J H).
  - apply (st_IFull T spur s _ p s1 I Ht J H).
  - apply (st_IUnl T spur s _ p s1 I Ht J H).
  - apply (st_Cnt T spur s _ _ p s1 I Ht J H).
  - apply (st_Scan T spur s _ _ p s1 I Ht J H).
  - apply (st_ERm T spur s _ p s1 I Ht J H).
  - apply (st_ECas T spur s _ p s1 I Ht J H).
  - apply (st_ESet T spur s _ p s1 I Ht J H).
  - apply (st_ECheck T spur s _ p s1 I Ht J H).
  - apply (st_EBack T spur s _ p s1 I Ht J H).
  - apply (st_EMark T spur s _ p s1 I Ht J H).
  - apply (st_EUnl T spur s _ _ p s1 I Ht J H).
  - apply (st_EFin T spur s _ p s1 I Ht J H).
Qed.

Lemma start_th : forall T j s p s1, start T j s = Some (p, s1) -> s_th s1 = s_th s.
Proof.
  intros T j s p s1 H. unfold start in H. destruct (idle (s_th s T)); [|discriminate]. destruct j.
  - destruct (s_ph s n); try discriminate. injection H as <- <-. reflexivity.
  - destruct (s_born s n); [|discriminate]. injection H as <- <-. reflexivity.
  - injection H as <- <-. reflexivity.
  - destruct (s_born s n); [injection H as <- <-; reflexivity|]. destruct (n =? head); [injection H as <- <-; reflexivity|discriminate].
Qed.

Lemma Inv_eqm : forall s s', eqm s s' -> Inv s -> Inv s'.
Proof.
  intros s s' (E1 & E2 & E3 & E4 & E5 & E6 & E7) [I IT]. split.
  - apply (SI_gen s); try assumption; rewrite ?E6, ?E7; try lia.
    + intros l x _. rewrite E1. reflexivity.
    + intros x U. rewrite E3. auto.
    + apply (si_ins s I).
    + apply (si_del s I).
  - intros U. rewrite E7. specialize (IT U). clear I. destruct s as [a1 a2 a3 a4 a5 a6 a7 a8 a9 a10 a11 a12 a13 a14], s' as [b1 b2 b3 b4 b5 b6 b7 b8 b9 b10 b11 b12 b13 b14].
    cbn in E1, E2, E3, E4, E5, E6, E7, IT |- *. subst. destruct (a14 U); exact IT.
Qed.

Lemma Inv_step : forall e s s', Inv s -> guard key e -> step key top maxl false e s = Some s' -> Inv s'.
Proof.
  intros e s s' HI G H. destruct e as [T j|T spur|n up|n]; cbn [step] in H.
  - destruct (start T j s) as [[p s1]|] eqn:E; [|discriminate]. cbn [put] in H. injection H as <-.
    apply (good_inv T s p s1 HI (start_th _ _ _ _ _ E)). apply (start_good T j s p s1 (proj1 HI) G E).
  - destruct (step1 key top maxl false T spur (s_th s T) s) as [[p s1]|] eqn:E; [|discriminate]. cbn [put] in H. injection H as <-.
    apply (good_inv T s p s1 HI (step1_th _ _ _ _ _ _ E)). apply (step1_good T spur s p s1 HI E).
  - injection H as <-. apply (Inv_eqm s); [destruct up; eqm_tac|exact HI].
  - unfold free_node in H. destruct (s_own s n); [discriminate|]. destruct (s_rm s n && negb (s_wl s n) && (s_rc s n =? 0)); [|discriminate]. injection H as <-.
    apply (Inv_eqm s); [eqm_tac|exact HI].
Qed.

Lemma Inv_new : key tail <> 0%N -> Inv sl_new.
Proof.
  intros Kt. assert (NL : forall x l, ~ linked sl_new x l).
  { intros x l (A & _ & C). cbn in C. unfold user in A. destruct (Nat.leb_spec x 1); [lia|exact C]. }
  assert (NP : forall x, user x -> ~ past (s_ph sl_new x)).
  { intros x A C. cbn in C. unfold user in A. destruct (Nat.leb_spec x 1); [lia|exact C]. }
  split; [constructor|intros T; exact Logic.I]; cbn [s_nx s_own s_born s_died s_th s_clk sl_new]; try discriminate; try reflexivity.
  - intros l x [ -> |H]; [|destruct (NL _ _ H)]. split; [left; reflexivity|]. split; [rewrite key_head; lia|]. intros z Hz. destruct (NL _ _ Hz).
  - intros l x y H. destruct (NL _ _ H).
  - cbn. intros z T k H. destruct (z <=? 1); discriminate.
  - cbn. intros z T k H. destruct (z <=? 1); discriminate.
  - intros x H P. destruct (NP x H P).
  - intros x H P. destruct (NP x H P).
Qed.

Lemma reach_inv : forall s, key tail <> 0%N -> reach key top maxl s -> Inv s.
Proof. intros s K H. induction H; [apply Inv_new, K|apply (Inv_step e s); assumption]. Qed.
End Proofs.
