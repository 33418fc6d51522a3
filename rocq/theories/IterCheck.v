(** Computing the list of live keys, and deciding that a sequence of answers is not one of the
    specification: used for the cases and refutations of IterProps.v. *)
From Coq Require Import List NArith Bool Arith Lia Sorted.
From Verif Require Import Base LogFormatModel KeyModel KeyProofs BloomModel MemTableModel LogMgrModel DbModel DbProofs
  LsmModel IterModel IterSpec DbIterModel DbIterProofs5.
Import ListNotations.
Local Open Scope N_scope.

Fixpoint kins (r : rec) (l : list rec) : list rec :=
  match l with
  | [] => [r]
  | x :: t => match kcmp (r_key r) (r_key x) with Lt => r :: l | Eq => l | Gt => x :: kins r t end
  end.
Fixpoint live_of (h : list rec) (lo hi : key) (ks : list rec) : list rec :=
  match ks with
  | [] => []
  | k :: t => match spec_get h (r_key k) with
              | Ok r => if in_range lo hi (r_key r) then kins r (live_of h lo hi t) else live_of h lo hi t
              | _ => live_of h lo hi t
              end
  end.
Definition live_list (h : list rec) (lo hi : key) : list rec := live_of h lo hi h.

Lemma kins_in : forall r l x, In x (kins r l) -> x = r \/ In x l.
Proof.
  intros r l x. induction l as [|y l IH]; cbn [kins]; [intros [->|[]]; now left|]. destruct (kcmp (r_key r) (r_key y)); intros H; cbn [In] in *.
  - now right.
  - destruct H as [->|H]; [now left|now right].
  - destruct H as [->|H]; [right; now left|]. destruct (IH H) as [->|H']; [now left|right; now right].
Qed.
Lemma kins_keep : forall r l x, In x l -> In x (kins r l).
Proof.
  intros r l x. induction l as [|y l IH]; [intros []|]. cbn [kins]. intros H. destruct (kcmp (r_key r) (r_key y)); [exact H|now right|]. destruct H as [->|H]; [now left|right; now apply IH].
Qed.
Lemma kins_key : forall r l, exists x, In x (kins r l) /\ r_key x = r_key r.
Proof.
  intros r l. induction l as [|y l IH]; cbn [kins]; [exists r; split; [now left|reflexivity]|]. destruct (kcmp (r_key r) (r_key y)) eqn:E.
  - exists y. split; [now left|]. now apply kcmp_eq in E.
  - exists r. split; [now left|reflexivity].
  - destruct IH as (x & H1 & H2). exists x. split; [now right|exact H2].
Qed.
Definition kasc (l : list rec) : Prop := StronglySorted (fun a b => klt (r_key a) (r_key b)) l.
Lemma kins_asc : forall r l, kasc l -> kasc (kins r l).
Proof.
  intros r l. induction l as [|y l IH]; intros H; cbn [kins]; [constructor; constructor|]. pose proof (StronglySorted_inv H) as [H1 H2]. rewrite Forall_forall in H2.
  destruct (kcmp (r_key r) (r_key y)) eqn:E.
  - exact H.
  - constructor; [exact H|]. constructor; [exact E|]. apply Forall_forall. intros z Hz. exact (klt_trans _ _ _ E (H2 z Hz)).
  - constructor; [now apply IH|]. apply Forall_forall. intros z Hz. destruct (kins_in r l z Hz) as [->|Hz']; [now apply kcmp_gt|now apply H2].
Qed.
Lemma live_of_spec : forall h lo hi ks, kasc (live_of h lo hi ks) /\
  (forall x, In x (live_of h lo hi ks) -> spec_get h (r_key x) = Ok x /\ in_range lo hi (r_key x) = true) /\
  (forall k x, In k ks -> spec_get h (r_key k) = Ok x -> in_range lo hi (r_key x) = true -> In x (live_of h lo hi ks)).
Proof.
  intros h lo hi ks. induction ks as [|k ks (A & B & C)]; cbn [live_of]; [split; [constructor|split; intros ? []; intros []]|].
  assert (Hk : forall q r, spec_get h q = Ok r -> r_key r = q).
  { intros q r E. apply spec_get_ok in E as [E _]. apply find_some in E as [_ E]. apply andb_prop in E as [E _]. now apply keqb_true in E. }
  destruct (spec_get h (r_key k)) as [r| |] eqn:E.
  - destruct (in_range lo hi (r_key r)) eqn:Er.
    + assert (B' : forall x, In x (kins r (live_of h lo hi ks)) -> spec_get h (r_key x) = Ok x /\ in_range lo hi (r_key x) = true).
      { intros x Hx. destruct (kins_in _ _ _ Hx) as [->|Hx']; [rewrite (Hk _ _ E); split; [exact E|]; rewrite <- (Hk _ _ E); exact Er|now apply B]. }
      split; [now apply kins_asc|]. split; [exact B'|]. intros k' x [<-|Hk'] E' R'.
      * rewrite E in E'. injection E' as <-. destruct (kins_key r (live_of h lo hi ks)) as (y & Y1 & Y2). destruct (B' y Y1) as [Y3 _]. rewrite Y2, (Hk _ _ E), E in Y3. injection Y3 as ->. exact Y1.
      * apply kins_keep. now apply (C k').
    + split; [exact A|]. split; [exact B|]. intros k' x [<-|Hk'] E' R'; [rewrite E in E'; injection E' as <-; congruence|now apply (C k')].
  - split; [exact A|]. split; [exact B|]. intros k' x [<-|Hk'] E' R'; [congruence|now apply (C k')].
  - split; [exact A|]. split; [exact B|]. intros k' x [<-|Hk'] E' R'; [congruence|now apply (C k')].
Qed.
Theorem live_list_live : forall h lo hi, live h lo hi (live_list h lo hi).
Proof.
  intros h lo hi. destruct (live_of_spec h lo hi h) as (A & B & C). split; [exact A|]. intros r. split.
  - intros Hr. destruct (B r Hr) as [B1 B2]. split; [exact B1|now apply in_range_spec].
  - intros (E & R). apply (C r); [|exact E|now apply in_range_spec]. apply spec_get_ok in E as [E _]. now apply last_write_in in E.
Qed.

(** ** Deciding [ctrace] *)
Definition rec_eqb (a b : rec) : bool :=
  (r_seq a =? r_seq b) && (r_type a =? r_type b) && keqb (r_key a) (r_key b) && keqb (r_meta a) (r_meta b) && keqb (r_val a) (r_val b).
Lemma rec_eqb_refl : forall r, rec_eqb r r = true.
Proof. intros r. unfold rec_eqb. now rewrite !N.eqb_refl, !keqb_refl. Qed.
Definition same_opt (a b : option rec) : bool :=
  match a, b with Some x, Some y => rec_eqb x y | None, None => true | _, _ => false end.
Lemma same_opt_refl : forall a, same_opt a a = true.
Proof. intros [r|]; [apply rec_eqb_refl|reflexivity]. Qed.

Definition rle_b (ty : itype) (a b : rec) : bool := match cmpr ty a b with Gt => false | _ => true end.
Lemma rle_b_spec : forall ty a b, rle_b ty a b = true <-> rle ty a b.
Proof. intros. unfold rle_b, rle. destruct (cmpr ty a b); split; congruence. Qed.

(** An over-approximation of [cstep]. *)
Definition cstep_b (ty : itype) (l : list rec) (p : cpos) (m : move) (b : bool) (p' : cpos) : bool :=
  let n := length l in
  match m with
  | Next => match p, b, p' with
            | At i, true, At j => Nat.ltb (S i) n && Nat.eqb j (S i)
            | At i, false, At j => Nat.eqb (S i) n && Nat.eqb j i
            | At i, false, After => Nat.eqb (S i) n
            | Before, true, At j => Nat.eqb j 0
            | Before, false, _ => Nat.eqb n 0
            | After, false, After => true
            | _, _, _ => false
            end
  | Prev => match p, b, p' with
            | At i, true, At j => Nat.eqb i (S j)
            | At i, false, At j => Nat.eqb i 0 && Nat.eqb j 0
            | At i, false, Before => Nat.eqb i 0
            | After, true, At j => Nat.eqb (S j) n
            | After, false, _ => Nat.eqb n 0
            | Before, false, Before => true
            | _, _, _ => false
            end
  | SeekG t => b && match p' with
            | At i => match nth_error l i with
                      | Some r => (rle_b ty t r && forallb (fun x => negb (rle_b ty t x) || rle_b ty r x) l) || (Nat.eqb (S i) n && forallb (fun x => negb (rle_b ty t x)) l)
                      | None => true
                      end
            | After => forallb (fun x => negb (rle_b ty t x)) l
            | Before => false
            end
  | SeekS t => b && match p' with
            | At i => match nth_error l i with
                      | Some r => rle_b ty r t && forallb (fun x => negb (rle_b ty x t) || rle_b ty x r) l
                      | None => true
                      end
            | Before => forallb (fun x => negb (rle_b ty x t)) l
            | After => false
            end
  | ToEnd => b && match p' with At i => Nat.eqb (S i) n || Nat.eqb n 0 | _ => Nat.eqb n 0 end
  end.
Lemma all_not : forall ty t (l : list rec), (forall x, In x l -> ~ rle ty t x) -> forallb (fun x => negb (rle_b ty t x)) l = true.
Proof. intros ty t l H. apply forallb_forall. intros x Hx. destruct (rle_b ty t x) eqn:E; [|reflexivity]. apply rle_b_spec in E. destruct (H x Hx E). Qed.
Lemma all_not' : forall ty t (l : list rec), (forall x, In x l -> ~ rle ty x t) -> forallb (fun x => negb (rle_b ty x t)) l = true.
Proof. intros ty t l H. apply forallb_forall. intros x Hx. destruct (rle_b ty x t) eqn:E; [|reflexivity]. apply rle_b_spec in E. destruct (H x Hx E). Qed.
Lemma cstep_sound : forall ty l p m b p', cstep ty l p m b p' -> cstep_b ty l p m b p' = true.
Proof.
  intros ty l p m b p' H. destruct H; cbn [cstep_b andb];
    repeat match goal with
    | [ H : (S _ < length _)%nat |- _ ] => apply Nat.ltb_lt in H; rewrite H
    | [ H : S _ = length _ |- _ ] => apply Nat.eqb_eq in H; rewrite H
    end; rewrite ?Nat.eqb_refl; try reflexivity.
  - subst l. destruct p; reflexivity.
  - subst l. destruct p; reflexivity.
  - rewrite H. apply orb_true_iff. left. apply andb_true_iff. split; [now apply rle_b_spec|]. apply forallb_forall. intros x Hx. destruct (rle_b ty t x) eqn:E; [|reflexivity]. apply rle_b_spec in E. cbn [negb orb]. apply rle_b_spec. now apply H1.
  - destruct (nth_error l i); [|reflexivity]. rewrite (all_not ty t l H). cbn [andb]. apply orb_true_r.
  - now apply all_not.
  - rewrite H. apply andb_true_iff. split; [now apply rle_b_spec|]. apply forallb_forall. intros x Hx. destruct (rle_b ty x t) eqn:E; [|reflexivity]. apply rle_b_spec in E. cbn [negb orb]. apply rle_b_spec. now apply H1.
  - now apply all_not'.
  - subst l. destruct q; reflexivity.
Qed.
Definition places (l : list rec) : list cpos := Before :: After :: map At (seq 0 (length l)).
Fixpoint ctrace_b (ty : itype) (l : list rec) (p : cpos) (ms : list move) (out : list (bool * option rec)) : bool :=
  match ms, out with
  | [], [] => true
  | m :: ms', (b, r) :: out' => existsb (fun p' => cstep_b ty l p m b p' && same_opt (at_pos l p') r && ctrace_b ty l p' ms' out') (places l)
  | _, _ => false
  end.
Lemma ctrace_sound : forall ty l p ms out, ctrace ty l p ms out -> ctrace_b ty l p ms out = true.
Proof.
  intros ty l p ms out H. induction H as [p|p m b p' ms out H1 H2 H3 IH]; cbn [ctrace_b]; [reflexivity|]. apply existsb_exists. exists p'. split.
  - unfold places. destruct p' as [|i|]; [now left| |right; now left]. right; right. apply in_map_iff. exists i. split; [reflexivity|]. apply in_seq. specialize (H2 i eq_refl). lia.
  - rewrite (cstep_sound _ _ _ _ _ _ H1), same_opt_refl, IH. reflexivity.
Qed.

(** ** Deciding the conditions on the leaves *)
From Verif Require Import FullModel LeafIterModel DbIterProofs4.
Definition each_b (P : list rec -> bool) (lo hi : key) (f : fdb) : bool :=
  match log_leaves lo hi (d_log (fd_db f)) with Some ls => forallb (fun x => P (x_list x)) ls | None => true end &&
  forallb (fun t => P (t_docs t)) (tab_leaves lo hi (fd_lsm f)).
Lemma each_b_sound : forall (P : list rec -> Prop) Pb lo hi f, (forall l, Pb l = true -> P l) -> each_b Pb lo hi f = true -> each_leaf P lo hi f.
Proof.
  intros P Pb lo hi f H E. unfold each_b in E. apply andb_prop in E as [E1 E2]. split.
  - intros ls x El Hx. rewrite El in E1. rewrite forallb_forall in E1. apply H. now apply E1.
  - intros t Ht. rewrite forallb_forall in E2. apply H. now apply E2.
Qed.
Definition two_b (l : list rec) : bool := existsb (fun x => existsb (fun y => kltb (r_key x) (r_key y)) l) l.
Lemma two_b_sound : forall l, two_b l = true -> two_keys l.
Proof.
  intros l E. apply existsb_exists in E as (x & Hx & E). apply existsb_exists in E as (y & Hy & E). exists x, y. split; [exact Hx|]. split; [exact Hy|now apply kltb_true].
Qed.
Definition up_b (lo hi : key) (f : fdb) (t : rec) : bool :=
  (keqb (r_key t) [] || keqb lo [] || kleb lo (r_key t)) &&
  match log_leaves lo hi (d_log (fd_db f)) with
  | Some ls => forallb (fun x => existsb (fun r => kleb (r_key t) (r_key r)) (x_list x) || forallb (fun n => kltb (fst n) (r_key t)) (x_nodes x)) ls &&
               (is_nil ls || existsb (fun x => existsb (fun r => kleb (r_key t) (r_key r)) (x_list x)) ls)
  | None => true
  end &&
  (is_nil (tab_leaves lo hi (fd_lsm f)) || existsb (fun x => existsb (fun r => kleb (r_key t) (r_key r)) (t_docs x)) (tab_leaves lo hi (fd_lsm f))).
Lemma up_b_sound : forall lo hi f t, up_b lo hi f t = true -> up_ok lo hi f t.
Proof.
  intros lo hi f t E. unfold up_b in E. apply andb_prop in E as [E E3]. apply andb_prop in E as [E1 E2]. split; [|split].
  - apply orb_prop in E1 as [E1|E1]; [apply orb_prop in E1 as [E1|E1]; apply keqb_true in E1; auto|]. right. right. now apply kleb_true.
  - intros ls El. rewrite El in E2. apply andb_prop in E2 as [E2 E4]. rewrite forallb_forall in E2. split.
    + intros x Hx. specialize (E2 x Hx). apply orb_prop in E2 as [E2|E2].
      * left. apply existsb_exists in E2 as (r & R1 & R2). exists r. split; [exact R1|now apply kleb_true].
      * right. rewrite forallb_forall in E2. intros n Hn. apply kltb_true. now apply E2.
    + apply orb_prop in E4 as [E4|E4]; [left; destruct ls; [reflexivity|discriminate]|right]. apply existsb_exists in E4 as (x & X1 & X2). apply existsb_exists in X2 as (r & R1 & R2). exists x, r. split; [exact X1|]. split; [exact R1|now apply kleb_true].
  - apply orb_prop in E3 as [E3|E3]; [left; destruct (tab_leaves lo hi (fd_lsm f)); [reflexivity|discriminate]|right]. apply existsb_exists in E3 as (x & X1 & X2). apply existsb_exists in X2 as (r & R1 & R2). exists x, r. split; [exact X1|]. split; [exact R1|now apply kleb_true].
Qed.
Definition down_b (lo hi : key) (f : fdb) (t : rec) : bool :=
  negb (keqb (r_key t) []) && (keqb hi [] || kleb (r_key t) hi) && each_b (fun l => existsb (fun r => kleb (r_key r) (r_key t)) l) lo hi f.
Lemma down_b_sound : forall lo hi f t, down_b lo hi f t = true -> down_ok lo hi f t.
Proof.
  intros lo hi f t E. unfold down_b in E. apply andb_prop in E as [E E3]. apply andb_prop in E as [E1 E2]. split; [|split].
  - intros H. rewrite H in E1. discriminate.
  - apply orb_prop in E2 as [E2|E2]; [left; now apply keqb_true|right; now apply kleb_true].
  - revert E3. apply each_b_sound. intros l H. apply existsb_exists in H as (r & R1 & R2). exists r. split; [exact R1|now apply kleb_true].
Qed.
