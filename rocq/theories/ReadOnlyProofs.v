(** Read-only handles: proofs. *)
From Verif Require Import Base KeyModel KeyProofs LogFormatModel LogManifestModel BloomModel BloomProofs MemTableModel MemTableProofs
  LogMgrModel LogMgrProofs LogMgrProofs2 LogMgrProofs3 DbModel DbProofs DbProofs2 RecoverModel RecoverProofs RecoverProofs2 RecoverProofs3
  RecoverProofs4 RecoverProofs5 RecoverProofs6 RecoverProofs7 ReadOnlyModel ReadOnlySpec.
From Coq Require Import Sorted ZifyBool.
Local Open Scope N_scope.

(** ** Loading when the newest file listed is there *)

Lemma load_files_present : forall cfg fload, c_section_only cfg = false -> forall es e ls fr d,
  (fload (e_num e) = F_OK \/ fload (e_num e) = F_OTHER) ->
  (d_flushed d = NIL \/ d_flushed d <= e_num e) -> d_new d = None -> (fr = true -> d_files d <> []) ->
  d_new (load_files cfg fload (es ++ [e]) ls fr d) = None /\ d_files (load_files cfg fload (es ++ [e]) ls fr d) <> [].
Proof.
  intros cfg fload Hso. induction es as [|e0 es IH]; intros e ls fr d Hf Hfl Hn Hr; cbn [app load_files].
  - unfold invalid_log. rewrite Hso. cbn [andb].
    replace (valid_number (d_flushed d) && (e_num e <? d_flushed d)) with false by (unfold valid_number; destruct Hfl; lia).
    destruct Hf as [-> | ->]; cbn [add_file d_new d_files]; (split; [exact Hn|]; destruct (d_files d); discriminate).
  - unfold invalid_log at 1 2. rewrite Hso. cbn [andb].
    replace (match es ++ [e] with [] => true | _ :: _ => false end) with false by (destruct es; reflexivity).
    set (l' := if valid_number (e_synced e0) then e_synced e0 else ls).
    destruct (valid_number (d_flushed d) && (e_num e0 <? d_flushed d)); [apply IH; assumption|].
    assert (A : forall x, d_new (load_files cfg fload (es ++ [e]) l' true (add_file d x)) = None /\
                          d_files (load_files cfg fload (es ++ [e]) l' true (add_file d x)) <> []).
    { intros x. apply IH; [exact Hf|exact Hfl|exact Hn|]. intros _. cbn [add_file d_files]. destruct (d_files d); discriminate. }
    assert (B : d_new (if negb fr && negb false
       then load_files cfg fload (es ++ [e]) l' fr (mkLoad (d_max d) NIL NIL (d_files d) (d_new d))
       else match d_files d with
            | _ :: _ => if e_num e0 =? 0 then d else mkLoad (e_num e0 - 1) (d_flushed d) (e_num e0 - 1) (d_files d) (d_new d)
            | [] => add_file (mkLoad (d_max d) NIL NIL (d_files d) (Some (d_max d)))
                       (mkMent (d_max d) (e_min (fill_marks l' e0)) (e_flushed (fill_marks l' e0)) (e_synced (fill_marks l' e0)))
            end) = None /\
      d_files (if negb fr && negb false
       then load_files cfg fload (es ++ [e]) l' fr (mkLoad (d_max d) NIL NIL (d_files d) (d_new d))
       else match d_files d with
            | _ :: _ => if e_num e0 =? 0 then d else mkLoad (e_num e0 - 1) (d_flushed d) (e_num e0 - 1) (d_files d) (d_new d)
            | [] => add_file (mkLoad (d_max d) NIL NIL (d_files d) (Some (d_max d)))
                       (mkMent (d_max d) (e_min (fill_marks l' e0)) (e_flushed (fill_marks l' e0)) (e_synced (fill_marks l' e0)))
            end) <> []).
    { destruct fr; cbn [negb andb].
      - destruct (d_files d) as [|y t] eqn:Ed; [destruct (Hr eq_refl eq_refl)|].
        destruct (e_num e0 =? 0); [split; [exact Hn|rewrite Ed; discriminate]|]. cbn [d_new d_files]. split; [exact Hn|discriminate].
      - apply IH; [exact Hf|left; reflexivity|exact Hn|discriminate]. }
    destruct (fload (e_num e0)); [apply A|exact B|exact B|apply A].
Qed.

(** The entries that are loaded are a selection of those listed. *)
Inductive sub {A} : list A -> list A -> Prop :=
| sub_nil : forall l, sub [] l
| sub_cons : forall x a b, sub a b -> sub (x :: a) (x :: b)
| sub_skip : forall x a b, sub a b -> sub a (x :: b).

Lemma sub_in : forall A (a b : list A) x, sub a b -> In x a -> In x b.
Proof. intros A a b x H. induction H; intros I; [destruct I|destruct I as [<-|I]; [left; reflexivity|right; auto]|right; auto]. Qed.
Lemma sub_nodup : forall A (a b : list A), sub a b -> NoDup b -> NoDup a.
Proof.
  intros A a b H. induction H; intros N; [constructor|inversion N; subst; constructor; [intros Q; eapply sub_in in Q; eauto|auto]|inversion N; auto].
Qed.
Lemma sub_refl_app : forall A (a b : list A), sub a (a ++ b).
Proof. induction a as [|x a IH]; intros b; cbn [app]; constructor. apply IH. Qed.
Lemma sub_app_skip : forall A (a b : list A) x c, sub a b -> sub a (b ++ x :: c).
Proof. intros A a b x c H. induction H; cbn [app]; constructor; assumption. Qed.
Lemma sub_app_l : forall A (p a b : list A), sub a b -> sub (p ++ a) (p ++ b).
Proof. induction p as [|x p IH]; intros a b H; cbn [app]; [exact H|]. constructor. apply IH, H. Qed.

Lemma load_files_sub : forall cfg fload es ls fr d, d_new (load_files cfg fload es ls fr d) = None ->
  exists l, map e_num (d_files (load_files cfg fload es ls fr d)) = map e_num (d_files d) ++ l /\ sub l (map e_num es).
Proof.
  intros cfg fload. induction es as [|e es IH]; intros ls fr d; cbn [load_files map].
  - intros _. exists []. rewrite app_nil_r. split; [reflexivity|constructor].
  - destruct (invalid_log _ _ _ _); [intros _; exists []; rewrite app_nil_r; split; [destruct (e_num e =? 0); reflexivity|constructor]|].
    set (l' := if valid_number (e_synced e) then e_synced e else ls).
    destruct (valid_number (d_flushed d) && (e_num e <? d_flushed d)).
    { intros N. destruct (IH _ _ _ N) as (l & E & S). exists l. split; [exact E|constructor; exact S]. }
    assert (A : d_new (load_files cfg fload es l' true (add_file d (fill_marks l' e))) = None ->
       exists l, map e_num (d_files (load_files cfg fload es l' true (add_file d (fill_marks l' e)))) = map e_num (d_files d) ++ l /\ sub l (e_num e :: map e_num es)).
    { intros N. destruct (IH _ _ _ N) as (l & E & S). exists (e_num e :: l). split; [|constructor; exact S].
      rewrite E. cbn [add_file d_files]. rewrite map_app, <- app_assoc. reflexivity. }
    assert (B : forall b, d_new (if negb fr && negb b
       then load_files cfg fload es l' fr (mkLoad (d_max d) NIL NIL (d_files d) (d_new d))
       else match d_files d with
            | _ :: _ => if e_num e =? 0 then d else mkLoad (e_num e - 1) (d_flushed d) (e_num e - 1) (d_files d) (d_new d)
            | [] => add_file (mkLoad (d_max d) NIL NIL (d_files d) (Some (d_max d)))
                       (mkMent (d_max d) (e_min (fill_marks l' e)) (e_flushed (fill_marks l' e)) (e_synced (fill_marks l' e)))
            end) = None ->
      exists l, map e_num (d_files (if negb fr && negb b
       then load_files cfg fload es l' fr (mkLoad (d_max d) NIL NIL (d_files d) (d_new d))
       else match d_files d with
            | _ :: _ => if e_num e =? 0 then d else mkLoad (e_num e - 1) (d_flushed d) (e_num e - 1) (d_files d) (d_new d)
            | [] => add_file (mkLoad (d_max d) NIL NIL (d_files d) (Some (d_max d)))
                       (mkMent (d_max d) (e_min (fill_marks l' e)) (e_flushed (fill_marks l' e)) (e_synced (fill_marks l' e)))
            end)) = map e_num (d_files d) ++ l /\ sub l (e_num e :: map e_num es)).
    { intros b. destruct (negb fr && negb b).
      - intros N. destruct (IH _ _ _ N) as (l & E & S). exists l. split; [exact E|constructor; exact S].
      - destruct (d_files d) as [|y t] eqn:Ed; [cbn [add_file d_new]; discriminate|]. intros _. exists []. rewrite app_nil_r.
        split; [|constructor]. destruct (e_num e =? 0); [rewrite Ed|]; reflexivity. }
    destruct (fload (e_num e)); [exact A|apply B|apply B|exact A].
Qed.

Section Proofs.
Variable hash : key -> N * N.

Lemma load_all_nums : forall c disk es fs, load_all hash c disk None es = Some fs -> map f_num fs = map e_num es.
Proof.
  intros c disk. induction es as [|e es IH]; intros fs; cbn [load_all]; [intros E; injection E as <-; reflexivity|].
  unfold load_one. destruct (dlog_at (e_num e) disk) as [d|]; [|discriminate].
  destruct (mt_load hash _ _ _ _ _); try discriminate. destruct (load_all hash c disk None es) as [l|]; [|discriminate].
  intros E; injection E as <-. cbn [map f_num]. f_equal. apply IH. reflexivity.
Qed.

(** ** Opening *)

Lemma left_open : forall c x p, p_reopen hash c x p = match left_by hash c x p with Some i => w_open hash c i | None => None end.
Proof.
  intros c x p. unfold p_reopen, left_by. destruct x as [| |n j torn|fo seq held gone|disk m]; try reflexivity.
  - destruct (p_sync hash c true p) as [[[a|s|] p']|]; reflexivity.
  - destruct (step hash c (OSync no_fault) (p_db p)) as [[a d']|]; reflexivity.
  - destruct (step hash c (OFlush fo seq) (p_db p)) as [[[a|s|] d']|]; reflexivity.
Qed.

(** Both modes read the same. *)
Lemma r_w_open : forall c i, match r_open hash c i, w_open hash c i with
  | Some q, Some w => p_db q = p_db w
  | None, None => True
  | _, _ => False
  end.
Proof.
  intros c i. unfold r_open, w_open, p_open. destruct (load_all hash c (i_disk i) _ _) as [fs|]; [|exact I].
  destruct fs as [|f t]; [reflexivity|].
  match goal with |- context [negb ?b] => destruct b end; reflexivity.
Qed.

Lemma r_open_present : forall c i q, c_lso c = false -> newest_present i -> r_open hash c i = Some q ->
  files q = i /\ d_bat (p_db q) = None /\
  (NoDup (map e_num (l_files (i_man i))) -> NoDup (map f_num (g_files (d_log (p_db q))))).
Proof.
  intros c i q Hlso (es & e & El & Hd & Hfl) E. unfold r_open in E. rewrite El in E |- *.
  set (cf := {| c_section_only := c_lso c; c_truncate_inconsecutive := true |}) in *.
  set (d0 := mkLoad (l_max (i_man i)) (l_flushed (i_man i)) (l_synced (i_man i)) [] None) in *.
  assert (P : d_new (load_files cf (disk_status (i_disk i)) (es ++ [e]) NIL false d0) = None /\
              d_files (load_files cf (disk_status (i_disk i)) (es ++ [e]) NIL false d0) <> []).
  { apply load_files_present; [exact Hlso| |exact Hfl|reflexivity|discriminate].
    unfold disk_status. destruct (dlog_at (e_num e) (i_disk i)) as [x|]; [|congruence]. destruct (dl_torn x); auto. }
  destruct P as [Pn Pf]. destruct (load_files_sub _ _ _ _ _ _ Pn) as (l & El' & Sl). cbn [d0 d_files map app] in El'.
  rewrite Pn in E. destruct (load_all hash c (i_disk i) None _) as [fs|] eqn:Ea; [|discriminate].
  assert (Hnum := load_all_nums _ _ _ _ Ea).
  destruct fs as [|f t].
  - destruct (d_files (load_files cf (disk_status (i_disk i)) (es ++ [e]) NIL false d0)); [congruence|discriminate].
  - injection E as <-. cbn [p_db d_bat d_log g_files files d_tab p_disk p_dur p_man p_old]. rewrite map_id.
    split; [unfold files; cbn [p_db d_tab p_disk p_dur p_man p_old]; destruct i; reflexivity|]. split; [reflexivity|].
    intros ND. rewrite Hnum, El'. eapply sub_nodup; eassumption.
Qed.

(** ** Calls *)

Lemma drop_map : forall (F : lgf -> lgf) p fs, (forall f, In f fs -> p (F f) = p f) ->
  drop_while p (map F fs) = map F (drop_while p fs).
Proof.
  intros F p. induction fs as [|f t IH]; intros H; cbn [map drop_while]; [reflexivity|]. rewrite (H f (or_introl eq_refl)).
  destruct (p f); [apply IH; intros x Hx; apply H; right; exact Hx|reflexivity].
Qed.
Lemma until_map : forall (F : lgf -> lgf) e fs, (forall f, f_num (F f) = f_num f) -> until_num e (map F fs) = map F (until_num e fs).
Proof.
  intros F e fs H. induction fs as [|f t IH]; cbn [map until_num]; [reflexivity|]. rewrite H. destruct (e <=? f_num f); cbn [map]; [reflexivity|now rewrite IH].
Qed.
Lemma drop_in : forall A (p : A -> bool) l x, In x (drop_while p l) -> In x l.
Proof. intros A p. induction l as [|y t IH]; intros x; cbn [drop_while]; [auto|]. destruct (p y); [right; auto|auto]. Qed.
Lemma until_in : forall e fs x, In x (until_num e fs) -> In x fs.
Proof. intros e. induction fs as [|f t IH]; intros x; cbn [until_num]; [auto|]. destruct (e <=? f_num f); [intros [<-|[]]; left; reflexivity|intros [<-|H]; [left; reflexivity|right; auto]]. Qed.
Lemma first_map : forall (F : lgf -> lgf) ask fs, (forall f, In f fs -> ask (F f) = ask f) -> first_ok ask (map F fs) = first_ok ask fs.
Proof.
  intros F ask. induction fs as [|f t IH]; intros H; cbn [map first_ok]; [reflexivity|]. rewrite (H f (or_introl eq_refl)).
  destruct (ask f); [reflexivity| |reflexivity]. apply IH. intros x Hx. apply H. right; exact Hx.
Qed.

Lemma lm_get_map : forall c k g F, (forall f, f_num (F f) = f_num f) ->
  (forall f chk, In f (g_files g) -> mt_get hash chk k false true (f_mt (F f)) = mt_get hash chk k false true (f_mt f)) ->
  (forall f, In f (g_files g) -> m_max (f_mt (F f)) = m_max (f_mt f)) ->
  lm_get hash c k (with_files g (map F (g_files g))) = lm_get hash c k g.
Proof.
  intros c k g F Hn Hg Hm. unfold lm_get, last_flushed, max_num, min_num. cbn [with_files g_files g_lf g_max g_bar].
  replace (match map F (g_files g) with [] => None | f :: _ => Some (f_num f) end)
    with (match g_files g with [] => None | f :: _ => Some (f_num f) end) by (destruct (g_files g); cbn [map]; [reflexivity|now rewrite Hn]).
  destruct (if g_lf g =? NIL then _ else _) as [mn|]; [|reflexivity]. destruct (if g_max g =? NIL then _ else _) as [mx|]; [|reflexivity].
  destruct (c_lso c).
  - replace (filter (fun f => (mn <=? f_num f) && (f_num f <=? mx)) (map F (g_files g)))
      with (map F (filter (fun f => (mn <=? f_num f) && (f_num f <=? mx)) (g_files g))).
    + rewrite <- map_rev. apply first_map. intros f Hf. apply Hg. apply in_rev in Hf. apply filter_In in Hf. tauto.
    + clear -Hn. induction (g_files g) as [|f t IH]; cbn [map filter]; [reflexivity|]. rewrite Hn. destruct ((mn <=? f_num f) && (f_num f <=? mx)); cbn [map]; now rewrite IH.
  - unfold file_range. rewrite drop_map by (intros f _; rewrite Hn; reflexivity). rewrite until_map by exact Hn. rewrite <- map_rev.
    apply first_map. intros f Hf. apply in_rev in Hf. apply until_in in Hf. apply drop_in in Hf. unfold read_limit. rewrite (Hm f Hf). apply Hg, Hf.
Qed.

Lemma chk_get : forall out0 m s m', mt_checkpoint out0 m = (s, m') ->
  m_max m' = m_max m /\ forall chk k a b, mt_get hash chk k a b m' = mt_get hash chk k a b m.
Proof.
  intros out0 m s m'. unfold mt_checkpoint. destruct (negb (valid_number (m_max m))); [intros E; injection E as _ <-; auto|].
  destruct (match rev (m_chks m) with c :: _ => c =? m_max m | [] => false end); intros E; injection E as _ <-; split; reflexivity.
Qed.

(** The state of a read-only handle between two calls, for the directory [i] and the tables and log
    [d0] it was opened with. *)
Definition same_view (c : cfg) (d0 d : db) : Prop :=
  d_bat d = None /\ d_tab d = d_tab d0 /\ NoDup (map f_num (g_files (d_log d))) /\ map f_num (g_files (d_log d)) = map f_num (g_files (d_log d0)) /\
  g_max (d_log d) = g_max (d_log d0) /\ forall k, lm_get hash c k (d_log d) = lm_get hash c k (d_log d0).

Definition ok_call (o : rcall) (a : ranswer) : Prop :=
  (forall r, a <> RAns (Ok r)) /\ ((forall out0, o <> RCheckpoint out0) -> refused a).

Lemma rstep_view : forall c o p, same_view c (p_db p) (p_db p) -> not_flush o ->
  exists a p', rstep hash c o p = Some (a, p') /\ files p' = files p /\ same_view c (p_db p) (p_db p') /\ ok_call o a /\
    (max_num (d_log (p_db p)) <> None -> file_at (g_max (d_log (p_db p))) (g_files (d_log (p_db p))) <> None -> refused a).
Proof.
  intros c o p V Hf. assert (V0 := V). destruct V as (Vb & _ & Vn & _). destruct p as [d disk dur man old]. cbn [p_db] in *.
  assert (RW : ok_call o (RAns (Fail WRITE_VIOLATION))) by (split; [discriminate|intros _; left; reflexivity]).
  destruct d as [g tab gone bat]. cbn [d_bat d_tab d_log] in *. subst bat.
  destruct o as [full r|b|fs|s|s|out0|part|fo seq held]; cbn [rstep]; [| | | | | | |destruct Hf].
  - unfold p_write, step. cbn [p_db d_bat ro c_ro lm_set d_log d_tab d_gone]. rewrite N.eqb_refl. eexists. eexists. split; [reflexivity|]. split; [reflexivity|]. split; [exact V0|].
    split; [exact RW|]. intros _ _. left; reflexivity.
  - unfold p_write, step. cbn [p_db d_bat ro c_ro d_log d_tab d_gone]. rewrite N.eqb_refl. eexists. eexists. split; [reflexivity|]. split; [reflexivity|]. split; [exact V0|].
    split; [exact RW|]. intros _ _. left; reflexivity.
  - eexists. eexists. split; [reflexivity|]. split; [reflexivity|]. split; [exact V0|]. split; [exact RW|]. intros _ _. left; reflexivity.
  - eexists. eexists. split; [reflexivity|]. split; [reflexivity|]. split; [exact V0|]. split; [exact RW|]. intros _ _. left; reflexivity.
  - eexists. eexists. split; [reflexivity|]. split; [reflexivity|]. split; [exact V0|]. split; [exact RW|]. intros _ _. left; reflexivity.
  - unfold step. cbn [p_db d_log d_tab d_gone d_bat]. unfold lm_checkpoint. destruct (max_num g) as [mx|] eqn:Emx.
    + assert (Emx' : mx = g_max g) by (unfold max_num in Emx; destruct (g_max g =? NIL); [discriminate|injection Emx as <-; reflexivity]).
      destruct (file_at mx (g_files g)) as [f|] eqn:Ef.
      * destruct (mt_checkpoint out0 (f_mt f)) as [s m'] eqn:Ec. destruct (chk_get _ _ _ _ Ec) as [C1 C2]. apply file_at_in in Ef. destruct Ef as [F1 F2].
        eexists. eexists. split; [reflexivity|]. split; [reflexivity|]. split; [|split; [split; [discriminate|intros _; left; reflexivity]|intros _ _; left; reflexivity]].
        set (F := fun y : lgf => if f_num y =? mx then with_mt y m' else y).
        assert (Hn : forall y, f_num (F y) = f_num y) by (intros y; unfold F; destruct (f_num y =? mx); reflexivity).
        assert (Hone : forall y, In y (g_files g) -> f_num y = mx -> y = f).
        { clear -F1 F2 Vn. revert F1 Vn. induction (g_files g) as [|z t IH]; intros F1 Vn y Hy E; [destruct Hy|].
          cbn [map] in Vn. inversion Vn as [|? ? N1 N2]; subst.
          destruct Hy as [<-|Hy]; destruct F1 as [<-|F1]; try reflexivity.
          - exfalso. apply N1. rewrite E. apply in_map, F1.
          - exfalso. apply N1. rewrite <- E. apply in_map, Hy.
          - apply IH; assumption. }
        cbn [p_db d_bat d_tab d_log with_files g_files g_max]. unfold same_view. cbn [p_db d_bat d_tab d_log with_files g_files g_max].
        assert (Hm : map f_num (upd_file mx (fun f0 => with_mt f0 m') (g_files g)) = map f_num (g_files g)).
        { unfold upd_file. rewrite map_map. apply map_ext. exact Hn. }
        split; [reflexivity|]. split; [reflexivity|]. rewrite Hm. split; [exact Vn|]. split; [reflexivity|]. split; [reflexivity|].
        intros k. apply (lm_get_map c k g F Hn).
        { intros y chk Hy. unfold F. destruct (f_num y =? mx) eqn:Ey; [|reflexivity]. cbn [with_mt f_mt].
          rewrite (Hone y Hy) by lia. apply C2. }
        { intros y Hy. unfold F. destruct (f_num y =? mx) eqn:Ey; [|reflexivity]. cbn [with_mt f_mt]. rewrite (Hone y Hy) by lia. exact C1. }
      * eexists. eexists. split; [reflexivity|]. split; [reflexivity|]. split; [exact V0|]. split; [split; [discriminate|intros H; destruct (H out0); reflexivity]|].
        intros _ Z. rewrite <- Emx' in Z. congruence.
    + eexists. eexists. split; [reflexivity|]. split; [reflexivity|]. split; [exact V0|]. split; [split; [discriminate|intros H; destruct (H out0); reflexivity]|].
      intros Z; congruence.
  - eexists. eexists. split; [reflexivity|]. split; [reflexivity|]. split; [exact V0|]. split; [split; [discriminate|intros _; right; reflexivity]|]. intros _ _. right; reflexivity.
Qed.

Definition has_max (d : db) : Prop := max_num (d_log d) <> None /\ In (g_max (d_log d)) (map f_num (g_files (d_log d))).

Lemma file_at_map : forall n fs, In n (map f_num fs) -> file_at n fs <> None.
Proof.
  intros n fs H E. apply in_map_iff in H. destruct H as (f & <- & Hf). unfold file_at in E. assert (Q := find_none _ _ E f Hf). cbn beta in Q. lia.
Qed.

Lemma rrun_view : forall c os p, same_view c (p_db p) (p_db p) -> Forall not_flush os ->
  exists xs p', rrun hash c os p = Some (xs, p') /\ files p' = files p /\ same_view c (p_db p) (p_db p') /\ Forall2 ok_call os xs /\
    (has_max (p_db p) -> Forall refused xs).
Proof.
  intros c. induction os as [|o os IH]; intros p V Hf; cbn [rrun].
  - exists [], p. split; [reflexivity|]. split; [reflexivity|]. split; [exact V|]. split; constructor.
  - inversion Hf as [|? ? Ho Hos]; subst. destruct (rstep_view c o p V Ho) as (a & p1 & E1 & F1 & V1 & K1 & R1). rewrite E1.
    destruct V1 as (B1 & T1 & N1 & M1 & G1 & L1).
    assert (V1' : same_view c (p_db p1) (p_db p1)) by (split; [exact B1|]; split; [reflexivity|]; split; [exact N1|]; split; [reflexivity|]; split; reflexivity).
    destruct (IH p1 V1' Hos) as (xs & p2 & E2 & F2 & (B2 & T2 & N2 & M2 & G2 & L2) & K2 & R2). rewrite E2.
    eexists. eexists. split; [reflexivity|]. split; [congruence|]. split.
    { split; [exact B2|]. split; [congruence|]. split; [exact N2|]. split; [congruence|]. split; [congruence|]. intros k. rewrite L2. apply L1. }
    split; [constructor; assumption|]. intros (Hx & Hm). constructor; [apply R1; [exact Hx|apply file_at_map, Hm]|].
    apply R2. split; [|rewrite G1, M1; exact Hm]. unfold max_num in *. rewrite G1. exact Hx.
Qed.

Lemma view_get : forall c k d0 d, same_view c d0 d -> db_get hash c k d = db_get hash c k d0.
Proof. intros c k d0 d (_ & T & _ & _ & _ & L). unfold db_get. rewrite L, T. reflexivity. Qed.

(** ** Conclusions *)

Theorem session : forall c i q, c_lso c = false -> newest_present i -> NoDup (map e_num (l_files (i_man i))) ->
  r_open hash c i = Some q -> forall os, Forall not_flush os ->
  exists xs q', rrun hash c os q = Some (xs, q') /\ r_close q' = i /\ Forall2 ok_call os xs /\ (has_max (p_db q) -> Forall refused xs) /\
    forall k w, w_open hash c i = Some w -> db_get hash c k (p_db q') = db_get hash c k (p_db w).
Proof.
  intros c i q Hlso Hp Hnd E os Hos. destruct (r_open_present c i q Hlso Hp E) as (F & B & ND). specialize (ND Hnd).
  assert (V : same_view c (p_db q) (p_db q)) by (split; [exact B|]; split; [reflexivity|]; split; [exact ND|]; split; [reflexivity|]; split; reflexivity).
  destruct (rrun_view c os q V Hos) as (xs & q' & E' & F' & V' & K & R). exists xs, q'. split; [exact E'|]. split; [unfold r_close; congruence|].
  split; [exact K|]. split; [exact R|]. intros k w Ew. rewrite (view_get _ _ _ _ V'). assert (Q := r_w_open c i). rewrite E, Ew in Q. rewrite Q. reflexivity.
Qed.

Lemma nums_nodup : forall fs n, nums_from n fs -> NoDup (map f_num fs).
Proof.
  induction fs as [|f t IH]; intros n H; cbn [map]; constructor.
  - destruct H as [H1 H2]. intros Q. apply in_map_iff in Q. destruct Q as (y & Ey & Hy). assert (Z := nums_in _ _ _ H2 Hy). lia.
  - destruct H as [_ H2]. eapply IH; exact H2.
Qed.
Lemma ent_nums : forall es a, Forall2 ent_ok es a -> map e_num es = map f_num a.
Proof. intros es a H. induction H as [|e f es a (E & _) H IH]; cbn [map]; [reflexivity|]. now rewrite E, IH. Qed.

(** A database that can be recovered meets the conditions. *)
Lemma recoverable : forall pw c h hs p disk dur M old, cfg_ok c -> c_lso c = false -> PI hash pw c h hs p ->
  man_ok (lastseq hs) (d_log (p_db p)) M -> filled (lastseq hs) (d_log (p_db p)) disk ->
  let i := mkI (d_tab (p_db p)) disk dur M old in
  newest_present i /\ NoDup (map e_num (l_files M)) /\
  exists q, r_open hash c i = Some q /\ has_max (p_db q) /\ exists w, w_open hash c i = Some w /\ answers hash c hs w.
Proof.
  intros pw c h hs p disk dur M old Cok Hlso P HM Hfil i. destruct (pi_good _ _ _ _ _ _ P) as (n0 & pre & F & part & G). set (d := p_db p) in *.
  destruct (open_answers hash pw c h hs p disk dur M old Cok Hlso P HM Hfil) as (w & Ew & Aw).
  destruct (open_ok hash c h hs d n0 pre F part disk dur M old Cok Hlso G HM Hfil)
    as (a & b & fs & X & q & Eab & Hb & He & (a' & fl & Ea & Emax) & RA & HX & Hmx & Eq & Edb & _).
  assert (H := go_gi _ _ _ _ _ _ _ _ _ G). assert (HN := gi_nums _ _ _ _ _ _ H). rewrite Eab in HN. apply nums_app in HN. destruct HN as [HNa _].
  assert (Hfl : In fl a) by (rewrite Ea; apply in_or_app; right; left; reflexivity).
  assert (Hmxl : l_max M < NIL).
  { assert (A := gi_gmax _ _ _ _ _ _ H). assert (B := gi_few _ _ _ _ _ _ H). assert (C := go_lim _ _ _ _ _ _ _ _ _ G).
    assert (D := nums_in _ _ _ HNa Hfl). rewrite Eab in A. unfold len in *. rewrite app_length in A. lia. }
  split; [|split].
  - rewrite Ea in He. apply Forall2_app_inv_r in He. destruct He as (es & e2 & He1 & He2 & Ees). inversion He2 as [|e ? ? ? (En & _) Hnil]; subst. inversion Hnil; subst.
    exists es, e. split; [exact Ees|]. rewrite En. split.
    + destruct (Hfil fl) as (x & Ex & _); [rewrite Eab; apply in_or_app; left; exact Hfl|]. cbn [i i_disk]. rewrite Ex. discriminate.
    + cbn [i i_man]. destruct HM as (_ & _ & _ & _ & _ & _ & Hlf & _). rewrite Hlf. assert (Z := nums_in _ _ _ HNa Hfl).
      destruct (gi_lf _ _ _ _ _ _ H) as [-> | ->]; [left; reflexivity|right; lia].
  - rewrite (ent_nums _ _ He). eapply nums_nodup; exact HNa.
  - assert (Q := r_w_open c i). unfold w_open in Q. cbn [i i_tab i_disk i_dur i_man i_old] in Q. fold d in Ew, Q. rewrite Eq in Q.
    destruct (r_open hash c i) as [q'|] eqn:Er; [|destruct Q]. exists q'. split; [reflexivity|]. split.
    + rewrite Q, Edb. unfold has_max, max_num. cbn [d_log g_max g_files]. split; [replace (l_max M =? NIL) with false by lia; discriminate|].
      rewrite (ri_nums _ _ _ _ RA), Ea, map_app, Emax. apply in_or_app; right; left; reflexivity.
    + exists w. split; [exact Ew|exact Aw].
Qed.

Definition ends (pw : bool) (p : pdb) (x : xkind) : Prop := x = XClean \/ crashes pw p x.
Definition stored (x : xkind) (h hs : list rec) : list rec := match x with XClean => h | _ => hs end.

Theorem session_reachable : forall pw c h hs p x, cfg_ok c -> c_lso c = false -> preach hash pw c h hs p -> ends pw p x ->
  exists i q, left_by hash c x p = Some i /\ r_open hash c i = Some q /\ forall os, Forall not_flush os ->
    exists xs q', rrun hash c os q = Some (xs, q') /\ Forall refused xs /\ r_close q' = i /\
      forall k, db_get hash c k (p_db q') = spec_get (stored x h hs) k.
Proof.
  intros pw c h hs p x Cok Hlso R Hx. assert (P := preach_inv hash _ _ _ _ _ Cok Hlso R).
  assert (K : exists pw' p1 disk dur M old, PI hash pw' c (match x with XClean => h | _ => h end) (stored x h hs) p1 /\ man_ok (lastseq (stored x h hs)) (d_log (p_db p1)) M /\
    filled (lastseq (stored x h hs)) (d_log (p_db p1)) disk /\ left_by hash c x p = Some (mkI (d_tab (p_db p1)) disk dur M old)).
  { destruct Hx as [-> |Hx].
    - destruct (sync_total hash pw c h hs p true Cok P ltac:(auto)) as (p1 & E1 & P1).
      exists pw, p1, (p_disk p1), (p_dur p1), (p_man p1), (p_old p1). split; [exact P1|]. split; [apply (proj2 (pi_man _ _ _ _ _ _ P1))|].
      split; [apply disk_filled, (pi_disk _ _ _ _ _ _ P1)|]. unfold left_by. rewrite E1. reflexivity.
    - destruct x as [| | | |disk m]; try destruct Hx.
      + exists pw, p, (p_disk p), (p_dur p), (p_man p), (p_old p). split; [exact P|]. split; [apply (proj2 (pi_man _ _ _ _ _ _ P))|].
        split; [apply disk_filled, (pi_disk _ _ _ _ _ _ P)|reflexivity].
      + subst pw. exists true, p, disk, disk, m, []. split; [exact P|]. split; [destruct H0 as (_ & _ & [-> |Hm]); [apply (pi_man _ _ _ _ _ _ P)|apply (pi_old _ _ _ _ _ _ P eq_refl m Hm)]|].
        split; [apply (survive_fill _ _ _ _ _ _ _ P H0)|reflexivity]. }
  destruct K as (pw' & p1 & disk & dur & M & old & P1 & HM & Hfil & El).
  destruct (recoverable pw' c _ _ p1 disk dur M old Cok Hlso P1 HM Hfil) as (Np & ND & q & Eq & Hmax & w & Ew & Aw & _).
  eexists. exists q. split; [exact El|]. split; [exact Eq|]. intros os Hos.
  destruct (session c _ q Hlso Np ND Eq os Hos) as (xs & q' & Er & Ec & _ & Rf & G). exists xs, q'. split; [exact Er|]. split; [apply Rf, Hmax|]. split; [exact Ec|].
  intros k. rewrite (G k w Ew). apply Aw.
Qed.

End Proofs.
