(** The database handle: reads return the last acknowledged write (proofs; statements in
    DbProps.v). *)
From Verif Require Import Base KeyModel KeyProofs LogFormatModel BloomModel BloomProofs MemTableModel MemTableProofs
  LogMgrModel LogMgrProofs LogMgrProofs2 LogMgrProofs3 DbModel.
From Coq Require Import Sorted.
Local Open Scope N_scope.

(** * Specification *)

(** The last write of a key in a history of acknowledged writes (commands do not count). *)
Definition last_write (h : list rec) (k : key) : option rec :=
  find (fun r => keqb (r_key r) k && negb (is_cmd r)) (rev h).
(** What a read must return. *)
Definition spec_get (h : list rec) (k : key) : res rec :=
  match last_write h k with
  | Some r => if is_ins r then Ok r else Fail KEY_NOT_FOUND
  | None => Fail KEY_NOT_FOUND
  end.
(** The largest sequence number acknowledged. *)
Definition top (h : list rec) : N := fold_left N.max (map r_seq h) 0.

Definition acked (x : res (list rec)) : list rec := match x with Ok l => l | _ => [] end.

(** Conditions on the operations:
    - sequence numbers are 64-bit and stay away from the top of the range;
    - a write that carries a number not above the newest one does not meet a full log file
      ([C14_stale_number_accepted_refuted] shows why);
    - an empty log file is not full;
    - a batch comes after the first write ([C30_first_batch_refuted] shows why);
    - a flush asks for everything, or for a record that exists and is synced
      ([C34_unsynced_lost_refuted], [C34_gap_lost_refuted]), and not for everything while a batch
      is being written ([C30_flush_during_batch_refuted]). *)
Definition allowed (c : cfg) (h : list rec) (d : db) (o : op) : Prop :=
  match o with
  | OSet full r =>
      r_seq r <= NIL /\ (r_seq r <> NIL -> r_seq r + 1 < NIL) /\ (r_seq r = NIL -> top h + 2 < NIL) /\
      (full = true -> h <> []) /\
      (r_seq r <= top h -> valid_to_write c full (newest_file (d_log d)) = true)
  | OBegin b =>
      h <> [] /\ (forall r, In r b -> r_seq r <= NIL) /\
      (forall r, In r b -> r_seq r <> NIL -> r_seq r + N.of_nat (length b) + 1 < NIL) /\
      top h + N.of_nat (length b) + 1 < NIL
  | OFlush fo seq =>
      o_purge fo = false /\
      (d_bat d <> None -> seq <> NIL) /\
      (seq <> NIL ->
        (exists r, In r h /\ r_seq r = seq) /\
        (if o_beyond fo then forall s, lm_synced_seq (d_log d) = Ok s -> s <= seq
         else exists s, lm_synced_seq (d_log d) = Ok s /\ seq <= s))
  | _ => True
  end.

Section Proofs.
Variable hash : key -> N * N.
Notation GI := (GI hash).
Notation FI := (FI hash).

(** Executions, with the acknowledged writes in order. *)
Inductive reach (c : cfg) : list rec -> db -> Prop :=
| reach_new : reach c [] (db_new c)
| reach_step : forall h d o x d', reach c h d -> allowed c h d o -> step hash c o d = Some (x, d') ->
    reach c (h ++ acked x) d'.

(** * Lists *)

Lemma top_last : forall h, sorted_seq h -> top h = lastseq h.
Proof.
  intros h. induction h as [|r h IH] using rev_ind; intros Hs; [reflexivity|].
  unfold top. rewrite map_app, fold_left_app. cbn [map fold_left]. rewrite lastseq_snoc.
  assert (Hs' := Hs). unfold sorted_seq in Hs'. rewrite map_app in Hs'. apply SS_app_inv in Hs'. destruct Hs' as (S1 & _ & S3).
  change (fold_left N.max (map r_seq h) 0) with (top h). rewrite (IH S1).
  destruct h as [|x t] eqn:Eh; [cbn; lia|]. rewrite <- Eh in *.
  destruct (lastseq_in h) as (y & Hy & <-); [rewrite Eh; discriminate|].
  assert (X := S3 (r_seq y) (r_seq r) (in_map _ _ _ Hy) (or_introl eq_refl)). lia.
Qed.

Lemma filter_rev : forall {A} (p : A -> bool) l, filter p (rev l) = rev (filter p l).
Proof.
  intros A p l; induction l as [|x l IH]; [reflexivity|]. cbn [rev filter]. rewrite filter_app, IH. cbn [filter].
  destruct (p x); [reflexivity|apply app_nil_r].
Qed.

Lemma newest_last_write : forall h k, newest h NIL k = last_write h k.
Proof.
  intros h k. unfold newest, last_write, for_key. rewrite <- filter_rev.
  induction (rev h) as [|x l IH]; [reflexivity|]. cbn [filter find].
  destruct (keqb (r_key x) k && negb (is_cmd x)) eqn:E; [|exact IH].
  cbn [find]. unfold visible. rewrite nil_invalid. reflexivity.
Qed.

Lemma newest_filter : forall h chk k, chk < NIL -> newest h chk k = last_write (filter (fun r => r_seq r <=? chk) h) k.
Proof.
  intros h chk k Hc. unfold newest, last_write, for_key. rewrite <- !filter_rev.
  assert (V : forall x, visible chk x = (r_seq x <=? chk)).
  { intros x. unfold visible, valid_number. replace (chk =? NIL) with false by lia. reflexivity. }
  induction (rev h) as [|x l IH]; [reflexivity|]. cbn [filter].
  destruct (keqb (r_key x) k && negb (is_cmd x)) eqn:E; destruct (r_seq x <=? chk) eqn:E2; cbn [find]; rewrite ?V, ?E, ?E2; auto.
Qed.

Lemma filter_le_all : forall h n, sorted_seq h -> lastseq h <= n -> filter (fun r => r_seq r <=? n) h = h.
Proof.
  intros h n Hs Hn. apply filter_all. intros r Hr. assert (X := lastseq_ge _ _ Hs Hr). lia.
Qed.

Lemma filter_cut : forall h a b, sorted_seq h -> a <= b ->
  filter (fun r => r_seq r <=? a) h ++ filter (fun r => (a <? r_seq r) && (r_seq r <=? b)) h = filter (fun r => r_seq r <=? b) h.
Proof.
  induction h as [|r h IH]; intros a b Hs Hab; [reflexivity|]. cbn [filter].
  assert (Hs' := Hs). unfold sorted_seq in Hs'. cbn [map] in Hs'. inversion Hs' as [|? ? S1 S2]; subst.
  destruct (r_seq r <=? a) eqn:E1.
  - replace (a <? r_seq r) with false by lia. replace (r_seq r <=? b) with true by lia. cbn [andb app]. f_equal. apply IH; assumption.
  - replace (a <? r_seq r) with true by lia. cbn [andb].
    rewrite (filter_none (fun r => r_seq r <=? a) h).
    + cbn [app]. assert (Q : forall l, (forall x, In x l -> a < r_seq x) ->
        filter (fun r => (a <? r_seq r) && (r_seq r <=? b)) l = filter (fun r => r_seq r <=? b) l).
      { induction l as [|y l IHl]; intros Hy; [reflexivity|]. cbn [filter].
        assert (Z := Hy y (or_introl eq_refl)). replace (a <? r_seq y) with true by lia. cbn [andb].
        rewrite IHl by (intros z Hz; apply Hy; right; exact Hz). reflexivity. }
      assert (Hgt : forall x, In x h -> a < r_seq x).
      { intros x Hx. rewrite Forall_forall in S2. assert (Z := S2 _ (in_map r_seq _ _ Hx)). lia. }
      destruct (r_seq r <=? b); rewrite (Q h Hgt); reflexivity.
    + intros x Hx. rewrite Forall_forall in S2. assert (Z := S2 _ (in_map r_seq _ _ Hx)). lia.
Qed.

Lemma last_write_app : forall a b k, last_write (a ++ b) k = match last_write b k with Some r => Some r | None => last_write a k end.
Proof. intros a b k. rewrite <- !newest_last_write. apply newest_app. Qed.

Lemma last_write_in : forall h k r, last_write h k = Some r -> In r h.
Proof. intros h k r H. apply find_some in H. apply in_rev, H. Qed.

(** Log answer + tables. *)
Lemma log_plus_tab : forall h F k, sorted_seq h ->
  match log_answer h F NIL k with
  | Ok r => found r
  | Undef => Undef
  | Fail _ => match tab_get (filter (fun r => r_seq r <=? F) h) k with Ok r => found r | other => other end
  end = spec_get h k.
Proof.
  intros h F k Hs. unfold log_answer, spec_get, tab_get, found.
  fold (last_write (filter (fun r => r_seq r <=? F) h) k). rewrite newest_last_write.
  destruct (last_write h k) as [r|] eqn:E.
  - destruct (F <? r_seq r) eqn:E2; [reflexivity|].
    assert (X : last_write (filter (fun r => r_seq r <=? F) h) k = Some r).
    { clear Hs. unfold last_write in *. rewrite <- filter_rev. revert E. induction (rev h) as [|x l IH]; intros E; [discriminate|].
      cbn [find filter] in *. destruct (keqb (r_key x) k && negb (is_cmd x)) eqn:E3.
      - injection E as <-. replace (r_seq x <=? F) with true by lia. cbn [find]. rewrite E3. reflexivity.
      - destruct (r_seq x <=? F); cbn [find]; rewrite ?E3; apply IH; exact E. }
    rewrite X. reflexivity.
  - assert (X : last_write (filter (fun r => r_seq r <=? F) h) k = None).
    { unfold last_write in *. rewrite <- filter_rev. revert E. induction (rev h) as [|x l IH]; intros E; [reflexivity|].
      cbn [find filter] in *. destruct (keqb (r_key x) k && negb (is_cmd x)) eqn:E3; [discriminate|].
      destruct (r_seq x <=? F); cbn [find]; rewrite ?E3; apply IH; exact E. }
    rewrite X. reflexivity.
Qed.

(** * The invariant *)

(** A batch in progress: all of its records so far are at the end of the newest file, after at
    least one older record; the barrier is the last number before it. *)
Definition in_batch (c : cfg) (h part todo : list rec) (F : N) (g : lmgr) : Prop :=
  h <> [] /\ g_bar g = lastseq h /\ F <= lastseq h /\ batch_ok (h ++ part) todo = true /\ room (h ++ part) todo /\
  exists a f u, g_files g = a ++ [f] /\ fh f = u ++ part /\ u <> [].

Record DI (c : cfg) (h : list rec) (d : db) : Prop := {
  di_ex : exists n0 pre F part,
    GI n0 pre (h ++ part) F (d_log d) /\ d_tab d = filter (fun r => r_seq r <=? F) h /\
    lastseq (h ++ part) + 1 < NIL /\ (F <> 0 -> h <> []) /\ F <= lastseq h /\
    (forall f, In f (d_gone d) -> f_num f < n0 /\ FI f) /\
    match d_bat d with
    | None => part = [] /\ g_bar (d_log d) = 0
    | Some (todo, done) => done = part /\ in_batch c h part todo F (d_log d)
    end
}.

Lemma gi_F_le : forall n0 pre h F g, GI n0 pre h F g -> F <= lastseq h.
Proof.
  intros n0 pre h F g H. destruct (N.eq_dec F 0) as [->|n]; [lia|].
  destruct (gi_F _ _ _ _ _ _ H n) as (r & Hr & <-). apply lastseq_ge; [apply (gi_asc _ _ _ _ _ _ H)|].
  rewrite (gi_hist _ _ _ _ _ _ H). apply in_or_app; right; exact Hr.
Qed.

Lemma di_new : forall c, 0 < c_maxent c -> DI c [] (db_new c).
Proof.
  intros c Hc. constructor. exists 0, [], 0, []. cbn [db_new d_log d_tab d_gone d_bat app].
  split; [apply gi_new; exact Hc|]. split; [reflexivity|]. split; [cbn; rewrite nil_val; lia|].
  split; [congruence|]. split; [cbn; lia|]. split; [intros f []|]. split; reflexivity.
Qed.

(** ** Structure of the files after a write *)
Lemma file_set_files : forall n0 pre h F g c r o g', GI n0 pre h F g -> file_set hash c (g_max g) r g = (o, g') ->
  exists a f f', g_files g = a ++ [f] /\ g_files g' = a ++ [f'] /\ f_num f' = f_num f.
Proof.
  intros n0 pre h F g c r o g' H E. destruct (gi_last _ _ _ _ _ _ H) as (a & f & Ef & En).
  unfold file_set in E. assert (HA := file_at_num _ _ _ _ _ (gi_nums _ _ _ _ _ _ H) Ef). rewrite En in HA. rewrite HA in E.
  destruct (lf_set hash (c_ow c) r (f_mt f)) as [o1 m']. injection E as _ <-.
  exists a, f, (with_mt f m'). split; [exact Ef|]. split; [|reflexivity]. cbn [with_files g_files].
  assert (HN := gi_nums _ _ _ _ _ _ H). rewrite Ef in *. rewrite <- En. rewrite (upd_file_app a f [] n0 _ HN). reflexivity.
Qed.

Lemma snoc_cancel : forall (p q x y z : list rec), p ++ q ++ x = p ++ q ++ y ++ z -> x = y ++ z.
Proof. intros p q x y z H. apply app_inv_head in H. apply app_inv_head in H. exact H. Qed.

Lemma file_set_grow : forall n0 pre h F g c r r' g', GI n0 pre h F g -> file_set hash c (g_max g) r g = (Ok r', g') ->
  GI n0 pre (h ++ [r']) F g' ->
  exists a f f', g_files g = a ++ [f] /\ g_files g' = a ++ [f'] /\ f_num f' = f_num f /\ fh f' = fh f ++ [r'].
Proof.
  intros n0 pre h F g c r r' g' H E H'. destruct (file_set_files _ _ _ _ _ _ _ _ _ H E) as (a & f & f' & E1 & E2 & E3).
  exists a, f, f'. split; [exact E1|]. split; [exact E2|]. split; [exact E3|].
  assert (X := gi_hist _ _ _ _ _ _ H'). rewrite (gi_hist _ _ _ _ _ _ H), E1, E2, !all_h_app in X. cbn [all_h flat_map] in X.
  rewrite !app_nil_r in X. rewrite <- !app_assoc in X. symmetry in X. apply snoc_cancel in X. exact X.
Qed.

Lemma lm_set_grow : forall n0 pre h F g c full r r' g', GI n0 pre h F g -> c_ow c = false -> lastseq h + 1 < NIL ->
  lm_set hash c full r g = (Ok r', g') -> GI n0 pre (h ++ [r']) F g' ->
  (exists a f f', g_files g = a ++ [f] /\ g_files g' = a ++ [f'] /\ f_num f' = f_num f /\ fh f' = fh f ++ [r']) \/
  (exists f', g_files g' = g_files g ++ [f'] /\ fh f' = [r']).
Proof.
  intros n0 pre h F g c full r r' g' H Ho Hl E H'. unfold lm_set in E.
  destruct (c_ro c); [discriminate|]. destruct (r_seq r =? 0); [discriminate|].
  rewrite (gi_max_num _ _ _ _ _ _ H Hl), Ho, andb_false_r in E.
  assert (HA := gi_newest _ _ _ _ _ _ H). rewrite HA in E. cbn [negb] in E.
  rewrite orb_true_l, andb_true_r in E.
  assert (Hfs : forall g2 (x : lmgr), (match file_at (g_max g2) (g_files x) with
                | Some f2 => if f_imm f2 then mkG (g_files x) (g_max x) (g_lf x) (g_ls x) (g_bar x) else x | None => x end) = x -> True) by auto.
  clear Hfs.
  destruct (negb (valid_to_write c full (newest_file g))) eqn:Er.
  - right. set (g1 := add_new_file c (newest_file g) g) in *.
    assert (Hg1 : g_files g1 = g_files g ++ [mkF ((g_max g + 1) mod 2 ^ 64) ((m_max (f_mt (newest_file g)) + 1) mod 2 ^ 64) false
        (mt_init (c_maxent c * 64) ((m_max (f_mt (newest_file g)) + 1) mod 2 ^ 64))]) by reflexivity.
    assert (Hm : g_max g1 = g_max g + 1).
    { cbn [g1 add_new_file g_max]. apply N.mod_small. assert (X := gi_few _ _ _ _ _ _ H). rewrite nil_val in Hl. lia. }
    assert (Hm0 : (g_max g + 1) mod 2 ^ 64 = g_max g1) by reflexivity. clearbody g1.
    destruct (file_set hash c (g_max g1) r g1) as [o g2] eqn:E2. destruct o as [x| |]; [|discriminate|discriminate].
    assert (Eg : g_files g' = g_files g2).
    { apply (f_equal snd) in E; cbn [snd] in E; rewrite <- E. destruct (file_at (g_max g1) (g_files g2)) as [f2|]; [|reflexivity].
      destruct (f_imm f2); reflexivity. }
    assert (Ex : x = r') by (apply (f_equal fst) in E; cbn [fst] in E; congruence). subst x.
    unfold file_set in E2. destruct (file_at (g_max g1) (g_files g1)) as [f1|] eqn:EA; [|discriminate].
    destruct (lf_set hash (c_ow c) r (f_mt f1)) as [o1 m']. injection E2 as _ <-. cbn [with_files g_files] in Eg.
    assert (HG := gi_gmax _ _ _ _ _ _ H).
    assert (Hnums : nums_from n0 (g_files g1)).
    { rewrite Hg1. apply nums_app. split; [apply (gi_nums _ _ _ _ _ _ H)|]. cbn [nums_from f_num]. split; [|exact I].
      lia. }
    assert (Hlast : exists fl, g_files g1 = g_files g ++ [fl] /\ f_num fl = g_max g1) by (eexists; split; [exact Hg1|exact Hm0]).
    destruct Hlast as (fl & Hfl & Hfn). rewrite Hfl in Hnums.
    rewrite Hfl, <- Hfn, (upd_file_app (g_files g) fl [] n0 _ Hnums) in Eg.
    exists (with_mt fl m'). split; [exact Eg|].
    assert (X := gi_hist _ _ _ _ _ _ H'). rewrite (gi_hist _ _ _ _ _ _ H), Eg, all_h_app in X. cbn [all_h flat_map] in X.
    rewrite app_nil_r in X. rewrite <- !app_assoc in X. symmetry in X. apply app_inv_head in X. apply app_inv_head in X. exact X.
  - left. destruct (file_set hash c (g_max g) r g) as [o g2] eqn:E2. destruct o as [x| |]; [|discriminate|discriminate].
    assert (Eg : g_files g' = g_files g2).
    { apply (f_equal snd) in E; cbn [snd] in E; rewrite <- E. destruct (file_at (g_max g) (g_files g2)) as [f2|]; [|reflexivity].
      destruct (f_imm f2); reflexivity. }
    assert (Ex : x = r') by (apply (f_equal fst) in E; cbn [fst] in E; congruence). subst x.
    destruct (file_set_files _ _ _ _ _ _ _ _ _ H E2) as (a & f & f' & E3 & E4 & E5).
    exists a, f, f'. split; [exact E3|]. split; [congruence|]. split; [exact E5|].
    assert (X := gi_hist _ _ _ _ _ _ H'). rewrite (gi_hist _ _ _ _ _ _ H), Eg, E3, E4, !all_h_app in X. cbn [all_h flat_map] in X.
    rewrite !app_nil_r in X. rewrite <- !app_assoc in X. symmetry in X. apply snoc_cancel in X. exact X.
Qed.

(** ** Flush while a batch is in progress *)
Lemma flush_bar : forall o seq g, seq <> NIL -> g_bar g < NIL ->
  lm_flush o seq g = (fst (lm_flush o seq (with_bar g 0)), with_bar (snd (lm_flush o seq (with_bar g 0))) (g_bar g)).
Proof.
  intros o seq g Hs Hb. unfold lm_flush, with_bar, last_flushed, min_num. cbn [g_files g_max g_lf g_ls g_bar N.eqb negb andb].
  destruct (seq =? 0); [destruct g; reflexivity|].
  destruct ((if o_beyond o then g_max g else g_ls g) =? NIL); [destruct g; reflexivity|].
  destruct (if g_lf g =? NIL then _ else _) as [from|]; [|destruct g; reflexivity].
  assert (E : (if negb (g_bar g =? 0) && (g_bar g <? seq) then g_bar g else seq) =? NIL = false).
  { destruct (negb (g_bar g =? 0) && (g_bar g <? seq)); lia. }
  rewrite E. change (0 =? 0) with true. cbn [negb andb]. replace (seq =? NIL) with false by lia.
  destruct (file_at from (g_files g)) as [ff|]; [|destruct g; reflexivity].
  destruct (valid_number (m_flushed (f_mt ff)) && (seq <=? m_flushed (f_mt ff))); [destruct g; reflexivity|].
  destruct (if o_purge o then _ else _) as [[rs cs]|]; [reflexivity|destruct g; reflexivity].
Qed.

(** ** Checkpoints *)
Lemma mt_checkpoint_same : forall o m, let m' := snd (mt_checkpoint o m) in
  m_seq m' = m_seq m /\ m_max m' = m_max m /\ m_min m' = m_min m /\ m_start m' = m_start m /\
  m_synced m' = m_synced m /\ m_flushed m' = m_flushed m.
Proof.
  intros o m; unfold mt_checkpoint. destruct (negb _); [repeat split|].
  destruct (match rev (m_chks m) with [] => false | _ => _ end); repeat split.
Qed.

Lemma chk_fi : forall o f, FI f -> FI (with_mt f (snd (mt_checkpoint o (f_mt f)))).
Proof.
  intros o f H. destruct (mt_checkpoint_same o (f_mt f)) as (E1 & E2 & E3 & E4 & E5 & E6). destruct H.
  constructor; unfold fh in *; cbn [with_mt f_mt f_start]; rewrite ?E1, ?E2, ?E3, ?E4, ?E5, ?E6; auto.
  apply mw_checkpoint; assumption.
Qed.

Lemma lm_checkpoint_spec : forall n0 pre h F g out0, GI n0 pre h F g -> lastseq h + 1 < NIL ->
  exists x g', lm_checkpoint out0 g = (Ok x, g') /\ GI n0 pre h F g' /\ g_bar g' = g_bar g /\
    Forall2 same_file (g_files g) (g_files g') /\ (h <> [] -> x = lastseq h) /\ g_lf g' = g_lf g /\ g_max g' = g_max g.
Proof.
  intros n0 pre h F g out0 H Hl. unfold lm_checkpoint. rewrite (gi_max_num _ _ _ _ _ _ H Hl), (gi_newest _ _ _ _ _ _ H).
  set (f := newest_file g). destruct (mt_checkpoint out0 (f_mt f)) as [x m'] eqn:Ec.
  exists x, (with_files g (upd_file (g_max g) (fun f0 => with_mt f0 m') (g_files g))). split; [reflexivity|].
  destruct (newest_file_split _ _ _ _ _ _ H) as [a Ea]. fold f in Ea.
  assert (En : f_num f = g_max g) by (apply (file_at_in _ _ _ (gi_newest _ _ _ _ _ _ H))).
  assert (Em : m' = snd (mt_checkpoint out0 (f_mt f))) by (rewrite Ec; reflexivity).
  assert (Eu : upd_file (g_max g) (fun f0 => with_mt f0 m') (g_files g) = a ++ [with_mt f m']).
  { assert (HN := gi_nums _ _ _ _ _ _ H). rewrite Ea in *. rewrite <- En. apply (upd_file_app a f [] n0 (fun f0 => with_mt f0 m') HN). }
  rewrite Eu.
  assert (Hsame : Forall2 same_file (g_files g) (a ++ [with_mt f m'])).
  { rewrite Ea. apply Forall2_app; [apply same_files_refl|]. constructor; [|constructor].
    destruct (mt_checkpoint_same out0 (f_mt f)) as (E1 & E2 & E3 & E4 & E5 & E6). rewrite Em.
    unfold same_file, fh. cbn [with_mt f_num f_mt f_start]. auto. }
  assert (Hf : In f (g_files g)) by (apply (newest_file_in _ _ _ _ _ _ H)).
  assert (Hin : forall y, In y (a ++ [with_mt f m']) -> In y (g_files g) \/ y = with_mt f m').
  { intros y Hy. apply in_app_or in Hy. destruct Hy as [Hy|[Hy|[]]]; [left; rewrite Ea; apply in_or_app; left; exact Hy|right; auto]. }
  assert (Hmk : forall y, In y (a ++ [with_mt f m']) -> exists z, In z (g_files g) /\ f_num z = f_num y /\
     m_synced (f_mt y) = m_synced (f_mt z) /\ m_max (f_mt y) = m_max (f_mt z) /\ f_imm y = f_imm z).
  { intros y Hy. destruct (Hin y Hy) as [Hy'| ->]; [exists y; auto|]. exists f. split; [exact Hf|].
    destruct (mt_checkpoint_same out0 (f_mt f)) as (E1 & E2 & E3 & E4 & E5 & E6). rewrite Em. cbn [with_mt f_num f_mt f_imm]. auto. }
  split.
  { apply (gi_replace hash n0 pre h F g (a ++ [with_mt f m']) (g_ls g) H Hsame).
    - intros y Hy. destruct (Hin y Hy) as [Hy'| ->]; [apply (gi_fi _ _ _ _ _ _ H y Hy')|].
      rewrite Em. apply chk_fi, (gi_fi _ _ _ _ _ _ H f Hf).
    - destruct (gi_ls _ _ _ _ _ _ H) as [X|(X & X1 & X2)]; [left; exact X|right]. split; [exact X|]. split.
      + intros y Hy Hlt. destruct (Hmk y Hy) as (z & Hz & Z1 & Z2 & Z3 & _). unfold full_synced. rewrite Z2, Z3. apply X1; [exact Hz|lia].
      + intros y Hy Hlt Hs. destruct (Hmk y Hy) as (z & Hz & Z1 & Z2 & Z3 & _). apply (X2 z Hz); congruence.
    - intros Hh y Hy. destruct (Hmk y Hy) as (z & Hz & Z1 & Z2 & Z3 & Z4). rewrite Z4. apply (gi_noimm _ _ _ _ _ _ H Hh z Hz). }
  split; [reflexivity|]. split; [exact Hsame|]. split; [|split; reflexivity].
  intros Hne. assert (Emax := newest_file_max _ _ _ _ _ _ H). fold f in Emax. destruct h as [|r0 h0] eqn:Eh; [congruence|]. rewrite <- Eh in *.
  unfold mt_checkpoint in Ec. rewrite Emax in Ec. unfold valid_number in Ec. replace (lastseq h =? NIL) with false in Ec by lia.
  cbn [negb] in Ec. destruct (match rev (m_chks (f_mt f)) with [] => false | _ => _ end); congruence.
Qed.

(** ** Frame of an operation: what happens to the files a snapshot may hold *)
Definition held (d : db) (n : N) : option lgf := file_at n (g_files (d_log d) ++ d_gone d).

(** [f'] continues [f] with writes above [lim]. *)
Definition cont (lim : N) (f f' : lgf) : Prop :=
  f_num f' = f_num f /\ MR hash (fh f') (f_mt f') /\ exists new, fh f' = fh f ++ new /\ forall r, In r new -> lim < r_seq r.

Lemma cont_self : forall lim f, FI f -> cont lim f f.
Proof.
  intros lim f H. split; [reflexivity|]. split; [apply (mw_mr _ _ _ (fi_mw _ _ H))|]. exists []. rewrite app_nil_r. split; [reflexivity|intros r []].
Qed.

Lemma file_at_app_l : forall n a b f, file_at n a = Some f -> file_at n (a ++ b) = Some f.
Proof. intros n a b f; unfold file_at; induction a as [|x a IH]; [discriminate|]. cbn [find app]. destruct (f_num x =? n); auto. Qed.
Lemma file_at_app_r : forall n a b, file_at n a = None -> file_at n (a ++ b) = file_at n b.
Proof. intros n a b; unfold file_at; induction a as [|x a IH]; [reflexivity|]. cbn [find app]. destruct (f_num x =? n); [discriminate|auto]. Qed.

Lemma same_file_at : forall fs gs, Forall2 same_file fs gs -> forall n f, file_at n fs = Some f ->
  exists f', file_at n gs = Some f' /\ same_file f f' /\ In f' gs.
Proof.
  intros fs gs H; induction H as [|x y l l' Hxy Hl IH]; intros n f E; [discriminate|]. unfold file_at in *. cbn [find] in *.
  destruct Hxy as (A & B). rewrite A. destruct (f_num x =? n).
  - injection E as <-. exists y. split; [reflexivity|]. split; [split; [exact A|exact B]|left; reflexivity].
  - destruct (IH _ _ E) as (f' & E1 & E2 & E3). exists f'. split; [exact E1|]. split; [exact E2|right; exact E3].
Qed.

Lemma frame_same : forall lim d g', Forall2 same_file (g_files (d_log d)) (g_files g') ->
  (forall f, In f (g_files g') -> FI f) -> (forall f, In f (d_gone d) -> FI f) ->
  forall b n f, held d n = Some f -> exists f', held (mkDb g' (d_tab d) (d_gone d) b) n = Some f' /\ cont lim f f'.
Proof.
  intros lim d g' HS HF HG b n f E. unfold held in *. cbn [d_log d_gone].
  destruct (file_at n (g_files (d_log d))) as [x|] eqn:EA.
  - assert (X := file_at_app_l _ _ (d_gone d) _ EA). assert (x = f) by congruence. subst x.
    destruct (same_file_at _ _ HS _ _ EA) as (f' & E1 & (S1 & S2 & _) & E3). exists f'.
    split; [apply file_at_app_l; exact E1|]. split; [exact S1|]. split; [apply (mw_mr _ _ _ (fi_mw _ _ (HF f' E3)))|].
    exists []. rewrite app_nil_r. split; [exact S2|intros r []].
  - rewrite (file_at_app_r _ _ _ EA) in E. exists f. split.
    + rewrite file_at_app_r; [exact E|]. destruct (file_at n (g_files g')) as [y|] eqn:EB; [exfalso|reflexivity].
      apply file_at_in in EB. destruct EB as [EB En]. destruct (same_files_in _ _ HS y EB) as (x & Hx & S1 & _).
      assert (Y := find_none _ _ EA x Hx). cbn in Y. lia.
    + apply cont_self, HG. apply (proj1 (file_at_in _ _ _ E)).
Qed.

(** The newest file grew, or a file was added. *)
Lemma frame_grow : forall lim n0 pre h F d g' r' b, GI n0 pre h F (d_log d) -> GI n0 pre (h ++ [r']) F g' ->
  (forall f, In f (d_gone d) -> f_num f < n0 /\ FI f) -> lim < r_seq r' ->
  (exists a f f', g_files (d_log d) = a ++ [f] /\ g_files g' = a ++ [f'] /\ f_num f' = f_num f /\ fh f' = fh f ++ [r']) \/
  (exists f', g_files g' = g_files (d_log d) ++ [f'] /\ fh f' = [r']) ->
  forall n f, held d n = Some f -> exists f', held (mkDb g' (d_tab d) (d_gone d) b) n = Some f' /\ cont lim f f'.
Proof.
  intros lim n0 pre h F d g' r' b H H' HG Hlim Hcase n f E. unfold held in *. cbn [d_log d_gone].
  destruct (file_at n (g_files (d_log d))) as [x|] eqn:EA.
  - assert (X := file_at_app_l _ _ (d_gone d) _ EA). assert (x = f) by congruence. subst x.
    assert (Q : exists f', file_at n (g_files g') = Some f' /\ (f' = f \/ (f_num f' = f_num f /\ fh f' = fh f ++ [r']))).
    { destruct Hcase as [(a & fl & fl' & E1 & E2 & E3 & E4)|(fl' & E1 & E2)].
      - rewrite E1 in EA. rewrite E2. destruct (file_at n a) as [y|] eqn:EY.
        + rewrite (file_at_app_l _ _ [fl] _ EY) in EA. exists f. split; [|left; reflexivity]. apply file_at_app_l. congruence.
        + rewrite (file_at_app_r _ _ _ EY) in EA. rewrite (file_at_app_r _ _ _ EY). unfold file_at in *. cbn [find] in *. rewrite E3.
          destruct (f_num fl =? n); [|discriminate]. injection EA as <-. exists fl'. split; [reflexivity|right; split; assumption].
      - exists f. rewrite E1. split; [apply file_at_app_l; exact EA|left; reflexivity]. }
    destruct Q as (f' & EB & Hf'). exists f'. split; [apply file_at_app_l; exact EB|].
    assert (FIf := gi_fi _ _ _ _ _ _ H' f' (proj1 (file_at_in _ _ _ EB))).
    destruct Hf' as [->|[Hn Hh]]; [apply cont_self; exact FIf|]. split; [exact Hn|]. split; [apply (mw_mr _ _ _ (fi_mw _ _ FIf))|].
    exists [r']. split; [exact Hh|]. intros r [<-|[]]; exact Hlim.
  - rewrite (file_at_app_r _ _ _ EA) in E. exists f.
    assert (Hg := HG f (proj1 (file_at_in _ _ _ E))). assert (Hn := proj2 (file_at_in _ _ _ E)).
    split; [|apply cont_self, Hg]. rewrite file_at_app_r; [exact E|].
    apply (file_at_none n0); [apply (gi_nums _ _ _ _ _ _ H')|lia].
Qed.

(** Files leaving the log go to [d_gone]. *)
Lemma frame_flush : forall lim n0 pre h F n1 pre1 s d g' rs b A ft B bey, GI n0 pre h F (d_log d) -> GI n1 pre1 h s g' ->
  (forall f, In f (d_gone d) -> f_num f < n0 /\ FI f) ->
  g_files (d_log d) = A ++ ft :: B -> g_files g' = mark_file bey s ft :: B -> n1 = f_num ft ->
  let d' := mkDb g' (d_tab d ++ rs) (d_gone d ++ gone_of (d_log d) g') b in
  (forall f, In f (d_gone d') -> f_num f < n1 /\ FI f) /\
  forall n f, held d n = Some f -> exists f', held d' n = Some f' /\ cont lim f f'.
Proof.
  intros lim n0 pre h F n1 pre1 s d g' rs b A ft B bey H H' HG EA EB En1 d'.
  assert (HN := gi_nums _ _ _ _ _ _ H). assert (HN0 := HN). rewrite EA in HN. apply nums_app in HN. destruct HN as (HNA & HNf & HNB).
  assert (HN' := gi_nums _ _ _ _ _ _ H').
  assert (Egone : gone_of (d_log d) g' = A).
  { unfold gone_of. rewrite EA, filter_app. cbn [filter].
    assert (HA : file_at (f_num ft) (g_files g') = Some (mark_file bey s ft)).
    { rewrite EB. unfold file_at. cbn [find]. change (f_num (mark_file bey s ft)) with (f_num ft). rewrite N.eqb_refl. reflexivity. }
    rewrite HA. rewrite (filter_all _ A), (filter_none _ B), app_nil_r; [reflexivity| |].
    - intros f Hf. assert (X : file_at (f_num f) (g_files g') <> None); [|destruct (file_at (f_num f) (g_files g')); congruence].
      intros Y. assert (Z := find_none _ _ Y f). rewrite EB in Z. cbn in Z. specialize (Z (or_intror Hf)). lia.
    - intros f Hf. assert (Y := nums_in _ _ _ HNA Hf). rewrite (file_at_none n1); [reflexivity|exact HN'|]. lia. }
  assert (HG' : forall f, In f (d_gone d') -> f_num f < n1 /\ FI f).
  { intros f Hf. unfold d' in Hf. cbn [d_gone] in Hf. rewrite Egone in Hf. apply in_app_or in Hf. destruct Hf as [Hf|Hf].
    - destruct (HG f Hf) as [X Y]. split; [lia|exact Y].
    - assert (Y := nums_in _ _ _ HNA Hf). split; [lia|]. apply (gi_fi _ _ _ _ _ _ H). rewrite EA. apply in_or_app; left; exact Hf. }
  split; [exact HG'|]. intros n f E. unfold held in *. cbn [d' d_log d_gone]. rewrite Egone.
  destruct (file_at n (g_files (d_log d))) as [x|] eqn:EC.
  - assert (X := file_at_app_l _ _ (d_gone d) _ EC). assert (x = f) by congruence. subst x.
    rewrite EA in EC. destruct (file_at n A) as [y|] eqn:ED.
    + rewrite (file_at_app_l _ _ (ft :: B) _ ED) in EC. assert (y = f) by congruence. subst y.
      destruct (file_at_in _ _ _ ED) as [IA Efn].
      assert (Y := nums_in _ _ _ HNA IA).
      exists f. split.
      * rewrite file_at_app_r by (apply (file_at_none n1); [exact HN'|lia]).
        destruct (file_at n (d_gone d)) as [z|] eqn:EZ.
        -- destruct (file_at_in _ _ _ EZ) as [IZ Ezn]. destruct (HG z IZ) as [Z _]. lia.
        -- rewrite (file_at_app_r _ _ _ EZ). exact ED.
      * apply cont_self, HG'. unfold d'. cbn [d_gone]. rewrite Egone. apply in_or_app; right; exact IA.
    + rewrite (file_at_app_r _ _ _ ED) in EC. rewrite EB. unfold file_at in EC |- *. cbn [find app] in *.
      change (f_num (mark_file bey s ft)) with (f_num ft).
      destruct (f_num ft =? n) eqn:Efn.
      * injection EC as <-. exists (mark_file bey s ft). split; [reflexivity|].
        assert (FIm : FI (mark_file bey s ft)) by (apply (gi_fi _ _ _ _ _ _ H'); rewrite EB; left; reflexivity).
        split; [reflexivity|]. split; [apply (mw_mr _ _ _ (fi_mw _ _ FIm))|]. exists []. rewrite app_nil_r. split; [|intros r []].
        unfold fh, mark_file, lf_set_flushed, lf_set_synced. cbn [with_mt f_mt].
        destruct bey; [destruct (negb (valid_number (m_max (f_mt ft))))|];
        match goal with |- context [negb (valid_number (m_synced ?m))] => destruct (negb (valid_number (m_synced m))) end; reflexivity.
      * exists f. split; [|apply cont_self, (gi_fi _ _ _ _ _ _ H'); rewrite EB; right; apply find_some in EC; apply EC].
        change (find (fun f0 : lgf => f_num f0 =? n) (B ++ d_gone d ++ A)) with (file_at n (B ++ d_gone d ++ A)).
        apply file_at_app_l. exact EC.
  - rewrite (file_at_app_r _ _ _ EC) in E. destruct (file_at_in _ _ _ E) as [IG Ef]. destruct (HG f IG) as [G1 G2].
    exists f. split; [|apply cont_self; exact G2].
    rewrite file_at_app_r by (apply (file_at_none n1); [exact HN'|]; assert (Y := nums_in _ _ ft HN0); rewrite EA in Y;
      assert (Z : In ft (A ++ ft :: B)) by (apply in_or_app; right; left; reflexivity); specialize (Y Z); lia).
    apply file_at_app_l; exact E.
Qed.

(** * Every operation keeps the invariant *)


(** Records of the batch in progress already written. *)
Definition written (d : db) : list rec := match d_bat d with Some (_, p) => p | None => [] end.

Record cfg_ok (c : cfg) : Prop := { co_ow : c_ow c = false; co_ro : c_ro c = false; co_max : 0 < c_maxent c }.

Definition framed (h : list rec) (d d' : db) : Prop :=
  forall lim n f, lim <= lastseq (h ++ written d) -> held d n = Some f -> exists f', held d' n = Some f' /\ cont lim f f'.

Lemma frame_id : forall c h d, DI c h d -> framed h d d.
Proof.
  intros c h d [(n0 & pre & F & part & H & _ & _ & _ & _ & HG & _)] lim n f _ E. exists f. split; [exact E|].
  apply cont_self. unfold held in E. apply file_at_in in E. destruct E as [E _]. apply in_app_or in E.
  destruct E as [E|E]; [apply (gi_fi _ _ _ _ _ _ H f E)|apply HG, E].
Qed.

Lemma di_sorted : forall c h d, DI c h d -> sorted_seq h.
Proof.
  intros c h d [(n0 & pre & F & part & H & _)]. assert (X := gi_asc _ _ _ _ _ _ H).
  unfold sorted_seq in *. rewrite map_app in X. apply SS_app_inv in X. tauto.
Qed.

Lemma with_bar_held : forall g b t go bt n, held (mkDb (with_bar g b) t go bt) n = held (mkDb g t go bt) n.
Proof. reflexivity. Qed.

Lemma held_ext : forall d d', g_files (d_log d') = g_files (d_log d) -> d_gone d' = d_gone d -> forall n, held d' n = held d n.
Proof. intros d d' A B n. unfold held. rewrite A, B. reflexivity. Qed.

Lemma step_set : forall c h d full r x d', cfg_ok c -> DI c h d -> allowed c h d (OSet full r) ->
  step hash c (OSet full r) d = Some (x, d') -> DI c (h ++ acked x) d' /\ x <> Undef /\ framed h d d'.
Proof.
  intros c h d full r x d' [Co Cr Cm] D (A1 & A2 & A3 & A4 & A5) E. assert (FR := frame_id _ _ _ D). assert (D0 := D).
  destruct D as [(n0 & pre & F & part & H & Ht & Hl & HF & HFl & HG & HB)].
  unfold step in E. destruct (d_bat d) as [[? ?]|] eqn:Eb; [discriminate|]. destruct HB as [-> Hbar]. rewrite app_nil_r in *.
  assert (Etop := top_last _ (gi_asc _ _ _ _ _ _ H)). rewrite Etop in *.
  destruct (lm_set hash c full r (d_log d)) as [o g'] eqn:Es.
  destruct (N.eq_dec (r_seq r) 0) as [E0|N0].
  { assert (Z : (o, g') = (Fail INVALID_SEQNUM, d_log d)).
    { rewrite <- Es. unfold lm_set. rewrite Cr, E0. reflexivity. }
    injection Z as -> ->. injection E as <- <-. cbn [acked]. rewrite app_nil_r.
    assert (Ed : mkDb (d_log d) (d_tab d) (d_gone d) None = d) by (destruct d; cbn in *; congruence). rewrite Ed. split; [exact D0|]. split; [discriminate|exact FR]. }
  assert (S := lm_set_spec hash n0 pre h F (d_log d) c full r H Co Cr Cm A4 Hl). assert (Hr : 1 <= r_seq r <= NIL) by lia. specialize (S Hr).
  destruct ((r_seq r =? NIL) || (lastseq h <? r_seq r)) eqn:Eacc.
  - destruct S as (g2 & E2 & H2 & B2). rewrite Es in E2. injection E2 as -> ->. injection E as <- <-. cbn [acked].
    set (r' := stored r (numbered h r)) in *.
    assert (Hlast : lastseq (h ++ [r']) = r_seq r') by apply lastseq_snoc.
    assert (Hgrow : lastseq h < r_seq r' /\ r_seq r' + 1 < NIL).
    { unfold r'. rewrite r_seq_stored. unfold numbered. destruct (r_seq r =? NIL) eqn:En; [lia|]. cbn [orb] in Eacc. lia. }
    split; [|split; [discriminate|]].
    + constructor. exists n0, pre, F, []. cbn [d_log d_tab d_gone d_bat]. rewrite app_nil_r.
      split; [exact H2|]. split.
      { rewrite filter_app, Ht. cbn [filter]. replace (r_seq r' <=? F) with false by lia. rewrite app_nil_r. reflexivity. }
      split; [lia|]. split; [intros _ e; apply app_eq_nil in e; destruct e; discriminate|]. split; [lia|].
      split; [exact HG|]. split; [reflexivity|]. congruence.
    + intros lim n f Hlim Hh. unfold written in Hlim. rewrite Eb, app_nil_r in Hlim.
      apply (frame_grow lim n0 pre h F d g2 r' None H H2 HG); [lia| |exact Hh].
      apply (lm_set_grow n0 pre h F (d_log d) c full r r' g2 H Co Hl Es H2).
  - rewrite S in Es; [|apply A5; lia]. injection Es as <- <-. injection E as <- <-. cbn [acked]. rewrite app_nil_r.
    assert (Ed : mkDb (d_log d) (d_tab d) (d_gone d) None = d) by (destruct d; cbn in *; congruence). rewrite Ed.
    split; [exact D0|]. split; [discriminate|exact FR].
Qed.

Lemma gi_pre_part : forall n0 pre h part F g, GI n0 pre (h ++ part) F g -> sorted_seq h /\
  (forall r, In r part -> lastseq h < r_seq r \/ h = []).
Proof.
  intros n0 pre h part F g H. assert (X := gi_asc _ _ _ _ _ _ H). unfold sorted_seq in X. rewrite map_app in X.
  apply SS_app_inv in X. destruct X as (X1 & X2 & X3). split; [exact X1|]. intros r Hr.
  destruct h as [|y t] eqn:Eh; [right; reflexivity|left]. rewrite <- Eh in *.
  destruct (lastseq_in h) as (z & Hz & <-); [rewrite Eh; discriminate|]. apply X3; apply in_map; assumption.
Qed.

Lemma step_begin : forall c h d b x d', cfg_ok c -> DI c h d -> allowed c h d (OBegin b) ->
  step hash c (OBegin b) d = Some (x, d') -> DI c (h ++ acked x) d' /\ x <> Undef /\ framed h d d'.
Proof.
  intros c h d b x d' [Co Cr Cm] D (A1 & A2 & A3 & A4) E. assert (FR := frame_id _ _ _ D). assert (D0 := D).
  destruct D as [(n0 & pre & F & part & H & Ht & Hl & HF & HFl & HG & HB)].
  unfold step in E. destruct (d_bat d) as [[? ?]|] eqn:Eb; [discriminate|]. destruct HB as [-> Hbar]. rewrite app_nil_r in *.
  rewrite (top_last _ (gi_asc _ _ _ _ _ _ H)) in *. rewrite Cr in E.
  destruct b as [|r0 b0] eqn:Ebb.
  { injection E as <- <-. cbn [acked]. rewrite app_nil_r. split; [exact D0|]. split; [discriminate|exact FR]. }
  rewrite <- Ebb in *. assert (Hbne : b <> []) by (rewrite Ebb; discriminate).
  rewrite (batch_begin_bar hash _ _ _ _ _ H Hl Hbar) in E.
  assert (Hm : match h with [] => 0 | _ => lastseq h end = lastseq h) by (destruct h; reflexivity).
  rewrite Hm in E. set (g0 := with_bar (d_log d) (lastseq h)) in *.
  assert (H0 : GI n0 pre h F g0) by (apply gi_bar; exact H).
  rewrite (batch_valid_spec hash n0 pre h F g0 c b H0 Co Hl) in E; [|cbn; destruct h; reflexivity|exact A2|exact Hbne].
  destruct (batch_ok h b) eqn:Eok.
  - injection E as <- <-. cbn [acked]. rewrite app_nil_r. split; [|split; [discriminate|]].
    + constructor. exists n0, pre, F, []. cbn [d_log d_tab d_gone d_bat]. rewrite !app_nil_r.
      split; [exact H0|]. split; [exact Ht|]. split; [exact Hl|]. split; [exact HF|]. split; [exact HFl|]. split; [exact HG|].
      split; [reflexivity|]. split; [exact A1|]. split; [reflexivity|]. split; [exact HFl|]. rewrite app_nil_r. split; [exact Eok|].
      split.
      { split; [lia|]. intros r Hr. destruct (N.eq_dec (r_seq r) NIL) as [e|n]; [left; exact e|right; apply A3; assumption]. }
      destruct (newest_file_split _ _ _ _ _ _ H) as [a Ea]. exists a, (newest_file (d_log d)), (fh (newest_file (d_log d))).
      split; [exact Ea|]. split; [rewrite app_nil_r; reflexivity|].
      apply (gi_nonemp _ _ _ _ _ _ H A1), (newest_file_in _ _ _ _ _ _ H).
    + intros lim n f Hlim Hh. destruct (FR lim n f Hlim Hh) as (f' & E1 & E2). exists f'. split; [|exact E2].
      rewrite <- E1. apply held_ext; reflexivity.
  - injection E as <- <-. cbn [acked]. rewrite app_nil_r.
    assert (Eg : batch_end g0 = d_log d).
    { unfold batch_end, g0, with_bar. cbn. destruct (d_log d); cbn in *. congruence. }
    rewrite Eg. assert (Ed : mkDb (d_log d) (d_tab d) (d_gone d) None = d) by (destruct d; cbn in *; congruence). rewrite Ed.
    split; [exact D0|]. split; [discriminate|exact FR].
Qed.

Lemma step_put : forall c h d x d', cfg_ok c -> DI c h d ->
  step hash c OPut d = Some (x, d') -> DI c (h ++ acked x) d' /\ x = Ok [] /\ framed h d d'.
Proof.
  intros c h d x d' [Co Cr Cm] D E.
  destruct D as [(n0 & pre & F & part & H & Ht & Hl & HF & HFl & HG & HB)].
  unfold step in E. destruct (d_bat d) as [[[|r todo] done]|] eqn:Eb; try discriminate.
  destruct HB as [-> (B1 & B2 & B3 & B4 & B5 & B6)].
  unfold batch_put in E. rewrite (gi_max_num _ _ _ _ _ _ H Hl) in E.
  destruct B5 as [R1 R2]. cbn [length] in R1.
  assert (Hacc : (r_seq r =? NIL) || (lastseq (h ++ part) <? r_seq r) = true).
  { unfold batch_ok in B4. cbn [forallb rising] in B4. unfold auto at 1 in B4. destruct (r_seq r =? NIL); [reflexivity|].
    cbn [andb orb] in *. destruct (lastseq (h ++ part) <? r_seq r); [reflexivity|]. rewrite andb_false_r in B4. discriminate. }
  assert (Hr : 1 <= r_seq r <= NIL).
  { assert (X := R2 r (or_introl eq_refl)). apply orb_true_iff in Hacc. lia. }
  assert (S := file_set_spec hash n0 pre (h ++ part) F (d_log d) c r H Co Hl Hr). rewrite Hacc in S.
  destruct S as (g' & E2 & H2 & M2 & Ba2 & L2 & S2). rewrite E2 in E. injection E as <- <-. cbn [acked]. rewrite app_nil_r.
  set (r' := stored r (numbered (h ++ part) r)) in *.
  assert (Hgrow : lastseq (h ++ part) < r_seq r' /\ r_seq r' + 1 < NIL).
  { unfold r'. rewrite r_seq_stored. unfold numbered. assert (X := R2 r (or_introl eq_refl)). cbn [length] in X.
    destruct (r_seq r =? NIL) eqn:En; [lia|]. cbn [orb] in Hacc. lia. }
  assert (Hg := file_set_grow n0 pre (h ++ part) F (d_log d) c r r' g' H E2 H2).
  split; [|split; [reflexivity|]].
  - constructor. exists n0, pre, F, (part ++ [r']). cbn [d_log d_tab d_gone d_bat]. rewrite app_assoc.
    split; [exact H2|]. split; [exact Ht|]. split; [rewrite lastseq_snoc; lia|]. split; [exact HF|]. split; [exact HFl|]. split; [exact HG|].
    split; [reflexivity|]. split; [exact B1|]. split; [congruence|]. split; [exact B3|].
    rewrite app_assoc.
    split.
    { unfold batch_ok in *. rewrite lastseq_snoc. cbn [forallb rising] in B4. unfold auto at 1 in B4. destruct (r_seq r =? NIL) eqn:En.
      - cbn [andb] in B4. replace (r_seq r <? NIL) with false in B4 by lia. cbn [andb] in B4. rewrite orb_false_r in B4. rewrite B4. reflexivity.
      - cbn [andb orb] in B4. apply andb_true_iff in B4. destruct B4 as [_ B4].
        unfold r'. rewrite r_seq_stored. unfold numbered. rewrite En, B4. apply orb_true_r. }
    split.
    { split.
      - rewrite lastseq_snoc. unfold r'. rewrite r_seq_stored. unfold numbered. assert (X := R2 r (or_introl eq_refl)). cbn [length] in X.
        destruct (r_seq r =? NIL) eqn:En; lia.
      - intros y Hy. assert (X := R2 y (or_intror Hy)). cbn [length] in X. lia. }
    destruct B6 as (a & f & u & F1 & F2 & F3). destruct Hg as (a2 & f2 & f2' & G1 & G2 & G3 & G4).
    assert (f2 = f /\ a2 = a) as [-> ->].
    { rewrite F1 in G1. apply app_inj_tail in G1. destruct G1; subst; auto. }
    exists a, f2', u. split; [exact G2|]. split; [rewrite G4, F2, <- app_assoc; reflexivity|exact F3].
  - intros lim n f Hlim Hh. unfold written in Hlim. rewrite Eb in Hlim.
    apply (frame_grow lim n0 pre (h ++ part) F d g' r' _ H H2 HG); [lia|left; exact Hg|exact Hh].
Qed.

Lemma step_end : forall c h d x d', cfg_ok c -> DI c h d ->
  step hash c OEnd d = Some (x, d') -> DI c (h ++ acked x) d' /\ x <> Undef /\ framed h d d'.
Proof.
  intros c h d x d' [Co Cr Cm] D E. assert (FR := frame_id _ _ _ D).
  destruct D as [(n0 & pre & F & part & H & Ht & Hl & HF & HFl & HG & HB)].
  unfold step in E. destruct (d_bat d) as [[[|r todo] done]|] eqn:Eb; try discriminate.
  destruct HB as [-> (B1 & B2 & B3 & B4 & B5 & B6)]. injection E as <- <-. cbn [acked].
  split; [|split; [discriminate|]].
  - constructor. exists n0, pre, F, []. cbn [d_log d_tab d_gone d_bat]. rewrite !app_nil_r.
    split; [apply gi_bar; exact H|]. split.
    { rewrite filter_app, Ht, (filter_none _ part); [rewrite app_nil_r; reflexivity|]. intros r Hr.
      destruct (proj2 (gi_pre_part _ _ _ _ _ _ H) r Hr) as [X|X]; [lia|congruence]. }
    split; [exact Hl|]. split; [intros _ e; apply app_eq_nil in e; destruct e; congruence|].
    split; [apply (gi_F_le _ _ _ _ _ H)|]. split; [exact HG|]. split; reflexivity.
  - intros lim n f Hlim Hh. destruct (FR lim n f Hlim Hh) as (f' & E1 & E2). exists f'. split; [|exact E2].
    rewrite <- E1. apply held_ext; reflexivity.
Qed.

(** The barrier suits every file. *)
Lemma batch_bar_ok : forall n0 pre h part F g, GI n0 pre (h ++ part) F g -> h <> [] -> F <= lastseq h -> g_bar g = lastseq h ->
  (exists a f u, g_files g = a ++ [f] /\ fh f = u ++ part /\ u <> []) ->
  (forall f, In f (g_files g) -> bar_ok (g_bar g) f) /\
  (forall a f b, g_files g = a ++ f :: b -> b <> [] -> g_bar g = 0 \/ m_max (f_mt f) = NIL \/ m_max (f_mt f) <= g_bar g).
Proof.
  intros n0 pre h part F g H Hne HF Hb (a & f & u & E & Ef & Hu).
  assert (Hh : h = pre ++ all_h a ++ u).
  { assert (X := gi_hist _ _ _ _ _ _ H). rewrite E, all_h_app in X. cbn [all_h flat_map] in X. rewrite app_nil_r, Ef in X.
    rewrite !app_assoc in X. apply app_inv_tail in X. rewrite <- app_assoc in X. exact X. }
  assert (Hlu : lastseq h = lastseq u) by (rewrite Hh, app_assoc; apply lastseq_app; exact Hu).
  assert (Hsort := proj1 (gi_pre_part _ _ _ _ _ _ H)).
  assert (Hfl : forall x, In x (g_files g) -> m_flushed (f_mt x) <> NIL -> m_flushed (f_mt x) <= lastseq h).
  { intros x Hx Hv. destruct (fi_flu _ _ (gi_fi _ _ _ _ _ _ H x Hx) Hv) as (z & Hz & Ez).
    assert (U := gi_flu _ _ _ _ _ _ H x z Hx Hz). unfold unflushed in U. unfold valid_number in U.
    replace (m_flushed (f_mt x) =? NIL) with false in U by lia. cbn [negb orb] in U. rewrite Ez in U. lia. }
  assert (Hold : forall x, In x a -> m_max (f_mt x) = NIL \/ m_max (f_mt x) <= lastseq h).
  { intros x Hx. assert (Hin : In x (g_files g)) by (rewrite E; apply in_or_app; left; exact Hx).
    assert (FIx := gi_fi _ _ _ _ _ _ H x Hin). destruct (fh x) as [|z t] eqn:Ez; [left; apply (fi_emp _ _ FIx Ez)|right].
    destruct (fi_max_in hash x FIx) as (y & Hy & <-); [rewrite Ez; discriminate|].
    apply lastseq_ge; [exact Hsort|]. rewrite Hh. apply in_or_app; right. apply in_or_app; left. apply in_flat_map. exists x; auto. }
  split.
  - intros x Hx. rewrite Hb. unfold bar_ok. right. assert (Hx' := Hx). rewrite E in Hx'. apply in_app_or in Hx'. destruct Hx' as [Hx'|[->|[]]].
    + destruct (Hold x Hx') as [X|X]; [left; exact X|right]. split; [left; exact X|apply Hfl; exact Hx].
    + right. split; [right|apply Hfl; exact Hx]. destruct (lastseq_in u Hu) as (z & Hz & Ez). exists z. rewrite Ef, Hlu. split; [apply in_or_app; left; exact Hz|exact Ez].
  - intros a' x b' E' Hb'. rewrite Hb. right. apply Hold. rewrite E in E'.
    destruct (exists_last Hb') as (b2 & y & ->). rewrite app_comm_cons, app_assoc in E'. apply app_inj_tail in E'. destruct E' as [-> _].
    apply in_or_app; right; left; reflexivity.
Qed.

Lemma gi_lastseq_lt : forall (c : cfg) h d n0 pre F part, GI n0 pre (h ++ part) F (d_log d) -> lastseq h < NIL.
Proof.
  intros c h d n0 pre F part H. destruct part as [|r p]; [rewrite app_nil_r in H; apply (gi_lastseq _ _ _ _ _ _ H)|].
  destruct (proj2 (gi_pre_part _ _ _ _ _ _ H) r (or_introl eq_refl)) as [X| ->]; [|cbn; rewrite nil_val; lia].
  assert (Y := gi_lastseq _ _ _ _ _ _ H). assert (Z := lastseq_ge _ r (gi_asc _ _ _ _ _ _ H)).
  assert (W : In r (h ++ r :: p)) by (apply in_or_app; right; left; reflexivity). specialize (Z W). lia.
Qed.

Lemma same_files_last : forall a f gs, Forall2 same_file (a ++ [f]) gs -> exists a' f', gs = a' ++ [f'] /\ fh f' = fh f.
Proof.
  intros a f gs H. apply Forall2_app_inv_l in H. destruct H as (l1 & l2 & H1 & H2 & ->).
  inversion H2 as [|? y ? l' S Hl]; subst. inversion Hl; subst. exists l1, y. split; [reflexivity|]. apply S.
Qed.

Lemma step_sync : forall c h d bad x d', cfg_ok c -> DI c h d ->
  step hash c (OSync bad) d = Some (x, d') -> DI c (h ++ acked x) d' /\ x <> Undef /\ framed h d d'.
Proof.
  intros c h d bad x d' Cok D E.
  destruct D as [(n0 & pre & F & part & H & Ht & Hl & HF & HFl & HG & HB)].
  assert (Hll := gi_lastseq_lt c h d _ _ _ _ H).
  assert (Hbars : g_bar (d_log d) < NIL /\ (forall f, In f (g_files (d_log d)) -> bar_ok (g_bar (d_log d)) f) /\
    (forall a f b, g_files (d_log d) = a ++ f :: b -> b <> [] -> g_bar (d_log d) = 0 \/ m_max (f_mt f) = NIL \/ m_max (f_mt f) <= g_bar (d_log d))).
  { destruct (d_bat d) as [[todo done]|].
    - destruct HB as [-> (B1 & B2 & B3 & B4 & B5 & B6)]. split; [rewrite B2; exact Hll|]. apply (batch_bar_ok _ _ _ _ _ _ H B1 B3 B2 B6).
    - destruct HB as [-> ->]. split; [rewrite nil_val; lia|]. split; [intros f _; left; reflexivity|intros; left; reflexivity]. }
  destruct Hbars as (K1 & K2 & K3).
  destruct (lm_sync_spec hash n0 pre (h ++ part) F (d_log d) bad H Hl K1 K2 K3) as (o & g' & E1 & H1 & B1 & M1 & L1 & S1 & O1 & _).
  unfold step in E. rewrite E1 in E. assert (Ex : acked x = [] /\ x <> Undef /\ d' = mkDb g' (d_tab d) (d_gone d) (d_bat d)).
  { injection E as <- <-. destruct O1 as [-> | ->]; repeat split; discriminate. }
  destruct Ex as (Ex & Eu & ->). rewrite Ex, app_nil_r. split; [|split; [exact Eu|]].
  - constructor. exists n0, pre, F, part. cbn [d_log d_tab d_gone d_bat].
    split; [exact H1|]. split; [exact Ht|]. split; [exact Hl|]. split; [exact HF|]. split; [exact HFl|]. split; [exact HG|].
    destruct (d_bat d) as [[todo done]|].
    + destruct HB as [-> (P1 & P2 & P3 & P4 & P5 & (a & f & u & P6 & P7 & P8))]. split; [reflexivity|]. split; [exact P1|]. split; [congruence|].
      split; [exact P3|]. split; [exact P4|]. split; [exact P5|]. rewrite P6 in S1. destruct (same_files_last _ _ _ S1) as (a' & f' & Q1 & Q2).
      exists a', f', u. split; [exact Q1|]. split; [congruence|exact P8].
    + destruct HB as [-> Hb]. split; [reflexivity|congruence].
  - intros lim n f Hlim Hh. apply (frame_same lim d g' S1); [apply (gi_fi _ _ _ _ _ _ H1)|intros y Hy; apply HG, Hy|exact Hh].
Qed.

Lemma step_chk : forall c h d out0 x d', cfg_ok c -> DI c h d ->
  step hash c (OChk out0) d = Some (x, d') -> DI c (h ++ acked x) d' /\ x <> Undef /\ framed h d d'.
Proof.
  intros c h d out0 x d' Cok D E.
  destruct D as [(n0 & pre & F & part & H & Ht & Hl & HF & HFl & HG & HB)].
  destruct (lm_checkpoint_spec n0 pre (h ++ part) F (d_log d) out0 H Hl) as (y & g' & E1 & H1 & B1 & S1 & _ & L1 & M1).
  unfold step in E. rewrite E1 in E. injection E as <- <-. cbn [acked]. rewrite app_nil_r. split; [|split; [discriminate|]].
  - constructor. exists n0, pre, F, part. cbn [d_log d_tab d_gone d_bat].
    split; [exact H1|]. split; [exact Ht|]. split; [exact Hl|]. split; [exact HF|]. split; [exact HFl|]. split; [exact HG|].
    destruct (d_bat d) as [[todo done]|].
    + destruct HB as [-> (P1 & P2 & P3 & P4 & P5 & (a & f & u & P6 & P7 & P8))]. split; [reflexivity|]. split; [exact P1|]. split; [congruence|].
      split; [exact P3|]. split; [exact P4|]. split; [exact P5|]. rewrite P6 in S1. destruct (same_files_last _ _ _ S1) as (a' & f' & Q1 & Q2).
      exists a', f', u. split; [exact Q1|]. split; [congruence|exact P8].
    + destruct HB as [-> Hb]. split; [reflexivity|congruence].
  - intros lim n f Hlim Hh. apply (frame_same lim d g' S1); [apply (gi_fi _ _ _ _ _ _ H1)|intros z Hz; apply HG, Hz|exact Hh].
Qed.

Lemma mark_file_h : forall bey s f, fh (mark_file bey s f) = fh f.
Proof.
  intros bey s f. unfold fh, mark_file, lf_set_flushed, lf_set_synced. cbn [with_mt f_mt].
  destruct bey; [destruct (negb (valid_number (m_max (f_mt f))))|];
  match goal with |- context [negb (valid_number (m_synced ?m))] => destruct (negb (valid_number (m_synced m))) end; reflexivity.
Qed.

Lemma synced_seq_bar : forall g b, lm_synced_seq (with_bar g b) = lm_synced_seq g.
Proof. reflexivity. Qed.


(** What a flush does, batch in progress or not. *)
Lemma flush_facts : forall c h d fo seq n0 pre F part, GI n0 pre (h ++ part) F (d_log d) -> lastseq (h ++ part) + 1 < NIL ->
  match d_bat d with None => part = [] /\ g_bar (d_log d) = 0 | Some (todo, done) => done = part /\ in_batch c h part todo F (d_log d) end ->
  allowed c h d (OFlush fo seq) ->
  exists ro g1, lm_flush fo seq (d_log d) = (ro, with_bar g1 (g_bar (d_log d))) /\
  match ro with
  | Ok (rs, cs) => exists n1 pre1 s, F <= s /\ 1 <= s /\ s <= lastseq h /\ rs = filter (fun r => (F <? r_seq r) && (r_seq r <=? s)) (h ++ part) /\
      GI n1 pre1 (h ++ part) s g1 /\ (seq <> NIL -> s = seq) /\
      (seq = NIL -> o_limit fo = 0 -> if o_beyond fo then s = lastseq h else forall x, lm_synced_seq (d_log d) = Ok x -> s = x) /\
      (exists A ft B, g_files (d_log d) = A ++ ft :: B /\ n1 = f_num ft /\
         cs = flat_map (fun f => mt_checkpoints s (f_mt f)) (A ++ [ft]) /\ g_files g1 = mark_file (o_beyond fo) s ft :: B)
  | Fail _ => with_bar g1 (g_bar (d_log d)) = d_log d
  | Undef => False
  end.
Proof.
  intros c h d fo seq n0 pre F part H Hl HB (A1 & A2 & A3).
  assert (Hll := gi_lastseq_lt c h d _ _ _ _ H).
  assert (Hsort := proj1 (gi_pre_part _ _ _ _ _ _ H)).
  set (g0 := with_bar (d_log d) 0).
  assert (H0 : GI n0 pre (h ++ part) F g0) by (apply gi_bar; exact H).
  assert (Hguard : flush_guard (h ++ part) g0 fo seq).
  { split; [exact A1|]. destruct (N.eq_dec seq NIL) as [e|n]; [left; exact e|right].
    destruct (A3 n) as [(r & Hr & Er) Hs]. split; [exists r; split; [apply in_or_app; left; exact Hr|exact Er]|].
    unfold g0. destruct (o_beyond fo); rewrite ?synced_seq_bar; exact Hs. }
  destruct (lm_flush_spec hash n0 pre (h ++ part) F g0 fo seq H0 Hl eq_refl Hguard) as (ro & g1 & E1 & R1).
  assert (Hbar : g_bar (d_log d) < NIL).
  { destruct (d_bat d) as [[todo done]|]; [destruct HB as [_ (_ & -> & _)]; exact Hll|destruct HB as [_ ->]; rewrite nil_val; lia]. }
  exists ro, g1. split.
  { destruct (N.eq_dec seq NIL) as [e|n].
    - destruct (d_bat d) as [[todo done]|]; [exfalso; apply (A2 ltac:(discriminate)), e|]. destruct HB as [_ Hb].
      assert (Eg : g0 = d_log d) by (unfold g0, with_bar; destruct (d_log d); cbn in *; congruence). rewrite <- Eg, E1.
      f_equal. destruct ro as [[rs cs]| |]; [destruct R1 as (n1 & p1 & s & _ & _ & _ & _ & R1 & _)|destruct R1 as [-> _]|destruct R1].
      + change (g_bar g0) with 0. unfold with_bar. destruct g1; cbn in *; congruence.
      + reflexivity.
    - rewrite (flush_bar fo seq (d_log d) n Hbar). fold g0. rewrite E1. reflexivity. }
  destruct ro as [[rs cs]|e|]; [| |destruct R1].
  - destruct R1 as (n1 & pre1 & s & Hs & Hs1 & Ers & H1 & B1 & M1 & Hseq & Hseq2 & (A & ft & B & EA & En1 & Ep1 & Ecs & EB)).
    assert (Hsl : match d_bat d with Some _ => s <= lastseq h | None => True end).
    { destruct (d_bat d) as [[todo done]|]; [|exact I]. assert (Hn : seq <> NIL) by (apply A2; discriminate). rewrite (Hseq Hn).
      destruct (A3 Hn) as [(r & Hr & <-) _]. apply lastseq_ge; assumption. }
    assert (Hsl2 : s <= lastseq h).
    { destruct (d_bat d) as [[todo done]|]; [exact Hsl|]. destruct HB as [-> _]. rewrite app_nil_r in H1. apply (gi_F_le _ _ _ _ _ H1). }
    exists n1, pre1, s. split; [exact Hs|]. split; [exact Hs1|]. split; [exact Hsl2|]. split; [exact Ers|]. split; [exact H1|]. split; [exact Hseq|].
    split; [|exists A, ft, B; auto].
    intros e Hlim. specialize (Hseq2 e Hlim). destruct (o_beyond fo); [|intros x Hx; apply Hseq2; unfold g0; rewrite synced_seq_bar; exact Hx].
    destruct (d_bat d) as [[todo done]|]; [exfalso; apply (A2 ltac:(discriminate)), e|]. destruct HB as [-> _]. rewrite app_nil_r in Hseq2. exact Hseq2.
  - destruct R1 as [-> _]. unfold g0, with_bar; destruct (d_log d); reflexivity.
Qed.

Lemma step_flush : forall c h d fo seq x d', cfg_ok c -> DI c h d -> allowed c h d (OFlush fo seq) ->
  step hash c (OFlush fo seq) d = Some (x, d') -> DI c (h ++ acked x) d' /\ x <> Undef /\ framed h d d'.
Proof.
  intros c h d fo seq x d' Cok D Al E. assert (FR := frame_id _ _ _ D).
  destruct D as [(n0 & pre & F & part & H & Ht & Hl & HF & HFl & HG & HB)].
  destruct (flush_facts c h d fo seq n0 pre F part H Hl HB Al) as (ro & g1 & Efl & R1).
  unfold step in E. rewrite Efl in E. destruct ro as [[rs cs]|e|]; [| |destruct R1].
  - destruct R1 as (n1 & pre1 & s & Hs & Hs1 & Hsl & Ers & H1 & Hseq & Hseq2 & (A & ft & B & EA & En1 & _ & EB)).
    injection E as <- <-. cbn [acked]. rewrite app_nil_r.
    destruct (frame_flush (lastseq (h ++ part)) n0 pre (h ++ part) F n1 pre1 s d (with_bar g1 (g_bar (d_log d))) rs (d_bat d) A ft B (o_beyond fo) H)
      as [G1 _]; [apply gi_bar; exact H1|exact HG|exact EA|exact EB|exact En1|].
    split; [|split; [discriminate|]].
    + constructor. exists n1, pre1, s, part. cbn [d_log d_tab d_gone d_bat].
      split; [apply gi_bar; exact H1|]. split.
      { rewrite Ht, Ers, filter_app, (filter_none _ part); [rewrite app_nil_r; apply filter_cut; [|exact Hs]; apply (proj1 (gi_pre_part _ _ _ _ _ _ H))|].
        intros r Hr. destruct (proj2 (gi_pre_part _ _ _ _ _ _ H) r Hr) as [X|X]; [lia|].
        subst h. cbn [lastseq rev] in Hsl. lia. }
      split; [exact Hl|]. split; [intros n e; subst h; cbn [lastseq rev] in Hsl; lia|]. split; [exact Hsl|]. split; [exact G1|].
      destruct (d_bat d) as [[todo done]|].
      * destruct HB as [-> (P1 & P2 & P3 & P4 & P5 & (a & f & u & P6 & P7 & P8))]. split; [reflexivity|]. split; [exact P1|]. split; [exact P2|].
        split; [exact Hsl|]. split; [exact P4|]. split; [exact P5|].
        rewrite EA in P6. cbn [with_bar g_files]. rewrite EB.
        destruct (exists_last (l := ft :: B)) as (b2 & y & Ey); [discriminate|].
        rewrite Ey, app_assoc in P6. apply app_inj_tail in P6. destruct P6 as [_ ->].
        destruct B as [|z B'].
        -- destruct b2 as [|? b2]; [|destruct b2; discriminate]. cbn [app] in Ey. injection Ey as ->.
           exists [], (mark_file (o_beyond fo) s f), u. split; [reflexivity|]. split; [rewrite mark_file_h; exact P7|exact P8].
        -- destruct b2 as [|w b2]; [discriminate|]. cbn [app] in Ey. injection Ey as _ Ey. exists (mark_file (o_beyond fo) s ft :: b2), f, u.
           split; [cbn [app]; rewrite Ey; reflexivity|]. split; assumption.
      * destruct HB as [-> Hb]. split; [reflexivity|]. cbn. exact Hb.
    + intros lim n f Hlim Hh.
      destruct (frame_flush lim n0 pre (h ++ part) F n1 pre1 s d (with_bar g1 (g_bar (d_log d))) rs (d_bat d) A ft B (o_beyond fo) H)
        as [_ G2]; [apply gi_bar; exact H1|exact HG|exact EA|exact EB|exact En1|]. apply G2; exact Hh.
  - injection E as <- <-. cbn [acked]. rewrite app_nil_r, R1.
    assert (Ed : mkDb (d_log d) (d_tab d) (d_gone d) (d_bat d) = d) by (destruct d; reflexivity). rewrite Ed.
    split; [|split; [discriminate|exact FR]]. constructor. exists n0, pre, F, part. auto 10.
Qed.

Theorem step_keeps : forall c h d o x d', cfg_ok c -> DI c h d -> allowed c h d o -> step hash c o d = Some (x, d') ->
  DI c (h ++ acked x) d' /\ x <> Undef /\ framed h d d'.
Proof.
  intros c h d o x d' Cok D A E. destruct o.
  - eapply step_set; eauto.
  - eapply step_begin; eauto.
  - destruct (step_put c h d x d' Cok D E) as (P1 & P2 & P3). split; [exact P1|]. split; [rewrite P2; discriminate|exact P3].
  - eapply step_end; eauto.
  - eapply step_sync; eauto.
  - eapply step_flush; eauto.
  - eapply step_chk; eauto.
Qed.

Theorem reach_inv : forall c h d, cfg_ok c -> reach c h d -> DI c h d.
Proof.
  intros c h d Cok R. induction R as [|h d o x d' R IH A E]; [apply di_new, (co_max _ Cok)|].
  apply (step_keeps c h d o x d' Cok IH A E).
Qed.

(** * Reads *)

Lemma newest_bar : forall h part k bar, sorted_seq h -> (forall r, In r part -> bar < r_seq r) -> lastseq h <= bar -> bar < NIL ->
  newest (h ++ part) bar k = newest h NIL k.
Proof.
  intros h part k bar Hs Hp Hh Hb. rewrite newest_filter by exact Hb. rewrite newest_last_write, filter_app.
  rewrite (filter_none _ part) by (intros r Hr; specialize (Hp r Hr); lia).
  rewrite app_nil_r, filter_le_all by assumption. reflexivity.
Qed.

Lemma get_di : forall c h d k, c_lso c = false -> DI c h d -> db_get hash c k d = spec_get h k.
Proof.
  intros c h d k Hlso [(n0 & pre & F & part & H & Ht & Hl & HF & HFl & HG & HB)].
  assert (Hll := gi_lastseq_lt c h d _ _ _ _ H). destruct (gi_pre_part _ _ _ _ _ _ H) as [Hsort Hpart].
  assert (E : lm_get hash c k (d_log d) = log_answer h F NIL k).
  { assert (Hb : g_bar (d_log d) < NIL).
    { destruct (d_bat d) as [[todo done]|]; [destruct HB as [_ (_ & -> & _)]; exact Hll|destruct HB as [_ ->]; rewrite nil_val; lia]. }
    rewrite (lm_get_spec hash _ _ _ _ _ c k H Hl Hlso Hb). unfold log_answer.
    assert (En : newest (h ++ part) (limit (g_bar (d_log d))) k = newest h NIL k); [|rewrite En; reflexivity].
    destruct (d_bat d) as [[todo done]|].
    - destruct HB as [-> (P1 & P2 & P3 & _)]. rewrite P2. unfold limit.
      destruct (lastseq_in h P1) as (z & Hz & Ez). assert (X := gi_pos _ _ _ _ _ _ H z ltac:(apply in_or_app; left; exact Hz)).
      replace (lastseq h =? 0) with false by lia. apply newest_bar; [exact Hsort| |lia|exact Hll].
      intros r Hr. destruct (Hpart r Hr) as [Y|Y]; [exact Y|congruence].
    - destruct HB as [-> ->]. rewrite app_nil_r. reflexivity. }
  unfold db_get. rewrite E, Ht. apply log_plus_tab. exact Hsort.
Qed.

Theorem get_latest : forall c h d k, cfg_ok c -> c_lso c = false -> reach c h d -> db_get hash c k d = spec_get h k.
Proof. intros c h d k Cok Hlso R. apply get_di; [exact Hlso|]. exact (reach_inv _ _ _ Cok R). Qed.

End Proofs.
