(** Log-store mode: writes and syncs do not depend on the memtables that have been freed. *)
From Verif Require Import Base KeyModel LogFormatModel LogManifestModel BloomModel MemTableModel MemTableProofs LogMgrModel LogMgrProofs
  LogMgrProofs2 DbModel DbProofs RecoverModel RecoverProofs RecoverProofs2 RecoverProofs3 RecoverProofs4 ReclaimModel.
From Coq Require Import Sorted ZifyBool.
Local Open Scope N_scope.

Inductive kind := Live | Out | Re.

(** What of a file must be the same. *)
Definition marks (f f' : lgf) : Prop :=
  m_min (f_mt f') = m_min (f_mt f) /\ m_flushed (f_mt f') = m_flushed (f_mt f) /\
  m_synced (f_mt f') = m_synced (f_mt f) /\ m_max (f_mt f') = m_max (f_mt f).

(** Sync leaves the files before the first one it looks at alone. *)
Lemma sync_loop_old : forall fuel n to bar bad last fs m, m < n ->
  file_at m (snd (sync_loop fuel n to bar bad last fs)) = file_at m fs.
Proof.
  induction fuel as [|fuel IH]; intros n to bar bad last fs m Hm; cbn [sync_loop]; [reflexivity|].
  destruct (to <? n); [reflexivity|]. destruct (file_at n fs) as [f|] eqn:E; [|apply IH; lia].
  destruct (bad n); [reflexivity|]. rewrite IH by lia. apply file_at_in in E. destruct E as [_ E].
  clear -Hm E. unfold file_at, upd_file. induction fs as [|x fs IH]; [reflexivity|]. cbn [map find].
  destruct (f_num x =? n) eqn:E1.
  - replace (f_num x =? m) with false by lia.
    replace (f_num (if n <? to then set_imm _ else _) =? m) with false; [exact IH|].
    destruct (n <? to); cbn [set_imm with_mt f_num]; lia.
  - destruct (f_num x =? m); [reflexivity|exact IH].
Qed.

Lemma sync_loop_last : forall fuel n to bar bad last fs l fs', sync_loop fuel n to bar bad last fs = (Ok l, fs') ->
  l = last \/ n <= l <= to.
Proof.
  induction fuel as [|fuel IH]; intros n to bar bad last fs l fs' E; cbn [sync_loop] in E; [left; congruence|].
  destruct (to <? n) eqn:E1; [left; congruence|]. destruct (file_at n fs) as [f|].
  - destruct (bad n); [congruence|]. apply IH in E. destruct E as [->|E]; [|right; lia].
    destruct (valid_number _); [right; lia|left; reflexivity].
  - apply IH in E. destruct E as [E|E]; [left; exact E|right; lia].
Qed.

Lemma lm_sync_old : forall bad g m, m < sync_from g -> file_at m (g_files (snd (lm_sync bad g))) = file_at m (g_files g).
Proof.
  intros bad g m Hm. unfold lm_sync, sync_from in *. destruct (max_num g) as [to|]; [|reflexivity].
  destruct (match last_synced g with Some x => Some x | None => min_num g end) as [from|]; [|reflexivity].
  assert (X := sync_loop_old (S (N.to_nat (to - from))) from to (g_bar g) bad from (g_files g) m Hm).
  destruct (sync_loop _ _ _ _ _ _ _) as [[l|e|] fs']; exact X.
Qed.

Lemma to_write_same : forall f f', m_synced (f_mt f') = m_synced (f_mt f) -> to_write f f' = [].
Proof.
  intros f f' E. unfold to_write. rewrite E. destruct (m_synced (f_mt f) =? NIL); [reflexivity|].
  induction (m_seq (f_mt f)) as [|r l IH]; [reflexivity|]. cbn [filter].
  destruct ((m_synced (f_mt f) + 1 <=? r_seq r) && (r_seq r <=? m_synced (f_mt f))) eqn:X; [lia|exact IH].
Qed.

Section View.
Variable hash : key -> N * N.
Variable V : lgf -> lgf.
Variable live : N -> Prop.
Hypothesis Vnum : forall f, f_num (V f) = f_num f.
Hypothesis Vlive : forall f, live (f_num f) -> V f = f.

Definition Vg (g : lmgr) : lmgr := with_files g (map V (g_files g)).
Definition Vd (d : db) : db := mkDb (Vg (d_log d)) (d_tab d) (d_gone d) (d_bat d).
Definition Vp (p : pdb) : pdb := with_p_files p (map V (p_files p)).

Lemma file_at_view : forall n fs, file_at n (map V fs) = option_map V (file_at n fs).
Proof.
  intros n fs. unfold file_at. induction fs as [|f fs IH]; [reflexivity|]. cbn [map find]. rewrite Vnum.
  destruct (f_num f =? n); [reflexivity|exact IH].
Qed.
Lemma file_at_live : forall n fs, live n -> file_at n (map V fs) = file_at n fs.
Proof.
  intros n fs L. rewrite file_at_view. destruct (file_at n fs) as [f|] eqn:E; [|reflexivity]. cbn [option_map].
  apply file_at_in in E. destruct E as [_ E]. rewrite Vlive; [reflexivity|]. rewrite E; exact L.
Qed.
Lemma upd_view : forall n h fs, live n -> (forall f, f_num (h f) = n \/ f_num (h f) = f_num f) -> upd_file n h (map V fs) = map V (upd_file n h fs).
Proof.
  intros n h fs L H. unfold upd_file. rewrite !map_map. apply map_ext. intros f. rewrite Vnum.
  destruct (f_num f =? n) eqn:E; [|reflexivity]. apply N.eqb_eq in E.
  rewrite (Vlive f) by (rewrite E; exact L). symmetry. apply Vlive. destruct (H f) as [->| ->]; [|rewrite E]; exact L.
Qed.

Lemma file_set_view : forall c n r g, live n -> file_set hash c n r (Vg g) = let (o, g') := file_set hash c n r g in (o, Vg g').
Proof.
  intros c n r g L. unfold file_set. cbn [Vg with_files g_files]. rewrite file_at_live by exact L.
  destruct (file_at n (g_files g)) as [f|]; [|reflexivity]. destruct (lf_set hash (c_ow c) r (f_mt f)) as [o m'].
  unfold Vg, with_files. cbn [g_files g_max g_lf g_ls g_bar]. rewrite upd_view; [reflexivity|exact L|]. intros x; right; reflexivity.
Qed.

Lemma add_view : forall c f g, live ((g_max g + 1) mod 2 ^ 64) -> add_new_file c f (Vg g) = Vg (add_new_file c f g).
Proof.
  intros c f g L. unfold add_new_file, Vg, with_files. cbn [g_files g_max g_lf g_ls g_bar]. rewrite map_app. cbn [map].
  rewrite (Vlive (mkF _ _ _ _)) by exact L. reflexivity.
Qed.

Lemma min_num_view : forall g, min_num (Vg g) = min_num g.
Proof. intros g. unfold min_num, Vg. cbn [with_files g_files]. destruct (g_files g); [reflexivity|]. cbn [map]. rewrite Vnum; reflexivity. Qed.
Lemma last_flushed_view : forall g, last_flushed (Vg g) = last_flushed g.
Proof. intros g. unfold last_flushed. rewrite min_num_view. reflexivity. Qed.

Lemma lm_set_view : forall c full r g, c_ow c = false -> live (g_max g) -> live ((g_max g + 1) mod 2 ^ 64) ->
  lm_set hash c full r (Vg g) = let (o, g') := lm_set hash c full r g in (o, Vg g').
Proof.
  intros c full r g Ow L1 L2. unfold lm_set. destruct (c_ro c); [reflexivity|]. destruct (r_seq r =? 0); [reflexivity|].
  change (max_num (Vg g)) with (max_num g). unfold max_num. destruct (g_max g =? NIL); [reflexivity|].
  rewrite Ow, !andb_false_r. cbv zeta. cbn [Vg with_files g_files]. rewrite file_at_live by exact L1. fold (with_files g (map V (g_files g))). fold (Vg g).
  destruct (file_at (g_max g) (g_files g)) as [f|]; [|reflexivity].
  rewrite add_view by exact L2. cbn [negb orb]. rewrite !andb_true_r.
  set (g1 := if negb (valid_to_write c full f) then add_new_file c f g else g).
  assert (E1 : (if negb (valid_to_write c full f) then Vg (add_new_file c f g) else Vg g) = Vg g1) by (unfold g1; destruct (negb _); reflexivity).
  rewrite E1. change (g_max (Vg g1)) with (g_max g1).
  set (n1 := if negb (valid_to_write c full f) then g_max g1 else g_max g).
  assert (L3 : live n1).
  { unfold n1, g1. destruct (negb (valid_to_write c full f)); [exact L2|exact L1]. }
  rewrite file_set_view by exact L3. destruct (file_set hash c n1 r g1) as [o g2]. destruct o as [r'|e|]; [|reflexivity|reflexivity].
  cbn [Vg with_files g_files]. rewrite file_at_live by exact L3. fold (with_files g2 (map V (g_files g2))). fold (Vg g2).
  destruct (file_at n1 (g_files g2)) as [f2|]; [|reflexivity]. destruct (f_imm f2); [|reflexivity].
  unfold last_synced, last_flushed, min_num, Vg, with_files. cbn [g_files g_max g_lf g_ls g_bar].
  destruct (g_files g2) as [|x t]; [reflexivity|]. cbn [map]. rewrite Vnum. reflexivity.
Qed.

Lemma max_seq_down_view : forall fs fuel n, (forall f, In f fs -> m_max (f_mt (V f)) = m_max (f_mt f)) ->
  max_seq_down fuel n (map V fs) = max_seq_down fuel n fs.
Proof.
  intros fs fuel. induction fuel as [|fuel IH]; intros n H; [reflexivity|]. cbn [max_seq_down]. rewrite file_at_view.
  destruct (file_at n fs) as [f|] eqn:E; [|reflexivity]. cbn [option_map]. apply file_at_in in E. rewrite (H f) by apply E.
  destruct (m_max (f_mt f) =? NIL); [|reflexivity]. destruct (n =? 0); [reflexivity|]. apply IH, H.
Qed.
Lemma lm_max_seq_view : forall g, (forall f, In f (g_files g) -> m_max (f_mt (V f)) = m_max (f_mt f)) -> lm_max_seq (Vg g) = lm_max_seq g.
Proof.
  intros g H. unfold lm_max_seq. cbn [Vg with_files g_bar g_files]. destruct (negb (g_bar g =? 0)); [reflexivity|].
  change (max_num _) with (max_num g). destruct (max_num g); [|reflexivity]. rewrite map_length. apply max_seq_down_view, H.
Qed.

Definition write_op (o : op) : Prop := match o with OSet _ _ | OBegin _ | OPut | OEnd => True | _ => False end.

Lemma step_view : forall c o d, c_ow c = false -> write_op o ->
  (forall f, In f (g_files (d_log d)) -> m_max (f_mt (V f)) = m_max (f_mt f)) ->
  live (g_max (d_log d)) -> live ((g_max (d_log d) + 1) mod 2 ^ 64) ->
  step hash c o (Vd d) = match step hash c o d with Some (x, d') => Some (x, Vd d') | None => None end.
Proof.
  intros c o d Ow Ho Hm L1 L2. destruct d as [g tab gone bat]. cbn [d_log] in *. unfold Vd. cbn [d_log d_tab d_gone d_bat].
  destruct o as [full r|b| | | | |]; try destruct Ho; cbn [step d_log d_tab d_gone d_bat].
  - destruct bat; [reflexivity|]. rewrite lm_set_view by assumption. destruct (lm_set hash c full r g) as [x g']. reflexivity.
  - destruct bat; [reflexivity|]. destruct (c_ro c); [reflexivity|]. destruct b as [|r0 b0]; [reflexivity|]. set (b := r0 :: b0).
    assert (E0 : batch_begin (Vg g) = Vg (batch_begin g)).
    { unfold batch_begin. rewrite lm_max_seq_view by exact Hm. reflexivity. }
    rewrite E0.
    assert (E1 : batch_valid c b (Vg (batch_begin g)) = batch_valid c b (batch_begin g)).
    { unfold batch_valid, b. rewrite Ow, andb_false_r. cbn [andb]. rewrite lm_max_seq_view; [reflexivity|]. exact Hm. }
    rewrite E1. destruct (batch_valid c b (batch_begin g)); reflexivity.
  - destruct bat as [[[|r t] done]|]; [reflexivity| |reflexivity].
    assert (Eb : batch_put hash c r (Vg g) = let (o, g') := batch_put hash c r g in (o, Vg g')).
    { unfold batch_put. change (max_num (Vg g)) with (max_num g). unfold max_num. destruct (g_max g =? NIL); [reflexivity|].
      apply file_set_view, L1. }
    rewrite Eb. destruct (batch_put hash c r g) as [[r'|e|] g']; reflexivity.
  - destruct bat as [[[|r t] done]|]; reflexivity.
Qed.

(** *** Sync *)
Lemma sync_loop_view : forall fuel n to bar bad last fs, (forall m, n <= m -> live m) ->
  sync_loop fuel n to bar bad last (map V fs) = let (x, fs') := sync_loop fuel n to bar bad last fs in (x, map V fs').
Proof.
  induction fuel as [|fuel IH]; intros n to bar bad last fs L; cbn [sync_loop]; [reflexivity|].
  destruct (to <? n); [reflexivity|]. rewrite file_at_live by (apply L; lia).
  destruct (file_at n fs) as [f|] eqn:E; [|apply IH; intros m Hm; apply L; lia].
  destruct (bad n); [reflexivity|]. apply file_at_in in E. destruct E as [_ E].
  rewrite upd_view; [apply IH; intros m Hm; apply L; lia|apply L; lia|].
  intros x. left. destruct (n <? to); cbn [set_imm with_mt f_num]; exact E.
Qed.

Lemma lm_sync_view : forall bad g, (forall m, sync_from g <= m -> live m) ->
  lm_sync bad (Vg g) = let (x, g') := lm_sync bad g in (x, Vg g').
Proof.
  intros bad g L. unfold lm_sync. change (max_num (Vg g)) with (max_num g). change (last_synced (Vg g)) with (last_synced g).
  rewrite min_num_view. unfold sync_from in L. destruct (max_num g) as [to|]; [|reflexivity].
  destruct (match last_synced g with Some x => Some x | None => min_num g end) as [from|]; [|reflexivity].
  cbn [Vg with_files g_files g_bar]. rewrite sync_loop_view by exact L.
  destruct (sync_loop _ _ _ _ _ _ _) as [[l|e|] fs']; reflexivity.
Qed.
Lemma sync_from_view : forall g, sync_from (Vg g) = sync_from g.
Proof. intros g. unfold sync_from. change (last_synced (Vg g)) with (last_synced g). rewrite min_num_view. reflexivity. Qed.



Lemma man_of_view : forall g, (forall f, In f (g_files g) -> marks f (V f)) -> man_of (Vg g) = man_of g.
Proof.
  intros g H. unfold man_of. cbn [Vg with_files g_files g_max g_lf g_ls]. f_equal. rewrite map_map. apply map_ext_in.
  intros f Hf. destruct (H f Hf) as (A & B & C & _). rewrite Vnum, A, B, C. reflexivity.
Qed.

(** Every file is at or above the first one looked at by sync, or seen through [V] with its marks. *)
Lemma p_sync_view : forall c fsync p, (forall m, sync_from (d_log (p_db p)) <= m -> live m) ->
  (forall x p', p_sync hash c fsync p = Some (x, p') -> forall f, In f (p_files p') -> marks f (V f)) ->
  p_sync hash c fsync (Vp p) = match p_sync hash c fsync p with Some (x, p') => Some (x, Vp p') | None => None end.
Proof.
  intros c fsync p L HM. destruct p as [d disk dur man old]. destruct d as [g tab gone bat]. cbn [p_db d_log] in *.
  unfold p_sync in *. unfold Vp, with_p_files, p_files in *. cbn [p_db p_disk p_dur p_man p_old d_log d_tab d_gone d_bat step g_files with_files g_max] in *.
  fold (with_files g (map V (g_files g))). fold (Vg g). rewrite lm_sync_view by (intros m Hm; apply L; exact Hm).
  assert (Old := lm_sync_old no_fault g). destruct (lm_sync no_fault g) as [x g'] eqn:E. cbn [snd d_log g_files with_files g_max g_lf g_ls g_bar] in *.
  assert (Ed : map (write_file (map V (g_files g)) (g_files (Vg g'))) disk = map (write_file (g_files g) (g_files g')) disk).
  { apply map_ext. intros dl. unfold write_file. cbn [Vg with_files g_files]. rewrite !file_at_view.
    destruct (file_at (dl_num dl) (g_files g)) as [f|] eqn:E1; [|reflexivity].
    destruct (file_at (dl_num dl) (g_files g')) as [f'|] eqn:E2; [|reflexivity]. cbn [option_map].
    destruct (dl_torn dl); [reflexivity|]. f_equal. f_equal.
    destruct (N.lt_ge_cases (dl_num dl) (sync_from g)) as [Hlt|Hge].
    - rewrite Old in E2 by exact Hlt. assert (f' = f) by congruence. subst f'. rewrite !to_write_same; reflexivity.
    - assert (Lx : live (dl_num dl)) by (apply L; exact Hge). apply file_at_in in E1, E2. destruct E1 as [_ E1], E2 as [_ E2].
      rewrite !Vlive; [reflexivity| |]; congruence. }
  change (g_files (d_log (mkDb (Vg g') tab gone bat))) with (g_files (Vg g')). rewrite Ed, sync_from_view.
  specialize (HM _ _ eq_refl). destruct x as [[]|e|]; cbn [p_store p_db p_disk p_dur p_man p_old d_log d_tab d_gone d_bat] in *.
  - change (d_log (mkDb (Vg g') tab gone bat)) with (Vg g'). rewrite man_of_view by exact HM. reflexivity.
  - reflexivity.
  - reflexivity.
Qed.

Lemma p_write_view : forall c o p, c_ow c = false -> write_op o ->
  (forall f, In f (p_files p) -> marks f (V f)) ->
  live (g_max (d_log (p_db p))) -> live ((g_max (d_log (p_db p)) + 1) mod 2 ^ 64) ->
  p_write hash c o (Vp p) = match p_write hash c o p with Some (x, p') => Some (x, Vp p') | None => None end.
Proof.
  intros c o p Ow Ho HM L1 L2. unfold p_write. change (p_db (Vp p)) with (Vd (p_db p)).
  rewrite step_view by (try assumption; intros f Hf; apply (HM f Hf)).
  destruct (step hash c o (p_db p)) as [[x d']|]; [|reflexivity].
  change (g_max (d_log (Vd d'))) with (g_max (d_log d')). change (g_max (d_log (Vd (p_db p)))) with (g_max (d_log (p_db p))).
  destruct (g_max (d_log d') =? g_max (d_log (p_db p))); [reflexivity|].
  change (g_files (d_log (Vd (p_db p)))) with (map V (g_files (d_log (p_db p)))). rewrite file_at_live by exact L1.
  destruct (file_at (g_max (d_log (p_db p))) (g_files (d_log (p_db p)))) as [f|]; [|reflexivity].
  change (d_log (Vd (p_db p))) with (Vg (d_log (p_db p))). rewrite add_view by exact L2. rewrite man_of_view; [reflexivity|].
  intros f' Hf'. unfold add_new_file in Hf'. cbn [g_files] in Hf'. apply in_app_or in Hf'. destruct Hf' as [Hf'|[<-|[]]]; [apply HM, Hf'|].
  rewrite Vlive by exact L2. repeat split.
Qed.

End View.
