From Verif Require Import Base Crc32Model Crc32Proofs KeyModel KeyProofs FileModel FileProofs
  LogManifestModel LogManifestProofs TableManifestModel.
From Coq Require Import Sorting.Sorted.
Local Open Scope N_scope.

(** *** The image *)
Definition enc_chks (chks : list (N * N)) : list N :=
  u32 (N.of_nat (length chks)) ++ flat_map (fun c => u64 (fst c) ++ u64 (snd c)) chks.

Definition enc_table (level0 : bool) (t : tinfo) : list N :=
  u64 (t_num t) ++
  (if level0 then u32 8 ++ u32 (t_hash t) ++ u32 (t_status t)
   else u32 (blen (t_min t)) ++ t_min t) ++ enc_chks (t_chks t).

Definition enc_level (level0 : bool) (ts : list tinfo) : list N :=
  u32 (N.of_nat (length ts)) ++ flat_map (enc_table level0) ts.

Fixpoint enc_levels (level0 : bool) (ls : list (N * list tinfo)) : list N :=
  match ls with [] => [] | lv :: rest => enc_level level0 (snd lv) ++ enc_levels false rest end.

Definition tm_body (m : tman) : list N :=
  u64 (tm_max m) ++ u32 (N.of_nat (length (tm_levels m))) ++ enc_levels true (tm_levels m) ++
  TABMANI_FOOTER ++ u32 TABMANI_VERSION.

Definition tm_encode (m : tman) : list N := tm_body m ++ u32 (crc32_8 (tm_body m) 0).

(** *** Writing *)
Definition wpre (f0 : list N) (pre : list N) (w : wser) : Prop :=
  w_pos w = length pre /\ firstn (length pre) (w_apply f0 (w_ops w)) = pre.

Lemma w_apply_snoc : forall f ops o, w_apply f (ops ++ [o]) = pwrite (w_apply f ops) (fst o) (snd o).
Proof. intros. unfold w_apply. now rewrite fold_left_app. Qed.

Lemma wpre_put : forall f0 pre w d, wpre f0 pre w -> wpre f0 (pre ++ d) (w_put d w).
Proof.
  intros f0 pre w d [H1 H2]. unfold wpre, w_put. cbn [w_pos w_ops]. split.
  - rewrite app_length. lia.
  - rewrite w_apply_snoc. cbn [fst snd]. rewrite H1. now apply pwrite_prefix.
Qed.

Lemma pwrite_middle : forall f a x y b, length x = length y ->
  firstn (length (a ++ x ++ b)) f = a ++ x ++ b ->
  firstn (length (a ++ y ++ b)) (pwrite f (length a) y) = a ++ y ++ b.
Proof.
  intros f a x y b Hl H.
  assert (Hf : (length (a ++ x ++ b) <= length f)%nat).
  { rewrite <- H at 1. rewrite firstn_length. lia. }
  assert (E : f = a ++ x ++ b ++ skipn (length (a ++ x ++ b)) f).
  { rewrite <- (firstn_skipn (length (a ++ x ++ b)) f) at 1. rewrite H. now rewrite <- !app_assoc. }
  set (r := skipn (length (a ++ x ++ b)) f) in *. clearbody r.
  destruct y as [|y0 y]; [destruct x; [|discriminate]; exact H|].
  assert (Ep : pwrite f (length a) (y0 :: y) = a ++ (y0 :: y) ++ b ++ r).
  { unfold pwrite. rewrite E at 1. rewrite firstn_app_exact by reflexivity.
    rewrite !app_length in Hf. replace (length a - length f)%nat with 0%nat by lia.
    change (repeat 0 0) with (@nil N). rewrite app_nil_l. f_equal. f_equal.
    rewrite E, app_assoc. apply skipn_app_exact. rewrite app_length, Hl. reflexivity. }
  rewrite Ep. replace (a ++ (y0 :: y) ++ b ++ r) with ((a ++ (y0 :: y) ++ b) ++ r)
    by (now rewrite <- !app_assoc). now apply firstn_app_exact.
Qed.

Lemma wpre_patch : forall f0 a x y b w, length x = length y ->
  wpre f0 (a ++ x ++ b) w -> wpre f0 (a ++ y ++ b) (w_patch (length a) y w).
Proof.
  intros f0 a x y b w Hl [H1 H2]. unfold wpre, w_patch. cbn [w_pos w_ops]. split.
  - rewrite H1, !app_length, Hl. reflexivity.
  - rewrite w_apply_snoc. cbn [fst snd]. now apply (pwrite_middle _ a x y b).
Qed.

Lemma wpre_chks : forall f0 chks pre w, wpre f0 pre w -> wpre f0 (pre ++ enc_chks chks) (put_chks chks w).
Proof.
  intros f0 chks pre w H. unfold put_chks, enc_chks.
  apply (wpre_put _ _ _ (u32 (N.of_nat (length chks)))) in H.
  set (w1 := w_put _ w) in *. clearbody w1. rewrite app_assoc.
  set (p1 := pre ++ _) in *. clearbody p1. clear pre w. revert w1 p1 H.
  induction chks as [|[a b] chks IH]; intros w p H.
  - cbn [flat_map fold_left]. now rewrite app_nil_r.
  - cbn [flat_map fold_left fst snd]. rewrite app_assoc. apply IH.
    rewrite app_assoc. now apply wpre_put, wpre_put.
Qed.

Lemma wpre_table : forall f0 l0 t pre w, t_status t <> ST_COMPACT_DST ->
  wpre f0 pre w -> wpre f0 (pre ++ enc_table l0 t) (put_table l0 t w).
Proof.
  intros f0 l0 t pre w Hs H. unfold put_table, enc_table.
  apply N.eqb_neq in Hs. rewrite Hs. rewrite !app_assoc. apply wpre_chks.
  destruct l0.
  - rewrite !app_assoc. now repeat apply wpre_put.
  - rewrite !app_assoc. now repeat apply wpre_put.
Qed.

Lemma wpre_tables : forall f0 l0 ts pre w, Forall (fun t => t_status t <> ST_COMPACT_DST) ts ->
  wpre f0 pre w ->
  wpre f0 (pre ++ flat_map (enc_table l0) ts) (fold_left (fun w t => put_table l0 t w) ts w).
Proof.
  induction ts as [|t ts IH]; intros pre w HF H.
  - cbn [flat_map fold_left]. now rewrite app_nil_r.
  - inversion HF; subst. cbn [flat_map fold_left]. rewrite app_assoc. apply IH; [assumption|].
    now apply wpre_table.
Qed.

Lemma wpre_level : forall f0 l0 lv pre w, Forall (fun t => t_status t <> ST_COMPACT_DST) (snd lv) ->
  wpre f0 pre w -> wpre f0 (pre ++ enc_level l0 (snd lv)) (put_level l0 lv w).
Proof.
  intros f0 l0 lv pre w HF H. unfold put_level, enc_level.
  pose proof H as [Hpos _]. rewrite Hpos.
  apply (wpre_put _ _ _ (u32 (fst lv))) in H.
  apply (wpre_tables f0 l0 (snd lv)) in H; [|exact HF].
  rewrite <- app_assoc in H.
  destruct (N.eqb_spec (N.of_nat (length (snd lv))) (fst lv)) as [->|_]; [exact H|].
  apply (wpre_patch f0 pre (u32 (fst lv)) _ _ _); [now rewrite !u32_len|exact H].
Qed.

Lemma wpre_levels : forall f0 ls l0 pre w,
  Forall (fun lv => Forall (fun t => t_status t <> ST_COMPACT_DST) (snd lv)) ls ->
  wpre f0 pre w -> wpre f0 (pre ++ enc_levels l0 ls) (put_levels l0 ls w).
Proof.
  intros f0 ls. induction ls as [|lv ls IH]; intros l0 pre w HF H.
  - cbn [enc_levels put_levels]. now rewrite app_nil_r.
  - inversion HF; subst. cbn [enc_levels put_levels]. rewrite app_assoc. apply IH; [assumption|].
    now apply wpre_level.
Qed.

Definition no_dst (m : tman) : Prop :=
  Forall (fun lv => Forall (fun t => t_status t <> ST_COMPACT_DST) (snd lv)) (tm_levels m).

Lemma tm_puts_pre : forall f0 m, no_dst m -> wpre f0 (tm_body m) (tm_puts m).
Proof.
  intros f0 m H. unfold tm_puts, tm_body.
  rewrite !app_assoc. apply wpre_put, wpre_put. apply wpre_levels; [exact H|].
  apply wpre_put. rewrite <- (app_nil_l (u64 (tm_max m))). apply wpre_put.
  split; reflexivity.
Qed.

Lemma pread_prefix : forall f b, firstn (length b) f = b -> pread f 0 (length b) = Some b.
Proof.
  intros f b H. unfold pread. cbn [Nat.add skipn].
  assert ((length b <= length f)%nat) by (rewrite <- H at 1; rewrite firstn_length; lia).
  destruct (Nat.leb_spec (length b) (length f)); [|lia]. now rewrite H.
Qed.

Theorem tm_store_encode : forall f0 m, no_dst m -> tm_store f0 m = tm_encode m.
Proof.
  intros f0 m H. unfold tm_store. destruct (tm_puts_pre f0 m H) as [H1 H2].
  rewrite H1. rewrite (pread_prefix _ _ H2). cbn zeta.
  set (crc := crc32_8 (tm_body m) 0).
  pose proof (pwrite_prefix (w_apply f0 (w_ops (tm_puts m))) (tm_body m) (u32 crc) H2) as P.
  replace (length (tm_body m) + 4)%nat with (length (tm_body m ++ u32 crc))
    by (rewrite app_length, u32_len; reflexivity).
  rewrite ftruncate_prefix by exact P. reflexivity.
Qed.

(** *** Reading *)
Definition wf_chks (chks : list (N * N)) : Prop :=
  N.of_nat (length chks) < 2 ^ 32 /\
  Forall (fun c => fst c < 2 ^ 64 /\ snd c < 2 ^ 64) chks /\
  StronglySorted (fun a b => fst a < fst b) chks.

Definition wf_tinfo (level0 : bool) (t : tinfo) : Prop :=
  t_num t < 2 ^ 64 /\ wf_chks (t_chks t) /\ is_bytes (t_min t) /\ t_prev t = false /\
  if level0 then t_hash t < 2 ^ 32 /\ t_status t < 2 ^ 32 /\ t_min t = []
  else t_hash t = 0 /\ t_status t = 0 /\ blen (t_min t) < 2 ^ 32.

Lemma map_insert_last : forall m c, (forall d, In d m -> fst d < fst c) -> map_insert c m = m ++ [c].
Proof.
  induction m as [|d m IH]; intros c H; [reflexivity|].
  cbn [map_insert]. assert (Hd : fst d < fst c) by (apply H; now left).
  destruct (N.ltb_spec (fst c) (fst d)); [lia|].
  destruct (N.eqb_spec (fst c) (fst d)); [lia|].
  rewrite IH; [reflexivity|]. intros e He. apply H. now right.
Qed.

Lemma get_chks_app : forall chks a c acc,
  Forall (fun c => fst c < 2 ^ 64 /\ snd c < 2 ^ 64) chks ->
  StronglySorted (fun a b => fst a < fst b) chks ->
  (forall d e, In d acc -> In e chks -> fst d < fst e) ->
  let body := flat_map (fun c => u64 (fst c) ++ u64 (snd c)) chks in
  get_chks (length chks) {| fs_file := a ++ body ++ c; fs_pos := length a |} acc =
  (acc ++ chks, {| fs_file := a ++ body ++ c; fs_pos := length (a ++ body) |}).
Proof.
  induction chks as [|[x y] chks IH]; intros a c acc HF HS Hacc body.
  - cbn [length get_chks]. unfold body. cbn [flat_map]. now rewrite !app_nil_r.
  - inversion HF as [|? ? [Hx Hy] HF']; subst. cbn [fst snd] in *.
    inversion HS as [|? ? HS' Hall]; subst.
    unfold body. cbn [flat_map length get_chks fst snd]. unfold u64 at 1 2. rewrite <- !app_assoc.
    rewrite (fs_getU_app a x _ 8) by exact Hx.
    rewrite (app_assoc a (put_be 8 x)).
    rewrite (fs_getU_app (a ++ put_be 8 x) y _ 8) by exact Hy.
    rewrite (app_assoc _ (put_be 8 y)).
    rewrite map_insert_last by (intros d Hd; cbn [fst]; apply (Hacc d (x, y)); [exact Hd|now left]).
    rewrite IH.
    + rewrite <- !app_assoc. unfold u64. reflexivity.
    + exact HF'.
    + exact HS'.
    + intros d e Hd He. apply in_app_or in Hd as [Hd|[<-|[]]].
      * apply Hacc; [exact Hd|now right].
      * rewrite Forall_forall in Hall. exact (Hall e He).
Qed.

Lemma fs_get_key : forall a k c, 
  fs_get (N.to_nat (blen k)) {| fs_file := a ++ k ++ c; fs_pos := length a |} =
  (Some k, {| fs_file := a ++ k ++ c; fs_pos := length (a ++ k) |}).
Proof. intros. apply fs_get_app. unfold blen. now rewrite Nat2N.id. Qed.

Lemma get_table_app : forall l0 a t c, wf_tinfo l0 t ->
  get_table l0 {| fs_file := a ++ enc_table l0 t ++ c; fs_pos := length a |} =
  (t, {| fs_file := a ++ enc_table l0 t ++ c; fs_pos := length (a ++ enc_table l0 t) |}).
Proof.
  intros l0 a t c (Hn & (Hc1 & Hc2 & Hc3) & Hb & Hp & Hrest).
  unfold get_table, enc_table, enc_chks.
  set (body := flat_map _ (t_chks t)).
  destruct l0.
  - destruct Hrest as (Hh & Hst & Hmin). unfold u64, u32. rewrite <- !app_assoc.
    rewrite (fs_getU_app a (t_num t) _ 8) by exact Hn. rewrite (app_assoc a).
    rewrite (fs_getU_app _ 8 _ 4) by reflexivity.
    rewrite (app_assoc (a ++ _)).
    change (4 <=? 8) with true. change (8 <=? 8) with true. cbn iota.
    rewrite (fs_getU_app _ (t_hash t) _ 4) by exact Hh. rewrite (app_assoc ((a ++ _) ++ _)).
    rewrite (fs_getU_app _ (t_status t) _ 4) by exact Hst. rewrite (app_assoc (((a ++ _) ++ _) ++ _)).
    rewrite (fs_getU_app _ (N.of_nat (length (t_chks t))) _ 4) by exact Hc1.
    rewrite (app_assoc ((((a ++ _) ++ _) ++ _) ++ _)).
    rewrite Nat2N.id.
    rewrite (get_chks_app (t_chks t)) by (assumption || (intros d e []) ).
    fold body. rewrite app_nil_l. f_equal.
    + destruct t; cbn in *. subst. reflexivity.
    + rewrite <- !app_assoc. reflexivity.
  - destruct Hrest as (Hh & Hst & Hlen). unfold u64, u32. rewrite <- !app_assoc.
    rewrite (fs_getU_app a (t_num t) _ 8) by exact Hn. rewrite (app_assoc a).
    rewrite (fs_getU_app _ (blen (t_min t)) _ 4) by exact Hlen.
    rewrite (app_assoc (a ++ _)).
    assert (Hk : (if blen (t_min t) =? 0 then (0, 0, @nil N,
        {| fs_file := ((a ++ put_be 8 (t_num t)) ++ put_be 4 (blen (t_min t))) ++
             t_min t ++ put_be 4 (N.of_nat (length (t_chks t))) ++ body ++ c;
           fs_pos := length ((a ++ put_be 8 (t_num t)) ++ put_be 4 (blen (t_min t))) |})
      else match fs_get (N.to_nat (blen (t_min t)))
        {| fs_file := ((a ++ put_be 8 (t_num t)) ++ put_be 4 (blen (t_min t))) ++
             t_min t ++ put_be 4 (N.of_nat (length (t_chks t))) ++ body ++ c;
           fs_pos := length ((a ++ put_be 8 (t_num t)) ++ put_be 4 (blen (t_min t))) |} with
           | (Some b, s3) => (0, 0, b, s3)
           | (None, s3) => (0, 0, repeat 0 (N.to_nat (blen (t_min t))), s3) end) =
        (0, 0, t_min t, {| fs_file := ((a ++ put_be 8 (t_num t)) ++ put_be 4 (blen (t_min t))) ++
             t_min t ++ put_be 4 (N.of_nat (length (t_chks t))) ++ body ++ c;
           fs_pos := length (((a ++ put_be 8 (t_num t)) ++ put_be 4 (blen (t_min t))) ++ t_min t) |})).
    { destruct (N.eqb_spec (blen (t_min t)) 0) as [E|E].
      - assert (Em : t_min t = []) by (destruct (t_min t); [reflexivity|unfold blen in E; cbn in E; lia]).
        rewrite Em. now rewrite app_nil_r.
      - now rewrite fs_get_key. }
    rewrite Hk. clear Hk. rewrite (app_assoc ((a ++ _) ++ _) (t_min t)).
    rewrite (fs_getU_app _ (N.of_nat (length (t_chks t))) _ 4) by exact Hc1.
    rewrite (app_assoc (((a ++ _) ++ _) ++ _)).
    rewrite Nat2N.id.
    rewrite (get_chks_app (t_chks t)) by (assumption || (intros d e []) ).
    fold body. rewrite app_nil_l. f_equal.
    + destruct t; cbn in *. subst. reflexivity.
    + rewrite <- !app_assoc. reflexivity.
Qed.

(** Tables in iteration order, as loading rebuilds the list. *)
Section Order.
Variable tab_min tab_max : N -> option key.

(** The keys of the table files agree with the manifest: no table holds a key below its
    recorded minimum, and the tables of the level follow one another. *)
Fixpoint ranges_ok (last_max : key) (ts : list tinfo) : Prop :=
  match ts with
  | [] => True
  | t :: rest =>
    (forall k, tab_min (t_num t) = Some k -> kle (t_min t) k) /\
    (t_min t = [] \/ klt last_max (t_min t)) /\
    ranges_ok (match tab_max (t_num t) with Some k => k | None => [] end) rest
  end.

Lemma kle_nil : forall k, kle [] k.
Proof. intros [|b k]; unfold kle; cbn; discriminate. Qed.

Lemma fix_min_id : forall lm t, wf_tinfo false t ->
  (forall k, tab_min (t_num t) = Some k -> kle (t_min t) k) ->
  (t_min t = [] \/ klt lm (t_min t)) -> fix_min tab_min false lm t = t.
Proof.
  intros lm t Hw H1 H2. unfold fix_min.
  assert (E : match tab_min (t_num t) with
    | Some k => if negb (blen (t_min t) =? 0) && kltb k (t_min t) then k else t_min t
    | None => t_min t end = t_min t).
  { destruct (tab_min (t_num t)) as [k|]; [|reflexivity].
    specialize (H1 k eq_refl). apply kltb_false in H1. rewrite H1. now rewrite andb_false_r. }
  rewrite E. destruct Hw as (_ & _ & _ & Hp & _).
  assert (Ef : negb (blen (t_min t) =? 0) && kleb (t_min t) lm = false).
  { destruct H2 as [->|H2]; [reflexivity|]. apply kleb_false in H2. rewrite H2. apply andb_false_r. }
  rewrite Ef. destruct t; cbn in *. now subst.
Qed.

Lemma get_tables_app : forall ts a c lm acc, Forall (wf_tinfo false) ts ->
  ranges_ok lm ts ->
  get_tables tab_min tab_max false (length ts)
     {| fs_file := a ++ flat_map (enc_table false) ts ++ c; fs_pos := length a |} lm acc =
  (fold_left (fun l t => sl_insert t l) ts acc,
   {| fs_file := a ++ flat_map (enc_table false) ts ++ c;
      fs_pos := length (a ++ flat_map (enc_table false) ts) |}).
Proof.
  induction ts as [|t ts IH]; intros a c lm acc HF HR.
  - cbn [length get_tables flat_map fold_left]. now rewrite app_nil_r.
  - inversion HF as [|? ? Ht HF']; subst. destruct HR as (R1 & R2 & R3).
    cbn [length get_tables flat_map fold_left]. rewrite <- app_assoc.
    rewrite get_table_app by exact Ht. rewrite fix_min_id by assumption.
    rewrite (app_assoc a (enc_table false t)).
    cbn [next_max]. rewrite IH by assumption.
    rewrite <- !app_assoc. reflexivity.
Qed.

Lemma get_tables0_app : forall ts a c lm acc, Forall (wf_tinfo true) ts ->
  get_tables tab_min tab_max true (length ts)
     {| fs_file := a ++ flat_map (enc_table true) ts ++ c; fs_pos := length a |} lm acc =
  (fold_left (fun l t => sl_insert t l) ts acc,
   {| fs_file := a ++ flat_map (enc_table true) ts ++ c;
      fs_pos := length (a ++ flat_map (enc_table true) ts) |}).
Proof.
  induction ts as [|t ts IH]; intros a c lm acc HF.
  - cbn [length get_tables flat_map fold_left]. now rewrite app_nil_r.
  - inversion HF as [|? ? Ht HF']; subst.
    cbn [length get_tables flat_map fold_left]. rewrite <- app_assoc.
    rewrite get_table_app by exact Ht. cbn [fix_min].
    rewrite (app_assoc a (enc_table true t)).
    cbn [next_max]. rewrite IH by assumption.
    rewrite <- !app_assoc. reflexivity.
Qed.
End Order.

Lemma sl_insert_last : forall l t, (forall u, In u l -> klt (t_min u) (t_min t)) -> sl_insert t l = l ++ [t].
Proof.
  induction l as [|u l IH]; intros t H; [reflexivity|].
  cbn [sl_insert]. assert (Hu : klt (t_min u) (t_min t)) by (apply H; now left).
  apply kltb_true in Hu. rewrite Hu. rewrite IH; [reflexivity|]. intros x Hx. apply H. now right.
Qed.

Definition min_lt (a b : tinfo) : Prop := klt (t_min a) (t_min b).

Lemma insert_sorted : forall ts acc, StronglySorted min_lt ts ->
  (forall a b, In a acc -> In b ts -> min_lt a b) ->
  fold_left (fun l t => sl_insert t l) ts acc = acc ++ ts.
Proof.
  induction ts as [|t ts IH]; intros acc HS H.
  - cbn. now rewrite app_nil_r.
  - inversion HS as [|? ? HS' Hall]; subst. cbn [fold_left].
    rewrite sl_insert_last by (intros u Hu; apply (H u t); [exact Hu|now left]).
    rewrite IH.
    + now rewrite <- app_assoc.
    + exact HS'.
    + intros a b Ha Hb. apply in_app_or in Ha as [Ha|[<-|[]]].
      * apply H; [exact Ha|now right].
      * rewrite Forall_forall in Hall. now apply Hall.
Qed.

Lemma insert_empty_keys : forall ts acc, Forall (fun t => t_min t = []) ts ->
  Forall (fun t => t_min t = []) acc ->
  fold_left (fun l t => sl_insert t l) ts acc = rev ts ++ acc.
Proof.
  induction ts as [|t ts IH]; intros acc HF HA; [reflexivity|].
  inversion HF as [|? ? Ht HF']; subst. cbn [fold_left rev].
  assert (E : sl_insert t acc = t :: acc).
  { destruct acc as [|u acc]; [reflexivity|]. cbn [sl_insert]. inversion HA as [|? ? Hu]; subst.
    rewrite Ht, Hu. reflexivity. }
  rewrite E. rewrite IH; [|exact HF'|now constructor]. rewrite <- app_assoc. reflexivity.
Qed.

(** *** Whole levels *)
Section Levels.
Variable tab_min tab_max : N -> option key.

Definition wf_level (lv : N * list tinfo) : Prop :=
  N.of_nat (length (snd lv)) < 2 ^ 32 /\ Forall (wf_tinfo false) (snd lv) /\
  StronglySorted min_lt (snd lv) /\ ranges_ok tab_min tab_max [] (snd lv).

Definition wf_level0 (lv : N * list tinfo) : Prop :=
  N.of_nat (length (snd lv)) < 2 ^ 32 /\ Forall (wf_tinfo true) (snd lv).

Definition recount (lv : N * list tinfo) : N * list tinfo := (N.of_nat (length (snd lv)), snd lv).

Lemma get_levels_app : forall ls a c, Forall wf_level ls ->
  get_levels tab_min tab_max false (length ls)
     {| fs_file := a ++ enc_levels false ls ++ c; fs_pos := length a |} = map recount ls.
Proof.
  induction ls as [|[n ts] ls IH]; intros a c HF; [reflexivity|].
  inversion HF as [|? ? (H1 & H2 & H3 & H4) HF']; subst. cbn [snd] in *.
  cbn [length get_levels enc_levels map snd]. unfold enc_level, u32. rewrite <- !app_assoc.
  rewrite (fs_getU_app a (N.of_nat (length ts)) _ 4) by exact H1.
  rewrite (app_assoc a). rewrite Nat2N.id.
  rewrite (get_tables_app tab_min tab_max ts) by assumption.
  rewrite insert_sorted by (assumption || intros ? ? []). rewrite app_nil_l.
  unfold recount at 1. cbn [snd]. f_equal.
  rewrite (app_assoc (a ++ _)). now apply IH.
Qed.

Lemma get_levels0_app : forall lv ls a c, wf_level0 lv -> Forall wf_level ls ->
  get_levels tab_min tab_max true (length (lv :: ls))
     {| fs_file := a ++ enc_levels true (lv :: ls) ++ c; fs_pos := length a |} =
  (N.of_nat (length (snd lv)), rev (snd lv)) :: map recount ls.
Proof.
  intros [n ts] ls a c [H1 H2] HF. cbn [snd] in *.
  cbn [length get_levels enc_levels map snd]. unfold enc_level, u32. rewrite <- !app_assoc.
  rewrite (fs_getU_app a (N.of_nat (length ts)) _ 4) by exact H1.
  rewrite (app_assoc a). rewrite Nat2N.id.
  rewrite (get_tables0_app tab_min tab_max ts) by assumption.
  assert (HE : Forall (fun t => t_min t = []) ts).
  { apply Forall_forall. intros t Ht. rewrite Forall_forall in H2. now apply (H2 t Ht). }
  rewrite insert_empty_keys by (assumption || constructor). rewrite app_nil_r.
  f_equal. rewrite (app_assoc (a ++ _)). now apply get_levels_app.
Qed.

Lemma tm_load_encode : forall mx lv ls,
  mx < 2 ^ 64 -> N.of_nat (length (lv :: ls)) < 2 ^ 32 -> wf_level0 lv -> Forall wf_level ls ->
  is_bytes (tm_body (mkTman mx (lv :: ls))) ->
  tm_load tab_min tab_max (tm_encode (mkTman mx (lv :: ls))) =
  inl (mkTman mx ((N.of_nat (length (snd lv)), rev (snd lv)) :: map recount ls)).
Proof.
  intros mx lv ls Hm Hl H0 HF HB. set (m := mkTman mx (lv :: ls)) in *.
  unfold tm_load, tm_encode.
  set (b := tm_body m) in *. set (crc := crc32_8 b 0).
  assert (Hcrc : crc < 2 ^ 32) by (apply crc_lt; exact HB).
  set (head := u64 mx ++ u32 (N.of_nat (length (lv :: ls))) ++ enc_levels true (lv :: ls)).
  assert (Eb : b = head ++ TABMANI_FOOTER ++ u32 TABMANI_VERSION).
  { unfold b, tm_body, head. cbn [tm_max tm_levels m]. now rewrite <- !app_assoc. }
  assert (Lb : length b = (length head + 12)%nat).
  { rewrite Eb, !app_length, u32_len. reflexivity. }
  rewrite app_length, u32_len, Lb.
  destruct (Nat.ltb_spec (length head + 12 + 4) 16); [lia|].
  replace (length head + 12 + 4 - 16)%nat with (length head) by lia.
  replace (length head + 12 + 4 - 4)%nat with (length b) by lia.
  rewrite (firstn_app_exact b _ (length b)) by reflexivity. rewrite (skipn_app_exact b _ (length b)) by reflexivity.
  rewrite u32_get by exact Hcrc. fold crc. rewrite N.eqb_refl. cbn [negb].
  assert (E1 : firstn 8 (skipn (length head) (b ++ u32 crc)) = TABMANI_FOOTER).
  { rewrite Eb, <- !app_assoc. rewrite skipn_app_exact by reflexivity. now apply firstn_app_exact. }
  rewrite E1. destruct (list_eq_dec N.eq_dec TABMANI_FOOTER TABMANI_FOOTER) as [_|n]; [|now contradiction n].
  cbn [negb]. rewrite Eb. unfold head, u64, u32. rewrite <- !app_assoc.
  pose proof (fs_getU_app [] mx (put_be 4 (N.of_nat (length (lv :: ls))) ++ enc_levels true (lv :: ls) ++
     TABMANI_FOOTER ++ put_be 4 TABMANI_VERSION ++ put_be 4 crc) 8 Hm) as E2.
  rewrite !app_nil_l in E2. change (length []) with 0%nat in E2. rewrite E2. clear E2.
  rewrite (fs_getU_app (put_be 8 mx) (N.of_nat (length (lv :: ls))) _ 4) by exact Hl.
  rewrite Nat2N.id. rewrite (app_assoc (put_be 8 mx)).
  rewrite get_levels0_app by assumption. reflexivity.
Qed.
End Levels.

Lemma enc_chks_bytes : forall c, is_bytes (enc_chks c).
Proof.
  intros c. unfold enc_chks, u32. apply is_bytes_app; split; [apply put_be_bytes|].
  induction c as [|[x y] c IH]; [constructor|]. cbn [flat_map]. unfold u64.
  repeat (apply is_bytes_app; split); (apply put_be_bytes || exact IH).
Qed.

Lemma enc_tables_bytes : forall l0 ts, Forall (fun t => is_bytes (t_min t)) ts ->
  is_bytes (flat_map (enc_table l0) ts).
Proof.
  induction ts as [|t ts IH]; intros H; [constructor|]. inversion H; subst.
  cbn [flat_map]. apply is_bytes_app; split; [|now apply IH].
  unfold enc_table, u64, u32. apply is_bytes_app; split; [apply put_be_bytes|].
  apply is_bytes_app; split; [|apply enc_chks_bytes].
  destruct l0; repeat (apply is_bytes_app; split); (apply put_be_bytes || assumption).
Qed.

Lemma enc_levels_bytes : forall ls l0, Forall (fun lv => Forall (fun t => is_bytes (t_min t)) (snd lv)) ls ->
  is_bytes (enc_levels l0 ls).
Proof.
  induction ls as [|lv ls IH]; intros l0 H; [constructor|]. inversion H; subst.
  cbn [enc_levels]. apply is_bytes_app; split; [|now apply IH].
  unfold enc_level. apply is_bytes_app; split; [apply put_be_bytes|]. now apply enc_tables_bytes.
Qed.

Lemma tm_body_bytes : forall m, Forall (fun lv => Forall (fun t => is_bytes (t_min t)) (snd lv)) (tm_levels m) ->
  is_bytes (tm_body m).
Proof.
  intros m H. unfold tm_body, u64, u32.
  repeat (apply is_bytes_app; split); try apply put_be_bytes.
  - now apply enc_levels_bytes.
  - unfold is_bytes, TABMANI_FOOTER, is_byte. repeat constructor.
Qed.
