(** The invariant of a run, and the theorem that every get is atomic. *)
From Coq Require Import Sorting.Sorted.
From Verif Require Import Base KeyModel LogFormatModel MemTableModel LogMgrModel DbModel MemTableProofs DbProofs GetRaceModel GetRaceSpec
  GetRaceProofs GetRaceProofs2 GetRaceProofs3.
Local Open Scope N_scope.

Definition bar_ok (bs : list (list rec)) (p : option (list rec)) (bar : N) : Prop :=
  match p with
  | None => bar = 0
  | Some _ => bar <> 0 /\ (exists x, In x (concat bs) /\ r_seq x = bar) /\ forall y, In y (concat bs) -> r_seq y <= bar
  end.
Definition acked_to (bs : list (list rec)) (p : option (list rec)) (q : N) : Prop :=
  forall x, In x (concat bs ++ part_of p) -> r_seq x <= q -> In x (concat bs).

Record GV (bs : list (list rec)) (p : option (list rec)) (b0 : list (list rec)) (F : N) (s : gst) : Prop := mkGV {
  gv_fs : FS (concat bs ++ part_of p) F s;
  gv_rem : rem_lf s;
  gv_bar : bar_ok bs p (s_bar s);
  gv_nd : forall g, In g bs -> NoDup (map r_key g);
  gv_np : NoDup (map r_key (part_of p));
  gv_F : acked_to bs p F;
  gv_q : match s_fl s with FTab _ _ q => acked_to bs p q | _ => True end;
  gv_b0 : begins b0 bs;
  gv_get : match s_get s with Some r => RI b0 bs p (s_files s) r | None => True end
}.

Lemma gv_new : GV [] None [] 0 g_new.
Proof.
  constructor; cbn [g_new s_bar s_fl s_get concat part_of app].
  - exact fs_new.
  - exact I.
  - reflexivity.
  - intros g [].
  - constructor.
  - intros x [].
  - exact I.
  - apply begins_refl.
  - exact I.
Qed.

(** Old records stay in their files when a record is added. *)
Lemma add_last_old : forall w F s r f' y, FS w F s -> (forall x, In x w -> r_seq x < r_seq r) ->
  In f' (add_last r (s_files s)) -> In y (gf_recs f') -> In y w ->
  exists f, In f (s_files s) /\ In y (gf_recs f) /\ gf_num f = gf_num f' /\ (flagged f y -> flagged f' y).
Proof.
  intros w F s r f' y H Hr Hf Hy Hw. destruct (last_split _ _ (fs_ne _ _ _ H)) as (a & f & E). rewrite E, add_last_app in Hf.
  apply in_app_or in Hf. destruct Hf as [Hf|[<-|[]]].
  - exists f'. split; [rewrite E; apply in_or_app; left; exact Hf|]. split; [exact Hy|]. split; [reflexivity|intro A; exact A].
  - exists f. split; [rewrite E; apply in_or_app; right; left; reflexivity|]. cbn [gf_recs] in Hy. apply in_app_or in Hy.
    destruct Hy as [Hy|[<-|[]]]; [|specialize (Hr r Hw); lia]. split; [exact Hy|]. split; [reflexivity|intro A; exact A].
Qed.

Lemma same_files : forall (b0 : list (list rec)) (fs : list gfile) f' y, In f' fs -> In y (gf_recs f') -> In y (concat b0) ->
  exists f, In f fs /\ In y (gf_recs f) /\ gf_num f = gf_num f' /\ (flagged f y -> flagged f' y).
Proof. intros b0 fs f' y Hf Hy _. exists f'. split; [exact Hf|]. split; [exact Hy|]. split; [reflexivity|intro A; exact A]. Qed.

Lemma fs_with_bar : forall w F s b, FS w F s -> FS w F (with_bar s b).
Proof. intros w F s b H. apply (fs_ext _ _ _ _ H); reflexivity. Qed.
Lemma fs_with_get : forall w F s k ph, FS w F s -> FS w F (with_get s k ph).
Proof. intros w F s k ph H. apply (fs_ext _ _ _ _ H); reflexivity. Qed.

(** ** Writers *)
Lemma gv_write : forall bs b0 F s r, GV bs None b0 F s -> 0 < r_seq r < NIL -> (forall b x, In b bs -> In x b -> r_seq x < r_seq r) ->
  GV (bs ++ [[r]]) None b0 F (with_files s (add_last r (s_files s))).
Proof.
  intros bs b0 F s r G Hv Hr. assert (H := gv_fs _ _ _ _ _ G). cbn [part_of] in H. rewrite app_nil_r in H.
  assert (Hr' : forall x, In x (concat bs) -> r_seq x < r_seq r).
  { intros x Hx. apply in_concat in Hx. destruct Hx as (b & Hb & Hx). exact (Hr b x Hb Hx). }
  assert (Ec : concat (bs ++ [[r]]) = concat bs ++ [r]) by (rewrite concat_app; reflexivity).
  assert (Hall : forall q, acked_to (bs ++ [[r]]) None q) by (intros q x Hx _; cbn [part_of] in Hx; rewrite app_nil_r in Hx; exact Hx).
  constructor; cbn [with_files s_bar s_fl s_get s_files].
  - cbn [part_of]. rewrite app_nil_r, Ec. apply fs_write; [exact H|exact Hv|exact Hr'].
  - exact (gv_rem _ _ _ _ _ G).
  - exact (gv_bar _ _ _ _ _ G).
  - intros g Hg. apply in_app_or in Hg. destruct Hg as [Hg|[<-|[]]]; [exact (gv_nd _ _ _ _ _ G g Hg)|]. repeat constructor. intros [].
  - constructor.
  - apply Hall.
  - destruct (s_fl s); try exact I. apply Hall.
  - eapply begins_trans; [exact (gv_b0 _ _ _ _ _ G)|exists [[r]]; reflexivity].
  - assert (R := gv_get _ _ _ _ _ G). destruct (s_get s) as [rr|]; [|exact I].
    apply (ri_env b0 bs None (s_files s)); [exact R| | | | |intros _ _; reflexivity].
    + intros f' y Hf Hy Hw. apply (add_last_old _ F s r f' y H Hr' Hf Hy). exact (begins_concat _ _ _ y (gv_b0 _ _ _ _ _ G) Hw).
    + intros x Hx. cbn [part_of] in *. rewrite app_nil_r in *. rewrite Ec. apply in_or_app. left. exact Hx.
    + intros x y Hx Hy L. cbn [part_of] in *. rewrite app_nil_r in *. rewrite Ec in Hx. apply in_app_or in Hx.
      destruct Hx as [Hx|[<-|[]]]; [exact Hx|]. specialize (Hr' y Hy). lia.
    + exists [[r]]. reflexivity.
Qed.

Lemma gv_put : forall bs l b0 F s r, GV bs (Some l) b0 F s -> 0 < r_seq r < NIL -> (forall b x, In b (bs ++ [l]) -> In x b -> r_seq x < r_seq r) ->
  ~ In (r_key r) (map r_key l) ->
  GV bs (Some (l ++ [r])) b0 F (with_files s (add_last r (s_files s))).
Proof.
  intros bs l b0 F s r G Hv Hr Hk. assert (H := gv_fs _ _ _ _ _ G). cbn [part_of] in H.
  assert (Hr' : forall x, In x (concat bs ++ l) -> r_seq x < r_seq r).
  { intros x Hx. apply in_app_or in Hx. destruct Hx as [Hx|Hx].
    - apply in_concat in Hx. destruct Hx as (b & Hb & Hx). apply (Hr b x); [apply in_or_app; left; exact Hb|exact Hx].
    - apply (Hr l x); [apply in_or_app; right; left; reflexivity|exact Hx]. }
  assert (Hq : forall q, (q = 0 \/ exists x, In x (concat bs ++ l) /\ r_seq x = q) -> acked_to bs (Some l) q -> acked_to bs (Some (l ++ [r])) q).
  { intros q Q A x Hx L. cbn [part_of] in Hx. rewrite app_assoc in Hx. apply in_app_or in Hx. destruct Hx as [Hx|[<-|[]]]; [exact (A x Hx L)|].
    exfalso. destruct Q as [-> |(y & Hy & <-)]; [lia|]. specialize (Hr' y Hy). lia. }
  constructor; cbn [with_files s_bar s_fl s_get s_files].
  - cbn [part_of]. rewrite app_assoc. apply fs_write; [exact H|exact Hv|exact Hr'].
  - exact (gv_rem _ _ _ _ _ G).
  - exact (gv_bar _ _ _ _ _ G).
  - exact (gv_nd _ _ _ _ _ G).
  - cbn [part_of]. rewrite map_app. cbn [map]. apply (NoDup_Add (a := r_key r) (l := map r_key l)); [|split; [exact (gv_np _ _ _ _ _ G)|exact Hk]].
    rewrite <- (app_nil_r (map r_key l)) at 1. apply Add_app.
  - apply Hq; [exact (fs_F _ _ _ H)|exact (gv_F _ _ _ _ _ G)].
  - assert (Q := gv_q _ _ _ _ _ G). assert (P := fs_ph _ _ _ H). destruct (s_fl s) as [|from to q| |]; try exact I.
    apply Hq; [|exact Q]. cbn [phase_ok] in P. destruct P as (_ & _ & _ & _ & f0 & x0 & A1 & A2 & _ & A4). right. exists x0.
    split; [exact (in_w _ _ _ H f0 x0 A1 A2)|exact A4].
  - exact (gv_b0 _ _ _ _ _ G).
  - assert (R := gv_get _ _ _ _ _ G). destruct (s_get s) as [rr|]; [|exact I].
    apply (ri_env b0 bs (Some l) (s_files s)); [exact R| | | |apply begins_refl|discriminate].
    + intros f' y Hf Hy Hw. apply (add_last_old _ F s r f' y H Hr' Hf Hy). apply in_or_app. left.
      exact (begins_concat _ _ _ y (gv_b0 _ _ _ _ _ G) Hw).
    + intros x Hx. cbn [part_of] in *. rewrite app_assoc. apply in_or_app. left. exact Hx.
    + intros x y Hx Hy L. cbn [part_of] in *. rewrite app_assoc in Hx. apply in_app_or in Hx.
      destruct Hx as [Hx|[<-|[]]]; [exact Hx|]. specialize (Hr' y Hy). lia.
Qed.

Lemma gv_roll : forall bs p b0 F s, GV bs p b0 F s ->
  GV bs p b0 F (with_files s (s_files s ++ [mkGF (newest_num (s_files s) + 1) [] NIL false])).
Proof.
  intros bs p b0 F s G. assert (H := gv_fs _ _ _ _ _ G). destruct G. constructor; cbn [with_files s_bar s_fl s_get s_files]; try assumption.
  - apply fs_roll. exact H.
  - destruct (s_get s) as [rr|]; [|exact I].
    apply (ri_env b0 bs p (s_files s)); [assumption| |auto|auto|apply begins_refl|intros E _; exact E].
    intros f' y Hf Hy Hw. apply in_app_or in Hf. destruct Hf as [Hf|[<-|[]]]; [|destruct Hy]. exact (same_files b0 _ f' y Hf Hy Hw).
Qed.

Lemma top_seq_ok : forall w F s, FS w F s -> w <> [] -> (exists x, In x w /\ r_seq x = top_seq (s_files s)) /\ forall y, In y w -> r_seq y <= top_seq (s_files s).
Proof.
  intros w F s H Hw. unfold top_seq. rewrite (fs_w _ _ _ H). destruct (last_split _ _ Hw) as (a & x & E).
  assert (Hs := fs_so _ _ _ H). rewrite E in *. rewrite rev_app_distr. cbn [rev app]. split.
  - exists x. split; [apply in_or_app; right; left; reflexivity|reflexivity].
  - intros y Hy. apply in_app_or in Hy. destruct Hy as [Hy|[<-|[]]]; [|lia]. apply ss_app in Hs. destruct Hs as (_ & _ & S3).
    specialize (S3 y x Hy (or_introl eq_refl)). unfold blt in S3. lia.
Qed.

Lemma gv_begin : forall bs b0 F s, GV bs None b0 F s -> concat bs <> [] -> ~ asks_empty s ->
  GV bs (Some []) b0 F (with_bar s (top_seq (s_files s))).
Proof.
  intros bs b0 F s G Hne Ha. assert (H := gv_fs _ _ _ _ _ G). cbn [part_of] in H. rewrite app_nil_r in H.
  destruct (top_seq_ok _ _ _ H Hne) as [T1 T2].
  constructor; cbn [with_bar s_bar s_fl s_get s_files].
  - cbn [part_of]. rewrite app_nil_r. apply fs_with_bar. exact H.
  - exact (gv_rem _ _ _ _ _ G).
  - cbn [bar_ok]. split; [|split; [exact T1|exact T2]]. destruct T1 as (x & Hx & <-). assert (V := fs_val _ _ _ H x Hx). lia.
  - exact (gv_nd _ _ _ _ _ G).
  - constructor.
  - exact (gv_F _ _ _ _ _ G).
  - exact (gv_q _ _ _ _ _ G).
  - exact (gv_b0 _ _ _ _ _ G).
  - assert (R := gv_get _ _ _ _ _ G). destruct (s_get s) as [[k ph]|] eqn:Eg; [|exact I].
    apply (ri_env b0 bs None (s_files s)); [exact R|apply same_files|auto|auto|apply begins_refl|].
    intros _ (n & ns & E). exfalso. cbn [rd_ph] in E. apply Ha. exists k, n, ns. rewrite Eg, E. reflexivity.
Qed.

Lemma gv_end : forall bs l b0 F s, GV bs (Some l) b0 F s -> GV (bs ++ [l]) None b0 F (with_bar s 0).
Proof.
  intros bs l b0 F s G. assert (H := gv_fs _ _ _ _ _ G). cbn [part_of] in H.
  assert (Ec : concat (bs ++ [l]) = concat bs ++ l) by (rewrite concat_app; cbn [concat]; rewrite app_nil_r; reflexivity).
  assert (Hall : forall q, acked_to (bs ++ [l]) None q) by (intros q x Hx _; cbn [part_of] in Hx; rewrite app_nil_r in Hx; exact Hx).
  constructor; cbn [with_bar s_bar s_fl s_get s_files].
  - cbn [part_of]. rewrite app_nil_r, Ec. apply fs_with_bar. exact H.
  - exact (gv_rem _ _ _ _ _ G).
  - reflexivity.
  - intros g Hg. apply in_app_or in Hg. destruct Hg as [Hg|[<-|[]]]; [exact (gv_nd _ _ _ _ _ G g Hg)|exact (gv_np _ _ _ _ _ G)].
  - constructor.
  - apply Hall.
  - destruct (s_fl s); try exact I. apply Hall.
  - eapply begins_trans; [exact (gv_b0 _ _ _ _ _ G)|exists [l]; reflexivity].
  - assert (R := gv_get _ _ _ _ _ G). destruct (s_get s) as [rr|]; [|exact I].
    apply (ri_env b0 bs (Some l) (s_files s)); [exact R|apply same_files| | |exists [l]; reflexivity|discriminate].
    + intros x Hx. cbn [part_of] in *. rewrite app_nil_r, Ec. exact Hx.
    + intros x y Hx _ _. cbn [part_of] in *. rewrite app_nil_r, Ec in Hx. exact Hx.
Qed.

(** ** Flushes *)
Lemma acked_seq : forall bs p F s r, FS (concat bs ++ part_of p) F s -> In r (concat bs) -> acked_to bs p (r_seq r).
Proof.
  intros bs p F s r H Hr x Hx L. apply in_app_or in Hx. destruct Hx as [Hx|Hx]; [exact Hx|]. exfalso.
  assert (Hs := fs_so _ _ _ H). apply ss_app in Hs. destruct Hs as (_ & _ & S3). specialize (S3 r x Hr Hx). unfold blt in S3. lia.
Qed.

Lemma gv_flush : forall bs p b0 F s f r, GV bs p b0 F s -> s_fl s = FIdle -> In f (s_files s) -> In r (gf_recs f) -> In r (concat bs) ->
  (forall x, In x (s_tab s) -> r_seq x <= r_seq r) -> GV bs p b0 F (with_fl s (FTab (low s) (gf_num f) (r_seq r))).
Proof.
  intros bs p b0 F s f r G Ei Hf Hr Hb Ht. assert (H := gv_fs _ _ _ _ _ G). assert (A := acked_seq bs p F s r H Hb).
  destruct G. constructor; cbn [with_fl s_bar s_fl s_get s_files]; try assumption.
  - apply fs_begin; assumption.
  - exact I.
Qed.

Lemma gv_flushing : forall bs p b0 F s e s', GV bs p b0 F s -> In e [ETables; EMark; ELast; ERemove] -> gstep e s = Some s' ->
  exists F', GV bs p b0 F' s'.
Proof.
  intros bs p b0 F s e s' G He E. assert (H := gv_fs _ _ _ _ _ G).
  assert (E' : flush_step e s = Some s') by (destruct He as [<-|[<-|[<-|[<-|[]]]]]; exact E). clear E.
  destruct He as [<-|[<-|[<-|[<-|[]]]]]; cbn [flush_step] in E'; destruct (s_fl s) as [|from to q|from to q n|to q n] eqn:Ep; try discriminate.
  - injection E' as <-. exists q. assert (Q := gv_q _ _ _ _ _ G). rewrite Ep in Q.
    destruct G. constructor; cbn [s_bar s_fl s_get s_files]; try assumption; [apply (fs_tables _ F); assumption|exact I|exact I].
  - destruct (n <=? to); [|discriminate]. injection E' as <-. exists F.
    assert (H' := fs_mark _ _ _ _ _ _ _ H Ep).
    assert (Em : forall f x, In f (s_files s) -> In x (gf_recs f) -> flagged f x -> flagged (mark_one n q f) x).
    { assert (P := fs_ph _ _ _ H). rewrite Ep in P. cbn [phase_ok] in P. destruct P as (<- & _ & f0 & x0 & A1 & A2 & _ & A4).
      intros f x Hf Hx Hfl. apply mark_flag; [exact Hx| |exact (fs_mF _ _ _ H f Hf)|left; exact Hfl].
      rewrite <- A4. assert (V := fs_val _ _ _ H x0 (in_w _ _ _ H f0 x0 A1 A2)). lia. }
    destruct G. constructor; cbn [s_bar s_fl s_get s_files]; try assumption; [exact I|exact I|].
    destruct (s_get s) as [rr|]; [|exact I]. apply (ri_env b0 bs p (s_files s)); [assumption| |auto|auto|apply begins_refl|intros X _; exact X].
    intros f' y Hf Hy Hw. destruct (in_mark _ _ _ _ Hf) as (f & Hin & -> & En & Er & _). exists f. split; [exact Hin|]. rewrite Er in Hy.
    split; [exact Hy|]. split; [symmetry; exact En|]. apply Em; assumption.
  - destruct (n <=? to) eqn:L; [discriminate|]. injection E' as <-. exists F.
    destruct G. constructor; cbn [s_bar s_fl s_get s_files]; try assumption; [apply (fs_last _ _ _ _ _ _ n); [exact H|exact Ep|lia]|reflexivity|exact I].
  - assert (R := gv_rem _ _ _ _ _ G). unfold rem_lf in R. rewrite Ep in R. destruct (n <? to) eqn:L; injection E' as <-; exists F.
    + assert (H' := fs_remove _ _ _ _ _ n H Ep R ltac:(lia)).
      destruct G. constructor; cbn [s_bar s_fl s_get s_files]; try assumption; [exact I|].
      destruct (s_get s) as [rr|]; [|exact I]. apply (ri_env b0 bs p (s_files s)); [assumption| |auto|auto|apply begins_refl|intros X _; exact X].
      intros f' y Hf Hy Hw. apply in_map_iff in Hf. destruct Hf as (f & <- & Hf). exists f. split; [exact Hf|]. rewrite remove_one_recs in Hy.
      split; [exact Hy|]. rewrite remove_one_num. split; [reflexivity|]. unfold flagged. rewrite remove_one_mark. intro X. exact X.
    + destruct G. constructor; cbn [with_fl s_bar s_fl s_get s_files]; try assumption; [apply (fs_done _ _ _ to q n); assumption|exact I|exact I].
Qed.

(** ** The get *)
Lemma with_get_gv : forall bs p b0 b1 F s k ph, GV bs p b0 F s -> begins b1 bs -> RI b1 bs p (s_files s) (mkRd k ph) -> GV bs p b1 F (with_get s k ph).
Proof.
  intros bs p b0 b1 F s k ph G B R. assert (H := fs_with_get _ _ _ k ph (gv_fs _ _ _ _ _ G)).
  destruct G. constructor; cbn [with_get s_bar s_fl s_get s_files]; try assumption.
Qed.

Lemma gf_max_ok : forall w F s f, FS w F s -> In f (s_files s) ->
  (gf_max f <> NIL -> exists x, In x w /\ r_seq x = gf_max f) /\ forall y, In y (gf_recs f) -> r_seq y <= gf_max f.
Proof.
  intros w F s f H Hf. unfold gf_max. assert (Hss : StronglySorted blt (gf_recs f)).
  { assert (Hs := fs_so _ _ _ H). rewrite <- (fs_w _ _ _ H) in Hs. apply in_split in Hf. destruct Hf as (a & b & E). rewrite E in Hs.
    rewrite flat_map_app in Hs. cbn [flat_map] in Hs. apply ss_app in Hs. destruct Hs as (_ & Hs & _). apply ss_app in Hs. exact (proj1 Hs). }
  destruct (gf_recs f) as [|r0 t] eqn:Er.
  - cbn [rev]. split; [intro C; exfalso; apply C; reflexivity|intros y []].
  - assert (Hne : r0 :: t <> []) by discriminate. destruct (last_split _ _ Hne) as (a & x & E). rewrite E in *. rewrite rev_app_distr. cbn [rev app]. split.
    + intros _. exists x. split; [apply (in_w _ _ _ H f x Hf); rewrite Er; apply in_or_app; right; left; reflexivity|reflexivity].
    + intros y Hy. apply in_app_or in Hy. destruct Hy as [Hy|[<-|[]]]; [|lia]. apply ss_app in Hss. destruct Hss as (_ & _ & S3).
      specialize (S3 y x Hy (or_introl eq_refl)). unfold blt in S3. lia.
Qed.

Lemma newest_in : forall h chk k r, newest h chk k = Some r -> In r h /\ of_key k r = true /\ visible chk r = true.
Proof.
  intros h chk k r E. unfold newest in E. apply find_some in E. destruct E as [E1 E2]. apply in_rev in E1. unfold for_key in E1.
  apply filter_In in E1. destruct E1 as [E1 E3]. split; [exact E1|]. split; [exact E3|exact E2].
Qed.

Lemma newest_max : forall h chk k, StronglySorted blt h -> forall y, In y h -> of_key k y = true -> visible chk y = true ->
  exists r, newest h chk k = Some r /\ r_seq y <= r_seq r.
Proof.
  intros h chk k Hs y Hy Hk Hv. unfold newest. assert (Hin : In y (for_key k h)) by (apply filter_In; split; assumption).
  assert (Hss : StronglySorted blt (for_key k h)).
  { unfold for_key. clear -Hs. induction Hs as [|x l Hs IH Hx]; [constructor|]. cbn [filter]. destruct (_ && _); [|exact IH].
    constructor; [exact IH|]. rewrite Forall_forall in *. intros z Hz. apply filter_In in Hz. exact (Hx z (proj1 Hz)). }
  apply in_split in Hin. destruct Hin as (a & b & E). rewrite E in *. rewrite rev_app_distr. cbn [rev]. rewrite <- app_assoc, find_app.
  destruct (find (visible chk) (rev b)) as [r|] eqn:Er.
  - exists r. split; [reflexivity|]. apply find_some in Er. destruct Er as [Er _]. apply in_rev in Er. apply ss_app in Hss.
    destruct Hss as (_ & S2 & _). inversion_clear S2 as [|? ? S3 S4]. rewrite Forall_forall in S4. specialize (S4 r Er). unfold blt in S4. lia.
  - cbn [app find]. rewrite Hv. exists y. split; [reflexivity|lia].
Qed.

Lemma gv_getting : forall bs p b0 F s e s', GV bs p b0 F s -> In e [EMax; EWalk; EFile; EBar; ELook; EAsk] -> gstep e s = Some s' -> GV bs p b0 F s'.
Proof.
  intros bs p b0 F s e s' G He E. assert (H := gv_fs _ _ _ _ _ G). assert (B := gv_b0 _ _ _ _ _ G).
  assert (E' : get_step e s = Some s') by (destruct He as [<-|[<-|[<-|[<-|[<-|[<-|[]]]]]]]; exact E). clear E.
  assert (R := gv_get _ _ _ _ _ G). unfold get_step in E'. destruct (s_get s) as [[k ph]|] eqn:Eg; [|discriminate].
  assert (Hw0 : forall y, In y (concat b0) -> In y (concat bs)) by (intros y Hy; exact (begins_concat _ _ _ y B Hy)).
  assert (Hsb : StronglySorted blt (concat bs)) by (assert (Hs := fs_so _ _ _ H); apply ss_app in Hs; exact (proj1 Hs)).
  destruct He as [<-|[<-|[<-|[<-|[<-|[<-|[]]]]]]]; destruct ph as [mn|mn mx|ns|n chk ns|n chk ns| |x]; try discriminate;
    unfold RI in R; cbn [rd_key rd_ph] in R.
  - (* max *)
    injection E' as <-. apply (with_get_gv _ _ _ _ _ _ _ _ G B). unfold RI. cbn [rd_key rd_ph]. split; [exact R|].
    intros f y Hf _ _. destruct (last_split _ _ (fs_ne _ _ _ H)) as (a & g & Ea). assert (Hs := fs_num _ _ _ H). rewrite Ea in *.
    rewrite newest_num_app. apply in_app_or in Hf. destruct Hf as [Hf|[<-|[]]]; [|lia]. apply ss_app in Hs. destruct Hs as (_ & _ & S3).
    specialize (S3 f g Hf (or_introl eq_refl)). cbn beta in S3. lia.
  - (* walk *)
    injection E' as <-. apply (with_get_gv _ _ _ _ _ _ _ _ G B). unfold RI. cbn [rd_key rd_ph]. destruct R as [R1 R2]. split.
    + intros f y Hf Hy Hw Hk. destruct (N.lt_ge_cases (gf_num f) mn) as [L|L]; [left; exact (R1 f y Hf Hy Hw L)|].
      destruct (gf_gone f) eqn:Egn; [left; exact (gone_flagged _ _ _ H f y Hf Hy Egn)|]. right. apply -> in_rev. apply in_map. apply filter_In.
      split; [exact Hf|]. unfold live, between_nums. rewrite Egn. specialize (R2 f y Hf Hy Hw). cbn [negb andb].
      assert (T1 : mn <=? gf_num f = true) by lia. assert (T2 : gf_num f <=? mx = true) by lia. rewrite T1, T2. reflexivity.
    + unfold desc. assert (Hs := fs_num _ _ _ H). clear -Hs. induction Hs as [|f l Hs IH Hf]; [constructor|]. cbn [filter].
      destruct (live f && between_nums mn mx f); [|exact IH]. cbn [map rev]. apply ss_app. split; [exact IH|]. split; [repeat constructor|].
      intros x y Hx [<-|[]]. apply in_rev in Hx. apply in_map_iff in Hx. destruct Hx as (g & <- & Hg). apply filter_In in Hg.
      rewrite Forall_forall in Hf. exact (Hf g (proj1 Hg)).
  - (* next file *)
    destruct R as [R1 R2]. destruct ns as [|n ns].
    + injection E' as <-. apply (with_get_gv _ _ _ _ _ _ _ _ G B). exact R1.
    + destruct (gf_at n (s_files s)) as [f|] eqn:Ef; [|discriminate]. destruct (gf_at_in _ _ _ Ef) as [Hf En].
      injection E' as <-. apply (with_get_gv _ _ _ _ _ _ _ _ G B). unfold RI. cbn [rd_key rd_ph]. destruct (gf_gone f) eqn:Egn.
      * split; [|inversion R2; assumption]. intros g y Hg Hy Hw Hk. destruct (R1 g y Hg Hy Hw Hk) as [A|[A|A]]; [left; exact A| |right; exact A].
        left. assert (g = f) by (apply (same_file _ _ _ H g f Hg Hf); congruence). subst g. exact (gone_flagged _ _ _ H f y Hf Hy Egn).
      * destruct (gf_max_ok _ _ _ f H Hf) as [M1 M2]. split; [exact R1|]. split; [exact R2|]. split; [|exact M1].
        intros g y Hg Eng Hy Hw. assert (g = f) by (apply (same_file _ _ _ H g f Hg Hf); congruence). subst g. right. exact (M2 y Hy).
  - (* barrier *)
    injection E' as <-. apply (with_get_gv _ _ _ _ _ _ _ _ G B). unfold RI. cbn [rd_key rd_ph]. destruct R as (R1 & R2 & R3 & R4).
    assert (Hb := gv_bar _ _ _ _ _ G). unfold bar_ok in Hb. split; [exact R1|]. split; [exact R2|]. destruct p as [l|].
    + destruct Hb as (Hb0 & (x & Hx & Ex) & Hb2). assert (T : s_bar s =? 0 = false) by (apply N.eqb_neq; exact Hb0). rewrite T.
      assert (V := fs_val _ _ _ H x (in_or_app _ _ _ (or_introl Hx))). split; [|split].
      * intros f y Hf En Hy Hw. right. specialize (Hb2 y (Hw0 y Hw)). assert (Vy := fs_val _ _ _ H y (in_w _ _ _ H f y Hf Hy)).
        destruct (R3 f y Hf En Hy Hw) as [-> |L]; lia.
      * intro C. lia.
      * intros _. split; [exists x; split; [apply in_or_app; left; exact Hx|lia]|]. intros y Hy L.
        apply (acked_seq bs (Some l) F s x H Hx y Hy). lia.
    + rewrite Hb, N.eqb_refl. split; [exact R3|]. split; [reflexivity|]. intro C. destruct (R4 C) as (x & Hx & Ex).
      split; [exists x; split; [exact Hx|lia]|]. intros y Hy _. cbn [part_of] in Hy. rewrite app_nil_r in Hy. exact Hy.
  - (* lookup *)
    destruct (gf_at n (s_files s)) as [f|] eqn:Ef; [|discriminate]. destruct (gf_at_in _ _ _ Ef) as [Hf En].
    injection E' as <-. apply (with_get_gv _ _ _ _ _ _ _ _ G B). destruct R as (R1 & R2 & R3 & R4 & R5).
    assert (Hss : StronglySorted blt (gf_recs f)).
    { assert (Hs := fs_so _ _ _ H). rewrite <- (fs_w _ _ _ H) in Hs. apply in_split in Hf. destruct Hf as (a & b & Eq). rewrite Eq in Hs.
      rewrite flat_map_app in Hs. cbn [flat_map] in Hs. apply ss_app in Hs. destruct Hs as (_ & Hs & _). apply ss_app in Hs. exact (proj1 Hs). }
    assert (Hvis : forall y, In y (gf_recs f) -> In y (concat b0) -> visible chk y = true).
    { intros y Hy Hw. unfold visible, valid_number. destruct (R3 f y Hf En Hy Hw) as [-> |L]; [rewrite N.eqb_refl; reflexivity|].
      assert (T : r_seq y <=? chk = true) by lia. rewrite T. apply orb_true_r. }
    unfold gf_get. destruct (newest (gf_recs f) chk k) as [r|] eqn:Enw.
    + destruct (newest_in _ _ _ _ Enw) as (Hr & Hk & Hv). cbn [answer].
      destruct (valid_number (gf_mark f) && (r_seq r <=? gf_mark f) && negb false) eqn:Efl; cbn [negb andb].
      * (* flushed *)
        assert (Hfl : flagged f r).
        { apply andb_prop in Efl. destruct Efl as [Efl _]. apply andb_prop in Efl. destruct Efl as [F1 F2]. unfold valid_number in F1.
          split; [intro C; rewrite C in F1; discriminate|lia]. }
        unfold RI. cbn [rd_key rd_ph]. split; [|inversion R2; assumption].
        intros g y Hg Hy Hw Hky. destruct (R1 g y Hg Hy Hw Hky) as [A|[A|A]]; [left; exact A| |right; exact A]. left.
        assert (g = f) by (apply (same_file _ _ _ H g f Hg Hf); congruence). subst g.
        destruct (newest_max _ chk k Hss y Hy Hky (Hvis y Hy Hw)) as (r' & Er' & L). rewrite Enw in Er'. injection Er' as <-.
        exact (fs_down _ _ _ H f f r y Hf Hf Hr Hy L Hfl).
      * (* the answer *)
        assert (Hack : In r (concat bs)).
        { destruct (N.eq_dec chk NIL) as [C|C].
          - assert (Ep := R4 C). assert (Hin := in_w _ _ _ H f r Hf Hr). rewrite Ep in Hin. cbn [part_of] in Hin. rewrite app_nil_r in Hin. exact Hin.
          - destruct (R5 C) as [_ R6]. apply R6; [exact (in_w _ _ _ H f r Hf Hr)|]. unfold visible, valid_number in Hv.
            apply orb_prop in Hv. destruct Hv as [Hv|Hv]; [|lia]. apply N.eqb_neq in C. rewrite C in Hv. discriminate. }
        assert (Hnf : ~ flagged f r).
        { intros [A1 A2]. unfold valid_number in Efl. apply N.eqb_neq in A1. rewrite A1 in Efl. assert (T : r_seq r <=? gf_mark f = true) by lia.
          rewrite T in Efl. discriminate. }
        destruct (pick b0 bs k r B Hsb (gv_nd _ _ _ _ _ G) Hack Hk) as (b & B1 & B2 & B3).
        { intros y Hy Hky. destruct (N.le_gt_cases (r_seq y) (r_seq r)) as [L|L]; [exact L|exfalso].
          destruct (w_in _ _ _ H y (in_or_app _ _ _ (or_introl (Hw0 y Hy)))) as (g & Hg & Hyg).
          assert (Ln := order_le _ _ _ H f g r y Hf Hg Hr Hyg ltac:(lia)).
          destruct (N.eq_dec (gf_num g) (gf_num f)) as [Eq|Eq].
          - assert (g = f) by (apply (same_file _ _ _ H g f Hg Hf); exact Eq). subst g.
            destruct (newest_max _ chk k Hss y Hyg Hky (Hvis y Hyg Hy)) as (r' & Er' & L'). rewrite Enw in Er'. injection Er' as <-. lia.
          - destruct (R1 g y Hg Hyg Hy Hky) as [A|[A|A]].
            + apply Hnf. exact (fs_down _ _ _ H g f y r Hg Hf Hyg Hr ltac:(lia) A).
            + lia.
            + inversion_clear R2 as [|? ? D1 D2]. rewrite Forall_forall in D2. specialize (D2 _ A). cbn beta in D2. lia. }
        unfold RI. cbn [rd_key rd_ph]. exists b. split; [exact B1|]. split; [exact B2|]. apply found_spec. exact B3.
    + cbn [answer]. unfold RI. cbn [rd_key rd_ph]. split; [|inversion R2; assumption].
      intros g y Hg Hy Hw Hky. destruct (R1 g y Hg Hy Hw Hky) as [A|[A|A]]; [left; exact A| |right; exact A]. exfalso.
      assert (g = f) by (apply (same_file _ _ _ H g f Hg Hf); congruence). subst g.
      destruct (newest_max _ chk k Hss y Hy Hky (Hvis y Hy Hw)) as (r' & Er' & _). congruence.
  - (* tables *)
    injection E' as <-. apply (with_get_gv _ _ _ _ _ _ _ _ G B). unfold RI. cbn [rd_key rd_ph].
    assert (Hset : forall y, In y (concat b0) -> of_key k y = true -> In y (s_tab s)).
    { intros y Hy Hky. assert (Hyw := in_or_app _ (part_of p) _ (or_introl (Hw0 y Hy))). destruct (w_in _ _ _ H y Hyw) as (g & Hg & Hyg).
      destruct (R g y Hg Hyg Hy Hky) as [A|[]]. rewrite (fs_tab _ _ _ H). apply filter_In. split; [exact Hyw|].
      assert (L := flagged_F _ _ _ H g y Hg A). lia. }
    assert (Hts : StronglySorted blt (s_tab s)).
    { rewrite (fs_tab _ _ _ H). assert (Hs := fs_so _ _ _ H). unfold upto. clear -Hs. induction Hs as [|x l Hs IH Hx]; [constructor|]. cbn [filter].
      destruct (r_seq x <=? F); [|exact IH]. constructor; [exact IH|]. rewrite Forall_forall in *. intros z Hz. apply filter_In in Hz. exact (Hx z (proj1 Hz)). }
    assert (Et : forall z, last_write (s_tab s) k = z -> match tab_get (s_tab s) k with Ok r => found r | other => other end =
                  match z with Some r => found r | None => Fail KEY_NOT_FOUND end).
    { intros z <-. unfold tab_get, last_write. destruct (find _ (rev (s_tab s))); reflexivity. }
    destruct (last_write (s_tab s) k) as [r|] eqn:El; rewrite (Et _ eq_refl).
    + destruct (last_write_in _ _ _ El) as [Hr Hk]. assert (Hack : In r (concat bs)).
      { rewrite (fs_tab _ _ _ H) in Hr. apply filter_In in Hr. destruct Hr as [Hr1 Hr2]. apply (gv_F _ _ _ _ _ G r Hr1). lia. }
      destruct (pick b0 bs k r B Hsb (gv_nd _ _ _ _ _ G) Hack Hk) as (b & B1 & B2 & B3).
      { intros y Hy Hky. exact (last_write_seq _ _ _ Hts El y (Hset y Hy Hky) Hky). }
      exists b. split; [exact B1|]. split; [exact B2|]. apply found_spec. exact B3.
    + exists b0. split; [apply begins_refl|]. split; [exact B|]. unfold spec_get. destruct (last_write (concat b0) k) as [r|] eqn:E0; [|reflexivity].
      exfalso. destruct (last_write_in _ _ _ E0) as [Hr Hk]. assert (N := last_write_none _ _ El r (Hset r Hr Hk)). congruence.
Qed.

(** * Runs *)
Lemma greach_gv : forall bs p b0 s, greach bs p b0 s -> exists F, GV bs p b0 F s.
Proof.
  intros bs p b0 s R. induction R as [|bs b0 s r s' R IH Hv Hr E|bs p b0 s s' R IH E|bs b0 s s' R IH Hne Ha E|bs p b0 s r s' R IH Hv Hr Hk E
    |bs p b0 s s' R IH E|bs p b0 s f r s' R IH Hf Hr Hb Ht E|bs p b0 s e s' R IH He E|bs p b0 s k s' R IH E|bs p b0 s e s' R IH He E];
    [exists 0; exact gv_new|..]; destruct IH as (F & G).
  - injection E as <-. exists F. apply gv_write; assumption.
  - injection E as <-. exists F. apply gv_roll; assumption.
  - injection E as <-. exists F. apply gv_begin; assumption.
  - injection E as <-. exists F. apply gv_put; assumption.
  - injection E as <-. exists F. apply gv_end; assumption.
  - cbn [gstep] in E. destruct (s_fl s) eqn:Ep; try discriminate. injection E as <-. exists F. apply gv_flush; assumption.
  - exact (gv_flushing _ _ _ _ _ _ _ G He E).
  - injection E as <-. exists F. apply (with_get_gv _ _ b0 _ _ _ _ _ G); [apply begins_refl|]. unfold RI. cbn [rd_key rd_ph].
    intros f y Hf Hy _ L. exact (below_low _ _ _ (gv_fs _ _ _ _ _ G) f y Hf Hy L).
  - exists F. exact (gv_getting _ _ _ _ _ _ _ G He E).
Qed.

Lemma get_atomic : forall bs p b0 s k x, greach bs p b0 s -> s_get s = Some (mkRd k (GDone x)) ->
  exists b, begins b0 b /\ begins b bs /\ x = spec_get (concat b) k.
Proof.
  intros bs p b0 s k x R E. destruct (greach_gv _ _ _ _ R) as (F & G). assert (Q := gv_get _ _ _ _ _ G). rewrite E in Q. exact Q.
Qed.

(** The choice of a flush that nobody disturbs meets the guards of [gr_flush]. *)
Lemma choose_quiet : forall bs b0 s to q, greach bs None b0 s -> s_fl s = FIdle -> choose_all s s = Some (to, q) ->
  exists f r, In f (s_files s) /\ In r (gf_recs f) /\ In r (concat bs) /\ to = gf_num f /\ q = r_seq r /\
    forall x, In x (s_tab s) -> r_seq x <= r_seq r.
Proof.
  intros bs b0 s to q R Ei E. destruct (greach_gv _ _ _ _ R) as (F & G). assert (H := gv_fs _ _ _ _ _ G). cbn [part_of] in H. rewrite app_nil_r in H.
  unfold choose_all in E. destruct (s_bar s =? 0); [|discriminate]. destruct (gf_at (newest_num (s_files s)) (s_files s)) as [f|] eqn:Ef; [|discriminate].
  destruct (gf_max f =? NIL) eqn:En; [discriminate|]. apply N.eqb_neq in En. injection E as <- <-.
  destruct (gf_at_in _ _ _ Ef) as [Hf Enum]. destruct (gf_max_ok _ _ _ f H Hf) as [_ M2].
  assert (Hmx : exists r, In r (gf_recs f) /\ r_seq r = gf_max f).
  { unfold gf_max in *. destruct (gf_recs f) as [|r0 t] eqn:Er; [exfalso; apply En; reflexivity|]. assert (Hne : r0 :: t <> []) by discriminate.
    destruct (last_split _ _ Hne) as (a & x & Ex). rewrite Ex in *. rewrite rev_app_distr in *. cbn [rev app] in *.
    exists x. split; [apply in_or_app; right; left; reflexivity|reflexivity]. }
  destruct Hmx as (r & Hr & Er). exists f, r. split; [exact Hf|]. split; [exact Hr|]. split; [exact (in_w _ _ _ H f r Hf Hr)|]. split; [reflexivity|].
  split; [symmetry; exact Er|]. intros x Hx. rewrite (fs_tab _ _ _ H) in Hx. apply filter_In in Hx. destruct Hx as [Hx _].
  destruct (w_in _ _ _ H x Hx) as (g & Hg & Hxg). rewrite Er.
  destruct (last_split _ _ (fs_ne _ _ _ H)) as (a & z & Ez). rewrite Ez, newest_num_app in Enum.
  assert (Hz : In z (s_files s)) by (rewrite Ez; apply in_or_app; right; left; reflexivity).
  assert (f = z) by (apply (same_file _ _ _ H f z Hf Hz); exact Enum). subst z.
  assert (Lg : gf_num g <= gf_num f).
  { assert (Hs := fs_num _ _ _ H). rewrite Ez in Hs, Hg. apply in_app_or in Hg. destruct Hg as [Hg|[<-|[]]]; [|lia].
    apply ss_app in Hs. destruct Hs as (_ & _ & S3). specialize (S3 g f Hg (or_introl eq_refl)). cbn beta in S3. lia. }
  destruct (N.eq_dec (gf_num g) (gf_num f)) as [Eq|Eq].
  - assert (g = f) by (apply (same_file _ _ _ H g f Hg Hf); exact Eq). subst g. exact (M2 x Hxg).
  - assert (O := order _ _ _ H g f x r Hg Hf Hxg Hr ltac:(lia)). lia.
Qed.
