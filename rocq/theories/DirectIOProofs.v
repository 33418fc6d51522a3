(** Direct I/O: proofs. *)
From Verif Require Import Base LogFormatModel FileModel DirectIOModel DirectIOSpec.
Local Open Scope nat_scope.

Lemma mem_put_some : forall m off d, off + length d <= length m ->
  mem_put m off d = Some (firstn off m ++ d ++ skipn (off + length d) m).
Proof. intros m off d Hl. unfold mem_put. destruct (Nat.leb_spec (off + length d) (length m)); [reflexivity|lia]. Qed.

Lemma firstn_more : forall (A : Type) (p q : nat) (l : list A), p <= q -> firstn p (firstn q l) = firstn p l.
Proof. intros A p q l Hl. rewrite firstn_firstn. f_equal. lia. Qed.

Lemma skipn_zeros : forall (p k : nat), skipn p (repeat 0%N k) = repeat 0%N (k - p).
Proof. induction p as [|p IH]; intros [|k]; cbn; auto. Qed.

Lemma skipn_all_ge : forall (A : Type) (p : nat) (l : list A), length l <= p -> skipn p l = [].
Proof. intros. now apply skipn_all2. Qed.

Lemma flag_bytes : u64 PADDING_HEADER_FLAG = 254%N :: repeat 0%N 7.
Proof. reflexivity. Qed.

(** Writing the unflushed end of the stream (and padding) over the old end of the file. *)
Lemma overwrite : forall (L rest pad : list N) n p, p <= n -> n <= length L -> p < length L ->
  pwrite (firstn n L ++ rest) p (skipn p L ++ pad) = L ++ pad ++ skipn (length L - n + length pad) rest.
Proof.
  intros L rest pad n p Hpn Hn Hp. unfold pwrite.
  destruct (skipn p L ++ pad) as [|b d] eqn:E.
  - apply (f_equal (@length N)) in E. rewrite app_length, skipn_length in E. cbn in E. lia.
  - rewrite <- E. rewrite firstn_app, firstn_length, Nat.min_l by lia.
    replace (p - n) with 0 by lia. cbn [firstn]. rewrite app_nil_r, firstn_more by lia.
    rewrite app_length, firstn_length, Nat.min_l by lia.
    replace (p - (n + length rest)) with 0 by lia. cbn [repeat app].
    rewrite skipn_app, firstn_length, Nat.min_l by lia.
    rewrite app_length, skipn_length.
    rewrite (skipn_all2 (firstn n L)) by (rewrite firstn_length; lia).
    cbn [app]. rewrite <- app_assoc.
    rewrite app_assoc, firstn_skipn. f_equal. f_equal. f_equal. lia.
Qed.

Section DIO.
Variable c : dcfg.
Hypothesis Hc : dcfg_ok c.
Notation A := (dc_align c).
Notation B := (dc_buf c).

Lemma a_pos : 8 <= A. Proof. apply Hc. Qed.
Lemma b_mult : exists q, B = A * q /\ 1 <= q.
Proof.
  destruct Hc as [Ha [Hb Hm]]. exists (B / A). split.
  - rewrite (Nat.div_mod B A) at 1 by lia. lia.
  - destruct (B / A) eqn:E; [|lia]. rewrite (Nat.div_mod B A), E, Hm in Hb by lia. lia.
Qed.

Lemma mod_spec : forall n, exists q m, n = A * q + m /\ m < A /\ n mod A = m.
Proof.
  intros n. exists (n / A), (n mod A). assert (Ha := a_pos). repeat split.
  - apply Nat.div_mod. lia.
  - apply Nat.mod_upper_bound. lia.
Qed.

Lemma mod_of : forall q m, m < A -> (A * q + m) mod A = m.
Proof. intros q m Hm. rewrite Nat.add_comm, Nat.mul_comm, Nat.mod_add by lia. now apply Nat.mod_small. Qed.

Definition padlen (n : nat) : nat :=
  if n mod A =? 0 then 0 else if A - n mod A <? 8 then A - n mod A + A else A - n mod A.

Lemma padlen_end : forall n, n mod A <> 0 -> exists q, n + padlen n = A * q /\ 8 <= padlen n.
Proof.
  intros n Hn. unfold padlen. destruct (mod_spec n) as [q [m [E [Hm Em]]]]. rewrite Em in *.
  destruct (Nat.eqb_spec m 0); [congruence|].
  destruct (Nat.ltb_spec (A - m) 8); [exists (q + 2)|exists (q + 1)]; assert (Ha := a_pos); nia.
Qed.

Lemma padlen_mono : forall n n', n <= n' -> n mod A <> 0 -> n' mod A <> 0 -> n + padlen n <= n' + padlen n'.
Proof.
  intros n n' Hn Hm Hm'. unfold padlen.
  destruct (mod_spec n) as [q [m [E [Hlt Em]]]]. destruct (mod_spec n') as [q' [m' [E' [Hlt' Em']]]].
  rewrite Em, Em' in *. destruct (Nat.eqb_spec m 0); [congruence|]. destruct (Nat.eqb_spec m' 0); [congruence|].
  assert (Hq : q' = q \/ q + 1 <= q') by (assert (q <= q') by nia; lia).
  destruct Hq as [-> | Hq].
  - destruct (Nat.ltb_spec (A - m) 8); destruct (Nat.ltb_spec (A - m') 8); lia.
  - assert (A * q + A <= A * q') by nia.
    destruct (Nat.ltb_spec (A - m) 8); destruct (Nat.ltb_spec (A - m') 8); lia.
Qed.

(** What the file holds after the [n] bytes of the stream that were flushed: nothing, the padding
    of the last flush, or the zero bytes left of an older padding. *)
Inductive tail (gap : bool) (lastf n : nat) : list N -> Prop :=
| t_none : tail gap lastf n []
| t_pad : forall k, n mod A <> 0 -> 8 + k = padlen n -> (gap = true -> lastf = n) ->
    tail gap lastf n (u64 PADDING_HEADER_FLAG ++ repeat 0%N k)
| t_zero : n mod A = 0 -> (gap = true -> lastf < n < lastf + 8) -> tail gap lastf n (repeat 0%N A).

Lemma tail_next : forall gap lastf n n' rest, tail gap lastf n rest -> n <= n' -> n' mod A = 0 ->
  skipn (n' - n) rest = [] \/
  skipn (n' - n) rest = repeat 0%N A /\ (gap = true -> lastf < n' < lastf + 8).
Proof.
  intros gap lastf n n' rest Ht Hn Hn'.
  destruct (mod_spec n) as [q [m [E [Hm Em]]]]. destruct (mod_spec n') as [q' [m' [E' [_ Em']]]].
  assert (m' = 0) by congruence. assert (Ha := a_pos).
  destruct Ht as [|k Hk Hl Hg|Hz Hg].
  - left. apply skipn_nil.
  - unfold padlen in Hl. rewrite Em in *. destruct (Nat.eqb_spec m 0); [congruence|].
    assert (Hq : q + 1 <= q') by nia.
    assert (Hd : q' = q + 1 \/ A * (q + 2) <= n') by (assert (q' = q + 1 \/ q + 2 <= q') as [?|?] by lia; [now left|right; nia]).
    destruct Hd as [-> | Hd].
    + destruct (Nat.ltb_spec (A - m) 8).
      * right. split.
        -- rewrite flag_bytes. replace (n' - n) with (S (A - m - 1)) by lia.
           change (254%N :: repeat 0%N 7) with ([254%N] ++ repeat 0%N 7).
           rewrite <- app_assoc, <- repeat_app. cbn [app skipn]. rewrite skipn_zeros. f_equal. lia.
        -- intros G. specialize (Hg G). lia.
      * left. apply skipn_all_ge. rewrite app_length, u64_len, repeat_length. lia.
    + left. apply skipn_all_ge. rewrite app_length, u64_len, repeat_length.
      destruct (Nat.ltb_spec (A - m) 8); nia.
  - assert (m = 0) by congruence.
    assert (Hq : q' = q \/ q + 1 <= q') by (assert (q <= q') by nia; lia).
    destruct Hq as [-> | Hq].
    + right. replace (n' - n) with 0 by lia. split; [reflexivity|]. intros G. specialize (Hg G). lia.
    + left. apply skipn_all_ge. rewrite repeat_length. nia.
Qed.

Lemma tail_covered : forall gap lastf n n' rest, tail gap lastf n rest -> n < n' -> n' mod A <> 0 ->
  length rest <= n' - n + padlen n'.
Proof.
  intros gap lastf n n' rest Ht Hn Hn'. destruct Ht as [|k Hk Hl Hg|Hz Hg].
  - cbn. lia.
  - rewrite app_length, u64_len, repeat_length, Hl. assert (H := padlen_mono n n' ltac:(lia) Hk Hn'). lia.
  - rewrite repeat_length. destruct (padlen_end n' Hn') as [q [E _]].
    destruct (mod_spec n) as [q0 [m [E0 [Hm Em]]]]. assert (m = 0) by congruence.
    assert (q0 + 1 <= q) by nia. nia.
Qed.

Record dinv (gap : bool) (L : list N) (lastf : nat) (h : dio) : Prop := {
  iv_fpos : di_fpos h mod A = 0;
  iv_bpos : di_bpos h <= B;
  iv_buf : length (di_buf h) = B + A;
  iv_len : di_fpos h + di_bpos h = length L;
  iv_pend : firstn (di_bpos h) (di_buf h) = skipn (di_fpos h) L;
  iv_fl : di_fpos h <= di_flushed h <= length L;
  iv_file : exists rest, di_file h = firstn (di_flushed h) L ++ rest /\ tail gap lastf (di_flushed h) rest
}.

Lemma inv_frame : forall gap L lastf h f du sy, dinv gap L lastf h -> f = di_file h ->
  dinv gap L lastf (mkDio f du (di_fpos h) (di_flushed h) sy (di_buf h) (di_bpos h)).
Proof. intros gap L lastf h f du sy [] ->. constructor; auto. Qed.

Lemma inv_open : forall gap f, exists h, d_open c f = DOk h /\ dinv gap f (length f) h.
Proof.
  intros gap f. unfold d_open. assert (Ha := a_pos). destruct b_mult as [qb [Eb Hqb]].
  destruct (mod_spec (length f)) as [q [m [E [Hm Em]]]]. rewrite Em.
  assert (Hbl : length (new_buf c) = B + A) by (unfold new_buf; apply repeat_length).
  destruct (Nat.eqb_spec m 0) as [-> | Hm0].
  - eexists. split; [reflexivity|]. constructor; cbn [di_file di_fpos di_flushed di_bpos di_buf]; auto; try lia.
    + rewrite skipn_all. reflexivity.
    + exists []. rewrite firstn_all, app_nil_r. split; [reflexivity|constructor].
  - unfold read_internal.
    assert (Hg : firstn (roundup A m) (skipn (length f - m) f) = skipn (length f - m) f).
    { apply firstn_all2. rewrite skipn_length. unfold roundup. rewrite (Nat.mod_small m A) by lia.
      destruct (Nat.eqb_spec m 0); lia. }
    rewrite Hg. assert (Hlen : length (skipn (length f - m) f) = m) by (rewrite skipn_length; lia).
    assert (B >= A) by nia.
    rewrite mem_put_some by lia. rewrite Hlen, Nat.eqb_refl.
    eexists. split; [reflexivity|]. constructor; cbn [di_file di_fpos di_flushed di_bpos di_buf firstn app]; try lia.
    + rewrite E. replace (A * q + m - m) with (A * q + 0) by lia. apply mod_of. lia.
    + rewrite app_length, (skipn_length _ (new_buf c)). cbn. rewrite Hlen. lia.
    + apply firstn_app_exact. exact Hlen.
    + exists []. rewrite firstn_all, app_nil_r. split; [reflexivity|constructor].
Qed.

Lemma firstn_skipn_app : forall (l d : list N) p, p <= length l -> skipn p (l ++ d) = skipn p l ++ d.
Proof. intros l d p Hp. rewrite skipn_app. replace (p - length l) with 0 by lia. reflexivity. Qed.

(** Bytes put into the buffer. *)
Lemma inv_put : forall gap L lastf h d, dinv gap L lastf h -> di_bpos h + length d <= B ->
  exists b, mem_put (di_buf h) (di_bpos h) d = Some b /\
    dinv gap (L ++ d) lastf (mkDio (di_file h) (di_dur h) (di_fpos h) (di_flushed h) (di_fsynced h) b (di_bpos h + length d)).
Proof.
  intros gap L lastf h d [Hf Hb Hl Hlen Hp Hfl [rest [Hfile Ht]]] Hd. assert (Ha := a_pos).
  rewrite mem_put_some by lia. eexists. split; [reflexivity|].
  constructor; cbn [di_file di_fpos di_flushed di_bpos di_buf]; auto.
  - rewrite !app_length, firstn_length, skipn_length. lia.
  - rewrite app_length. lia.
  - rewrite app_assoc, firstn_app_exact by (rewrite app_length, firstn_length; lia).
    rewrite firstn_skipn_app by lia. now rewrite Hp.
  - rewrite app_length. lia.
  - exists rest. rewrite firstn_app. replace (di_flushed h - length L) with 0 by lia. cbn [firstn].
    rewrite app_nil_r. auto.
Qed.

(** A full buffer written. *)
Lemma inv_full : forall gap L lastf h, dinv gap L lastf h -> di_bpos h = B ->
  dinv gap L lastf (mkDio (pwrite (di_file h) (di_fpos h) (firstn B (di_buf h))) (di_dur h) (di_fpos h + B)
    (Nat.max (di_flushed h) (di_fpos h + B)) (di_fsynced h) (di_buf h) 0).
Proof.
  intros gap L lastf h [Hf Hb Hl Hlen Hp Hfl [rest [Hfile Ht]]] HB. assert (Ha := a_pos).
  destruct b_mult as [qb [Eb Hqb]].
  rewrite HB in *. assert (Hm : (di_fpos h + B) mod A = 0).
  { rewrite Nat.add_mod, Hf by lia. destruct Hc as [_ [_ HBm]]. rewrite HBm. cbn. apply Nat.mod_0_l. lia. }
  assert (Hbp : 0 < B) by (destruct Hc; lia).
  rewrite Hp, Hfile. rewrite <- (app_nil_r (skipn (di_fpos h) L)). rewrite overwrite by lia.
  cbn [app length]. rewrite Nat.add_0_r. rewrite (Nat.max_r (di_flushed h)) by lia. rewrite Hlen.
  constructor; cbn [di_file di_fpos di_flushed di_bpos di_buf]; auto; try lia.
  - now rewrite <- Hlen.
  - rewrite skipn_all. reflexivity.
  - eexists. rewrite firstn_all. split; [reflexivity|]. rewrite Hlen in Hm.
    destruct (tail_next _ _ _ _ _ Ht (proj2 Hfl) Hm) as [-> | [-> Hg]]; constructor; auto.
Qed.

Lemma inv_append : forall fuel gap ok i data L lastf h, dinv gap L lastf h ->
  length data + (if di_bpos h <? B then 0 else 1) <= fuel ->
  (exists h', d_append c fuel ok i data h = DOk h' /\ dinv gap (L ++ data) lastf h') \/
  (exists h' p q, d_append c fuel ok i data h = DErr h' /\ data = p ++ q /\ dinv gap (L ++ p) lastf h').
Proof.
  induction fuel as [|fuel IH]; intros gap ok i data L lastf h Hi Hfu.
  - destruct data; [|cbn in Hfu; lia]. left. exists h. rewrite app_nil_r. split; [reflexivity|exact Hi].
  - destruct data as [|b0 dt]; [left; exists h; rewrite app_nil_r; split; [reflexivity|exact Hi]|].
    set (data := b0 :: dt) in *. assert (Hdl : 1 <= length data) by (cbn; lia).
    assert (U : d_append c (S fuel) ok i data h =
      let slice := Nat.min (length data) (B - di_bpos h) in
      match mem_put (di_buf h) (di_bpos h) (firstn slice data) with
      | None => DUb
      | Some b =>
          let p := di_bpos h + slice in
          if B <=? p then
            if ok i
            then let f := pwrite (di_file h) (di_fpos h) (firstn B b) in
                 let fp := di_fpos h + B in
                 d_append c fuel ok (S i) (skipn slice data) (mkDio f (di_dur h) fp (Nat.max (di_flushed h) fp) (di_fsynced h) b 0)
            else DErr (mkDio (di_file h) (di_dur h) (di_fpos h) (di_flushed h) (di_fsynced h) b p)
          else d_append c fuel ok i (skipn slice data) (mkDio (di_file h) (di_dur h) (di_fpos h) (di_flushed h) (di_fsynced h) b p)
      end) by reflexivity.
    clearbody data. cbv zeta in U. set (slice := Nat.min (length data) (B - di_bpos h)) in *.
    assert (Hsl : length (firstn slice data) = slice) by (rewrite firstn_length; lia).
    assert (Hbp := iv_bpos _ _ _ _ Hi).
    destruct (inv_put gap L lastf h (firstn slice data) Hi ltac:(rewrite Hsl; lia)) as [b [Eb Hi1]].
    rewrite Eb in U. rewrite Hsl in Hi1. rewrite U. clear U.
    assert (Hbpos : 0 < B) by (destruct Hc; lia).
    destruct (Nat.leb_spec B (di_bpos h + slice)) as [HB|HB].
    + assert (EB : di_bpos h + slice = B) by lia.
      destruct (ok i).
      * assert (Hi2 := inv_full _ _ _ _ Hi1 EB). cbn [di_file di_fpos di_dur di_flushed di_fsynced di_buf] in Hi2.
        destruct (IH gap ok (S i) (skipn slice data) _ _ _ Hi2) as [[h' [E1 E2]] | [h' [p [q [E1 [E2 E3]]]]]].
        -- cbn [di_bpos]. destruct (Nat.ltb_spec 0 B); [|lia]. rewrite skipn_length.
           destruct (Nat.ltb_spec (di_bpos h) B); lia.
        -- left. exists h'. split; [exact E1|]. now rewrite <- app_assoc, firstn_skipn in E2.
        -- right. exists h', (firstn slice data ++ p), q. split; [exact E1|]. split.
           ++ rewrite <- app_assoc, <- E2. symmetry. apply firstn_skipn.
           ++ now rewrite app_assoc.
      * right. eexists _, (firstn slice data), (skipn slice data). split; [reflexivity|]. split; [symmetry; apply firstn_skipn|exact Hi1].
    + destruct (IH gap ok i (skipn slice data) _ _ _ Hi1) as [[h' [E1 E2]] | [h' [p [q [E1 [E2 E3]]]]]].
      * cbn [di_bpos]. destruct (Nat.ltb_spec (di_bpos h + slice) B); [|lia]. rewrite skipn_length.
        destruct (Nat.ltb_spec (di_bpos h) B); lia.
      * left. exists h'. split; [exact E1|]. now rewrite <- app_assoc, firstn_skipn in E2.
      * right. exists h', (firstn slice data ++ p), q. split; [exact E1|]. split.
        -- rewrite <- app_assoc, <- E2. symmetry. apply firstn_skipn.
        -- now rewrite app_assoc.
Qed.

Lemma app_len_eq : forall (a p q p' q' : list N), p ++ q = p' ++ q' -> length p = length p' -> p = p'.
Proof.
  intros a p. induction p as [|x p IH]; intros q p' q' E El; destruct p' as [|y p']; try discriminate; [reflexivity|].
  cbn in *. injection E as -> E. f_equal. eapply IH; eauto.
Qed.

Lemma inv_flush : forall gap L lastf h ok, dinv gap L lastf h ->
  (gap = true -> length L = lastf \/ lastf + 8 <= length L) ->
  (exists h', d_flush c ok h = DOk h' /\ dinv gap L (length L) h' /\ di_flushed h' = length L /\
     di_dur h' = di_dur h /\ di_fsynced h' = di_fsynced h /\
     (gap = true -> exists p, di_file h' = L ++ p /\ padding p)) \/
  (exists h', d_flush c ok h = DErr h' /\ ok = false).
Proof.
  intros gap L lastf h ok Hi Hgap. assert (Hi0 := Hi). destruct Hi as [Hf Hb Hl Hlen Hp Hfl [rest [Hfile Ht]]].
  assert (Ha := a_pos). unfold d_flush.
  assert (Hskip : di_flushed h = length L ->
    exists h', DOk h = DOk h' /\ dinv gap L (length L) h' /\ di_flushed h' = length L /\
     di_dur h' = di_dur h /\ di_fsynced h' = di_fsynced h /\
     (gap = true -> exists p, di_file h' = L ++ p /\ padding p)).
  { intros Ef. exists h. rewrite Ef, firstn_all in Hfile. split; [reflexivity|].
    destruct Ht as [|k Hk Hkl Hg|Hz Hg].
    - split; [|split; [exact Ef|split; [reflexivity|split; [reflexivity|]]]].
      + constructor; auto. exists []. rewrite Ef, firstn_all. split; [exact Hfile|constructor].
      + intros _. exists []. split; [exact Hfile|now left].
    - split; [|split; [exact Ef|split; [reflexivity|split; [reflexivity|]]]].
      + constructor; auto. eexists. rewrite Ef, firstn_all. split; [exact Hfile|]. rewrite Ef in *. now constructor.
      + intros _. eexists. split; [exact Hfile|right; eauto].
    - destruct gap.
      + specialize (Hgap eq_refl). specialize (Hg eq_refl). lia.
      + split; [|split; [exact Ef|split; [reflexivity|split; [reflexivity|discriminate]]]].
        constructor; auto. eexists. rewrite Ef, firstn_all. split; [exact Hfile|]. rewrite Ef in *. constructor; auto. discriminate. }
  destruct (Nat.eqb_spec (di_bpos h) 0) as [E0|E0]; [left; apply Hskip; lia|].
  destruct (Nat.leb_spec (di_fpos h + di_bpos h) (di_flushed h)) as [El|El]; [left; apply Hskip; lia|].
  clear Hskip.
  assert (Em : di_bpos h mod A = length L mod A).
  { rewrite <- Hlen, Nat.add_mod, Hf by lia. cbn. now rewrite Nat.mod_mod by lia. }
  rewrite Em. destruct (mod_spec (length L)) as [q [m [Eq [Hm Em2]]]]. rewrite Em2.
  destruct (Nat.eqb_spec m 0) as [Ez|Ez].
  - rewrite Nat.add_0_r. destruct (Nat.leb_spec (di_bpos h) (length (di_buf h))); [|lia].
    destruct ok; [|right; eauto]. left. eexists. split; [reflexivity|].
    rewrite Hp, Hfile. rewrite <- (app_nil_r (skipn (di_fpos h) L)). rewrite overwrite by lia.
    cbn [app length]. rewrite Nat.add_0_r, Hlen.
    assert (Hz : length L mod A = 0) by congruence.
    assert (Htn := tail_next _ _ _ _ _ Ht (proj2 Hfl) Hz).
    assert (Hno : gap = true -> skipn (length L - di_flushed h) rest = []).
    { intros G. destruct Htn as [E|[E Hg]]; [exact E|]. specialize (Hg G). specialize (Hgap G). lia. }
    split; [|split; [reflexivity|split; [reflexivity|split; [reflexivity|]]]].
    + constructor; cbn [di_file di_fpos di_flushed di_bpos di_buf]; auto; try lia.
      eexists. rewrite firstn_all. split; [reflexivity|].
      destruct gap; [rewrite Hno by reflexivity; constructor|].
      destruct Htn as [-> | [-> _]]; constructor; auto; discriminate.
    + intros G. cbn [di_file]. rewrite (Hno G). exists []. split; [reflexivity|now left].
  - assert (Hnz : length L mod A <> 0) by congruence.
    set (pd := if A - m <? 8 then A - m + A else A - m).
    assert (Epd : padlen (length L) = pd).
    { unfold padlen. rewrite Em2. destruct (Nat.eqb_spec m 0); [congruence|]. reflexivity. }
    destruct (padlen_end _ Hnz) as [qe [Eqe H8]]. rewrite Epd in *.
    assert (HpdB : di_bpos h + pd <= B + A).
    { destruct (mod_spec (di_fpos h)) as [qf [mf [Ef [_ Emf]]]]. assert (mf = 0) by congruence.
      destruct b_mult as [qb [EB Hqb]].
      assert (Hmb : m <= di_bpos h).
      { rewrite <- Em2, <- Em. apply Nat.mod_le. lia. }
      subst pd. destruct (mod_spec (di_bpos h)) as [q1 [m1 [E1 [Hm1 Em1]]]].
      assert (m1 = m) by congruence. subst m1.
      assert (q1 + 1 <= qb) by nia.
      destruct (Nat.ltb_spec (A - m) 8); nia. }
    rewrite mem_put_some by (rewrite repeat_length; lia). rewrite repeat_length.
    set (b1 := firstn (di_bpos h) (di_buf h) ++ repeat 0%N pd ++ skipn (di_bpos h + pd) (di_buf h)).
    assert (Hb1 : length b1 = B + A).
    { subst b1. rewrite !app_length, firstn_length, skipn_length, repeat_length. lia. }
    rewrite mem_put_some by (rewrite u64_len; lia). rewrite u64_len.
    assert (Hb2 : firstn (di_bpos h) b1 ++ u64 PADDING_HEADER_FLAG ++ skipn (di_bpos h + 8) b1 =
      skipn (di_fpos h) L ++ (u64 PADDING_HEADER_FLAG ++ repeat 0%N (pd - 8)) ++ skipn (di_bpos h + pd) (di_buf h)).
    { subst b1. rewrite firstn_app_exact by (rewrite firstn_length; lia). rewrite Hp. f_equal.
      rewrite <- app_assoc. f_equal. rewrite skipn_app. rewrite skipn_all2 by (rewrite skipn_length; lia).
      rewrite skipn_length. cbn [app]. replace (di_bpos h + 8 - (length L - di_fpos h)) with 8 by lia.
      rewrite skipn_app, skipn_zeros, repeat_length. replace (8 - pd) with 0 by lia. reflexivity. }
    rewrite Hb2. set (pad := u64 PADDING_HEADER_FLAG ++ repeat 0%N (pd - 8)).
    assert (Hpl : length pad = pd) by (subst pad; rewrite app_length, u64_len, repeat_length; lia).
    assert (Hsl : length (skipn (di_fpos h) L) = di_bpos h) by (rewrite skipn_length; lia).
    destruct (Nat.leb_spec (di_bpos h + pd) (length (skipn (di_fpos h) L ++ pad ++ skipn (di_bpos h + pd) (di_buf h)))) as [HH|HH];
      [|rewrite !app_length, Hsl, Hpl in HH; lia].
    destruct ok; [|right; eauto]. left. eexists. split; [reflexivity|].
    cbn [di_file di_fpos di_flushed di_bpos di_buf di_dur di_fsynced].
    assert (Efs : firstn (di_bpos h + pd) (skipn (di_fpos h) L ++ pad ++ skipn (di_bpos h + pd) (di_buf h)) = skipn (di_fpos h) L ++ pad).
    { rewrite app_assoc. apply firstn_app_exact. rewrite app_length. lia. }
    rewrite Efs, Hfile, overwrite by lia.
    assert (T := fun X => tail_covered _ _ _ (length L) _ Ht X Hnz). specialize (T ltac:(lia)). rewrite Epd in T.
    rewrite (skipn_all2 rest) by (rewrite Hpl; exact T).
    rewrite app_nil_r.
    split; [|split; [exact Hlen|split; [reflexivity|split; [reflexivity|]]]].
    + constructor; cbn [di_file di_fpos di_flushed di_bpos di_buf]; auto; try lia.
      * rewrite !app_length, Hsl, Hpl, skipn_length. lia.
      * apply firstn_app_exact. exact Hsl.
      * exists pad. rewrite Hlen, firstn_all. split; [reflexivity|]. subst pad. constructor; auto. lia.
    + intros _. exists pad. split; [reflexivity|]. right. exists (pd - 8). reflexivity.
Qed.

Lemma flush_err_inv : forall gap L lastf h ok h', dinv gap L lastf h -> d_flush c ok h = DErr h' -> dinv gap L lastf h'.
Proof.
  intros gap L lastf h ok h' Hi. assert (Ha := a_pos). destruct Hi as [Hf Hb Hl Hlen Hp Hfl Hfile]. unfold d_flush.
  destruct (di_bpos h =? 0); [discriminate|]. destruct (di_fpos h + di_bpos h <=? di_flushed h); [discriminate|].
  set (pd := if di_bpos h mod A =? 0 then 0 else _). cbv zeta.
  set (pdd := if di_bpos h mod A =? 0 then Some (di_buf h) else _).
  destruct pdd as [b|] eqn:E; [|discriminate].
  destruct (di_bpos h + pd <=? length b); [|discriminate]. destruct ok; [discriminate|].
  intros H. injection H as <-.
  assert (Hbb : length b = B + A /\ firstn (di_bpos h) b = skipn (di_fpos h) L).
  { subst pdd. destruct (di_bpos h mod A =? 0); [injection E as <-; auto|].
    unfold mem_put in E. destruct (di_bpos h + length (repeat 0%N pd) <=? length (di_buf h)) eqn:E1; [|discriminate].
    apply Nat.leb_le in E1. rewrite repeat_length in *.
    match type of E with (if ?x <=? ?y then _ else _) = _ => destruct (Nat.leb_spec x y) as [E2|]; [|discriminate] end.
    match type of E with Some ?x = Some _ => assert (Q : b = x) by congruence end. clear E. rewrite Q. clear Q. rewrite u64_len in *.
    rewrite (firstn_app_exact (firstn (di_bpos h) (di_buf h))) by (rewrite firstn_length; lia).
    split.
    - rewrite !app_length, u64_len, skipn_length, !app_length, skipn_length, repeat_length, firstn_length.
      rewrite !app_length, skipn_length, repeat_length, firstn_length in E2. lia.
    - rewrite firstn_app_exact by (rewrite firstn_length; lia). exact Hp. }
  destruct Hbb as [Hb1 Hb2]. constructor; cbn [di_file di_fpos di_flushed di_bpos di_buf]; auto.
Qed.

Lemma inv_fsync : forall gap L lastf h ok h', dinv gap L lastf h -> d_fsync ok h = DOk h' \/ d_fsync ok h = DErr h' ->
  dinv gap L lastf h'.
Proof.
  intros gap L lastf h ok h' Hi. unfold d_fsync. destruct (di_flushed h <=? di_fsynced h).
  - intros [H|H]; [injection H as <-; exact Hi|discriminate].
  - destruct ok; (intros [H|H]; [try discriminate|try discriminate]); injection H as <-; auto.
    now apply inv_frame.
Qed.

Lemma inv_trunc : forall gap L lastf h len, dinv gap L lastf h -> len < length (di_file h) ->
  exists h', d_trunc c len h = DOk h' /\ dinv gap (firstn len (di_file h)) len h'.
Proof.
  intros gap L lastf h len Hi Hlen0. destruct Hi as [Hf Hb Hl Hlen Hp Hfl Hfile]. unfold d_trunc. assert (Ha := a_pos).
  destruct b_mult as [qb [Eb Hqb]].
  destruct (Nat.leb_spec (length (di_file h)) len); [lia|].
  set (f := firstn len (di_file h)). assert (Hfl' : length f = len) by (subst f; rewrite firstn_length; lia).
  clearbody f.
  destruct (mod_spec len) as [q [m [E [Hm Em]]]]. rewrite Em.
  destruct (Nat.eqb_spec m 0) as [-> | Hm0].
  - eexists. split; [reflexivity|]. constructor; cbn [di_file di_fpos di_flushed di_bpos di_buf]; auto; try lia.
    + rewrite <- Hfl', skipn_all. reflexivity.
    + exists []. rewrite <- Hfl' at 1. rewrite firstn_all, app_nil_r. split; [reflexivity|constructor].
  - assert (Er : roundup A len - A = len - m).
    { unfold roundup. rewrite Em. destruct (Nat.eqb_spec m 0); lia. }
    rewrite Er. unfold read_internal.
    assert (Hg : firstn (roundup A m) (skipn (len - m) f) = skipn (len - m) f).
    { apply firstn_all2. rewrite skipn_length. unfold roundup. rewrite (Nat.mod_small m A) by lia.
      destruct (Nat.eqb_spec m 0); lia. }
    rewrite Hg. assert (Hgl : length (skipn (len - m) f) = m) by (rewrite skipn_length; lia).
    assert (B >= A) by nia.
    rewrite mem_put_some by lia. rewrite Hgl, Nat.eqb_refl.
    eexists. split; [reflexivity|]. constructor; cbn [di_file di_fpos di_flushed di_bpos di_buf firstn app]; try lia.
    + rewrite E. replace (A * q + m - m) with (A * q + 0) by lia. apply mod_of. lia.
    + rewrite app_length, (skipn_length _ (di_buf h)). cbn. rewrite Hgl. lia.
    + apply firstn_app_exact. exact Hgl.
    + exists []. rewrite <- Hfl' at 1. rewrite firstn_all, app_nil_r. split; [reflexivity|constructor].
Qed.

Lemma bpos_fuel : forall (data : list N) h, length data + (if di_bpos h <? B then 0 else 1) <= S (length data).
Proof. intros. destruct (di_bpos h <? B); lia. Qed.

Lemma reach_inv : forall gap tr f0 L n h, dreach c gap tr f0 L n h -> dinv gap L n h.
Proof.
  intros gap tr f0 L n h H. induction H as [h Ho|L n h ok data h' H IH Ha|L n h ok p q h' H IH Ha Hl|L n h h' H IH Hg Hf
    |L n h ok h' H IH Hf|L n h ok h' H IH Hf|L n h len h' H IH Htr Hlen Ht|L n h len h' H IH Hlen Ht].
  - destruct (inv_open gap f0) as [h0 [E Hi]]. congruence.
  - destruct (inv_append _ gap ok 0 data L n h IH (bpos_fuel data h)) as [[h1 [E Hi]] | [h1 [p [q [E _]]]]]; congruence.
  - destruct (inv_append _ gap ok 0 (p ++ q) L n h IH (bpos_fuel (p ++ q) h)) as [[h1 [E Hi]] | [h1 [p1 [q1 [E [E2 Hi]]]]]]; [congruence|].
    assert (h1 = h') by congruence. subst h1.
    assert (p = p1); [|congruence].
    apply (app_len_eq [] p q p1 q1 E2). assert (T := iv_len _ _ _ _ Hi). rewrite app_length in T. lia.
  - destruct (inv_flush gap L n h true IH Hg) as [[h1 [E [Hi _]]] | [h1 [_ E]]]; congruence.
  - eapply flush_err_inv; eauto.
  - eapply inv_fsync; eauto.
  - destruct (inv_trunc gap L n h len IH Hlen) as [h1 [E Hi]]. congruence.
  - unfold d_trunc in Ht. destruct (Nat.leb_spec (length (di_file h)) len); [|lia]. congruence.
Qed.

(** Nothing fails but writes. *)
Lemma append_outcome : forall gap tr f0 L n h ok data, dreach c gap tr f0 L n h ->
  (exists h', d_append c (S (length data)) ok 0 data h = DOk h') \/
  (exists h', d_append c (S (length data)) ok 0 data h = DErr h' /\ exists i, ok i = false).
Proof.
  intros gap tr f0 L n h ok data H. assert (Hi := reach_inv _ _ _ _ _ _ H).
  destruct (inv_append _ gap ok 0 data L n h Hi (bpos_fuel data h)) as [[h1 [E _]] | [h1 [p [q [E _]]]]]; [left; eauto|].
  right. exists h1. split; [exact E|]. clear -E. revert E. generalize (S (length data)) as fuel, 0 as i.
  intros fuel. revert data h. induction fuel as [|fuel IH]; intros data h i E; destruct data as [|b0 dt]; cbn [d_append] in E; try discriminate.
  cbv zeta in E. destruct (mem_put _ _ _); [|discriminate].
  match type of E with (if ?x then _ else _) = _ => destruct x end; [|eapply IH; exact E].
  destruct (ok i) eqn:Eo; [eapply IH; exact E|eauto].
Qed.

Lemma flush_shape : forall gap tr f0 L n h ok, dreach c gap tr f0 L n h ->
  (exists h', d_flush c ok h = DOk h' /\ di_flushed h' = length L /\
     exists p, di_file h' = L ++ p /\ (padding p \/ p = repeat 0%N A)) \/
  (exists h', d_flush c ok h = DErr h' /\ ok = false).
Proof.
  intros gap tr f0 L n h ok H. assert (Hi := reach_inv _ _ _ _ _ _ H).
  assert (Hi' : dinv false L n h).
  { destruct Hi as [H1 H2 H3 H4 H5 H6 [rest [H7 H8]]]. constructor; auto. exists rest. split; [exact H7|].
    destruct H8; constructor; auto; discriminate. }
  destruct (inv_flush false L n h ok Hi' ltac:(discriminate)) as [[h1 [E [Hi1 [Hfl _]]]] | ?]; [|now right].
  left. exists h1. split; [exact E|]. split; [exact Hfl|].
  destruct (iv_file _ _ _ _ Hi1) as [rest [Ef Ht]]. rewrite Hfl, firstn_all in Ef.
  exists rest. split; [exact Ef|]. destruct Ht; [left; now left|left; right; eauto|now right].
Qed.

Lemma flush_recognisable : forall tr f0 L n h ok, dreach c true tr f0 L n h ->
  length L = n \/ n + 8 <= length L ->
  (exists h', d_flush c ok h = DOk h' /\ exists p, di_file h' = L ++ p /\ padding p) \/
  (exists h', d_flush c ok h = DErr h' /\ ok = false).
Proof.
  intros tr f0 L n h ok H Hg. assert (Hi := reach_inv _ _ _ _ _ _ H).
  destruct (inv_flush true L n h ok Hi (fun _ => Hg)) as [[h1 [E [_ [_ [_ [_ Hp]]]]]] | ?]; [|now right].
  left. exists h1. split; [exact E|]. now apply Hp.
Qed.

(** ** Positional reads *)
Lemma pread_loop_ok : forall fuel f tb ub off count pos, length tb = B + A -> length ub = count ->
  0 < count -> off + count <= length f -> pos mod A = 0 -> off < pos + A -> off + count - pos < fuel ->
  firstn (pos - off) ub = firstn (pos - off) (firstn count (skipn off f)) ->
  pread_loop c fuel f tb ub off count pos = POk (firstn count (skipn off f)).
Proof.
  induction fuel as [|fuel IH]; intros f tb ub off count pos Htb Hub Hc0 Hf Hpos Hnear Hfu Hpre; [lia|].
  assert (Ha := a_pos). destruct b_mult as [qb [Eb Hqb]]. assert (HBA : A <= B) by nia.
  assert (Hcl : length (firstn count (skipn off f)) = count) by (rewrite firstn_length, skipn_length; lia).
  cbn [pread_loop]. destruct (Nat.leb_spec (off + count) pos) as [Hdone|Hmore].
  - f_equal. rewrite firstn_all2 in Hpre by lia. rewrite Hpre. apply firstn_all2. lia.
  - set (slice := Nat.min (off + count - pos) B).
    set (al0 := roundup A slice).
    assert (Hal : slice <= al0 /\ al0 < slice + A /\ al0 mod A = 0 /\ al0 <= B).
    { subst al0. unfold roundup. destruct (mod_spec slice) as [q [m [E [Hm Em]]]]. rewrite Em.
      destruct (Nat.eqb_spec m 0) as [-> |].
      - repeat split; auto; lia.
      - assert (q + 1 <= qb) by nia. repeat split; try lia; [|nia].
        rewrite E. replace (A * q + m + (A - m)) with (A * (q + 1) + 0) by lia. apply mod_of. lia. }
    destruct Hal as [Hs1 [Hs2 [Hs3 Hs4]]]. clearbody al0.
    set (al := if length f <? pos + al0 then length f - pos else al0).
    assert (Hal1 : 0 < al /\ al <= al0 /\ pos + al <= length f /\ (al = al0 \/ pos + al = length f)).
    { subst al. destruct (Nat.ltb_spec (length f) (pos + al0)); lia. }
    destruct Hal1 as [Hp0 [Hp1 [Hp2 Hp3]]].
    assert (HalA : A <= al0).
    { destruct (mod_spec al0) as [q [m [E [Hm Em]]]]. assert (m = 0) by congruence. assert (1 <= q) by nia. nia. }
    assert (Hover : off < pos + al) by lia.
    assert (Hgot : firstn (roundup A al) (skipn pos f) = firstn al (skipn pos f)).
    { unfold roundup. destruct Hp3 as [Hp3 | Hp3].
      - rewrite Hp3, Hs3. reflexivity.
      - rewrite !firstn_all2; [reflexivity|rewrite skipn_length; lia|rewrite skipn_length].
        destruct (al mod A =? 0); lia. }
    unfold read_internal. rewrite Hgot.
    assert (Hgl : length (firstn al (skipn pos f)) = al) by (rewrite firstn_length, skipn_length; lia).
    rewrite mem_put_some by lia. rewrite Hgl, Nat.eqb_refl. cbn [firstn app plus].
    set (tb' := firstn al (skipn pos f) ++ skipn al tb).
    assert (Htb' : length tb' = B + A) by (subst tb'; rewrite app_length, skipn_length; lia).
    set (n := Nat.min (off + count) (pos + al) - Nat.max off pos).
    destruct (Nat.leb_spec (off - pos + n) (length tb')) as [HH|HH]; [|lia].
    assert (Hpiece : firstn n (skipn (off - pos) tb') = firstn n (skipn (Nat.max off pos) f)).
    { subst tb'. rewrite skipn_app, firstn_app.
      destruct (Nat.eq_dec n 0) as [-> | Hn0]; [reflexivity|].
      rewrite skipn_length, Hgl. replace (n - (al - (off - pos))) with 0 by lia. cbn [firstn]. rewrite app_nil_r.
      rewrite skipn_firstn_comm, firstn_firstn, skipn_skipn. f_equal; [lia|]. f_equal. lia. }
    rewrite Hpiece.
    assert (Hnl : length (firstn n (skipn (Nat.max off pos) f)) = n) by (rewrite firstn_length, skipn_length; lia).
    rewrite mem_put_some by (rewrite Hnl; lia). rewrite Hnl.
    destruct Hp3 as [Hp3 | Hp3].
    + apply IH; auto.
      * rewrite !app_length, Hnl, firstn_length, skipn_length. lia.
      * rewrite Hp3, Nat.add_mod, Hpos, Hs3 by lia. cbn. apply Nat.mod_0_l. lia.
      * lia.
      * lia.
      * destruct (Nat.le_gt_cases (off + count) (pos + al)) as [Hle|Hgt].
        -- rewrite !firstn_all2 with (n := pos + al - off); [|lia|rewrite !app_length, Hnl, firstn_length, skipn_length; lia].
           rewrite (skipn_all2 ub) by lia. rewrite app_nil_r.
           rewrite Hpre, firstn_firstn.
           rewrite <- (firstn_skipn (pos - off) (firstn count (skipn off f))).
           rewrite firstn_firstn. f_equal.
           rewrite skipn_firstn_comm, skipn_skipn. f_equal; [lia|f_equal; lia].
        -- rewrite app_assoc, firstn_app_exact by (rewrite app_length, Hnl, firstn_length; lia).
           rewrite Hpre, !firstn_firstn.
           rewrite <- (firstn_skipn (pos - off) (firstn (Nat.min (pos + al - off) count) (skipn off f))).
           rewrite firstn_firstn. f_equal; [f_equal; lia|].
           rewrite skipn_firstn_comm, skipn_skipn. f_equal; [lia|f_equal; lia].
    + assert (Hend : forall u, pread_loop c fuel f tb' u off count (pos + al) = POk u).
      { intros u. destruct fuel; cbn [pread_loop]; (destruct (Nat.leb_spec (off + count) (pos + al)); [reflexivity|lia]). }
      rewrite Hend. f_equal.
      rewrite (skipn_all2 ub) by lia. rewrite app_nil_r.
      rewrite Hpre, firstn_firstn.
      rewrite <- (firstn_skipn (pos - off) (firstn count (skipn off f))).
      rewrite firstn_firstn. f_equal.
      rewrite skipn_firstn_comm, skipn_skipn. f_equal; [lia|f_equal; lia].
Qed.

Lemma pread_ok : forall h tb ub off count, length tb = B + A -> length ub = count ->
  off + count <= length (di_file h) ->
  d_pread c h tb ub off count = POk (firstn count (skipn off (di_file h))).
Proof.
  intros h tb ub off count Htb Hub Hf. unfold d_pread.
  destruct (Nat.eqb_spec count 0) as [-> |].
  - destruct ub; [reflexivity|discriminate].
  - destruct (Nat.ltb_spec (length (di_file h)) (off + count)); [lia|].
    apply pread_loop_ok; auto; [lia| | | |].
    + destruct (mod_spec off) as [q [m [E [Hm Em]]]]. rewrite Em, E.
      replace (A * q + m - m) with (A * q + 0) by lia. apply mod_of. assert (Ha := a_pos). lia.
    + assert (Ha := a_pos). assert (T := Nat.mod_upper_bound off A). lia.
    + lia.
    + replace (off - off mod A - off) with 0 by lia. reflexivity.
Qed.

Lemma pread_past : forall h tb ub off count, 0 < count -> length (di_file h) < off + count ->
  d_pread c h tb ub off count = PErr.
Proof.
  intros h tb ub off count Hc0 Hf. unfold d_pread. destruct (Nat.eqb_spec count 0); [lia|].
  destruct (Nat.ltb_spec (length (di_file h)) (off + count)); [reflexivity|lia].
Qed.

Lemma flushed_in_file : forall gap tr f0 L n h, dreach c gap tr f0 L n h ->
  di_flushed h <= length L /\ firstn (di_flushed h) (di_file h) = firstn (di_flushed h) L /\ di_flushed h <= length (di_file h).
Proof.
  intros gap tr f0 L n h H. destruct (reach_inv _ _ _ _ _ _ H) as [_ _ _ _ _ Hfl [rest [Ef _]]].
  split; [lia|]. rewrite Ef. split.
  - apply firstn_app_exact. rewrite firstn_length. lia.
  - rewrite app_length, firstn_length. lia.
Qed.

(** ** Durability *)
Record finv (L : list N) (h : dio) : Prop := {
  fv_le : di_fsynced h <= di_flushed h;
  fv_dur : firstn (di_fsynced h) (di_dur h) = firstn (di_fsynced h) L
}.

Lemma append_marks : forall fuel ok i data h h', d_append c fuel ok i data h = DOk h' \/ d_append c fuel ok i data h = DErr h' ->
  di_dur h' = di_dur h /\ di_fsynced h' = di_fsynced h /\ di_flushed h <= di_flushed h'.
Proof.
  induction fuel as [|fuel IH]; intros ok i data h h' E; destruct data as [|b0 dt]; cbn [d_append] in E;
    try (destruct E as [E|E]; [|discriminate]; injection E as <-; auto).
  - destruct E; discriminate.
  - cbv zeta in E. destruct (mem_put _ _ _) as [b|]; [|destruct E; discriminate].
    match type of E with (if ?x then _ else _) = _ \/ _ => destruct x end.
    + destruct (ok i).
      * apply IH in E. cbn [di_dur di_fsynced di_flushed] in E. destruct E as [-> [-> E]]. split; [reflexivity|]. split; [reflexivity|lia].
      * destruct E as [E|E]; [discriminate|]. injection E as <-. cbn. auto.
    + apply IH in E. cbn [di_dur di_fsynced di_flushed] in E. destruct E as [-> [-> E]]. auto.
Qed.

Lemma flush_marks : forall ok h h', d_flush c ok h = DOk h' \/ d_flush c ok h = DErr h' ->
  di_dur h' = di_dur h /\ di_fsynced h' = di_fsynced h /\ di_flushed h <= di_flushed h'.
Proof.
  intros ok h h' E. unfold d_flush in E.
  destruct (di_bpos h =? 0); [destruct E as [E|E]; [injection E as <-; auto|discriminate]|].
  destruct (Nat.leb_spec (di_fpos h + di_bpos h) (di_flushed h)); [destruct E as [E|E]; [injection E as <-; auto|discriminate]|].
  cbv zeta in E.
  match type of E with (match ?x with Some _ => _ | None => _ end) = _ \/ _ => destruct x as [b|]; [|destruct E; discriminate] end.
  match type of E with (if ?x then _ else _) = _ \/ _ => destruct x; [|destruct E; discriminate] end.
  destruct ok; (destruct E as [E|E]; [try discriminate|try discriminate]); injection E as <-; cbn; repeat split; lia.
Qed.

Lemma reach_finv : forall gap f0 L n h, dreach c gap false f0 L n h -> finv L h.
Proof.
  intros gap f0 L n h H. induction H as [h Ho|L n h ok data h' H IH Ha|L n h ok p q h' H IH Ha Hl|L n h h' H IH Hg Hf
    |L n h ok h' H IH Hf|L n h ok h' H IH Hf|L n h len h' H IH Htr Hlen Ht|L n h len h' H IH Hlen Ht].
  - unfold d_open in Ho. destruct (length f0 mod A =? 0).
    + injection Ho as <-. constructor; cbn; auto.
    + destruct (read_internal _ _ _ _ _); try discriminate. injection Ho as <-. constructor; cbn; auto.
  - destruct (append_marks _ _ _ _ _ _ (or_introl Ha)) as [E1 [E2 E3]]. destruct IH as [I1 I2].
    destruct (flushed_in_file _ _ _ _ _ _ H) as [F1 _].
    constructor; [lia|]. rewrite E1, E2, I2, firstn_app. replace (di_fsynced h - length L) with 0 by lia. now rewrite app_nil_r.
  - destruct (append_marks _ _ _ _ _ _ (or_intror Ha)) as [E1 [E2 E3]]. destruct IH as [I1 I2].
    destruct (flushed_in_file _ _ _ _ _ _ H) as [F1 _].
    constructor; [lia|]. rewrite E1, E2, I2, firstn_app. replace (di_fsynced h - length L) with 0 by lia. now rewrite app_nil_r.
  - destruct (flush_marks _ _ _ (or_introl Hf)) as [E1 [E2 E3]]. destruct IH as [I1 I2]. constructor; [lia|]. now rewrite E1, E2.
  - destruct (flush_marks _ _ _ (or_intror Hf)) as [E1 [E2 E3]]. destruct IH as [I1 I2]. constructor; [lia|]. now rewrite E1, E2.
  - destruct (flushed_in_file _ _ _ _ _ _ H) as [F1 [F2 _]]. destruct IH as [I1 I2]. unfold d_fsync in Hf.
    destruct (Nat.leb_spec (di_flushed h) (di_fsynced h)).
    + destruct Hf as [E|E]; [|discriminate]. injection E as <-. constructor; auto.
    + destruct ok; (destruct Hf as [E|E]; [try discriminate|try discriminate]); injection E as <-; constructor; cbn; auto.
  - discriminate.
  - unfold d_trunc in Ht. destruct (Nat.leb_spec (length (di_file h)) len); [|lia]. congruence.
Qed.

Lemma synced : forall gap f0 L n h h1 h2, dreach c gap false f0 L n h ->
  d_flush c true h = DOk h1 -> d_fsync true h1 = DOk h2 ->
  firstn (length L) (di_dur h2) = L.
Proof.
  intros gap f0 L n h h1 h2 H E1 E2.
  destruct (flush_shape _ _ _ _ _ _ true H) as [[h0 [E0 [Hfl [p [Hp _]]]]] | [? [_ ?]]]; [|discriminate].
  assert (h0 = h1) by congruence. subst h0.
  destruct (reach_finv _ _ _ _ _ H) as [F1 F2]. destruct (flush_marks _ _ _ (or_introl E1)) as [M1 [M2 M3]].
  unfold d_fsync in E2. destruct (Nat.leb_spec (di_flushed h1) (di_fsynced h1)) as [HH|HH].
  - injection E2 as <-. destruct (flushed_in_file _ _ _ _ _ _ H) as [G1 _].
    assert (Es : di_fsynced h = length L) by lia. rewrite M1. rewrite Es in F2. rewrite F2. apply firstn_all.
  - injection E2 as <-. cbn [di_dur]. rewrite Hp. now apply firstn_app_exact.
Qed.
End DIO.
