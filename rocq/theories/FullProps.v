(** Properties of the whole database: the log section over the table section. *)
From Verif Require Import Base KeyModel LogFormatModel BloomModel MemTableModel LogMgrModel DbModel LogMgrProofs LogMgrProofs2 LogMgrProofs3 DbProofs DbProps
  LsmModel LsmProofs LsmProofs2 LsmProofs5 LsmProps FullModel FullProofs.
From Coq Require Import Lia.
Local Open Scope N_scope.

(** C11: DB::get returns the newest acknowledged write of the key, whatever mixture of writes,
    batches, syncs, flushes, compactions of any level, splits, merges and reloads of the tables
    came before. *)
Theorem C11_latest_write_whole : forall hash part c tc h f k, cfg_ok c -> c_lso c = false -> tcfg_ok part tc ->
  freach hash part c tc h f -> bf_safe tc h -> k <> [] -> f_get hash part c tc k f = spec_get h k.
Proof. exact full_get_latest. Qed.
Print Assumptions C11_latest_write_whole.

(** ** Running a list of operations *)
Section Run.
Variable hash : key -> N * N.
Variable part : key -> N.
Fixpoint frun (c : cfg) (tc : tcfg) (os : list fop) (h : list rec) (f : fdb) : option (list rec * fdb) :=
  match os with
  | [] => Some (h, f)
  | o :: t =>
      if match o with FOp o' => allowed_b c h (fd_db f) o' | FTab _ => true end
      then match f_step hash part c tc o f with
           | Some (x, f') => if l_next (fd_lsm f') <=? NIL then frun c tc t (h ++ acked x) f' else None
           | None => None
           end
      else None
  end.
Lemma frun_reach : forall c tc os h f h' f', freach hash part c tc h f -> (forall o, In (FTab o) os -> lop_ok o) ->
  frun c tc os h f = Some (h', f') -> freach hash part c tc h' f'.
Proof.
  intros c tc os. induction os as [|o t IH]; intros h f h' f' R Hok E; cbn [frun] in E; [injection E as <- <-; exact R|].
  destruct (match o with FOp o' => allowed_b c h (fd_db f) o' | FTab _ => true end) eqn:A; [|discriminate].
  destruct (f_step hash part c tc o f) as [[x f1]|] eqn:E1; [|discriminate]. destruct (l_next (fd_lsm f1) <=? NIL) eqn:L; [|discriminate].
  apply IH with (3 := E); [|intros o' Ho'; apply Hok; now right]. eapply fr_step; [exact R| |exact E1|now apply N.leb_le].
  destruct o as [o|o]; cbn [f_allowed]; [now apply allowed_b_ok|]. apply Hok. now left.
Qed.
End Run.

(** Four versions of key 1 and a deletion of key 2 spread over two levels of tables, the level-0
    table and the log. *)
Definition ex_full_ops : list fop :=
  [FOp (ex_put 1 10); FOp (ex_put 2 20); FOp (ex_put 3 30); FOp ex_sync; FOp ex_fl;
   FTab (LZero never all_ok true every 0); FTab (LDown never all_ok true every 1 1);
   FOp (ex_put 1 11); FOp ex_sync; FOp ex_fl; FTab (LZero never all_ok true every 0); FTab LReload;
   FOp (ex_put 1 12); FOp (ex_del 2); FOp ex_sync; FOp ex_fl; FOp (ex_put 1 13)].
Example ex_full_run :
  match frun xhash xpart ex_c xc0 ex_full_ops [] (f_new ex_c xc0) with
  | Some (h, f) => num_levels (fd_lsm f) = 3%nat /\ length h = 7%nat /\ length (d_tab (fd_db f)) = 6%nat /\
      map (fun k => ex_val (f_get xhash xpart ex_c xc0 [k] f)) [1; 2; 3; 4] = [Some [13]; None; Some [30]; None]
  | None => False
  end.
Proof. vm_compute. repeat split. Qed.
Example ex_full_reach : exists h f, freach xhash xpart ex_c xc0 h f /\ bf_safe xc0 h /\ spec_get h [1] = Ok (ex_rec 7 1 13).
Proof.
  destruct (frun xhash xpart ex_c xc0 ex_full_ops [] (f_new ex_c xc0)) as [[h f]|] eqn:E; [|vm_compute in E; discriminate].
  exists h, f. split.
  - eapply frun_reach; [apply fr_new| |exact E]. intros o Ho. cbn [ex_full_ops In] in Ho.
    repeat (destruct Ho as [Ho|Ho]; [try discriminate Ho; injection Ho as <-; cbn; try exact I; try reflexivity; intros; reflexivity|]). destruct Ho.
  - vm_compute in E. injection E as <- <-. split; [now left|reflexivity].
Qed.
