(** The references a snapshot takes on log files: src/log_mgr.cc:385-450, openSnapshot, and
    452-474, closeSnapshot, while other threads remove log files.

    Simplifications: a log file is its number; getLogFileInfo and getLogFileInfoSnapshot differ only
    in the counter they use and are one step here (RefCountModel.v has the steps inside). *)
From Verif Require Import Base.
From Coq Require Import ZArith.

(** What ended one pass of the loop at 403-445. *)
Inductive stop :=
| AllGot                 (* 445 *)
| Gone                   (* 417: the next file is not in the manifest any more *)
| Marked (f : nat).      (* 417: it is, but is being removed *)
(** One pass: the files it got, in order, and how it ended. *)
Record pass := mkPass { p_got : list nat; p_stop : stop }.

(** +1 is a reference taken (77-78, 111-112 of src/log_manifest.h), -1 one released. *)
Definition ref_ev := (nat * Z)%type.
Definition takes (l : list nat) : list ref_ev := map (fun f => (f, 1%Z)) l.
Definition gives (l : list nat) : list ref_ev := map (fun f => (f, (-1)%Z)) l.

(** The loop.  [acc] is *l_list, which no pass clears. *)
Fixpoint open_loop (ps : list pass) (acc : list nat) : option (list ref_ev * list nat) :=
  match ps with
  | [] => None                              (* still retrying *)
  | p :: ps' =>
      let acc1 := acc ++ p_got p in
      match p_stop p with
      | AllGot => Some (takes (p_got p), acc1)
      | Gone => match open_loop ps' acc1 with                                     (* 417-426, 436-444 *)
                | Some (evs, l) => Some (takes (p_got p) ++ gives acc1 ++ evs, l)
                | None => None
                end
      | Marked f => match open_loop ps' acc1 with                                 (* and 427-434 *)
                    | Some (evs, l) => Some (takes (p_got p ++ [f]) ++ gives (acc1 ++ [f]) ++ evs, l)
                    | None => None
                    end
      end
  end.
Definition open_snap_refs (ps : list pass) : option (list ref_ev * list nat) := open_loop ps [].
(** 464-472. *)
Definition close_snap_refs (l : list nat) : list ref_ev := gives l.

(** References of [f] that the snapshot holds after [evs]. *)
Definition held (f : nat) (evs : list ref_ev) : Z :=
  fold_right (fun e n => (if Nat.eqb (fst e) f then snd e else 0%Z) + n)%Z 0%Z evs.
