(** Model of a lookup in the tables that runs concurrently with flushes and compactions:
    src/table_mgr.cc:559-656 cut into the steps between which other threads can run.

    The steps: reading the number of levels (line 570); per level, getting the list of tables,
    which are grabbed and stay readable until they are released even if they are removed
    (line 574); then choosing the smallest normal table by the current states of the tables and
    reading the tables (lines 577-645).  The last group is one step here.  Every operation of
    LsmModel.v is one step of another thread; a reload is not possible while the database is
    open. *)
From Coq Require Import List NArith Bool Lia Arith.
From Verif Require Import Base LogFormatModel KeyModel BloomModel MemTableModel LsmModel.
Import ListNotations.
Local Open Scope N_scope.

Section Hash.
Variable hash : key -> N * N.
Variable part : key -> N.

(** src/table_mgr.cc:577-645: as [level_get] of LsmModel.v, for the tables [ts] obtained before. *)
Definition level_read (c : tcfg) (k : key) (lv : nat) (ts : list tbl) : option rec + option st :=
  let rest skip := match search hash c k skip ts None with
                   | inl l => inl (if rec_empty l then None else l)
                   | inr e => inr e
                   end in
  match lv with
  | O => match smallest_normal ts with
         | Some t => match tf_get hash c k t with
                     | Ok r => inl (Some r)
                     | Fail KEY_NOT_FOUND => rest (Some (b_num t))
                     | Fail e => inr (Some e)
                     | Undef => inr None
                     end
         | None => rest None
         end
  | S _ => rest None
  end.

(** The state of the lookup: before line 570; before line 572 with level [i] of [n] next; after
    line 574 with the tables of level [i]; returned. *)
Inductive rdst :=
| RStart
| RLevel (n i : nat)
| RListed (n i : nat) (ts : list tbl)
| RDone (g : got).

(** One step of the lookup. *)
Definition rstep (c : tcfg) (k : key) (s : lsm) (rd : rdst) : rdst :=
  match rd with
  | RStart => RLevel (num_levels s) 0
  | RLevel n i => if Nat.ltb i n then RListed n i (tables_point part i k s) else RDone (GotErr KEY_NOT_FOUND)
  | RListed n i ts =>
      match level_read c k i ts with
      | inl (Some r) => if rec_empty (Some r) then RDone (GotErr KEY_NOT_FOUND) else RDone (Got r)
      | inl None => RLevel n (S i)
      | inr (Some e) => RDone (GotErr e)
      | inr None => RDone GotNothing
      end
  | RDone g => RDone g
  end.

(** What a grabbed table of level [i] looks like now: its current contents and state (TableInfo is
    shared, src/table_manifest.h:43-130); a table that is no longer in the level stays as it was
    last.  (After a migration to a new level, which makes a new TableInfo for the same file, later
    changes of the file are not shown.) *)
Definition refresh (i : nat) (s : lsm) (t : tbl) : tbl :=
  match tbl_at (b_num t) (level i s) with
  | Some u => u
  | None => t
  end.
Definition rrefresh (s : lsm) (rd : rdst) : rdst :=
  match rd with RListed n i ts => RListed n i (map (refresh i s) ts) | _ => rd end.

End Hash.
