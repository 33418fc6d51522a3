(** Model of the merging iterators: LogMgr::Iterator (src/log_iterator.cc), TableMgr::Iterator
    (src/table_iterator.cc) and Iterator (src/iterator.cc) contain the same algorithm; it is
    modelled once, over arbitrary sources, and instantiated three times.  Custom comparison
    functions and corrupted tables (fatalError) are not modelled. *)
From Coq Require Import List NArith Bool Arith.
From Verif Require Import Base LogFormatModel KeyModel.
Import ListNotations.
Local Open Scope N_scope.

(** src/log_mgr.h:300-303, the two kinds of iterators. *)
Inductive itype := ByKey | BySeq.

(** The comparison of lastRec.kv.key or lastRec.seqNum (src/log_iterator.cc:262-265, 340-343;
    src/log_iterator.cc:553-562, cmpSizedBuf). *)
Definition cmpr (ty : itype) (a b : rec) : comparison :=
  match ty with ByKey => kcmp (r_key a) (r_key b) | BySeq => r_seq a ?= r_seq b end.

(** src/log_mgr.h:311-346, src/table_mgr.h:372-410, src/db_internal.h:216-256: ItrItem::cmpSeq and
    cmpKey.  By key, the higher sequence number comes first.  Items that are equal in both are
    distinguished by their address in the table iterator (reversed, by key) and by their kind in
    the outer iterator; by a number here. *)
Definition wlt (ty : itype) (a : rec) (i : nat) (b : rec) (j : nat) : bool :=
  match cmpr ty a b with
  | Lt => true
  | Gt => false
  | Eq => match ty with
          | ByKey => match r_seq b ?= r_seq a with Lt => true | Gt => false | Eq => Nat.ltb j i end
          | BySeq => Nat.ltb i j
          end
  end.

Section Merge.
(** A source: LogFile::Iterator, TableFile::Iterator, or one of the two inner merging iterators.
    The operations return the source after the call and whether it succeeded; [None] stands for
    a call that does not return. *)
Variable S : Type.
Variable s_get : S -> rec.
Variable s_next s_prev : S -> option (S * bool).
Variable s_seek : bool -> rec -> S -> option (S * bool).   (* true: GREATER; key or number of the record *)
Variable s_end : S -> option (S * bool).
Variable ty : itype.

(** src/log_mgr.h:304-310 and 347-351, ItrItem; lastRec is always [s_get] of the source: it is read
    again after each successful move (lines 275, 352, 487), and a failed one does not move. *)
Record item := mkI { i_id : nat; i_src : S; i_np : bool; i_nn : bool }.
Definition i_rec (it : item) : rec := s_get (i_src it).

(** avl_insert into curWindow: the window in order. *)
Fixpoint w_insert (x : item) (w : list item) : list item :=
  match w with
  | [] => [x]
  | y :: w' => if wlt ty (i_rec x) (i_id x) (i_rec y) (i_id y) then x :: w else y :: w_insert x w'
  end.

(** The iterator: curWindow and windowCursor (the number of its item). *)
Record mit := mkM { m_win : list item; m_cur : nat }.
Definition cur_item (m : mit) : option item := find (fun it => Nat.eqb (i_id it) (m_cur m)) (m_win m).

Definition is_gt (c : comparison) : bool := match c with Gt => true | _ => false end.
Definition is_lt (c : comparison) : bool := match c with Lt => true | _ => false end.
Definition is_eq (c : comparison) : bool := match c with Eq => true | _ => false end.

(** src/log_iterator.cc:330-364 (src/table_iterator.cc:284-322, src/iterator.cc:299-343): the
    first loop of next() up to the first item that moves ([true]), or to its end ([false]).
    [past] are the items already visited. *)
Fixpoint pass_next (cur : rec) (past rest : list item) : option (list item * bool) :=
  match rest with
  | [] => Some (past, false)
  | it :: rest' =>
      if i_nn it then pass_next cur (past ++ [it]) rest'
      else if is_gt (cmpr ty (i_rec it) cur) then Some (past ++ rest, false)
      else match s_next (i_src it) with
           | None => None
           | Some (s', true) => Some (w_insert (mkI (i_id it) s' false false) (past ++ rest'), true)
           | Some (s', false) => pass_next cur (past ++ [mkI (i_id it) s' (i_np it) true]) rest'
           end
  end.
Fixpoint adv_next (fuel : nat) (cur : rec) (w : list item) : option (list item) :=
  match fuel with
  | O => None
  | Datatypes.S f => match pass_next cur [] w with
                     | None => None
                     | Some (w', true) => adv_next f cur w'
                     | Some (w', false) => Some w'
                     end
  end.

(** src/log_iterator.cc:366-385 with checkValidBySeq / checkValidByKey (lines 565-596). *)
Definition choose_next (cur : rec) (w : list item) : option item :=
  find (fun it => negb (i_nn it) && negb (is_eq (cmpr ty (i_rec it) cur))) w.

(** src/log_iterator.cc:412-444, moveToLastValid, over the reversed window. *)
Fixpoint last_valid (rw : list item) : option item :=
  match rw with
  | [] => None
  | it :: rest =>
      match ty, rest with
      | ByKey, p :: _ => if is_eq (cmpr ty (i_rec it) (i_rec p)) then last_valid rest else Some it
      | _, _ => Some it
      end
  end.

(** src/log_iterator.cc:321-389, next(): [false] for OUT_OF_RANGE. *)
Definition m_next (m : mit) : option (mit * bool) :=
  match cur_item m with
  | None => None
  | Some ci =>
      let cur := i_rec ci in
      match adv_next (Datatypes.S (length (m_win m))) cur (m_win m) with
      | None => None
      | Some w => match choose_next cur w with
                  | Some it => Some (mkM w (i_id it), true)
                  | None => match last_valid (rev w) with
                            | Some it => Some (mkM w (i_id it), false)
                            | None => None
                            end
                  end
      end
  end.

(** src/log_iterator.cc:252-289, the first loop of prev(), over the reversed window. *)
Fixpoint pass_prev (cur : rec) (past rest : list item) : option (list item * bool) :=
  match rest with
  | [] => Some (rev past, false)
  | it :: rest' =>
      if i_np it then pass_prev cur (past ++ [it]) rest'
      else if is_lt (cmpr ty (i_rec it) cur) then Some (rev (past ++ rest), false)
      else match s_prev (i_src it) with
           | None => None
           | Some (s', true) => Some (w_insert (mkI (i_id it) s' false false) (rev (past ++ rest')), true)
           | Some (s', false) => pass_prev cur (past ++ [mkI (i_id it) s' true (i_nn it)]) rest'
           end
  end.
Fixpoint adv_prev (fuel : nat) (cur : rec) (w : list item) : option (list item) :=
  match fuel with
  | O => None
  | Datatypes.S f => match pass_prev cur [] (rev w) with
                     | None => None
                     | Some (w', true) => adv_prev f cur w'
                     | Some (w', false) => Some w'
                     end
  end.

(** src/log_iterator.cc:291-310, over the reversed window; [lv] is last_valid_item. *)
Definition valid_prev (cur : rec) (it : item) : bool := negb (i_np it) && negb (is_eq (cmpr ty (i_rec it) cur)).
Fixpoint choose_prev (cur : rec) (lv : option item) (rw : list item) : option item :=
  match rw with
  | [] => lv
  | it :: rest =>
      match ty with
      | BySeq => if valid_prev cur it then Some it else choose_prev cur lv rest
      | ByKey =>
          match lv with
          | Some v => if is_lt (cmpr ty (i_rec it) (i_rec v)) then lv
                      else choose_prev cur (if valid_prev cur it then Some it else lv) rest
          | None => choose_prev cur (if valid_prev cur it then Some it else lv) rest
          end
      end
  end.

(** src/log_iterator.cc:244-319, prev(). *)
Definition m_prev (m : mit) : option (mit * bool) :=
  match cur_item m with
  | None => None
  | Some ci =>
      let cur := i_rec ci in
      match adv_prev (Datatypes.S (length (m_win m))) cur (m_win m) with
      | None => None
      | Some w => match choose_prev cur None (rev w) with
                  | Some it => Some (mkM w (i_id it), true)
                  | None => match w with
                            | it :: _ => Some (mkM w (i_id it), false)
                            | [] => None
                            end
                  end
      end
  end.

(** src/log_iterator.cc:463-518, the loop of seekInternal over the items: [greater] is the
    option, [end_] is goto_end. *)
Fixpoint seek_items (greater end_ : bool) (t : rec) (its : list item) (w : list item) : option (list item) :=
  match its with
  | [] => Some w
  | it :: its' =>
      match (if end_ then s_end (i_src it) else s_seek greater t (i_src it)) with
      | None => None
      | Some (s', ok) =>
          let c := if end_ then Lt else cmpr ty (s_get s') t in
          let it' := if ok
                     then mkI (i_id it) s' (negb greater && is_gt c) (greater && is_lt c)
                     else mkI (i_id it) s' true true in
          seek_items greater end_ t its' (w_insert it' w)
      end
  end.

(** src/log_iterator.cc:446-551, seekInternal; always reports success. *)
Definition m_seek (greater end_ : bool) (t : rec) (m : mit) : option (mit * bool) :=
  match seek_items greater end_ t (m_win m) [] with
  | None => None
  | Some w =>
      let c := if greater
               then match find (fun it => negb (i_np it) && negb (i_nn it)) w with
                    | Some it => Some it
                    | None => match rev w with it :: _ => Some it | [] => None end
                    end
               else last_valid (rev w) in
      match c with Some it => Some (mkM w (i_id it), true) | None => None end
  end.

(** src/log_iterator.cc:37-57 and 205-206 (src/table_iterator.cc:38-66 and 166-167): the iterator
    over sources that have a first record; [None] if there is none. *)
Definition m_init (srcs : list (nat * S)) : option mit :=
  match fold_left (fun w s => w_insert (mkI (fst s) (snd s) false false) w) srcs [] with
  | [] => None
  | (it :: _) as w => Some (mkM w (i_id it))
  end.
Definition m_get (m : mit) : rec := match cur_item m with Some it => i_rec it | None => mkRec 0 INS [] [] [] end.
End Merge.
