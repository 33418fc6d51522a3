(** What a caller of groups may do and expects; in terms of the handles it holds. *)
From Coq Require Import Arith List Bool.
Import ListNotations.
From Verif Require Import GroupLifeModel.
Local Open Scope nat_scope.

Definition is_group (h : handle) : bool := match h with HG _ _ => true | _ => false end.
Definition is_named (h : handle) : bool := match h with HN _ _ => true | _ => false end.
Definition is_direct (h : handle) : bool := match h with HO _ => true | _ => false end.
Definition count (f : handle -> bool) (l : list handle) : nat := length (filter f l).

(** The order a careful caller keeps: the last handle of the group is closed after the handles of
    the named databases; DB::open is not called while a handle of the group is open. *)
Definition careful_act (a : act) (held : list handle) : bool :=
  match a with
  | GClose _ _ => (2 <=? count is_group held) || (count is_named held =? 0)
  | DOpen => count is_group held =? 0
  | _ => true
  end.
Fixpoint careful (lg : bool) (l : list act) (s : st) : bool :=
  match l with
  | [] => true
  | a :: l' => careful_act a (s_held s) && match step lg a s with Some s' => careful lg l' s' | None => true end
  end.
