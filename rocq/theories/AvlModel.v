(** The balanced tree of src/avltree.cc, pointer by pointer.

    The iterators keep their sources in such a tree (iterator.cc, log_iterator.cc, table_iterator.cc:
    [curWindow]).  A node is a number, 0 is the null pointer; the memory gives each node its fields.
    The parent word holds the parent pointer and, in its two lowest bits, the balance factor plus 1
    (avltree.h:52-59); here these are two fields, and storing a balance factor that does not fit the
    two bits (it would spoil the pointer) is undefined ([None]), as is following a null pointer and
    running out of fuel in a loop. *)
From Coq Require Import ZArith Arith List Bool.
Import ListNotations.
Local Open Scope nat_scope.

Section Avl.
(** The caller's comparison function (avl_cmp_func, avltree.h:61-64) on what the entries hold. *)
Variable A : Type.
Variable cmp : A -> A -> comparison.

(** struct avl_node (avltree.h:31-40) of every node, what its entry holds, and tree->root. *)
Record heap := mkH { h_par : nat -> nat; h_lft : nat -> nat; h_rgt : nat -> nat; h_bf : nat -> Z; h_key : nat -> A; h_root : nat }.

Definition upd {B} (f : nat -> B) (x : nat) (v : B) : nat -> B := fun y => if y =? x then v else f y.

(** Stores.  avl_set_parent keeps the two low bits (avltree.cc:39-43); avl_set_bf keeps the pointer if
    bf + 1 fits two bits (60-70). *)
Definition set_par (x v : nat) (h : heap) : heap := mkH (upd (h_par h) x v) (h_lft h) (h_rgt h) (h_bf h) (h_key h) (h_root h).
Definition set_lft (x v : nat) (h : heap) : heap := mkH (h_par h) (upd (h_lft h) x v) (h_rgt h) (h_bf h) (h_key h) (h_root h).
Definition set_rgt (x v : nat) (h : heap) : heap := mkH (h_par h) (h_lft h) (upd (h_rgt h) x v) (h_bf h) (h_key h) (h_root h).
Definition put_bf (x : nat) (v : Z) (h : heap) : heap := mkH (h_par h) (h_lft h) (h_rgt h) (upd (h_bf h) x v) (h_key h) (h_root h).
Definition set_root (v : nat) (h : heap) : heap := mkH (h_par h) (h_lft h) (h_rgt h) (h_bf h) (h_key h) v.
Definition set_key (x : nat) (v : A) (h : heap) : heap := mkH (h_par h) (h_lft h) (h_rgt h) (h_bf h) (upd (h_key h) x v) (h_root h).
Definition set_bf (x : nat) (v : Z) (h : heap) : option heap := if ((-1 <=? v) && (v <=? 2))%Z then Some (put_bf x v h) else None.

(** if (p) avl_set_parent(p, v) *)
Definition set_par_if (p v : nat) (h : heap) : heap := if p =? 0 then h else set_par p v h.

Definition one_if (p : nat) : Z := if p =? 0 then 0%Z else 1%Z.

(** _rotate_LL, avltree.cc:72-110.  Returns the memory, the new top, *child_bf and *height_delta. *)
Definition rotate_LL (h : heap) (parent : nat) (parent_bf child_bf : Z) : option (heap * nat * Z * Z) :=
  let child := h_lft h parent in
  if child =? 0 then None else
  let '(c_left, c_right, p_right, hd) :=
    (if child_bf <? 0 then
       let c_right := one_if (h_rgt h child) in
       let c_left := c_right - child_bf in
       let p_right := c_left + 1 + parent_bf in
       (c_left, c_right, p_right, Z.max c_left (Z.max c_right p_right + 1) - (c_left + 1))
     else
       let c_left := one_if (h_lft h child) in
       let c_right := c_left + child_bf in
       let p_right := c_right + 1 + parent_bf in
       (c_left, c_right, p_right, Z.max c_left (Z.max c_right p_right + 1) - (c_right + 1)))%Z in
  match set_bf parent (p_right - c_right)%Z h with
  | None => None
  | Some h1 =>
    let cr := h_rgt h1 child in
    let h2 := set_par_if cr parent (set_lft parent cr h1) in
    let h3 := set_rgt child parent h2 in
    let h4 := set_par child (h_par h3 parent) h3 in
    Some (set_par parent child h4, child, ((Z.max c_right p_right + 1) - c_left)%Z, hd)
  end.

(** _rotate_RR, avltree.cc:112-151. *)
Definition rotate_RR (h : heap) (parent : nat) (parent_bf child_bf : Z) : option (heap * nat * Z * Z) :=
  let child := h_rgt h parent in
  if child =? 0 then None else
  let '(c_left, c_right, p_left, hd) :=
    (if child_bf <? 0 then
       let c_right := one_if (h_rgt h child) in
       let c_left := c_right - child_bf in
       let p_left := c_left + 1 - parent_bf in
       (c_left, c_right, p_left, Z.max c_right (Z.max c_left p_left + 1) - (c_left + 1))
     else
       let c_left := one_if (h_lft h child) in
       let c_right := c_left + child_bf in
       let p_left := c_right + 1 - parent_bf in
       (c_left, c_right, p_left, Z.max c_right (Z.max c_left p_left + 1) - (c_right + 1)))%Z in
  match set_bf parent (c_left - p_left)%Z h with
  | None => None
  | Some h1 =>
    let cl := h_lft h1 child in
    let h2 := set_par_if cl parent (set_rgt parent cl h1) in
    let h3 := set_lft child parent h2 in
    let h4 := set_par child (h_par h3 parent) h3 in
    Some (set_par parent child h4, child, (c_right - (Z.max c_left p_left + 1))%Z, hd)
  end.

(** _rotate_LR, avltree.cc:153-169. *)
Definition rotate_LR (h : heap) (parent : nat) (parent_bf : Z) : option (heap * nat) :=
  let child := h_lft h parent in
  if child =? 0 then None else
  let inner :=
    if h_rgt h child =? 0 then Some (h, h_bf h child, 0%Z)
    else match rotate_RR h child (h_bf h child) (h_bf h (h_rgt h child)) with
         | None => None
         | Some (h1, top, cb, hd) => Some (set_lft parent top h1, cb, hd)
         end in
  match inner with
  | None => None
  | Some (h1, cb, hd) =>
    match rotate_LL h1 parent (parent_bf - hd)%Z cb with
    | None => None
    | Some (h2, ret, cb2, _) => match set_bf ret cb2 h2 with None => None | Some h3 => Some (h3, ret) end
    end
  end.

(** _rotate_RL, avltree.cc:171-187. *)
Definition rotate_RL (h : heap) (parent : nat) (parent_bf : Z) : option (heap * nat) :=
  let child := h_rgt h parent in
  if child =? 0 then None else
  let inner :=
    if h_lft h child =? 0 then Some (h, h_bf h child, 0%Z)
    else match rotate_LL h child (h_bf h child) (h_bf h (h_lft h child)) with
         | None => None
         | Some (h1, top, cb, hd) => Some (set_rgt parent top h1, cb, hd)
         end in
  match inner with
  | None => None
  | Some (h1, cb, hd) =>
    match rotate_RR h1 parent (parent_bf + hd)%Z cb with
    | None => None
    | Some (h2, ret, cb2, _) => match set_bf ret cb2 h2 with None => None | Some h3 => Some (h3, ret) end
    end
  end.

(** _get_balance, avltree.cc:189. *)
Definition get_balance (h : heap) (x : nat) : Z := if x =? 0 then 0%Z else h_bf h x.

(** _balance_tree, avltree.cc:191-225. *)
Definition balance (h : heap) (node : nat) (bf : Z) : option (heap * nat) :=
  if node =? 0 then Some (h, node) else
  let diff := (get_balance h node + bf)%Z in
  if ((diff <? -1)%Z && negb (h_lft h node =? 0)) then
    if (get_balance h (h_lft h node) <=? 0)%Z then
      match rotate_LL h node diff (h_bf h (h_lft h node)) with
      | None => None
      | Some (h1, top, cb, _) => match set_bf top cb h1 with None => None | Some h2 => Some (h2, top) end
      end
    else rotate_LR h node diff
  else if ((1 <? diff)%Z && negb (h_rgt h node =? 0)) then
    if (0 <=? get_balance h (h_rgt h node))%Z then
      match rotate_RR h node diff (h_bf h (h_rgt h node)) with
      | None => None
      | Some (h1, top, cb, _) => match set_bf top cb h1 with None => None | Some h2 => Some (h2, top) end
      end
    else rotate_RL h node diff
  else match set_bf node (h_bf h node + bf)%Z h with None => None | Some h1 => Some (h1, node) end.

(** The loops "scan from leaf to root": avl_insert 495-535 ([ins = true]) and avl_remove 629-667
    ([ins = false]); they differ in the signs and in the comparison of the balance factors. *)
Fixpoint up (ins : bool) (fuel : nat) (h : heap) (node : nat) (bf : Z) : option heap :=
  match fuel with
  | O => None
  | S f =>
    if node =? 0 then Some h else
    let p := h_par h node in
    if negb (p =? 0) then
      let bf_old := h_bf h node in
      let right := h_rgt h p =? node in
      match balance h node bf with
      | None => None
      | Some (h1, n1) =>
        let h2 := if right then set_rgt p n1 h1 else set_lft p n1 h1 in
        let left_bf := if ins then (-1)%Z else 1%Z in
        let side := if h_lft h2 p =? n1 then left_bf else (- left_bf)%Z in
        let bf' := if (h_lft h2 n1 =? 0) && (h_rgt h2 n1 =? 0) then side
                   else if (if ins then Z.abs bf_old <? Z.abs (h_bf h2 n1) else Z.abs (h_bf h2 n1) <? Z.abs bf_old)%Z then side
                   else 0%Z in
        if (bf' =? 0)%Z then Some h2 else up ins f h2 p bf'
      end
    else if node =? h_root h then
      match balance h (h_root h) bf with None => None | Some (h1, n1) => Some (set_root n1 h1) end
    else if (bf =? 0)%Z then Some h else up ins f h p bf
  end.

(** while (node) { p = node; node = node->left; } return p;  -- avl_first 227-237, avl_next 262-269. *)
Fixpoint leftmost (fuel : nat) (h : heap) (p node : nat) : option nat :=
  match fuel with O => None | S f => if node =? 0 then Some p else leftmost f h node (h_lft h node) end.
(** avl_last 239-249, avl_prev 300-307. *)
Fixpoint rightmost (fuel : nat) (h : heap) (p node : nat) : option nat :=
  match fuel with O => None | S f => if node =? 0 then Some p else rightmost f h node (h_rgt h node) end.

Definition avl_first (fuel : nat) (h : heap) : option nat := leftmost fuel h 0 (h_root h).
Definition avl_last (fuel : nat) (h : heap) : option nat := rightmost fuel h 0 (h_root h).

(** avl_next 272-283: the first ancestor of which [p] is in the left subtree. *)
Fixpoint climb_next (fuel : nat) (h : heap) (p node : nat) : option nat :=
  match fuel with O => None | S f => if node =? 0 then Some 0 else if h_lft h node =? p then Some node else climb_next f h node (h_par h node) end.
(** avl_prev 310-321. *)
Fixpoint climb_prev (fuel : nat) (h : heap) (p node : nat) : option nat :=
  match fuel with O => None | S f => if node =? 0 then Some 0 else if h_rgt h node =? p then Some node else climb_prev f h node (h_par h node) end.

(** avl_next, 251-287; avl_prev, 289-325 (without _AVL_NEXT_POINTER, which the build does not define). *)
Definition avl_next (fuel : nat) (h : heap) (node : nat) : option nat :=
  if node =? 0 then Some 0 else
  if negb (h_rgt h node =? 0) then leftmost fuel h node (h_rgt h node) else climb_next fuel h node (h_par h node).
Definition avl_prev (fuel : nat) (h : heap) (node : nat) : option nat :=
  if node =? 0 then Some 0 else
  if negb (h_lft h node =? 0) then rightmost fuel h node (h_lft h node) else climb_prev fuel h node (h_par h node).

(** The descent of avl_search (327-349), avl_search_greater (351-386), avl_search_smaller (388-423) and
    avl_insert (446-460): the node with an equal key, or the last node visited. *)
Fixpoint descend (fuel : nat) (h : heap) (k : A) (pp p : nat) : option (nat + nat) :=
  match fuel with
  | O => None
  | S f => if p =? 0 then Some (inr pp) else
           match cmp (h_key h p) k with
           | Gt => descend f h k p (h_lft h p)
           | Lt => descend f h k p (h_rgt h p)
           | Eq => Some (inl p)
           end
  end.

Definition avl_search (fuel : nat) (h : heap) (k : A) : option nat :=
  match descend fuel h k 0 (h_root h) with None => None | Some (inl p) => Some p | Some (inr _) => Some 0 end.

Definition avl_search_greater (fuel : nat) (h : heap) (k : A) : option nat :=
  match descend fuel h k 0 (h_root h) with
  | None => None
  | Some (inl p) => Some p
  | Some (inr pp) => if pp =? 0 then Some pp else
      match cmp (h_key h pp) k with Gt => Some pp | _ => avl_next fuel h pp end
  end.

Definition avl_search_smaller (fuel : nat) (h : heap) (k : A) : option nat :=
  match descend fuel h k 0 (h_root h) with
  | None => None
  | Some (inl p) => Some p
  | Some (inr pp) => if pp =? 0 then Some pp else
      match cmp (h_key h pp) k with Lt => Some pp | _ => avl_prev fuel h pp end
  end.

(** avl_insert, avltree.cc:436-540: the memory and the node returned.  The caller has filled the entry
    of [node] with [k] before. *)
Definition avl_insert (fuel : nat) (h0 : heap) (node : nat) (k : A) : option (heap * nat) :=
  let h := set_key node k h0 in
  match descend fuel h k 0 (h_root h) with
  | None => None
  | Some (inl cur) => Some (h, cur)
  | Some (inr p) =>
    match set_bf node 0%Z (set_par node p h) with
    | None => None
    | Some h1 =>
      let h2 := set_rgt node 0 (set_lft node 0 h1) in
      let h3 := if negb (p =? 0) then match cmp (h_key h2 p) k with Gt => set_lft p node h2 | _ => set_rgt p node h2 end
                else set_root node h2 in
      match up true fuel h3 node 0%Z with None => None | Some h4 => Some (h4, node) end
    end
  end.

(** avl_remove, avltree.cc:542-670. *)
Definition avl_remove (fuel : nat) (h : heap) (node : nat) : option heap :=
  if node =? 0 then Some h else
  match leftmost fuel h 0 (h_rgt h node) with
  | None => None
  | Some next =>
    if negb (next =? 0) then
      let h1 := if negb (h_par h next =? 0) && negb (h_par h next =? node)
                then set_par_if (h_rgt h next) (h_par h next) (set_lft (h_par h next) (h_rgt h next) h) else h in
      let h2 := if negb (h_par h1 node =? 0)
                then (if h_lft h1 (h_par h1 node) =? node then set_lft (h_par h1 node) next h1 else set_rgt (h_par h1 node) next h1)
                else h1 in
      let '(h3, cur, bf) :=
        if negb (h_rgt h2 node =? next)
        then (set_par_if (h_rgt h2 node) next (set_rgt next (h_rgt h2 node) h2), h_par h2 next, 1%Z)
        else (h2, next, (-1)%Z) in
      let h4 := set_par_if (h_lft h3 node) next (set_lft next (h_lft h3 node) h3) in
      let h5 := set_par next (h_par h4 node) h4 in
      match set_bf next (h_bf h5 node) h5 with
      | None => None
      | Some h6 => up false fuel (if h_root h6 =? node then set_root next h6 else h6) cur bf
      end
    else
      let p := h_par h node in
      let '(h1, bf) :=
        if negb (p =? 0)
        then (if h_lft h p =? node then (set_lft p (h_lft h node) h, 1%Z) else (set_rgt p (h_lft h node) h, (-1)%Z))
        else (h, 0%Z) in
      let h2 := set_par_if (h_lft h1 node) p h1 in
      let cur := h_par h2 node in
      up false fuel (if h_root h2 =? node then set_root (if negb (h_lft h2 node =? 0) then h_lft h2 node else 0) h2 else h2) cur bf
  end.

(** Calls on one tree. *)
Inductive op := Ins (x : nat) (k : A) | Rem (x : nat).
Definition do1 (fuel : nat) (o : op) (h : heap) : option heap :=
  match o with
  | Ins x k => match avl_insert fuel h x k with Some (h', _) => Some h' | None => None end
  | Rem x => avl_remove fuel h x
  end.
Fixpoint run (fuel : nat) (os : list op) (h : heap) : option heap :=
  match os with [] => Some h | o :: os' => match do1 fuel o h with Some h' => run fuel os' h' | None => None end end.

(** avl_init, 425-429: only the root is set; the rest of the memory is arbitrary. *)
Definition avl_init (h : heap) : heap := set_root 0 h.

(** What an iterator that starts at [x] and calls avl_next (avl_prev) until null visits. *)
Fixpoint walk (fuel : nat) (nxt : nat -> option nat) (x : nat) : option (list nat) :=
  match fuel with
  | O => None
  | S f => if x =? 0 then Some [] else
           match nxt x with None => None | Some y => match walk f nxt y with None => None | Some l => Some (x :: l) end end
  end.
Definition forwards (steps fuel : nat) (h : heap) : option (list nat) :=
  match avl_first fuel h with None => None | Some x => walk steps (avl_next fuel h) x end.
Definition backwards (steps fuel : nat) (h : heap) : option (list nat) :=
  match avl_last fuel h with None => None | Some x => walk steps (avl_prev fuel h) x end.
End Avl.
