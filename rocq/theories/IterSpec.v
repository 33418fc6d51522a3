(** What a user may expect of an iterator: a cursor over a sorted list of records. *)
From Verif Require Import Base LogFormatModel KeyModel IterModel.
Local Open Scope nat_scope.

(** The calls: next(), prev(), seek(.., GREATER), seek(.., SMALLER) - with the key (or the number)
    of a record - and gotoEnd().  gotoBegin() by key is seek("", GREATER). *)
Inductive move := Next | Prev | SeekG (t : rec) | SeekS (t : rec) | ToEnd.

(** Where the cursor is: at a record, or outside. *)
Inductive cpos := Before | At (i : nat) | After.
Definition at_pos (l : list rec) (p : cpos) : option rec := match p with At i => nth_error l i | _ => None end.

(** [a] is not above [b]. *)
Definition rle (ty : itype) (a b : rec) : Prop := cmpr ty a b <> Gt.

(** One call on the list [l]: from, call, success, to.  When there is nothing in the direction of
    the call, next() and prev() fail, and the cursor stays or leaves the list. *)
Inductive cstep (ty : itype) (l : list rec) : cpos -> move -> bool -> cpos -> Prop :=
| c_next : forall i, S i < length l -> cstep ty l (At i) Next true (At (S i))
| c_next_stay : forall i, S i = length l -> cstep ty l (At i) Next false (At i)
| c_next_off : forall i, S i = length l -> cstep ty l (At i) Next false After
| c_next_in : l <> [] -> cstep ty l Before Next true (At 0)
| c_next_none : forall p, l = [] -> cstep ty l Before Next false p
| c_next_after : cstep ty l After Next false After
| c_prev : forall i, S i < length l -> cstep ty l (At (S i)) Prev true (At i)
| c_prev_stay : cstep ty l (At 0) Prev false (At 0)
| c_prev_off : cstep ty l (At 0) Prev false Before
| c_prev_in : forall i, S i = length l -> cstep ty l After Prev true (At i)
| c_prev_none : forall p, l = [] -> cstep ty l After Prev false p
| c_prev_before : cstep ty l Before Prev false Before
| c_seek_g : forall p t i r, nth_error l i = Some r -> rle ty t r -> (forall x, In x l -> rle ty t x -> rle ty r x) -> cstep ty l p (SeekG t) true (At i)
| c_seek_g_none : forall p t i, (forall x, In x l -> ~ rle ty t x) -> S i = length l -> cstep ty l p (SeekG t) true (At i)
| c_seek_g_off : forall p t, (forall x, In x l -> ~ rle ty t x) -> cstep ty l p (SeekG t) true After
| c_seek_s : forall p t i r, nth_error l i = Some r -> rle ty r t -> (forall x, In x l -> rle ty x t -> rle ty x r) -> cstep ty l p (SeekS t) true (At i)
| c_seek_s_off : forall p t, (forall x, In x l -> ~ rle ty x t) -> cstep ty l p (SeekS t) true Before
| c_end : forall p i, S i = length l -> cstep ty l p ToEnd true (At i)
| c_end_none : forall p q, l = [] -> cstep ty l p ToEnd true q.

(** Several calls: the success of each, and the record the cursor is at afterwards. *)
Inductive ctrace (ty : itype) (l : list rec) : cpos -> list move -> list (bool * option rec) -> Prop :=
| ct_nil : forall p, ctrace ty l p [] []
| ct_cons : forall p m b p' ms out, cstep ty l p m b p' -> (forall i, p' = At i -> i < length l) -> ctrace ty l p' ms out ->
    ctrace ty l p (m :: ms) ((b, at_pos l p') :: out).

(** The calls between two seeks go in one direction: forward after seek(GREATER) (and after the
    iterator was opened), backward after seek(SMALLER) and gotoEnd(). *)
Fixpoint one_direction (forward : bool) (ms : list move) : bool :=
  match ms with
  | [] => true
  | Next :: ms' => forward && one_direction forward ms'
  | Prev :: ms' => negb forward && one_direction forward ms'
  | SeekG _ :: ms' => one_direction true ms'
  | SeekS _ :: ms' | ToEnd :: ms' => one_direction false ms'
  end.
