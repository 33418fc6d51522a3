(** SizedBuf, the buffer of keys, values and metadata in the API, and Record, which consists of three
    of them (include/libjungle/sized_buf.h, keyvalue.h, record.h): who owns which memory.

    Memory is a list of blocks with unique numbers; a pointer is the number of a block (pointers into
    the middle of a block are left out, and so are failing allocations).  Variables of type SizedBuf
    are numbered. *)
From Verif Require Import Base.
Local Open Scope N_scope.

(** How the block was made: malloc, new[], or anything else (a std::string, a literal, the stack). *)
Inductive kind := KMalloc | KNew | KUser.
Record block := mkBl { bl_id : N; bl_kind : kind; bl_data : list N }.

(** sized_buf.h:481-494; the flags NEED_TO_FREE and NEED_TO_DELETE, 28-38. *)
Record sbuf := mkS { s_free : bool; s_del : bool; s_size : N; s_ptr : option N }.
Definition s_empty : sbuf := mkS false false 0 None.

Record world := mkW { w_heap : list block; w_next : N; w_var : N -> sbuf }.
Definition w_new : world := mkW [] 0 (fun _ => s_empty).

Definition put (v : N) (b : sbuf) (w : world) : world :=
  mkW (w_heap w) (w_next w) (fun x => if x =? v then b else w_var w x).
Definition blk (id : N) (w : world) : option block := find (fun b => bl_id b =? id) (w_heap w).
Definition add_block (k : kind) (d : list N) (w : world) : world :=
  mkW (w_heap w ++ [mkBl (w_next w) k d]) (w_next w + 1) (w_var w).
Definition drop_block (id : N) (w : world) : world :=
  mkW (filter (fun b => negb (bl_id b =? id)) (w_heap w)) (w_next w) (w_var w).
Definition set_data (id : N) (d : list N) (w : world) : world :=
  mkW (map (fun b => if bl_id b =? id then mkBl id (bl_kind b) d else b) (w_heap w)) (w_next w) (w_var w).

(** size is 32 bits wide, the parameters are size_t (sized_buf.h:315 and 383). *)
Definition cut32 (s : N) : N := s mod 2 ^ 32.

(** The first [n] bytes at [p]; [None]: not (any more) allocated, or fewer than [n] there. *)
Definition peek (p : N) (n : N) (w : world) : option (list N) :=
  match blk p w with
  | Some b => if n <=? N.of_nat (length (bl_data b)) then Some (firstn (N.to_nat n) (bl_data b)) else None
  | None => None
  end.

(** sized_buf.h:466-470. *)
Definition b_clear (v : N) (w : world) : world := put v s_empty w.

(** sized_buf.h:313-317, set; also the constructor, 73-75. *)
Definition b_set (v s : N) (p : option N) (w : world) : world := put v (mkS false false (cut32 s) p) w.

(** sized_buf.h:374-394, alloc.  [None]: undefined. *)
Definition b_alloc (v s : N) (d : option N) (w : world) : option world :=
  let w0 := b_clear v w in
  if s =? 0 then Some w0
  else
    let n := cut32 s in
    match (match d with Some p => peek p n w | None => Some (repeat 0 (N.to_nat n)) end) with
    | None => None
    | Some bytes => Some (put v (mkS true false n (Some (w_next w))) (add_block KMalloc bytes w0))
    end.

(** sized_buf.h:115-120, operator=. *)
Definition b_assign (v src : N) (w : world) : world := put v (w_var w src) w.
(** sized_buf.h:283-286, set(const SizedBuf&): the flags are read after [v] has been cleared. *)
Definition b_set_buf (v src : N) (w : world) : world :=
  let w1 := b_set v (s_size (w_var w src)) (s_ptr (w_var w src)) w in
  put v (mkS (s_free (w_var w1 src)) (s_del (w_var w1 src)) (s_size (w_var w1 v)) (s_ptr (w_var w1 v))) w1.
(** sized_buf.h:128-135, moveTo. *)
Definition b_move (src dst : N) (w : world) : world := put src s_empty (put dst (w_var w src) w).
(** sized_buf.h:144-146, copyTo, with 326-328. *)
Definition b_copy (src dst : N) (w : world) : option world := b_alloc dst (s_size (w_var w src)) (s_ptr (w_var w src)) w.
(** sized_buf.h:156-160, referTo. *)
Definition b_refer (v src : N) (w : world) : world := put v (mkS false false (s_size (w_var w src)) (s_ptr (w_var w src))) w.

(** ::free and delete[]: null is ignored; anything but a block made by malloc (by new[]) that is still
    there is undefined. *)
Definition release (k : kind) (p : option N) (w : world) : option world :=
  match p with
  | None => Some w
  | Some id => match blk id w with
               | Some b => match bl_kind b, k with
                           | KMalloc, KMalloc | KNew, KNew => Some (drop_block id w)
                           | _, _ => None
                           end
               | None => None
               end
  end.

(** sized_buf.h:431-446, free; also what the Holder does at the end of its scope, 45-49. *)
Definition b_free (v : N) (w : world) : option world :=
  let b := w_var w v in
  if s_free b then match release KMalloc (s_ptr b) w with Some w1 => Some (b_clear v w1) | None => None end
  else if s_del b then match release KNew (s_ptr b) w with Some w1 => Some (b_clear v w1) | None => None end
  else Some w.

(** sized_buf.h:402-413, resize.  realloc to 0 bytes releases the block and returns null (glibc),
    and then neither data nor size nor the flags change.  Otherwise [moves] says whether realloc had
    to move the block; bytes beyond the old ones are [fill]. *)
Definition b_resize (v n : N) (moves : bool) (fill : list N) (w : world) : option world :=
  let b := w_var w v in
  if negb (s_free b) then Some w
  else
    match s_ptr b with
    | None => let w1 := add_block KMalloc (firstn (N.to_nat n) (fill ++ repeat 0 (N.to_nat n))) w in
              Some (put v (mkS (s_free b) (s_del b) (cut32 n) (Some (w_next w))) w1)
    | Some id =>
        match blk id w with
        | None => None
        | Some bl =>
            match bl_kind bl with
            | KMalloc =>
                if n =? 0 then Some (drop_block id w)
                else
                  let d := firstn (N.to_nat n) (bl_data bl ++ fill ++ repeat 0 (N.to_nat n)) in
                  if moves then
                    let w1 := add_block KMalloc d (drop_block id w) in
                    Some (put v (mkS (s_free b) (s_del b) (cut32 n) (Some (w_next w))) w1)
                  else Some (put v (mkS (s_free b) (s_del b) (cut32 n) (Some id)) (set_data id d w))
            | _ => None
            end
        end
    end.

(** sized_buf.h:451-453 and 459-461. *)
Definition b_need_free (v : N) (w : world) : world :=
  let b := w_var w v in put v (mkS true (s_del b) (s_size b) (s_ptr b)) w.
Definition b_need_del (v : N) (w : world) : world :=
  let b := w_var w v in put v (mkS (s_free b) true (s_size b) (s_ptr b)) w.

(** The caller writes a byte: data[i] = x (the pointer is public, sized_buf.h:494). *)
Fixpoint upd_nth (i : nat) (x : N) (l : list N) : list N :=
  match l, i with [], _ => [] | _ :: t, O => x :: t | y :: t, S i' => y :: upd_nth i' x t end.
Definition b_poke (v i x : N) (w : world) : option world :=
  match s_ptr (w_var w v) with
  | None => None
  | Some id => match blk id w with
               | Some b => if i <? N.of_nat (length (bl_data b)) then Some (set_data id (upd_nth (N.to_nat i) x (bl_data b)) w) else None
               | None => None
               end
  end.

(** The calls of a program; [BMem], [BGone]: memory of the caller comes and goes. *)
Inductive bop :=
| BMem (k : kind) (d : list N) (v : N)        (* the caller makes a block and sets [v] to it; one made by malloc
                                                 (new[]) is handed over with setNeedToFree (setNeedToDelete) *)
| BGone (id : N)                              (* a block of the caller's own disappears *)
| BSet (v s : N) (p : option N)
| BAlloc (v s : N) (d : option N)
| BAssign (v src : N)
| BSetBuf (v src : N)
| BMove (src dst : N)
| BCopy (src dst : N)
| BRefer (v src : N)
| BFree (v : N)
| BResize (v n : N) (moves : bool) (fill : list N)
| BClear (v : N)
| BNeedFree (v : N)
| BNeedDel (v : N)
| BPoke (v i x : N).

Definition bstep (o : bop) (w : world) : option world :=
  match o with
  | BMem k d v => let b := mkS (match k with KMalloc => true | _ => false end) (match k with KNew => true | _ => false end)
                               (cut32 (N.of_nat (length d))) (Some (w_next w)) in
                  Some (put v b (add_block k d w))
  | BGone id => match blk id w with
                | Some b => match bl_kind b with KUser => Some (drop_block id w) | _ => None end
                | None => None
                end
  | BSet v s p => Some (b_set v s p w)
  | BAlloc v s d => b_alloc v s d w
  | BAssign v src => Some (b_assign v src w)
  | BSetBuf v src => Some (b_set_buf v src w)
  | BMove src dst => Some (b_move src dst w)
  | BCopy src dst => b_copy src dst w
  | BRefer v src => Some (b_refer v src w)
  | BFree v => b_free v w
  | BResize v n moves fill => b_resize v n moves fill w
  | BClear v => Some (b_clear v w)
  | BNeedFree v => Some (b_need_free v w)
  | BNeedDel v => Some (b_need_del v w)
  | BPoke v i x => b_poke v i x w
  end.
Fixpoint brun (os : list bop) (w : world) : option world :=
  match os with [] => Some w | o :: t => match bstep o w with Some w1 => brun t w1 | None => None end end.

(** ** Record: key, value and metadata as three buffers (record.h, keyvalue.h); sequence number and
    type left out. *)
Record rcd := mkR { rc_key : N; rc_val : N; rc_meta : N }.
(** record.h:97-103 with 154-159 and keyvalue.h:112-115, 214-217: moveTo, then clear. *)
Definition r_move (a b : rcd) : list bop :=
  [BMove (rc_key a) (rc_key b); BMove (rc_val a) (rc_val b); BMove (rc_meta a) (rc_meta b);
   BClear (rc_key a); BClear (rc_val a); BClear (rc_meta a)].
(** record.h:112-117. *)
Definition r_copy (a b : rcd) : list bop := [BCopy (rc_key a) (rc_key b); BCopy (rc_val a) (rc_val b); BCopy (rc_meta a) (rc_meta b)].
(** record.h:145-149. *)
Definition r_free (a : rcd) : list bop := [BFree (rc_key a); BFree (rc_val a); BFree (rc_meta a)].
(** record.h:166. *)
Definition r_is_empty (a : rcd) (w : world) : bool := (s_size (w_var w (rc_key a)) =? 0) && (s_size (w_var w (rc_val a)) =? 0).
(** record.h:128-140, [a].clone([src]): [false]: ALREADY_INITIALIZED. *)
Definition r_clone (a src : rcd) (w : world) : option (bool * world) :=
  match s_ptr (w_var w (rc_key a)), s_ptr (w_var w (rc_val a)) with
  | None, None => match brun [BCopy (rc_key src) (rc_key a); BCopy (rc_val src) (rc_val a); BCopy (rc_meta src) (rc_meta a)] w with
                  | Some w1 => Some (true, w1)
                  | None => None
                  end
  | _, _ => Some (false, w)
  end.
