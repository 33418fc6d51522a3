(** What programs using SizedBuf (BufModel.v) are measured against. *)
From Verif Require Import Base BufModel.
Local Open Scope N_scope.

(** [v] has to free the memory it points to. *)
Definition owns (w : world) (v : N) : Prop := s_free (w_var w v) = true \/ s_del (w_var w v) = true.

(** The bytes [v] stands for; [None] if its memory is not there. *)
Definition bytes_of (w : world) (v : N) : option (list N) :=
  if s_size (w_var w v) =? 0 then Some []
  else match s_ptr (w_var w v) with Some p => peek p (s_size (w_var w v)) w | None => None end.

(** What the header asks of the caller: a buffer that owns memory is freed (or moved away) before it
    gets something else; an owner is not duplicated with operator= or set; sources of copies are
    there; ownership is not claimed for memory that has an owner (only [BMem] hands over memory).
    And, not in the header: no resize to 0 ([C125_resize_zero_refuted]). *)
Definition careful (o : bop) (w : world) : Prop :=
  match o with
  | BMem _ _ v | BSet v _ _ | BRefer v _ | BClear v => ~ owns w v
  | BGone id => exists b, blk id w = Some b /\ bl_kind b = KUser
  | BAlloc v s d => ~ owns w v /\ forall p, d = Some p -> s <> 0 -> peek p (cut32 s) w <> None
  | BAssign v src | BSetBuf v src => ~ owns w v /\ ~ owns w src
  | BMove src dst => ~ owns w dst
  | BCopy src dst => ~ owns w dst /\ bytes_of w src <> None
  | BFree _ => True
  | BResize _ n _ _ => n <> 0
  | BNeedFree _ | BNeedDel _ => False
  | BPoke v i _ => exists id b, s_ptr (w_var w v) = Some id /\ blk id w = Some b /\ i < N.of_nat (length (bl_data b))
  end.

(** States a careful program can reach. *)
Inductive breach : world -> Prop :=
| br_new : breach w_new
| br_step : forall w o w', breach w -> careful o w -> bstep o w = Some w' -> breach w'.

(** Does the call change the buffer [v], or write into its memory? *)
Definition touches (o : bop) (w : world) (v : N) : Prop :=
  match o with
  | BMem _ _ x | BSet x _ _ | BAlloc x _ _ | BAssign x _ | BSetBuf x _ | BRefer x _ | BFree x | BResize x _ _ _ | BClear x
  | BNeedFree x | BNeedDel x | BCopy _ x => x = v
  | BMove src dst => src = v \/ dst = v
  | BPoke x _ _ => s_ptr (w_var w x) = s_ptr (w_var w v)
  | BGone _ => False
  end.

(** Steps of a careful program that leave the buffer [v] alone. *)
Inductive brest (v : N) : world -> world -> Prop :=
| bs_refl : forall w, brest v w w
| bs_step : forall w o w1 w2, careful o w -> ~ touches o w v -> bstep o w = Some w1 -> brest v w1 w2 -> brest v w w2.

(** The buffers of a record. *)
Definition vars (a : rcd) : list N := [rc_key a; rc_val a; rc_meta a].
