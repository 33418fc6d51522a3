(** What a read of a table must return (property C27), in terms of the steps of the threads. *)
From Verif Require Import Base KeyModel LogFormatModel BoosterModel.
Local Open Scope N_scope.

(** The documents of a key enter the table with increasing sequence numbers. *)
Definition rising (f : list rec) : Prop :=
  forall a r b q, f = a ++ r :: b -> In q b -> r_key q = r_key r -> r_seq r <= r_seq q.

(** [res] is at least as new as [r]. *)
Definition as_new (r : rec) (res : option rec) : Prop :=
  exists d, res = Some d /\ r_key d = r_key r /\ r_seq r <= r_seq d.

(** Each operation runs to its end before the next one starts (by thread 0). *)
Inductive one := OneRead (k : key) | OneWrite (r : rec).
Definition alone (o : one) (es : list bev) : Prop :=
  match o with
  | OneRead k => es = [BRead 0 k; BHint 0; BEnd 0] \/ es = [BRead 0 k; BHint 0; BFind 0; BEnd 0] \/ es = [BRead 0 k; BHint 0; BFind 0; BFill 0; BEnd 0]
  | OneWrite r => es = [BWrite 0 r; BPut 0; BEnd 0]
  end.
