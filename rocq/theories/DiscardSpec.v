(** What DB::discardDirty is for (include/libjungle/jungle.h:468-475): "Discard dirty key-value items
    that are not synced yet", from a sequence number on. *)
From Verif Require Import Base KeyModel LogFormatModel MemTableModel LogMgrModel DbModel.
Local Open Scope N_scope.

(** The acknowledged writes that remain. *)
Definition kept (b : N) (h : list rec) : list rec := filter (fun r => r_seq r <? b) h.

(** [b] is above everything that has been handed to the tables. *)
Definition above_flushed (b : N) (d : db) : Prop := forall s, lm_flushed_seq (d_log d) = Ok s -> s < b.

(** Each key that loses a write keeps an older one in the same log file. *)
Definition older_stays (b : N) (d : db) : Prop :=
  forall f r, In f (g_files (d_log d)) -> In r (m_seq (f_mt f)) -> b <= r_seq r -> is_cmd r = false ->
    exists r', In r' (m_seq (f_mt f)) /\ r_key r' = r_key r /\ is_cmd r' = false /\ r_seq r' < b.
