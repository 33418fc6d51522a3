(** How long writers and compactions are made to sleep (src/flusher.cc:104-137,
    src/table_mgr.cc:1129-1146, src/log_mgr.cc:552-565). *)
From Verif Require Import Base.
Local Open Scope N_scope.

(** LogThrottlingOptions (include/libjungle/db_config.h:836-866); each is a uint32_t. *)
Record lt_opt := mkLT { lt_start : N; lt_limit : N; lt_max : N }.

(** Flusher::calcGlobalThrottling (flusher.cc:104-137): the sleep time that is set for all writers.
    [old]: the current one, [total]: the log files of all databases (a size_t).  The product is
    computed in 64 bits, the difference in the divisor in 32 bits; the quotient is stored in 32
    bits before it is compared.  [None]: division by zero. *)
Definition global_throttling (o : lt_opt) (old total : N) : option N :=
  if lt_max o =? 0 then Some old
  else if lt_start o <? total
  then let d := (lt_limit o + 2 ^ 32 - lt_start o) mod 2 ^ 32 in
       if d =? 0 then None
       else let q := ((total - lt_start o) * lt_max o) mod 2 ^ 64 / d mod 2 ^ 32 in
            Some (if lt_max o <? q then lt_max o else q)
  else Some 0.

(** TableMgr::doCompactionThrottling (table_mgr.cc:1129-1146): how long a compaction that has been
    working for [elapsed] ms sleeps.  The timer has expired, the resolution is not zero. *)
Definition compaction_sleep (factor elapsed : N) : N :=
  if factor =? 0 then 0
  else let f := N.min factor 99 in (elapsed * f) mod 2 ^ 64 / (100 - f).
