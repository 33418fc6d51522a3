(** What a database says about the numbers in its log section: DB::getMinSeqNum (jungle.cc:395-399),
    and the part of DB::getStats that counts the log (jungle.cc:915-932), over the log section of
    LogMgrModel.v.

    Simplification: no log file is removed while one of these functions runs. *)
From Verif Require Import Base KeyModel LogFormatModel MemTableModel LogMgrModel.
Local Open Scope N_scope.

(** src/log_mgr.cc:1915-1924: the scan of the files after the last flushed one. *)
Fixpoint min_scan (fuel : nat) (n mx : N) (fs : list lgf) : option N :=
  match fuel with
  | O => None
  | S fuel' =>
      if mx <? n then None
      else match file_at n fs with
           | None => min_scan fuel' (n + 1) mx fs
           | Some f => if valid_number (m_flushed (f_mt f)) then Some (m_flushed (f_mt f))
                       else if valid_number (m_min (f_mt f)) then Some (m_min (f_mt f))
                       else min_scan fuel' (n + 1) mx fs
           end
  end.

(** src/log_mgr.cc:1873-1933, getMinSeqNum.  [Ok None] is LOG_NOT_EXIST; lines 1880-1887 go round for
    ever if the last flushed file is missing ([Undef]). *)
Definition lm_min_seq (g : lmgr) : res (option N) :=
  match last_flushed g with
  | None => Fail NOT_INITIALIZED_ST
  | Some n =>
      match file_at n (g_files g) with
      | None => Undef
      | Some f =>
          let fl := m_flushed (f_mt f) in
          if valid_number fl then
            if (fl =? m_max (f_mt f)) && match file_at (n + 1) (g_files g) with None => true | Some _ => false end
            then Ok None
            else Ok (Some ((fl + 1) mod 2 ^ 64))
          else if valid_number (m_min (f_mt f)) then Ok (Some (m_min (f_mt f)))
          else match max_num g with
               | None => Fail NOT_INITIALIZED_ST
               | Some mx => if mx <=? n then Ok None
                            else Ok (min_scan (N.to_nat (mx - n)) (n + 1) mx (g_files g))
               end
      end
  end.

(** src/log_mgr.cc:1800-1834, getAvailSeqRange. *)
Definition lm_range (g : lmgr) : res (N * N) :=
  match last_flushed g with
  | None => Fail NOT_INITIALIZED_ST
  | Some n =>
      match file_at n (g_files g) with
      | None => Undef
      | Some f =>
          let lo := if m_flushed (f_mt f) =? NIL then 0 else (m_flushed (f_mt f) + 1) mod 2 ^ 64 in
          match max_num g with
          | None => Fail NOT_INITIALIZED_ST
          | Some mx => match file_at mx (g_files g) with None => Undef | Some f' => Ok (lo, m_max (f_mt f')) end
          end
      end
  end.

(** src/jungle.cc:915-932: num_kvs_log. *)
Definition log_count (g : lmgr) : res N :=
  match lm_range g with
  | Ok (lo, hi) =>
      Ok (if valid_number lo && valid_number hi && (lo <=? hi) then (if lo =? 0 then hi else hi - lo + 1) else 0)
  | Fail _ => Ok 0
  | Undef => Undef
  end.
