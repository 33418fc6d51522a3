(** Groups of named databases: the file that maps names to numbers, and opening by name
    (src/db_manifest.cc, src/db_manifest.h, src/db_group.cc, src/jungle.cc:85-137,1015-1034). *)
From Verif Require Import Base Crc32Model KeyModel FileModel.
Local Open Scope N_scope.

Notation name := (list N) (only parsing).

(** src/db_manifest.cc:27-28. *)
Definition DBMANI_FOOTER : list N := [170; 187; 204; 221; 238; 255; 171; 171].
Definition DBMANI_VERSION : N := 1.

(** src/db_manifest.h:52-60: maxKVSID, the map NameToID (order of insertion) and the map IDToName
    (ascending). *)
Record dbm := mkDbm { d_max : N; d_n2i : list (name * N); d_i2n : list (N * name) }.
(** Constructor, src/db_manifest.cc:30-35. *)
Definition dbm_new : dbm := mkDbm 1 [] [].

(** std::map::insert and find: an existing key is kept. *)
Fixpoint n2i_find (n : name) (l : list (name * N)) : option N :=
  match l with
  | [] => None
  | (m, i) :: t => if keqb m n then Some i else n2i_find n t
  end.
Definition n2i_insert (n : name) (i : N) (l : list (name * N)) : list (name * N) :=
  match n2i_find n l with Some _ => l | None => l ++ [(n, i)] end.
Fixpoint i2n_insert (i : N) (n : name) (l : list (N * name)) : list (N * name) :=
  match l with
  | [] => [(i, n)]
  | (j, m) :: t => if i <? j then (i, n) :: l else if i =? j then l else (j, m) :: i2n_insert i n t
  end.

(** src/db_manifest.cc:194-209, addNewKVS of a name that is not there. *)
Definition add_kvs (n : name) (m : dbm) : dbm :=
  mkDbm (d_max m + 1) (n2i_insert n (d_max m) (d_n2i m)) (i2n_insert (d_max m) n (d_i2n m)).

(** src/db_manifest.cc:134-180, store: the bytes. *)
Definition dbm_body (m : dbm) : list N :=
  u64 (d_max m) ++ u32 (blen (map fst (d_i2n m))) ++
  flat_map (fun e => u64 (fst e) ++ u32 (blen (snd e)) ++ snd e) (d_i2n m) ++
  DBMANI_FOOTER ++ u32 DBMANI_VERSION.
Definition dbm_encode (m : dbm) : list N := dbm_body m ++ u32 (crc32_8 (dbm_body m) 0).
(** src/db_manifest.cc:177-180: written over the old content, then cut.  The backup that is made
    next (line 189) is read by nothing. *)
Definition dbm_store (f : list N) (m : dbm) : list N :=
  ftruncate (pwrite f 0 (dbm_encode m)) (length (dbm_encode m)).

(** [std::string kvs_name_str(kvs_name_buf)], src/db_manifest.cc:122: up to the first zero byte. *)
Fixpoint cstr (l : list N) : name :=
  match l with
  | [] => []
  | b :: t => if b =? 0 then [] else b :: cstr t
  end.

(** How a load ends: done, an error before anything was set, or a write outside the buffer of 256
    bytes (src/db_manifest.cc:114-118).  Entries that run over the end of the file do not occur in
    a file whose checksum is right; they count as [LWild] too. *)
Inductive lres := LOk (m : dbm) | LErr | LWild.

(** src/db_manifest.cc:115-125. *)
Fixpoint load_kvs (n : nat) (s : mser) (m : dbm) : lres :=
  match n with
  | O => LOk m
  | S n' =>
      let (id, s1) := ms_getU 8 s in
      let (len, s2) := ms_getU 4 s1 in
      if 255 <? len then LWild else
      match ms_get (N.to_nat len) s2 with
      | (Some b, s3) => load_kvs n' s3 (mkDbm (d_max m) (n2i_insert (cstr b) id (d_n2i m)) (i2n_insert id (cstr b) (d_i2n m)))
      | (None, _) => LWild
      end
  end.

(** src/db_manifest.cc:68-128, load. *)
Definition dbm_load (f : list N) : lres :=
  let n := length f in
  if (n <? 16)%nat then LErr else
  if negb (keqb (firstn 8 (skipn (n - 16) f)) DBMANI_FOOTER) then LErr else
  if negb (crc32_8 (firstn (n - 4) f) 0 =? get_be (skipn (n - 4) f)) then LErr else
  let (mx, s1) := ms_getU 8 {| ms_buf := f; ms_pos := 0; ms_bad := false |} in
  let (nk, s2) := ms_getU 4 s1 in
  load_kvs (N.to_nat nk) s2 (mkDbm mx [] []).

(** ** The group *)

(** The manifest in memory, its file, and whether the file has been synced since it was created. *)
Record gst := mkG { g_mem : dbm; g_file : list N; g_sync : bool }.

(** src/jungle.cc:121-127: the status of the load is not looked at. *)
Definition reload (f : list N) (sync : bool) : option gst :=
  match dbm_load f with
  | LOk m => Some (mkG m f sync)
  | LErr => Some (mkG dbm_new f sync)
  | LWild => None
  end.

(** src/jungle.cc:128-134 and db_manifest.cc:44-66: a new directory; stored without a sync. *)
Definition g_create : gst := mkG dbm_new (dbm_store [] dbm_new) false.

(** What happens to a group: a database is opened by name; the group is closed and opened again; a
    crash between two calls, the whole content of a file that was never synced being lost or not;
    a crash while the manifest is written for a new name, leaving the content [x] in the file. *)
Inductive gop := OpenDb (n : name) | Reopen | Crash (lost : bool) | CrashIn (n : name) (x : list N).

(** The result: the state after, and the number under which the files of the opened database are
    kept (log and table files carry it in their names: src/db_group.cc:135,145).  [None]: undefined
    behaviour. *)
Definition gstep (o : gop) (g : gst) : option (gst * option N) :=
  match o with
  | OpenDb n =>                                   (* src/db_group.cc:89-129 *)
      match n with
      | [] => Some (g, None)
      | _ => match n2i_find n (d_n2i (g_mem g)) with
             | Some i => Some (g, Some i)
             | None => let m := add_kvs n (g_mem g) in
                       Some (mkG m (dbm_store (g_file g) m) true, n2i_find n (d_n2i m))
             end
      end
  | Reopen =>                                     (* src/jungle.cc:1029-1034, then 121-127 *)
      match reload (dbm_store (g_file g) (g_mem g)) true with
      | Some g' => Some (g', None)
      | None => None
      end
  | Crash lost =>
      match reload (if lost && negb (g_sync g) then [] else g_file g) (g_sync g) with
      | Some g' => Some (g', None)
      | None => None
      end
  | CrashIn n x =>
      match n, n2i_find n (d_n2i (g_mem g)) with
      | [], _ | _, Some _ => Some (g, None)       (* nothing is written *)
      | _, None => match reload x true with
                   | Some g' => Some (g', None)
                   | None => None
                   end
      end
  end.

(** A history: the state reached and the openings so far (name and number), latest first. *)
Fixpoint grun (os : list gop) (g : gst) (tr : list (name * N)) : option (gst * list (name * N)) :=
  match os with
  | [] => Some (g, tr)
  | o :: t => match gstep o g with
              | None => None
              | Some (g', r) =>
                  grun t g' (match o, r with OpenDb n, Some i => (n, i) :: tr | _, _ => tr end)
              end
  end.
