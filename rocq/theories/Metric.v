(** Model of database/files/metric.go, file_cache.go and of the sequential part
    of db.go, db_write.go, db_read.go (write, Query, QueryLatest), over a file
    system of inodes, directory entries and directories, byte level contents
    and the real handle cache.

    Simplifications: the only operating system failures are missing
    directories, missing files and the failures createFile/openFile detect;
    [metric.fb]/[metric.interned] (a memo of path strings) are not modelled:
    filenameAt always recomputes the same path; one operation runs at a time
    (per metric this is what the lock pool guarantees, LockPool.v). *)
From Coq Require Import ZArith List Bool.
From Verif Require Import Base Maps Crc Record Pb Meta Convert File Cache.
Import ListNotations.
Open Scope Z_scope.

(** file.go:21-27 an open file: which inode is mapped, and its geometry *)
Record handle := Handle { h_ino : Z; h_geom : geom }.
Definition handle_zero : handle := Handle 0 (Geom 0 0).

(** the state of the world *)
Record db := DB {
  w_ino : list (Z * list Z);        (* inode -> contents *)
  w_next : Z;                       (* next fresh inode *)
  w_files : list (list Z * Z);      (* path of a data file -> inode *)
  w_dirs : list (list Z);           (* existing directories *)
  w_toks : list (list Z * Z);       (* fileCache.toks *)
  w_cache : cache handle;           (* fileCache.ch *)
  w_size : Z;                       (* fileCache.opts.Size *)
  w_cap : Z;                        (* fileCache.opts.Cap *)
  w_max : Z;                        (* db.opts.Files *)
  w_root : list Z                   (* db.dir *)
}.

Definition set_ino (st : db) x := DB x (w_next st) (w_files st) (w_dirs st) (w_toks st) (w_cache st) (w_size st) (w_cap st) (w_max st) (w_root st).
Definition set_files (st : db) x := DB (w_ino st) (w_next st) x (w_dirs st) (w_toks st) (w_cache st) (w_size st) (w_cap st) (w_max st) (w_root st).
Definition set_dirs (st : db) x := DB (w_ino st) (w_next st) (w_files st) x (w_toks st) (w_cache st) (w_size st) (w_cap st) (w_max st) (w_root st).
Definition set_fch (st : db) t c := DB (w_ino st) (w_next st) (w_files st) (w_dirs st) t c (w_size st) (w_cap st) (w_max st) (w_root st).

(** contents of an inode *)
Definition contents (st : db) (ino : Z) : list Z :=
  match mget Z.eqb ino (w_ino st) with Some c => c | None => [] end.
Definition set_contents (st : db) (ino : Z) (c : list Z) : db :=
  set_ino st (mput Z.eqb ino c (w_ino st)).

(** file_cache.go:54-66 releaseFile(path, f).  Closing the evicted file unmaps
    it: no effect on the contents. *)
Definition releaseFile (path : list Z) (f : handle) (st : db) : db :=
  let '(c, tok, _) := cache_put handle_zero (w_cache st) f in
  set_fch st (mput beqb path tok (w_toks st)) c.

(** os.OpenFile(path, O_CREATE|O_TRUNC) + createFile (file.go:32-81): an
    existing file is truncated in place, otherwise a new inode is linked. *)
Definition do_create (path : list Z) (st : db) : db * res handle :=
  let '(c, r) := createFile (w_size st) (w_cap st) in
  let '(ino, st) :=
    match mget beqb path (w_files st) with
    | Some ino => (ino, st)
    | None => (w_next st,
               DB (w_ino st) (w_next st + 1) (mput beqb path (w_next st) (w_files st))
                  (w_dirs st) (w_toks st) (w_cache st) (w_size st) (w_cap st) (w_max st) (w_root st))
    end in
  (set_contents st ino c, do g <- r; Ok (Handle ino g)).

(** openFile (file.go:84-127) by path *)
Definition do_open (path : list Z) (st : db) : res handle :=
  match mget beqb path (w_files st) with
  | None => Err
  | Some ino => do g <- openFile (contents st ino); Ok (Handle ino g)
  end.

(** file_cache.go:68-87 acquireFile(path, exists) *)
Definition acquireFile (path : list Z) (exists_ : bool) (st : db) : db * res handle :=
  let '(st, hit) :=
    match mget beqb path (w_toks st) with
    | None => (st, None)
    | Some tok =>
        let '(c, r) := cache_take handle_zero (w_cache st) tok in
        (set_fch st (w_toks st) c, r)
    end in
  match hit with
  | Some f => (st, Ok f)
  | None => if exists_ then (st, do_open path st) else do_create path st
  end.

(** file_cache.go:89-105 evictFile(path) *)
Definition evictFile (path : list Z) (st : db) : db :=
  match mget beqb path (w_toks st) with
  | None => st
  | Some tok =>
      let '(c, _) := cache_take handle_zero (w_cache st) tok in
      set_fch st (mdel beqb path (w_toks st)) c
  end.

(** os.Remove(path) of a data file *)
Definition osRemove (path : list Z) (st : db) : db :=
  set_files st (mdel beqb path (w_files st)).

(** the parent directory and the last component of a path *)
Fixpoint split_last (p : list Z) : option (list Z * list Z) :=
  match p with
  | [] => None
  | c :: r =>
      match split_last r with
      | Some (d, n) => Some (c :: d, n)
      | None => if c =? c_slash then Some ([], r) else None
      end
  end.
(** a directory path without one trailing slash *)
Definition clean_dir (d : list Z) : list Z :=
  if (0 <? len d) && (at_ (len d - 1) d =? c_slash) then firstn (length d - 1) d else d.

(** the base name of [p] when its parent is directory [d] *)
Definition child_of (d p : list Z) : list (list Z) :=
  match split_last p with
  | Some (d', n) => if beqb d' d then [n] else []
  | None => []
  end.
(** Readdirnames: files and subdirectories *)
Definition listdir (d : list Z) (st : db) : list (list Z) :=
  flat_map (child_of (clean_dir d)) (map fst (w_files st)) ++
  flat_map (child_of (clean_dir d)) (w_dirs st).

Definition dir_exists (d : list Z) (st : db) : bool :=
  (0 <? len d) && existsb (beqb (clean_dir d)) (w_dirs st).

(** the non-empty prefixes of [p] that end just before a slash, and [p] *)
Fixpoint ancestors (pre p : list Z) : list (list Z) :=
  match p with
  | [] => [pre]
  | c :: r => if c =? c_slash then pre :: ancestors (pre ++ [c]) r
              else ancestors (pre ++ [c]) r
  end.
(** os.MkdirAll(d) *)
Definition mkdirAll (d : list Z) (st : db) : db * bool :=
  if len d =? 0 then (st, false)
  else (set_dirs st (ancestors [] (clean_dir d) ++ w_dirs st), true).

(** metric.go:64-73 type metric *)
Record metric := Metric { t_dir : list Z; t_first : Z; t_last : Z }.

(** metric.go:163-170 filenameAt *)
Definition filenameAt (m : metric) (index : Z) : list Z :=
  metricFilenameAt (t_dir m) index.

(** metric.go:110-134 the scan over the directory's names; state
    (first, last, first_set) *)
Definition scan_step (s : Z * Z * bool) (name : list Z) : Z * Z * bool :=
  let '(first, last, first_set) := s in
  match dataFileNumber name with
  | None => s
  | Some iv =>
      let last := if last <? iv then iv else last in
      if (iv <? first) || negb first_set then (iv, last, true)
      else (first, last, first_set)
  end.

(** metric.go:77-161 newMetric *)
Definition newMetric (name : list Z) (ro : bool) (st : db) : db * res metric :=
  let dir := metricDir (w_root st) name in
  let '(st, ok) :=
    if dir_exists dir st then (st, true)
    else if ro then (st, false)
    else mkdirAll dir st in
  if negb ok then (st, Err)
  else
    let '(first, last, first_set) := fold_left scan_step (listdir dir st) (0, 0, false) in
    if first_set then (st, Ok (Metric dir first last))
    else
      let path := metricFilenameAt dir 1 in
      match acquireFile path false st with
      | (st, Ok f) => (releaseFile path f st, Ok (Metric dir 1 1))
      | (st, Err) => (st, Err)
      | (st, Panic) => (st, Panic)
      | (st, Diverge) => (st, Diverge)
      end.

(** metric.go:177-212 acquireLast: the file, its head and the metric with its
    last field updated.  [fuel] bounds the loop (last-first+1 rounds). *)
Fixpoint acquireLast_ (fuel : nat) (m : metric) (st : db) : db * res (handle * Z * metric) :=
  if t_last m <? t_first m then (st, Err)
  else
    match fuel with
    | O => (st, Diverge)
    | S fuel =>
        let path := filenameAt m (t_last m) in
        match acquireFile path true st with
        | (st, Ok f) =>
            match getHeadPointer (h_geom f) (contents st (h_ino f)) with
            | Ok head =>
                if (head =? g_cap (h_geom f) - 1) && (t_first m <? t_last m) then
                  let st := releaseFile path f st in
                  let st := osRemove path st in
                  acquireLast_ fuel (Metric (t_dir m) (t_first m) (t_last m - 1)) st
                else (st, Ok (f, head, m))
            | Err => (releaseFile path f st, Err)
            | Panic => (st, Panic)
            | Diverge => (st, Diverge)
            end
        | (st, Err) => (st, Err)
        | (st, Panic) => (st, Panic)
        | (st, Diverge) => (st, Diverge)
        end
    end.
Definition acquireLast (m : metric) (st : db) : db * res (handle * Z * metric) :=
  acquireLast_ (Z.to_nat (t_last m - t_first m + 1)) m st.

(** metric.go:290-301 the callback of iterateRecords: SetRecord at head,
    head+1, ... stopping at the first error.  The contents after the stores and
    whether all succeeded. *)
Fixpoint set_records (g : geom) (head : Z) (recs : list record) (c : list Z)
  : list Z * res unit :=
  match recs with
  | [] => (c, Ok tt)
  | r :: rest =>
      match f_set_record g head r c with
      | Ok c' => set_records g (head + 1) rest c'
      | Err => (c, Err)
      | Panic => (c, Panic)
      | Diverge => (c, Diverge)
      end
  end.

(** metric.go:311-318 the updated metadata *)
Definition next_meta (m : metadata) (new_head start end_ : Z) : metadata :=
  Meta (m_size m) new_head
       (if m_start m =? 0 then start else m_start m)
       end_
       (if (m_smallest m =? 0) || (end_ <? m_smallest m) then end_ else m_smallest m).

(** metric.go:284-328 the second half of Write, on the contents of the chosen
    file: store the records at head-nr.., then the metadata.  (true, err) of
    l.308/l.325 is reported as [Err], as db.write does (db_write.go:117-120). *)
Definition write_records (g : geom) (head nr start end_ : Z) (data : list Z) (c : list Z)
  : list Z * res bool :=
  let head := head - nr in
  let new_head := head - 1 in
  match iterateRecords start end_ data (g_size g) with
  | Ok recs =>
      match set_records g head recs c with
      | (c, Ok _) =>
          match f_metadata g c with
          | Ok m =>
              match f_set_metadata g (next_meta m new_head start end_) c with
              | Ok c => (c, Ok true)
              | Err => (c, Err)
              | Panic => (c, Panic)
              | Diverge => (c, Diverge)
              end
          | Err => (c, Err)
          | Panic => (c, Panic)
          | Diverge => (c, Diverge)
          end
      | (c, Err) => (c, Err)
      | (c, Panic) => (c, Panic)
      | (c, Diverge) => (c, Diverge)
      end
  | Err => (c, Err)
  | Panic => (c, Panic)
  | Diverge => (c, Diverge)
  end.

Definition write_into (f : handle) (head nr start end_ : Z) (data : list Z) (st : db)
  : db * res bool :=
  let '(c, r) := write_records (h_geom f) head nr start end_ data (contents st (h_ino f)) in
  (set_contents st (h_ino f) c, r).

(** metric.go:229-328 Write after acquireLast, without the deferred release of
    the first file *)
Definition write_with (m : metric) (f : handle) (head : Z) (start end_ : Z)
    (data : list Z) (st : db) : db * res bool :=
  let g := h_geom f in
  let c := contents st (h_ino f) in
  let head := head + 1 in
  (* l.233-241 monotonicity: Some r is an early return *)
  let early :=
    if f_has_record g head c then
      match f_record g head c with
      | Ok r => if end_ <=? r_end r then Some (Ok false) else None
      | Err => Some Err | Panic => Some Panic | Diverge => Some Diverge
      end
    else None in
  match early with
  | Some r => (st, r)
  | None =>
  match numRecords (len data) (g_size g) with
  | Ok nr =>
      if nr =? 0 then (st, Err)
      else if head - nr <? 0 then
        if (t_last m =? 1) && (head =? g_cap g - 1) then (st, Err)
        else
          let st :=
            if (w_max st <=? t_last m - t_first m) && (0 <? w_max st) then
              let first_path := filenameAt m (t_first m) in
              osRemove first_path (evictFile first_path st)
            else st in
          let path := filenameAt m (t_last m + 1) in
          match acquireFile path false st with
          | (st, Ok f) =>
              let head := g_cap (h_geom f) in
              let '(st, r) :=
                match numRecords (len data) (g_size (h_geom f)) with
                | Ok nr =>
                    if nr =? 0 then (st, Err)
                    else if head - nr <? 0 then (st, Err)
                    else write_into f head nr start end_ data st
                | Err => (st, Err) | Panic => (st, Panic) | Diverge => (st, Diverge)
                end in
              (releaseFile path f st, r)
          | (st, Err) => (st, Err)
          | (st, Panic) => (st, Panic)
          | (st, Diverge) => (st, Diverge)
          end
      else write_into f head nr start end_ data st
  | Err => (st, Err) | Panic => (st, Panic) | Diverge => (st, Diverge)
  end
  end.

(** metric.go:218-329 Write.  The deferred releases run last in first out: the
    new file first, then the file found by acquireLast under its own path. *)
Definition m_Write (m : metric) (start end_ : Z) (data : list Z) (st : db) : db * res bool :=
  match acquireLast m st with
  | (st, Ok (f, head, m)) =>
      let '(st, r) := write_with m f head start end_ data st in
      (releaseFile (filenameAt m (t_last m)) f st, r)
  | (st, Err) => (st, Err)
  | (st, Panic) => (st, Panic)
  | (st, Diverge) => (st, Diverge)
  end.

(** a value as given to and returned by the database *)
Record value := Val { v_start : Z; v_end : Z; v_data : list Z }.

(** the callback of Read with an accumulator: [Ok true] continues, [Ok false]
    stops, [Err] stands for an error of the callback or a cancelled context
    after it (metric.go:410-423, 461-474) *)
Definition callback (A : Type) := A -> value -> A * res bool.

(** metric.go:368-478 the loops of Read over one file from slot [head]:
    [read_new] is the loop labelled new_record, [read_more] the inner loop that
    appends to [buf].  [fuel] bounds the number of records read. *)
Fixpoint read_new {A} (cb : callback A) (fuel : nat) (g : geom) (c : list Z)
    (end_ head : Z) (acc : A) : A * res bool :=
  if negb (head <? g_cap g) then (acc, Ok true)
  else
    match fuel with
    | O => (acc, Diverge)
    | S fuel =>
        match f_record g head c with
        | Ok rec =>
            let head := head + 1 in
            if end_ <=? r_end rec then read_new cb fuel g c end_ head acc
            else if r_kind rec =? kind_complete then
              match cb acc (Val (r_start rec) (r_end rec) (r_data rec)) with
              | (acc, Ok true) => read_new cb fuel g c end_ head acc
              | other => other
              end
            else if negb (r_kind rec =? kind_begin) then
              read_new cb fuel g c end_ head acc
            else read_more cb fuel g c end_ head (r_data rec) acc
        | Panic => (acc, Panic)
        | Diverge => (acc, Diverge)
        | Err => read_new cb fuel g c end_ (head + 1) acc
        end
    end
with read_more {A} (cb : callback A) (fuel : nat) (g : geom) (c : list Z)
    (end_ head : Z) (buf : list Z) (acc : A) : A * res bool :=
  match fuel with
  | O => (acc, Diverge)
  | S fuel =>
      match f_record g head c with
      | Ok rec =>
          let head := head + 1 in
          let buf := buf ++ r_data rec in
          if r_kind rec =? kind_continue then read_more cb fuel g c end_ head buf acc
          else if negb (r_kind rec =? kind_end) then
            read_new cb fuel g c end_ head acc
          else
            match cb acc (Val (r_start rec) (r_end rec) buf) with
            | (acc, Ok true) => read_new cb fuel g c end_ head acc
            | other => other
            end
      | Panic => (acc, Panic)
      | Diverge => (acc, Diverge)
      | Err => read_new cb fuel g c end_ (head + 1) acc
      end
  end.

(** metric.go:349-481 the function called for each file, on its contents.
    Ok true = go on with the previous file. *)
Definition read_file {A} (cb : callback A) (g : geom) (c : list Z) (end_ : Z) (acc : A)
  : A * res bool :=
  match f_metadata g c with
  | Ok m =>
      if end_ <=? m_smallest m then (acc, Ok false)
      else
        match getHeadPointer g c with
        | Ok head =>
            let head := head + 1 in
            read_new cb (Z.to_nat (g_cap g - head) + 1) g c end_ head acc
        | Err => (acc, Err) | Panic => (acc, Panic) | Diverge => (acc, Diverge)
        end
  | Err => (acc, Err) | Panic => (acc, Panic) | Diverge => (acc, Diverge)
  end.

(** metric.go:337-494 Read *)
Fixpoint m_Read_ {A} (cb : callback A) (fuel : nat) (m : metric) (num end_ : Z) (acc : A) (st : db)
  : db * (A * res unit) :=
  if num <? t_first m then (st, (acc, Ok tt))
  else
    match fuel with
    | O => (st, (acc, Diverge))
    | S fuel =>
        let path := filenameAt m num in
        match acquireFile path true st with
        | (st, Ok f) =>
            let '(acc, r) := read_file cb (h_geom f) (contents st (h_ino f)) end_ acc in
            let st := releaseFile path f st in
            match r with
            | Ok true => m_Read_ cb fuel m (num - 1) end_ acc st
            | Ok false => (st, (acc, Ok tt))
            | Err => (st, (acc, Err))
            | Panic => (st, (acc, Panic))
            | Diverge => (st, (acc, Diverge))
            end
        | (st, Err) => (st, (acc, Err))
        | (st, Panic) => (st, (acc, Panic))
        | (st, Diverge) => (st, (acc, Diverge))
        end
    end.
Definition m_Read {A} (cb : callback A) (m : metric) (end_ : Z) (acc : A) (st : db)
  : db * (A * res unit) :=
  m_Read_ cb (Z.to_nat (t_last m - t_first m + 1)) m (t_last m) end_ acc st.

(** db_write.go:102-147 write, without the lock and the name cache *)
Definition db_write (name : list Z) (start end_ : Z) (data : list Z) (st : db) : db * res bool :=
  match newMetric name false st with
  | (st, Ok m) => m_Write m start end_ data st
  | (st, Err) => (st, Err)
  | (st, Panic) => (st, Panic)
  | (st, Diverge) => (st, Diverge)
  end.

(** db_read.go:20-34 Query *)
Definition db_query {A} (cb : callback A) (name : list Z) (end_ : Z) (acc : A) (st : db)
  : db * (A * res unit) :=
  match newMetric name true st with
  | (st, Ok m) => m_Read cb m end_ acc st
  | (st, Err) => (st, (acc, Err))
  | (st, Panic) => (st, (acc, Panic))
  | (st, Diverge) => (st, (acc, Diverge))
  end.

(** metric.go:499-514 ReadLast's callback, db_read.go:38-52 QueryLatest: the
    zero value (0, 0, nil) if there is nothing *)
Definition latest_cb : callback (option value) := fun _ v => (Some v, Ok false).
Definition db_query_latest (name : list Z) (st : db) : db * (option value * res unit) :=
  db_query latest_cb name (2 ^ 63 - 1) None st.

(** the callback that collects everything *)
Definition collect_cb : callback (list value) := fun acc v => (acc ++ [v], Ok true).

(** a new process on the same directory (files.New, db.go:115-165): the cache
    is empty, the options may be different.  Also the state after Run returned
    (db.go:227 fch.Close). *)
Definition db_reopen (size cap max handles : Z) (rand : stream) (st : db) : db :=
  DB (w_ino st) (w_next st) (w_files st) (w_dirs st) [] (newCache handles rand)
     size cap max (w_root st).

(** an empty database directory [root] *)
Definition db_empty (root : list Z) (size cap max handles : Z) (rand : stream) : db :=
  DB [] 1 [] (ancestors [] (clean_dir root)) [] (newCache handles rand) size cap max root.
