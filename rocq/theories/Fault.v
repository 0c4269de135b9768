(** The sequential database of Metric.v with system calls that fail: the same
    functions (database/files/metric.go, file_cache.go, file.go, db_write.go,
    db_read.go), each with what the operating system answers to its calls.

    An environment has two lists of answers, used up one by one; when a list is
    empty the calls work.  [fst]: the answers to open, mkdir, readdir, stat,
    mmap (of an existing file) and remove: [None] works, [Some k] fails ([k] is only
    used by MkdirAll: the number of directories made before it failed).  [snd]:
    for every file that was created, whether the rest of createFile works
    ([None]) or fails in fallocate ([Some false]) or in mmap ([Some true]).

    Simplifications: a failing fallocate leaves an empty file; failing munmap,
    msync and close have no effect on anything modelled; a page of the mapping
    that cannot be read or written (SIGBUS) is not modelled. *)
From Coq Require Import ZArith List Bool.
From Verif Require Import Base Maps Crc Record Pb Meta Convert File Cache Metric DbSpec.
Import ListNotations.
Open Scope Z_scope.

Definition env : Type := list (option nat) * list (option bool).
(** every call works *)
Definition no_faults : env := ([], []).
Definition next_call (e : env) : option nat * env :=
  match fst e with [] => (None, e) | x :: r => (x, (r, snd e)) end.
Definition next_make (e : env) : option bool * env :=
  match snd e with [] => (None, e) | x :: r => (x, (fst e, r)) end.

(** file.go:32-81 createFile by path: os.OpenFile (l.35), system.Allocate (l.56),
    system.Mmap (l.60) *)
Definition do_createF (path : list Z) (e : env) (st : db) : db * res handle * env :=
  let '(x, e) := next_call e in
  match x with
  | Some _ => (st, Err, e)
  | None =>
      let '(k, e) := next_make e in
      let '(c, r) :=
        match createFile (w_size st) (w_cap st), k with
        | (_, Ok _), Some false => ([], Err)
        | (_, Ok _), Some true => (repeat 0 (Z.to_nat (w_size st * (w_cap st + 1))), Err)
        | made, _ => made
        end in
      let '(ino, st) :=
        match mget beqb path (w_files st) with
        | Some ino => (ino, st)
        | None => (w_next st,
                   DB (w_ino st) (w_next st + 1) (mput beqb path (w_next st) (w_files st))
                      (w_dirs st) (w_toks st) (w_cache st) (w_size st) (w_cap st) (w_max st) (w_root st))
        end in
      (set_contents st ino c, do g <- r; Ok (Handle ino g), e)
  end.

(** file.go:84-127 openFile by path: os.OpenFile (l.85), Stat (l.92), Mmap (l.102) *)
Definition do_openF (path : list Z) (e : env) (st : db) : res handle * env :=
  let '(x, e) := next_call e in
  match x with
  | Some _ => (Err, e)
  | None =>
      match mget beqb path (w_files st) with
      | None => (Err, e)
      | Some ino =>
          let '(x, e) := next_call e in
          match x with
          | Some _ => (Err, e)
          | None =>
              let c := contents st ino in
              if len c <? recordHeaderSize then (Err, e)
              else
                let '(x, e) := next_call e in
                match x with
                | Some _ => (Err, e)
                | None => (do g <- openFile c; Ok (Handle ino g), e)
                end
          end
      end
  end.

(** file_cache.go:68-87 acquireFile(path, exists) *)
Definition acquireFileF (path : list Z) (exists_ : bool) (e : env) (st : db) : db * res handle * env :=
  let '(st, hit) :=
    match mget beqb path (w_toks st) with
    | None => (st, None)
    | Some tok =>
        let '(c, r) := cache_take handle_zero (w_cache st) tok in
        (set_fch st (w_toks st) c, r)
    end in
  match hit with
  | Some f => (st, Ok f, e)
  | None => if exists_ then let '(r, e) := do_openF path e st in (st, r, e) else do_createF path e st
  end.

(** os.Remove(path), whose error is ignored (metric.go:203, 265) *)
Definition osRemoveF (path : list Z) (e : env) (st : db) : db * env :=
  let '(x, e) := next_call e in
  (match x with Some _ => st | None => osRemove path st end, e).

(** metric.go:88-103 the directory of the metric is opened, and made if it is
    missing; then its names are read: whether that worked *)
Definition open_dirF (dir : list Z) (ro : bool) (e : env) (st : db) : db * bool * env :=
  let '(x, e) := next_call e in
  match x with
  | Some _ => (st, false, e)
  | None =>
      let '(st, ok, e) :=
        if dir_exists dir st then (st, true, e)
        else if ro then (st, false, e)
        else
          let '(x, e) := next_call e in
          match x with
          | Some k => (set_dirs st (firstn k (removelast (ancestors [] (clean_dir dir))) ++ w_dirs st), false, e)
          | None =>
              let '(st, ok) := mkdirAll dir st in
              if ok then let '(x, e) := next_call e in (st, match x with Some _ => false | None => true end, e)
              else (st, false, e)
          end in
      if ok then let '(x, e) := next_call e in (st, match x with Some _ => false | None => true end, e)
      else (st, false, e)
  end.

(** metric.go:77-161 newMetric *)
Definition newMetricF (name : list Z) (ro : bool) (e : env) (st : db) : db * res metric * env :=
  let dir := metricDir (w_root st) name in
  let '(st, ok, e) := open_dirF dir ro e st in
  if negb ok then (st, Err, e)
  else
    let '(first, last, first_set) := fold_left scan_step (listdir dir st) (0, 0, false) in
    if first_set then (st, Ok (Metric dir first last), e)
    else
      let path := metricFilenameAt dir 1 in
      match acquireFileF path false e st with
      | (st, Ok f, e) => (releaseFile path f st, Ok (Metric dir 1 1), e)
      | (st, Err, e) => (st, Err, e)
      | (st, Panic, e) => (st, Panic, e)
      | (st, Diverge, e) => (st, Diverge, e)
      end.

(** metric.go:177-212 acquireLast *)
Fixpoint acquireLastF_ (fuel : nat) (m : metric) (e : env) (st : db) : db * res (handle * Z * metric) * env :=
  if t_last m <? t_first m then (st, Err, e)
  else
    match fuel with
    | O => (st, Diverge, e)
    | S fuel =>
        let path := filenameAt m (t_last m) in
        match acquireFileF path true e st with
        | (st, Ok f, e) =>
            match getHeadPointer (h_geom f) (contents st (h_ino f)) with
            | Ok head =>
                if (head =? g_cap (h_geom f) - 1) && (t_first m <? t_last m) then
                  let st := releaseFile path f st in
                  let '(st, e) := osRemoveF path e st in
                  acquireLastF_ fuel (Metric (t_dir m) (t_first m) (t_last m - 1)) e st
                else (st, Ok (f, head, m), e)
            | Err => (releaseFile path f st, Err, e)
            | Panic => (st, Panic, e)
            | Diverge => (st, Diverge, e)
            end
        | (st, Err, e) => (st, Err, e)
        | (st, Panic, e) => (st, Panic, e)
        | (st, Diverge, e) => (st, Diverge, e)
        end
    end.
Definition acquireLastF (m : metric) (e : env) (st : db) : db * res (handle * Z * metric) * env :=
  acquireLastF_ (Z.to_nat (t_last m - t_first m + 1)) m e st.

(** metric.go:255-282 a new file for the value: the oldest file is removed if
    there are too many, the new file is made *)
Definition roll_overF (m : metric) (start end_ : Z) (data : list Z) (e : env) (st : db) : db * res bool * env :=
  let '(st, e) :=
    if (w_max st <=? t_last m - t_first m) && (0 <? w_max st) then
      let first_path := filenameAt m (t_first m) in
      osRemoveF first_path e (evictFile first_path st)
    else (st, e) in
  let path := filenameAt m (t_last m + 1) in
  match acquireFileF path false e st with
  | (st, Ok f, e) =>
      let head := g_cap (h_geom f) in
      let '(st, r) :=
        match numRecords (len data) (g_size (h_geom f)) with
        | Ok nr =>
            if nr =? 0 then (st, Err)
            else if head - nr <? 0 then (st, Err)
            else write_into f head nr start end_ data st
        | Err => (st, Err) | Panic => (st, Panic) | Diverge => (st, Diverge)
        end in
      (releaseFile path f st, r, e)
  | (st, Err, e) => (st, Err, e)
  | (st, Panic, e) => (st, Panic, e)
  | (st, Diverge, e) => (st, Diverge, e)
  end.

(** metric.go:229-328 Write after acquireLast *)
Definition write_withF (m : metric) (f : handle) (head : Z) (start end_ : Z)
    (data : list Z) (e : env) (st : db) : db * res bool * env :=
  let g := h_geom f in
  let c := contents st (h_ino f) in
  let head := head + 1 in
  let early :=
    if f_has_record g head c then
      match f_record g head c with
      | Ok r => if end_ <=? r_end r then Some (Ok false) else None
      | Err => Some Err | Panic => Some Panic | Diverge => Some Diverge
      end
    else None in
  match early with
  | Some r => (st, r, e)
  | None =>
  match numRecords (len data) (g_size g) with
  | Ok nr =>
      if nr =? 0 then (st, Err, e)
      else if head - nr <? 0 then
        if (t_last m =? 1) && (head =? g_cap g - 1) then (st, Err, e)
        else roll_overF m start end_ data e st
      else (write_into f head nr start end_ data st, e)
  | Err => (st, Err, e) | Panic => (st, Panic, e) | Diverge => (st, Diverge, e)
  end
  end.

(** metric.go:218-329 Write *)
Definition m_WriteF (m : metric) (start end_ : Z) (data : list Z) (e : env) (st : db) : db * res bool * env :=
  match acquireLastF m e st with
  | (st, Ok (f, head, m), e) =>
      let '(st, r, e) := write_withF m f head start end_ data e st in
      (releaseFile (filenameAt m (t_last m)) f st, r, e)
  | (st, Err, e) => (st, Err, e)
  | (st, Panic, e) => (st, Panic, e)
  | (st, Diverge, e) => (st, Diverge, e)
  end.

(** metric.go:337-494 Read *)
Fixpoint m_ReadF_ {A} (cb : callback A) (fuel : nat) (m : metric) (num end_ : Z) (acc : A) (e : env) (st : db)
  : db * (A * res unit) * env :=
  if num <? t_first m then (st, (acc, Ok tt), e)
  else
    match fuel with
    | O => (st, (acc, Diverge), e)
    | S fuel =>
        let path := filenameAt m num in
        match acquireFileF path true e st with
        | (st, Ok f, e) =>
            let '(acc, r) := read_file cb (h_geom f) (contents st (h_ino f)) end_ acc in
            let st := releaseFile path f st in
            match r with
            | Ok true => m_ReadF_ cb fuel m (num - 1) end_ acc e st
            | Ok false => (st, (acc, Ok tt), e)
            | Err => (st, (acc, Err), e)
            | Panic => (st, (acc, Panic), e)
            | Diverge => (st, (acc, Diverge), e)
            end
        | (st, Err, e) => (st, (acc, Err), e)
        | (st, Panic, e) => (st, (acc, Panic), e)
        | (st, Diverge, e) => (st, (acc, Diverge), e)
        end
    end.
Definition m_ReadF {A} (cb : callback A) (m : metric) (end_ : Z) (acc : A) (e : env) (st : db)
  : db * (A * res unit) * env :=
  m_ReadF_ cb (Z.to_nat (t_last m - t_first m + 1)) m (t_last m) end_ acc e st.

(** db_write.go:102-147 write *)
Definition db_writeF (name : list Z) (start end_ : Z) (data : list Z) (e : env) (st : db) : db * res bool * env :=
  match newMetricF name false e st with
  | (st, Ok m, e) => m_WriteF m start end_ data e st
  | (st, Err, e) => (st, Err, e)
  | (st, Panic, e) => (st, Panic, e)
  | (st, Diverge, e) => (st, Diverge, e)
  end.

(** db_read.go:20-34 Query *)
Definition db_queryF {A} (cb : callback A) (name : list Z) (end_ : Z) (acc : A) (e : env) (st : db)
  : db * (A * res unit) * env :=
  match newMetricF name true e st with
  | (st, Ok m, e) => m_ReadF cb m end_ acc e st
  | (st, Err, e) => (st, (acc, Err), e)
  | (st, Panic, e) => (st, (acc, Panic), e)
  | (st, Diverge, e) => (st, (acc, Diverge), e)
  end.

(** one call of a client, with the answers of the operating system *)
Definition f_step (o : op) (e : env) (st : db) : db * outcome :=
  match o with
  | OWrite name v =>
      let '(st, r, _) := db_writeF name (v_start v) (v_end v) (v_data v) e st in (st, RWrite r)
  | OQuery name end_ =>
      let '(st, (l, r), _) := db_queryF collect_cb name end_ [] e st in (st, RQuery l r)
  | OLatest name =>
      let '(st, (x, r), _) := db_queryF latest_cb name (2 ^ 63 - 1) None e st in (st, RLatest x r)
  | OReopen size cap max handles rand => (db_reopen size cap max handles rand st, RReopen)
  end.

(** A history: calls with the answers of the operating system, and the operator
    deleting a file that cannot be opened ([IClean]: nothing happens if there is
    no such file or its contents are those of a data file). *)
Inductive item := ICall (o : op) (e : env) | IClean (path : list Z).
Definition clean (path : list Z) (st : db) : db :=
  match mget beqb path (w_files st) with
  | Some ino => match openFile (contents st ino) with Err => osRemove path st | _ => st end
  | None => st
  end.
(** the state after a history and what the calls answered *)
Fixpoint f_run (hs : list item) (st : db) : db * list outcome :=
  match hs with
  | [] => (st, [])
  | ICall o e :: hs => let '(st, r) := f_step o e st in
                       let '(st, rs) := f_run hs st in (st, r :: rs)
  | IClean p :: hs => f_run hs (clean p st)
  end.
(** the calls of a history *)
Fixpoint calls (hs : list item) : list (op * env) :=
  match hs with [] => [] | ICall o e :: hs => (o, e) :: calls hs | IClean _ :: hs => calls hs end.
