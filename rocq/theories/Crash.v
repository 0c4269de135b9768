(** Crash points of a write: which states of the disk a process that dies in
    the middle of db.write (db_write.go:102-147, metric.go:77-329,
    file.go:32-81, file_helpers.go:23-71) can leave behind.

    The process dies, the kernel does not: stores into a shared mapping that
    were executed survive, others do not happen.  Stores happen in program
    order, one [copy] / one header after the other; inside one of them any
    subset of the bytes may have been stored (copy does not promise an order).
    File system calls (link, truncate, fallocate, unlink) are atomic.  The
    process' memory (handle cache) is lost: what a later process sees is
    [db_reopen] of the states below. *)
From Coq Require Import ZArith List Bool.
From Verif Require Import Base Maps Crc Record Pb Meta Convert File Cache Metric.
Import ListNotations.
Open Scope Z_scope.

(** some of the bytes of [b] have been stored over [a], in any order *)
Definition torn (a b t : list Z) : Prop :=
  len t = len a /\ forall i, 0 <= i < len a -> at_ i t = at_ i a \/ at_ i t = at_ i b.

(** the stages of a write *)
Inductive phase :=
| PNothing    (* nothing stored yet *)
| PDirs       (* newMetric: some of the directories made *)
| PCreate     (* inside createFile *)
| PDrop       (* the oldest file unlinked *)
| PRecords    (* storing the records *)
| PMetadata   (* storing the metadata *)
| PDone.      (* everything stored, not yet acknowledged *)

(** metric.go:290-301, file.go:175-181: inside the stores of [recs] at [head],
    [head]+1, ...; the last state is the one before the metadata is touched *)
Fixpoint crash_records (g : geom) (head : Z) (recs : list record) (c t : list Z) : Prop :=
  match recs with
  | [] => t = c
  | r :: rest =>
      match f_set_record g head r c with
      | Ok c' => torn c c' t \/ crash_records g (head + 1) rest c' t
      | _ => t = c
      end
  end.

(** file_helpers.go:23-49 inside writeMetadata on the file contents [c]: first
    the payload (l.33-38), then the header (l.40-47) *)
Definition crash_metadata (g : geom) (m : metadata) (c t : list Z) : Prop :=
  exists c', f_set_metadata g m c = Ok c' /\
    let c1 := put recordHeaderSize (meta_marshal m) c in
    torn c c1 t \/ torn c1 c' t.

(** file.go:32-81 inside createFile: truncated, allocated, metadata half stored *)
Definition crash_create (size cap : Z) (t : list Z) : Prop :=
  t = [] \/
  exists c g, createFile size cap = (c, Ok g) /\
    let zeros := repeat 0 (length c) in
    t = zeros \/ crash_metadata g (Meta size (cap - 1) 0 0 0) zeros t.

(** metric.go:284-328 inside the second half of Write, on the file contents *)
Definition crash_write_records (p : phase) (g : geom) (head nr start end_ : Z) (data : list Z)
    (c t : list Z) : Prop :=
  match iterateRecords start end_ data (g_size g) with
  | Ok recs =>
      match p with
      | PRecords => crash_records g (head - nr) recs c t
      | PMetadata =>
          exists c1 m, set_records g (head - nr) recs c = (c1, Ok tt) /\
            f_metadata g c1 = Ok m /\
            crash_metadata g (next_meta m (head - nr - 1) start end_) c1 t
      | _ => False
      end
  | _ => False
  end.

Definition crash_into (p : phase) (f : handle) (head nr start end_ : Z) (data : list Z)
    (st t : db) : Prop :=
  exists c, crash_write_records p (h_geom f) head nr start end_ data (contents st (h_ino f)) c /\
            t = set_contents st (h_ino f) c.

(** inside do_create (Metric.v) *)
Definition crash_do_create (path : list Z) (st t : db) : Prop :=
  exists c, crash_create (w_size st) (w_cap st) c /\
  let '(ino, st1) :=
    match mget beqb path (w_files st) with
    | Some ino => (ino, st)
    | None => (w_next st,
               DB (w_ino st) (w_next st + 1) (mput beqb path (w_next st) (w_files st))
                  (w_dirs st) (w_toks st) (w_cache st) (w_size st) (w_cap st) (w_max st) (w_root st))
    end in
  t = set_contents st1 ino c.

(** metric.go:77-161 inside newMetric with write access: MkdirAll makes the
    missing ancestors one after the other, then the first file is created *)
Definition crash_newMetric (p : phase) (name : list Z) (st t : db) : Prop :=
  let dir := metricDir (w_root st) name in
  match p with
  | PDirs => dir_exists dir st = false /\
      exists l, incl l (ancestors [] (clean_dir dir)) /\ t = set_dirs st (l ++ w_dirs st)
  | PCreate =>
      let st1 := if dir_exists dir st then st else fst (mkdirAll dir st) in
      (let '(_, _, first_set) := fold_left scan_step (listdir dir st1) (0, 0, false) in
       first_set = false) /\
      crash_do_create (metricFilenameAt dir 1) st1 t
  | _ => False
  end.

(** metric.go:177-212 inside acquireLast: an empty last file has been unlinked *)
Fixpoint crash_acquireLast_ (fuel : nat) (m : metric) (st t : db) : Prop :=
  if t_last m <? t_first m then False
  else
    match fuel with
    | O => False
    | S fuel =>
        let path := filenameAt m (t_last m) in
        match acquireFile path true st with
        | (st, Ok f) =>
            match getHeadPointer (h_geom f) (contents st (h_ino f)) with
            | Ok head =>
                if (head =? g_cap (h_geom f) - 1) && (t_first m <? t_last m) then
                  let st := osRemove path (releaseFile path f st) in
                  t = st \/
                  crash_acquireLast_ fuel (Metric (t_dir m) (t_first m) (t_last m - 1)) st t
                else False
            | _ => False
            end
        | _ => False
        end
    end.

(** metric.go:229-328 inside Write after acquireLast *)
Definition crash_write_with (p : phase) (m : metric) (f : handle) (head : Z) (start end_ : Z)
    (data : list Z) (st t : db) : Prop :=
  let g := h_geom f in
  let c := contents st (h_ino f) in
  let head := head + 1 in
  let early :=
    if f_has_record g head c then
      match f_record g head c with
      | Ok r => if end_ <=? r_end r then Some (Ok false) else None
      | Err => Some Err | Panic => Some Panic | Diverge => Some Diverge
      end
    else None in
  match early with
  | Some _ => False
  | None =>
  match numRecords (len data) (g_size g) with
  | Ok nr =>
      if nr =? 0 then False
      else if head - nr <? 0 then
        if (t_last m =? 1) && (head =? g_cap g - 1) then False
        else
          let drop := (w_max st <=? t_last m - t_first m) && (0 <? w_max st) in
          let st :=
            if drop then
              let first_path := filenameAt m (t_first m) in
              osRemove first_path (evictFile first_path st)
            else st in
          let path := filenameAt m (t_last m + 1) in
          match p with
          | PDrop => drop = true /\ t = st
          | PCreate => crash_do_create path st t
          | _ =>
              match acquireFile path false st with
              | (st, Ok f) =>
                  let head := g_cap (h_geom f) in
                  match numRecords (len data) (g_size (h_geom f)) with
                  | Ok nr =>
                      if nr =? 0 then False
                      else if head - nr <? 0 then False
                      else crash_into p f head nr start end_ data st t
                  | _ => False
                  end
              | _ => False
              end
          end
      else crash_into p f head nr start end_ data st t
  | _ => False
  end
  end.

(** metric.go:218-329 inside Write *)
Definition crash_m_Write (p : phase) (m : metric) (start end_ : Z) (data : list Z) (st t : db) : Prop :=
  (p = PDrop /\ crash_acquireLast_ (Z.to_nat (t_last m - t_first m + 1)) m st t) \/
  match acquireLast m st with
  | (st, Ok (f, head, m)) => crash_write_with p m f head start end_ data st t
  | _ => False
  end.

(** db_write.go:102-147: [t] is a state of the disk in which a process that
    dies during write(name, start, end, data) in stage [p] leaves [st] *)
Definition crash_db_write (p : phase) (name : list Z) (start end_ : Z) (data : list Z) (st t : db) : Prop :=
  match p with
  | PNothing => t = st
  | PDone => t = fst (db_write name start end_ data st)
  | _ =>
      crash_newMetric p name st t \/
      match newMetric name false st with
      | (st, Ok m) => crash_m_Write p m start end_ data st t
      | _ => False
      end
  end.
