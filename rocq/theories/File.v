(** Model of database/files/file.go, file_helpers.go and file_ops.go.
    The mmap'd contents of a file are a byte list; the handle's geometry is the
    pair (cap, size).  Failures of mmap/munmap/msync are in Sys.v.  Not modelled: the
    [ref] debugging field. *)
From Coq Require Import ZArith List Lia Bool.
From Verif Require Import Base Crc Record Pb Meta.
Import ListNotations.
Open Scope Z_scope.

(** file.go:21-27 the fields cap and size of type file *)
Record geom := Geom { g_cap : Z; g_size : Z }.

(** file_helpers.go:23-49 writeMetadata: the new contents of [buf].  The
    payload is stored first, then the header computed over it. *)
Definition writeMetadata (buf : list Z) (m : metadata) : res (list Z) :=
  let size := meta_size m in
  if negb (u16 size =? size) then Err
  else if len buf <? recordHeaderSize + size then Err
  else
    let buf := put recordHeaderSize (meta_marshal m) buf in
    let rec := Rec recordVersion kind_complete 0 0 size
                   (skipn (Z.to_nat recordHeaderSize) buf) in
    Ok (put 0 (marshal_header rec) buf).

(** file_helpers.go:52-61 readMetadata *)
Definition readMetadata (buf : list Z) : res metadata :=
  do rec <- parse buf;
  meta_unmarshal (r_data rec).

(** file_helpers.go:65-71 writeRecord *)
Definition writeRecord (buf : list Z) (r : record) : res (list Z) :=
  if len buf <? rec_Size r then Err else Ok (put 0 (marshal r) buf).

(** file_helpers.go:74-76 readRecord *)
Definition readRecord (buf : list Z) : res record := parse buf.

(** file.go:32-81 createFile(path, size, cap): the contents left in the file
    and the outcome.  os.O_TRUNC empties the file first; fallocate zero fills
    and refuses lengths <= 0; Go's int32 division by zero panics. *)
Definition createFile (size cap : Z) : list Z * res geom :=
  if (i64 (cap + 1) <? cap) || negb (i32 cap =? cap) || negb (i32 size =? size)
  then ([], Err)
  else if cap =? 0 then ([], Panic)
  else if negb (i32 (Z.quot (i32 (size * cap)) cap) =? size) then ([], Err)
  else
    let n := size * (cap + 1) in
    if n <=? 0 then ([], Err)
    else
      let zeros := repeat 0 (Z.to_nat n) in
      if size <? 0 then (zeros, Panic)
      else
        match writeMetadata (sub 0 size zeros) (Meta size (cap - 1) 0 0 0) with
        | Ok b => (put 0 b zeros, Ok (Geom cap size))
        | _ => (zeros, Err)
        end.

(** file.go:84-127 openFile of a file with the given contents *)
Definition openFile (c : list Z) : res geom :=
  if len c <? recordHeaderSize then Err
  else
    do m <- readMetadata c;
    if m_size m <? recordHeaderSize then Err
    else Ok (Geom (len c / m_size m - 1) (m_size m)).

(** file.go:133-135 offset *)
Definition offset (g : geom) (n : Z) : Z := (n + 1) * g_size g.

(** file.go:156-158 Metadata; slicing beyond the mapped length panics *)
Definition f_metadata (g : geom) (c : list Z) : res metadata :=
  if len c <? g_size g then Panic else readMetadata (sub 0 (g_size g) c).

(** file.go:161-163 SetMetadata *)
Definition f_set_metadata (g : geom) (m : metadata) (c : list Z) : res (list Z) :=
  if len c <? g_size g then Panic
  else do b <- writeMetadata (sub 0 (g_size g) c) m;
       Ok (put 0 b c).

(** file.go:166-172 Record *)
Definition f_record (g : geom) (n : Z) (c : list Z) : res record :=
  if (g_cap g <=? n) || (n <? 0) then Err
  else readRecord (sub (offset g n) (g_size g) c).

(** file.go:175-181 SetRecord *)
Definition f_set_record (g : geom) (n : Z) (r : record) (c : list Z) : res (list Z) :=
  if (g_cap g <=? n) || (n <? 0) then Err
  else
    do b <- writeRecord (sub (offset g n) (g_size g) c) r;
    Ok (put (offset g n) b c).

(** file.go:184-193 HasRecord *)
Definition f_has_record (g : geom) (n : Z) (c : list Z) : bool :=
  if (g_cap g <=? n) || (n <? 0) then false
  else negb (at_ (offset g n) c =? 0).

(** file_ops.go:32-49 the walking loop of getHeadPointer.  A hint beyond the
    capacity makes the Go loop run for 2^63 rounds: reported as [Diverge]. *)
Fixpoint head_walk (fuel : nat) (g : geom) (c : list Z) (orig_has : bool)
    (delta head : Z) : res Z :=
  match fuel with
  | O => Diverge
  | S f =>
      let head := head + delta in
      if head =? g_cap g then Ok (head - 1)
      else if head <? 0 then Ok (-1)
      else
        if Bool.eqb (f_has_record g head c) orig_has
        then head_walk f g c orig_has delta head
        else if orig_has then Ok head else Ok (head - 1)
  end.

(** file_ops.go:9-50 getHeadPointer *)
Definition getHeadPointer (g : geom) (c : list Z) : res Z :=
  do m <- f_metadata g c;
  let head := m_head m in
  if head <? 0 then Ok head
  else
    let orig_has := f_has_record g head c in
    let delta := if orig_has then -1 else 1 in
    head_walk (Z.to_nat (g_cap g) + 2) g c orig_has delta head.
