(** Model of data/record.pb.go: the serialized distribution record. *)
From Coq Require Import ZArith List Lia Bool.
From Verif Require Import Base Pb Meta.
Import ListNotations.
Open Scope Z_scope.

(** data/record.pb.go:24-41 type Record.  Floats are their IEEE 754 bit
    patterns (uint64); nil and empty slices are identified. *)
Record drecord := DRec {
  d_start : Z;
  d_end : Z;
  d_obs : Z;
  d_dist : list Z;
  d_kind : list Z;
  d_min : Z;      (* float64 bits *)
  d_max : Z;      (* float64 bits *)
  d_minid : list Z;
  d_maxid : list Z;
  d_merged : Z
}.
Definition drec_zero : drecord := DRec 0 0 0 [] [] 0 0 [] [] 0.

(** [f != 0] on a float64 given by its bits: false for +0 and -0 *)
Definition fbits_zero (b : Z) : bool := (b =? 0) || (b =? 2 ^ 63).

(** encoding/binary.LittleEndian.PutUint64 / Uint64 *)
Definition le8 (n : Z) : list Z := rev (be 8 n).
Definition unle (l : list Z) : Z := unbe (rev l).

(** [if len(m.F) > 0 { tag; varint(len); copy }] *)
Definition put_bytes (tag : Z) (b : list Z) : list Z :=
  if len b =? 0 then [] else tag :: put_varint (len b) ++ b.
(** [if m.F != 0 { tag; PutUint64 }] *)
Definition put_float (tag b : Z) : list Z :=
  if fbits_zero b then [] else tag :: le8 b.

(** data/record.pb.go:57-119 MarshalTo (the bytes written) *)
Definition drec_marshal (m : drecord) : list Z :=
  put_field 8 (d_start m) ++ put_field 16 (d_end m) ++ put_field 24 (d_obs m)
    ++ put_bytes 34 (d_dist m) ++ put_bytes 42 (d_kind m)
    ++ put_float 49 (d_min m) ++ put_float 57 (d_max m)
    ++ put_bytes 66 (d_minid m) ++ put_bytes 74 (d_maxid m)
    ++ put_field 80 (d_merged m).

(** data/record.pb.go:130-168 Size *)
Definition drec_size (m : drecord) : Z :=
  let f v := if v =? 0 then 0 else 1 + sov (u64 v) in
  let b l := if 0 <? len l then 1 + len l + sov (len l) else 0 in
  let x v := if fbits_zero v then 0 else 9 in
  f (d_start m) + f (d_end m) + f (d_obs m) + b (d_dist m) + b (d_kind m)
    + x (d_min m) + x (d_max m) + b (d_minid m) + b (d_maxid m) + f (d_merged m).

(** a length delimited field: varint length, sign check, postIndex check
    (record.pb.go:273-299 and copies); [dAtA[iNdEx:postIndex]] panics when
    postIndex wrapped below iNdEx *)
Definition get_bytes (d : list Z) (i : Z) : res (list Z * Z) :=
  do li <- get_varint d i;
  let '(n, i) := li in
  let n := i64 n in
  if n <? 0 then Err
  else
    let post := i64 (i + n) in
    if len d <? post then Err
    else if post <? i then Panic
    else Ok (sub i (post - i) d, post).

(** a fixed64 field (record.pb.go:333-339) *)
Definition get_fixed64 (d : list Z) (i : Z) : res (Z * Z) :=
  if len d <? i + 8 then Err else Ok (unle (sub i 8 d), i + 8).

(** data/record.pb.go:211-431 the field switch of Unmarshal *)
Definition drec_field (num wt : Z) (d : list Z) (i : Z) (m : drecord)
  : option (res (drecord * Z)) :=
  let vi (k : Z -> drecord) : option (res (drecord * Z)) :=
    Some (if negb (wt =? 0) then Err
          else do vi <- get_varint d i; Ok (k (i64 (fst vi)), snd vi)) in
  let by_ (k : list Z -> drecord) : option (res (drecord * Z)) :=
    Some (if negb (wt =? 2) then Err
          else do vi <- get_bytes d i; Ok (k (fst vi), snd vi)) in
  let fl (k : Z -> drecord) : option (res (drecord * Z)) :=
    Some (if negb (wt =? 1) then Err
          else do vi <- get_fixed64 d i; Ok (k (fst vi), snd vi)) in
  let '(DRec a b c e f g h k l n) := m in
  if num =? 1 then vi (fun v => DRec v b c e f g h k l n)
  else if num =? 2 then vi (fun v => DRec a v c e f g h k l n)
  else if num =? 3 then vi (fun v => DRec a b v e f g h k l n)
  else if num =? 4 then by_ (fun v => DRec a b c v f g h k l n)
  else if num =? 5 then by_ (fun v => DRec a b c e v g h k l n)
  else if num =? 6 then fl (fun v => DRec a b c e f v h k l n)
  else if num =? 7 then fl (fun v => DRec a b c e f g v k l n)
  else if num =? 8 then by_ (fun v => DRec a b c e f g h v l n)
  else if num =? 9 then by_ (fun v => DRec a b c e f g h k v n)
  else if num =? 10 then vi (fun v => DRec a b c e f g h k l v)
  else None.

(** data/record.pb.go:183-452 Unmarshal into a zero Record *)
Definition drec_unmarshal (d : list Z) : res drecord :=
  pb_unmarshal drec_field drec_zero d.
