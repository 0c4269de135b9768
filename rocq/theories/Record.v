(** Model of database/files/record.go: the on-disk record. *)
From Coq Require Import ZArith List Lia Bool.
From Verif Require Import Base Crc.
Import ListNotations.
Open Scope Z_scope.

(** record.go:15 recordVersion *)
Definition recordVersion : Z := 1.
(** record.go:30 recordHeaderSize = (1+1+8+8+2)+4 *)
Definition recordHeaderSize : Z := 24.

(** record.go:35-50 recordKind values (iota + 1) *)
Definition kind_metadata : Z := 1.
Definition kind_complete : Z := 2.
Definition kind_begin : Z := 3.
Definition kind_continue : Z := 4.
Definition kind_end : Z := 5.

(** record.go:18-25 type record *)
Record record := Rec {
  r_version : Z;   (* int8 *)
  r_kind : Z;      (* int8 *)
  r_start : Z;     (* int64 *)
  r_end : Z;       (* int64 *)
  r_size : Z;      (* uint16 *)
  r_data : list Z
}.

(** record.go:53-55 Size *)
Definition rec_Size (r : record) : Z := recordHeaderSize + r_size r.

(** record.go:73-76: the 20 header bytes covered by the checksum *)
Definition header20 (r : record) : list Z :=
  [r_version r mod 256; r_kind r mod 256]
    ++ be 8 (u64 (r_start r)) ++ be 8 (u64 (r_end r)) ++ be 2 (r_size r).

(** record.go:80-83 checksum over header and data[:size] *)
Definition rec_crc (r : record) : Z :=
  crc_update (crc_update 0 (header20 r))
             (firstn (Z.to_nat (r_size r)) (r_data r)).

(** record.go:63-86 MarshalHeader.  Simplification: reallocation of the
    destination (l.65-67) is not modelled; callers in the package always pass a
    buffer with enough capacity. *)
Definition marshal_header (r : record) : list Z :=
  header20 r ++ be 4 (rec_crc r).

(** record.go:89-93 Marshal *)
Definition marshal (r : record) : list Z :=
  marshal_header r ++ firstn (Z.to_nat (r_size r)) (r_data r).

(** record.go:97-128 parse *)
Definition parse (buf : list Z) : res record :=
  if len buf <? recordHeaderSize then Err
  else
    let version := i8 (at_ 0 buf) in
    if negb (version =? recordVersion) then Err
    else
      let kind := i8 (at_ 1 buf) in
      let start := i64 (unbe (sub 2 8 buf)) in
      let end_ := i64 (unbe (sub 10 8 buf)) in
      let size := unbe (sub 18 2 buf) in
      let data_end := recordHeaderSize + size in
      if len buf <? data_end then Err
      else
        let data := sub recordHeaderSize size buf in
        let crc := crc_update (crc_update 0 (sub 0 20 buf)) data in
        let disk_crc := unbe (sub 20 4 buf) in
        if negb (crc =? disk_crc) then Err
        else Ok (Rec version kind start end_ size data).

(** record.go:132-141 numRecords; the division by a zero chunk panics *)
Definition numRecords (n size : Z) : res Z :=
  let chunk := size - recordHeaderSize in
  if (chunk <? 0) || negb (u16 chunk =? chunk) then Ok 0
  else if n =? 0 then Ok 1
  else if chunk =? 0 then Panic
  else Ok ((n + chunk - 1) / chunk).

(** record.go:158-174 the loop of iterateRecords: [kind] is begin on the first
    round and continue afterwards; [fuel] bounds the rounds, running out is
    reported as [Diverge]. *)
Fixpoint iterate_loop (fuel : nat) (start end_ : Z) (chunk : Z) (kind : Z)
    (complete : bool) (data : list Z) : res (list record) :=
  if len data <=? chunk then
    (* record.go:176-189 the last record *)
    let kind := if complete then kind_complete else kind_end in
    Ok [Rec recordVersion kind start end_ (u16 (len data)) data]
  else
    match fuel with
    | O => Diverge
    | S fuel' =>
        do rest <- iterate_loop fuel' start end_ chunk kind_continue complete
                     (skipn (Z.to_nat chunk) data);
        Ok (Rec recordVersion kind start end_ (u16 chunk)
              (firstn (Z.to_nat chunk) data) :: rest)
    end.

(** record.go:147-190 iterateRecords, as the list of records given to the
    callback (the callback's early stop is applied by the caller). *)
Definition iterateRecords (start end_ : Z) (data : list Z) (size : Z)
  : res (list record) :=
  let chunk := size - recordHeaderSize in
  if (chunk <? 0) || negb (u16 chunk =? chunk) then Err
  else iterate_loop (length data) start end_ chunk kind_begin
         (len data <=? chunk) data.
