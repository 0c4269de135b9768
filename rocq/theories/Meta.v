(** Model of database/files/internal/meta/meta.pb.go. *)
From Coq Require Import ZArith List Lia Bool.
From Verif Require Import Base Pb.
Import ListNotations.
Open Scope Z_scope.

(** meta.pb.go:22-30 type Metadata (Size_, Head int; Start, End, SmallestEnd int64) *)
Record metadata := Meta {
  m_size : Z;
  m_head : Z;
  m_start : Z;
  m_end : Z;
  m_smallest : Z
}.
Definition meta_zero : metadata := Meta 0 0 0 0 0.

(** one [if m.F != 0 { tag; varint }] block of MarshalTo *)
Definition put_field (tag v : Z) : list Z :=
  if v =? 0 then [] else tag :: put_varint (u64 v).

(** meta.pb.go:46-77 MarshalTo (the bytes written) *)
Definition meta_marshal (m : metadata) : list Z :=
  put_field 8 (m_size m) ++ put_field 16 (m_head m) ++ put_field 24 (m_start m)
    ++ put_field 32 (m_end m) ++ put_field 40 (m_smallest m).

(** meta.pb.go:88-107 Size *)
Definition meta_size (m : metadata) : Z :=
  let f v := if v =? 0 then 0 else 1 + sov (u64 v) in
  f (m_size m) + f (m_head m) + f (m_start m) + f (m_end m) + f (m_smallest m).

(** meta.pb.go:150-245 the field switch of Unmarshal *)
Definition meta_field (num wt : Z) (d : list Z) (i : Z) (m : metadata)
  : option (res (metadata * Z)) :=
  let vi (k : Z -> metadata) : option (res (metadata * Z)) :=
    Some (if negb (wt =? 0) then Err
          else do vi <- get_varint d i; Ok (k (i64 (fst vi)), snd vi)) in
  let '(Meta a b c e f) := m in
  if num =? 1 then vi (fun v => Meta v b c e f)
  else if num =? 2 then vi (fun v => Meta a v c e f)
  else if num =? 3 then vi (fun v => Meta a b v e f)
  else if num =? 4 then vi (fun v => Meta a b c v f)
  else if num =? 5 then vi (fun v => Meta a b c e v)
  else None.

(** meta.pb.go:122-266 Unmarshal into a zero Metadata *)
Definition meta_unmarshal (d : list Z) : res metadata :=
  pb_unmarshal meta_field meta_zero d.
