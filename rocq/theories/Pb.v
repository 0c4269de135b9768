(** The parts shared by the two generated protobuf codecs
    database/files/internal/meta/meta.pb.go and data/record.pb.go (the
    generated functions differ only in their names). *)
From Coq Require Import ZArith List Lia Bool.
From Verif Require Import Base.
Import ListNotations.
Open Scope Z_scope.

(** meta.pb.go:79-87 / record.pb.go:121-129 encodeVarint: the bytes stored for
    the uint64 [v].  [fuel] bounds the loop (10 rounds suffice for 64 bits). *)
Fixpoint put_varint_ (fuel : nat) (v : Z) : list Z :=
  match fuel with
  | O => [v]
  | S f => if v <? 128 then [v] else (v mod 128 + 128) :: put_varint_ f (v / 128)
  end.
Definition put_varint (v : Z) : list Z := put_varint_ 10 v.

(** meta.pb.go:109-118 / record.pb.go:170-179 sov: encoded length *)
Fixpoint sov_ (fuel : nat) (x : Z) : Z :=
  match fuel with
  | O => 0
  | S f => if x / 128 =? 0 then 1 else 1 + sov_ f (x / 128)
  end.
Definition sov (x : Z) : Z := sov_ 10 x.

(** the varint reading loop (meta.pb.go:128-142 and every other copy of it):
    [for shift := 0; ; shift += 7 { if shift >= 64 {overflow}; if iNdEx >= l
    {EOF}; b := dAtA[iNdEx]; iNdEx++; v |= (b & 0x7f) << shift; if b < 0x80
    {break} }].  Returns the uint64 value and the next index; a negative index
    panics.  At shift 63 the bits beyond 2^64 are dropped. *)
Fixpoint get_varint_ (rounds : nat) (shift acc : Z) (d : list Z) (i : Z)
  : res (Z * Z) :=
  match rounds with
  | O => Err
  | S r =>
      if len d <=? i then Err
      else if i <? 0 then Panic
      else
        let b := at_ i d in
        let acc := Z.lor acc (u64 (Z.land b 127 * 2 ^ shift)) in
        if b <? 128 then Ok (acc, i + 1)
        else get_varint_ r (shift + 7) acc d (i + 1)
  end.
Definition get_varint (d : list Z) (i : Z) : res (Z * Z) :=
  get_varint_ 10 0 0 d i.

(** meta.pb.go:267-365 / record.pb.go:453-551 skip: the length of the first
    field of [d] (group fields recurse).  [group] is the loop of case 3.
    int additions wrap at 64 bits. *)
Fixpoint skip_ (fuel : nat) (d : list Z) : res Z :=
  match fuel with
  | O => Diverge
  | S f =>
      if len d <=? 0 then Panic (* panic("unreachable") *)
      else
        do wi <- get_varint d 0;
        let '(wire, i) := wi in
        let wt := wire mod 8 in
        if wt =? 0 then do vi <- get_varint d i; Ok (snd vi)
        else if wt =? 1 then Ok (i64 (i + 8))
        else if wt =? 2 then
          do li <- get_varint d i;
          let '(length, i) := li in
          let length := i64 length in
          if length <? 0 then Err else Ok (i64 (i + length))
        else if wt =? 3 then group_ f d i
        else if wt =? 4 then Ok i
        else if wt =? 5 then Ok (i64 (i + 4))
        else Err
  end
with group_ (fuel : nat) (d : list Z) (i : Z) : res Z :=
  match fuel with
  | O => Diverge
  | S f =>
      do wi <- get_varint d i;
      let '(wire, i') := wi in
      if wire mod 8 =? 4 then Ok i'
      else
        do next <- skip_ f (skipn (Z.to_nat i) d);
        group_ f d (i64 (i + next))
  end.
Definition skip (d : list Z) : res Z := skip_ (2 * length d + 3) d.

(** meta.pb.go:122-266 / record.pb.go:183-452: the loop of Unmarshal around the
    field switch.  [field num wiretype d i m] is the case of the switch: [None]
    is the default case. *)
Fixpoint pb_loop {M : Type}
    (field : Z -> Z -> list Z -> Z -> M -> option (res (M * Z)))
    (fuel : nat) (d : list Z) (i : Z) (m : M) : res M :=
  if len d <=? i then (if len d <? i then Err else Ok m)
  else
  match fuel with
  | O => Diverge
  | S f =>
      do wi <- get_varint d i;
      let '(wire, i') := wi in
      let num := i32 (wire / 8) in
      let wt := wire mod 8 in
      if wt =? 4 then Err
      else if num <=? 0 then Err
      else
        match field num wt d i' m with
        | Some r => do mi <- r; pb_loop field f d (snd mi) (fst mi)
        | None =>
            do skippy <- skip (skipn (Z.to_nat i) d);
            if skippy <? 0 then Err
            else
              let j := i64 (i + skippy) in
              if len d <? j then Err else pb_loop field f d j m
        end
  end.

Definition pb_unmarshal {M : Type}
    (field : Z -> Z -> list Z -> Z -> M -> option (res (M * Z)))
    (m0 : M) (d : list Z) : res M :=
  pb_loop field (S (length d)) d 0 m0.
