(** Independent specification of the protobuf wire format, as far as the two
    messages of the program (database/files/internal/meta/meta.proto and
    data/record.proto) are concerned.  Nothing here refers to the decoders. *)
From Coq Require Import ZArith List.
From Verif Require Import Base Meta PbRecord.
Import ListNotations.
Open Scope Z_scope.

(** [varint v l]: the bytes [l] are an (not necessarily the shortest) encoding
    of [v]: seven bits per byte, least significant first, all bytes but the
    last have the high bit set *)
Inductive varint : Z -> list Z -> Prop :=
| varint_last b : 0 <= b < 128 -> varint b [b]
| varint_more b v l : 0 <= b < 128 -> varint v l -> varint (b + 128 * v) ((b + 128) :: l).

(** a varint of at most ten bytes whose value fits 64 bits *)
Definition varint64 (v : Z) (l : list Z) : Prop :=
  varint v l /\ v < 2 ^ 64 /\ (length l <= 10)%nat.

(** what a field carries *)
Inductive content :=
| CVarint (v : Z)
| CFixed64 (b : list Z)       (* 8 bytes *)
| CBytes (b : list Z)
| CGroup
| CFixed32 (b : list Z).      (* 4 bytes *)

(** the key of field [num] with wire type [wt] *)
Definition key (num wt : Z) (l : list Z) : Prop :=
  1 <= num < 2 ^ 29 /\ varint64 (num * 8 + wt) l.

(** [field num c l]: the bytes [l] are field [num] with content [c];
    [fields l]: any number of fields (the inside of a group) *)
Inductive field : Z -> content -> list Z -> Prop :=
| field_varint num k v b : key num 0 k -> varint64 v b -> field num (CVarint v) (k ++ b)
| field_fixed64 num k b : key num 1 k -> length b = 8%nat -> field num (CFixed64 b) (k ++ b)
| field_bytes num k n b : key num 2 k -> varint64 (len b) n -> field num (CBytes b) (k ++ n ++ b)
| field_group num num' k k' body : key num 3 k -> fields body -> key num' 4 k' ->
    field num CGroup (k ++ body ++ k')
| field_fixed32 num k b : key num 5 k -> length b = 4%nat -> field num (CFixed32 b) (k ++ b)
with fields : list Z -> Prop :=
| fields_nil : fields []
| fields_cons num c a l : field num c a -> fields l -> fields (a ++ l).

(** a message: a sequence of fields in any order *)
Inductive message : list (Z * content) -> list Z -> Prop :=
| message_nil : message [] []
| message_cons num c a fs l : field num c a -> message fs l -> message ((num, c) :: fs) (a ++ l).

(** what a field means for each message; [None]: the content has the wrong
    type.  Unknown numbers change nothing. *)
Definition set_meta (x : Z * content) (m : metadata) : option metadata :=
  match x with
  | (1, CVarint v) => Some (Meta (i64 v) (m_head m) (m_start m) (m_end m) (m_smallest m))
  | (2, CVarint v) => Some (Meta (m_size m) (i64 v) (m_start m) (m_end m) (m_smallest m))
  | (3, CVarint v) => Some (Meta (m_size m) (m_head m) (i64 v) (m_end m) (m_smallest m))
  | (4, CVarint v) => Some (Meta (m_size m) (m_head m) (m_start m) (i64 v) (m_smallest m))
  | (5, CVarint v) => Some (Meta (m_size m) (m_head m) (m_start m) (m_end m) (i64 v))
  | (1, _) | (2, _) | (3, _) | (4, _) | (5, _) => None
  | _ => Some m
  end.

Definition set_drec (x : Z * content) (m : drecord) : option drecord :=
  let '(DRec a b c e f g h k l n) := m in
  match x with
  | (1, CVarint v) => Some (DRec (i64 v) b c e f g h k l n)
  | (2, CVarint v) => Some (DRec a (i64 v) c e f g h k l n)
  | (3, CVarint v) => Some (DRec a b (i64 v) e f g h k l n)
  | (4, CBytes v) => Some (DRec a b c v f g h k l n)
  | (5, CBytes v) => Some (DRec a b c e v g h k l n)
  | (6, CFixed64 v) => Some (DRec a b c e f (unle v) h k l n)
  | (7, CFixed64 v) => Some (DRec a b c e f g (unle v) k l n)
  | (8, CBytes v) => Some (DRec a b c e f g h v l n)
  | (9, CBytes v) => Some (DRec a b c e f g h k v n)
  | (10, CVarint v) => Some (DRec a b c e f g h k l (i64 v))
  | (1, _) | (2, _) | (3, _) | (4, _) | (5, _) | (6, _) | (7, _) | (8, _) | (9, _) | (10, _) => None
  | _ => Some m
  end.

(** the fields are taken in order; the first of a wrong type is an error *)
Fixpoint interp {M} (set : Z * content -> M -> option M) (fs : list (Z * content)) (m : M) : option M :=
  match fs with
  | [] => Some m
  | x :: r => match set x m with Some m' => interp set r m' | None => None end
  end.
