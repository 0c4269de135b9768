(** Independent specification of the record layer. *)
From Coq Require Import ZArith List Bool.
From Verif Require Import Base Record.
Import ListNotations.
Open Scope Z_scope.

(** a record as the program builds it: version 1, a kind that fits a byte as a
    non-negative int8, int64 times, size = number of payload bytes < 2^16 *)
Definition record_ok (r : record) : Prop :=
  r_version r = 1 /\ 0 <= r_kind r < 128 /\
  is_i64 (r_start r) /\ is_i64 (r_end r) /\
  r_size r = len (r_data r) /\ len (r_data r) < 65536 /\
  is_bytes (r_data r).

(** [splits v kinds payloads]: the shape of a value spread over records:
    one complete record, or begin, continues, end *)
Inductive kinds_ok : list Z -> Prop :=
| kinds_complete : kinds_ok [2]
| kinds_multi n : kinds_ok ([3] ++ repeat 4 n ++ [5]).

(** the bytes [l] with position [i] replaced by [b] *)
Definition set_byte (i : nat) (b : Z) (l : list Z) : list Z :=
  firstn i l ++ b :: skipn (S i) l.
