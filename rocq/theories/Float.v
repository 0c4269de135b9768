(** float64 values given by their IEEE 754 bits ([Z] in [0,2^64)), as in
    PbRecord.v, and the Go comparisons on them.

    The semantics is the standard library's [SpecFloat] (executable IEEE 754
    arithmetic on [Z], no axioms).  Nothing of /repo is modelled here: these
    are the language's operators <, <=, ==, math.IsNaN and math.IsInf. *)
From Coq Require Import ZArith List Bool.
From Coq Require Import Floats.SpecFloat.
From Verif Require Import Base.
Import ListNotations.
Open Scope Z_scope.

Definition fsign (b : Z) : bool := 2 ^ 63 <=? b.
Definition fexp (b : Z) : Z := (b / 2 ^ 52) mod 2 ^ 11.
Definition fman (b : Z) : Z := b mod 2 ^ 52.

(** the number a bit pattern stands for (math.Float64frombits) *)
Definition fdecode (b : Z) : spec_float :=
  if fexp b =? 0 then
    match fman b with
    | Zpos m => S754_finite (fsign b) m (-1074)
    | _ => S754_zero (fsign b)
    end
  else if fexp b =? 2047 then
    (if fman b =? 0 then S754_infinity (fsign b) else S754_nan)
  else match 2 ^ 52 + fman b with
       | Zpos m => S754_finite (fsign b) m (fexp b - 1075)
       | _ => S754_nan
       end.

(** a < b *)
Definition flt (a b : Z) : bool := SFltb (fdecode a) (fdecode b).
(** a <= b *)
Definition fle (a b : Z) : bool := SFleb (fdecode a) (fdecode b).
(** a == b *)
Definition feq (a b : Z) : bool := SFeqb (fdecode a) (fdecode b).
(** math.IsNaN *)
Definition fnan (b : Z) : bool := match fdecode b with S754_nan => true | _ => false end.
(** math.IsInf(b, 0) *)
Definition finf (b : Z) : bool := match fdecode b with S754_infinity _ => true | _ => false end.

Definition is_f64 (b : Z) : Prop := 0 <= b < 2 ^ 64.
(** neither infinite nor NaN *)
Definition finite (b : Z) : Prop := is_f64 b /\ fnan b = false /\ finf b = false.

(** +0 *)
Definition f_zero : Z := 0.
Definition f_one : Z := 0x3FF0000000000000.
