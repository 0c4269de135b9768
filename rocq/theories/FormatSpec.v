(** What the texts of numbers say: reading a decimal number. *)
From Coq Require Import ZArith Reals List Bool.
From Coq Require Import Floats.SpecFloat.
From Flocq Require Import Core.Core IEEE754.BinarySingleNaN.
From Verif Require Import Base.
Import ListNotations.
Open Scope Z_scope.

Definition ten : radix := Build_radix 10 eq_refl.
Definition is_digit (c : Z) : bool := (48 <=? c) && (c <=? 57).
(** the digits at the front of a text, appended to the number [n]; how many (added to
    [k]); the rest of the text *)
Fixpoint read_digits (t : list Z) (n k : Z) : Z * Z * list Z :=
  match t with
  | c :: t' => if is_digit c then read_digits t' (10 * n + (c - 48)) (k + 1) else (n, k, t)
  | [] => (n, k, [])
  end.
(** digits, then a point and more digits, or none; then e+ or e- and digits, or nothing:
    (n, e) is n * 10^e *)
Definition read_unsigned (t : list Z) : option (Z * Z) :=
  let '(n, k, t) := read_digits t 0 0 in
  if k =? 0 then None
  else
    let '(n, f, t) := match t with 46 :: t => read_digits t n 0 | _ => (n, 0, t) end in
    match t with
    | [] => Some (n, - f)
    | 101 :: 43 :: t => let '(e, _, t) := read_digits t 0 0 in match t with [] => Some (n, e - f) | _ => None end
    | 101 :: 45 :: t => let '(e, _, t) := read_digits t 0 0 in match t with [] => Some (n, - e - f) | _ => None end
    | _ => None
    end.
Definition value (p : Z * Z) : R := (IZR (fst p) * bpow ten (snd p))%R.
(** the number a text says *)
Definition read_number (t : list Z) : option R :=
  match t with
  | 45 :: t => option_map (fun p => (- value p)%R) (read_unsigned t)
  | _ => option_map value (read_unsigned t)
  end.
(** the nearest number with [k] decimals, and the nearest with [k] significant digits;
    of two equally near ones that with an even last digit *)
Definition to_decimals (k : Z) (x : R) : R := round ten (FIX_exp (- k)) ZnearestE x.
Definition to_significant (k : Z) (x : R) : R := round ten (FLX_exp k) ZnearestE x.
(** how many significant digits a text shows: the digits up to an exponent, without
    zeros in front *)
Fixpoint shown_digits (saw : bool) (t : list Z) : Z :=
  match t with
  | [] => 0
  | c :: t =>
    if c =? 101 then 0
    else if is_digit c && (saw || negb (c =? 48)) then 1 + shown_digits true t
    else shown_digits saw t
  end.
(** a float64 that is a number: not NaN, not infinite *)
Definition is_number (x : spec_float) : Prop :=
  valid_binary 53 1024 x = true /\ match x with S754_zero _ | S754_finite _ _ _ => True | _ => False end.
(** its value *)
Definition val (x : spec_float) : R := SF2R radix2 x.
(** a value whose exponent has two digits: 0, from 1e-99 to 1e99, or not a number *)
Definition two_digit_exponent (x : spec_float) : Prop := is_number x -> val x = 0%R \/ (bpow ten (-99) <= Rabs (val x) < bpow ten 99)%R.
