(** Model of strconv.ParseFloat (bitSize 64) as /repo calls it
    (listener/graphite/listener.go:128, api/common.go:81).

    ParseFloat is Go's standard library, not /repo: what is written here is its
    documentation and the syntax that strconv/atof.go of the pinned Go accepts
    (no hexadecimal numbers and no underscores), not its algorithm: the result
    is computed with one correctly rounded division.  Kept from the
    implementation: the exponent's digits are read until it reaches 10000
    (atof.go: "if e < 10000"), so longer exponents are cut.  Not kept: more than
    800 significant digits are used here, the implementation notes only that
    some were dropped. *)
From Coq Require Import ZArith List Bool.
From Coq Require Import Floats.SpecFloat.
From Verif Require Import Base Float.
Import ListNotations.
Open Scope Z_scope.

Definition is_digit (c : Z) : bool := (48 <=? c) && (c <=? 57).
(** ASCII letters in lower case, for equalIgnoreCase *)
Definition to_lower (c : Z) : Z := if (65 <=? c) && (c <=? 90) then c + 32 else c.

(** the digits at the beginning of the text, and what follows them *)
Fixpoint digits_then (s : list Z) : list Z * list Z :=
  match s with
  | c :: s' => if is_digit c then let '(a, b) := digits_then s' in (c :: a, b) else ([], s)
  | [] => ([], [])
  end.
Definition dec_value (ds : list Z) : Z := fold_left (fun n c => 10 * n + (c - 48)) ds 0.
(** atof.go, readFloat: "if e < 10000 { e = e*10 + int(s[i]) - '0' }" *)
Definition exp_value (ds : list Z) : Z := fold_left (fun e c => if e <? 10000 then 10 * e + (c - 48) else e) ds 0.
(** an optional sign: whether it is "-", and the rest *)
Definition read_sign (s : list Z) : bool * list Z :=
  match s with
  | c :: s' => if c =? 43 then (false, s') else if c =? 45 then (true, s') else (false, s)
  | [] => (false, [])
  end.
(** an optional exponent up to the end of the text *)
Definition read_exponent (s : list Z) : option Z :=
  match s with
  | [] => Some 0
  | c :: s' =>
      if to_lower c =? 101 then
        let '(neg, s'') := read_sign s' in
        let '(ds, rest) := digits_then s'' in
        match ds, rest with
        | _ :: _, [] => Some (if neg then - exp_value ds else exp_value ds)
        | _, _ => None
        end
      else None
  end.
(** atof.go, readFloat: sign, digits with at most one point, exponent; the number
    is (-1)^sign * digits * 10^exponent *)
Definition read_number (s : list Z) : option (bool * Z * Z) :=
  let '(neg, s1) := read_sign s in
  let '(ip, s2) := digits_then s1 in
  let '(fp, s3) := match s2 with c :: s2' => if c =? 46 then digits_then s2' else ([], s2) | [] => ([], s2) end in
  match ip ++ fp with
  | [] => None
  | _ => match read_exponent s3 with
         | Some e => Some (neg, dec_value (ip ++ fp), e - Z.of_nat (length fp))
         | None => None
         end
  end.
(** atof.go, special: the words, in any case *)
Definition word_inf : list Z := [105; 110; 102].
Definition word_infinity : list Z := [105; 110; 102; 105; 110; 105; 116; 121].
Definition word_nan : list Z := [110; 97; 110].
Definition read_word (s : list Z) : option spec_float :=
  let t := map to_lower s in
  if beqb t word_inf || beqb t (43 :: word_inf) || beqb t word_infinity || beqb t (43 :: word_infinity) then Some (S754_infinity false)
  else if beqb t (45 :: word_inf) || beqb t (45 :: word_infinity) then Some (S754_infinity true)
  else if beqb t word_nan then Some S754_nan
  else None.
(** the float64 nearest to (-1)^neg * m * 10^k, ties to even; an infinity when there
    is none *)
Definition nearest_float (neg : bool) (m k : Z) : spec_float :=
  match m * 10 ^ Z.max k 0, 10 ^ Z.max (- k) 0 with
  | Zpos a, Zpos b => let '(q, e, l) := SFdiv_core_binary 53 1024 (Zpos a) 0 (Zpos b) 0 in binary_round_aux 53 1024 neg q e l
  | _, _ => S754_zero neg
  end.
(** strconv.ParseFloat(s, 64), [None] for an error (ErrSyntax, or ErrRange when the
    nearest float64 is infinite) *)
Definition parse_spec (s : list Z) : option spec_float :=
  match read_word s with
  | Some f => Some f
  | None => match read_number s with
            | Some (neg, m, k) => match nearest_float neg m k with S754_infinity _ => None | f => Some f end
            | None => None
            end
  end.
(** math.Float64bits; math.NaN() is 0x7FF8000000000001 *)
Definition float_bits (f : spec_float) : Z :=
  match f with
  | S754_zero s => if s then 2 ^ 63 else 0
  | S754_infinity s => (if s then 2 ^ 63 else 0) + 2047 * 2 ^ 52
  | S754_nan => 0x7FF8000000000001
  | S754_finite s m e => (if s then 2 ^ 63 else 0) + (e + 1074) * 2 ^ 52 + Zpos m
  end.
Definition parse_float (s : list Z) : option Z := option_map float_bits (parse_spec s).
