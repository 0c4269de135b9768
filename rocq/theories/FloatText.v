(** Model of the texts of float64s in JSON answers: encoding/json's floatEncoder and
    strconv.AppendFloat(f, fmt, -1, 64), as api/server.go:149, 238 use them.

    The standard library is not in /repo.  floatEncoder is modelled line by line; the
    shortest digits follow strconv's documentation ("the smallest number of digits
    necessary to represent the value uniquely"): the first number of digits at which
    rounding down or up reads back, the nearest of the two if both do.  strconv finds
    them without reading back. *)
From Coq Require Import ZArith List Bool.
From Coq Require Import Floats.SpecFloat.
From Verif Require Import Base Float Merge Format Number.
Import ListNotations.
Open Scope Z_scope.

(** the float64 a decimal reads back as (Number.v) *)
Definition decimal_float (neg : bool) (d : decimal) : spec_float :=
  nearest_float neg (fold_left (fun n c => 10 * n + c) (dc_d d) 0) (dc_dp d - len (dc_d d)).
Definition reads_back (neg : bool) (d : decimal) (x : spec_float) : bool := float_bits (decimal_float neg d) =? float_bits x.
(** the digits: [nd] digits are tried, then one more; [a] is the exact value *)
Fixpoint shortest_from (n : nat) (neg : bool) (x : spec_float) (a : decimal) (nd : nat) : decimal :=
  match n with
  | O => a
  | S n =>
      let down := reads_back neg (round_down a nd) x in
      let up := reads_back neg (round_up a nd) x in
      if down && up then round a (Z.of_nat nd)
      else if down then round_down a nd
      else if up then round_up a nd
      else shortest_from n neg x a (S nd)
  end.
Definition shortest (neg : bool) (m : positive) (e : Z) : decimal :=
  let a := assign (Zpos m) e in
  shortest_from (length (dc_d a) - 1) neg (S754_finite neg m e) a 1.
(** floatEncoder: "clean up e-09 to e-9" *)
Definition clean_exp (t : list Z) : list Z :=
  let n := length t in
  if (4 <=? Z.of_nat n) && (nth (n - 4) t 0 =? 101) && (nth (n - 3) t 0 =? 45) && (nth (n - 2) t 0 =? 48)
  then firstn (n - 2) t ++ [nth (n - 1) t 0] else t.
(** floatEncoder: 'e' for numbers below 1e-6 and from 1e21, else 'f'; NaN and
    infinities are errors there *)
Definition small_limit : spec_float := fdecode 0x3EB0C6F7A0B5ED8D. (* 1e-6 *)
Definition large_limit : spec_float := fdecode 0x444B1AE4D6E2EF50. (* 1e21 *)
Definition json_number_text (x : spec_float) : list Z :=
  match x with
  | S754_zero neg => fmt_f neg (Decimal [] 0) 0
  | S754_finite neg m e =>
      let d := shortest neg m e in
      let abs := S754_finite false m e in
      if SFltb abs small_limit || SFleb large_limit abs then clean_exp (fmt_e neg d (len (dc_d d) - 1))
      else fmt_f neg d (Z.max (len (dc_d d) - dc_dp d) 0)
  | _ => []
  end.
