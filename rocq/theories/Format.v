(** Model of the texts of charts: fmt.Sprintf("%0.2f", x) of graph.go:106 and
    fmt.Sprintf("%#.3g", x) of graph.go:135, 145 and obs.go:88.

    strconv and fmt are part of Go's standard library, not of /repo; they are modelled
    function by function from their source (strconv/decimal.go, strconv/ftoa.go,
    fmt/format.go).  strconv's fast paths (Grisu, Ryu) give the digits of the slow one
    modelled here, with or without zeros at the end; fmt's # flag puts these back.
    A decimal of strconv has room for 800 digits, and no float64 needs more. *)
From Coq Require Import ZArith List Bool.
From Coq Require Import Floats.SpecFloat.
From Verif Require Import Base Merge.
Import ListNotations.
Open Scope Z_scope.

(** strconv/decimal.go decimal: digits, most significant first, and the position of the
    decimal point; [nd] is the length *)
Record decimal := Decimal { dc_d : list Z; dc_dp : Z }.
(** the digits of [n], most significant first; none for 0.  The fuel is enough. *)
Fixpoint digits_ (fuel : nat) (n : Z) (acc : list Z) : list Z :=
  match fuel with
  | O => acc
  | S fuel => if n <=? 0 then acc else digits_ fuel (n / 10) (n mod 10 :: acc)
  end.
Definition digits (n : Z) : list Z := digits_ (Z.to_nat (Z.log2 n + 1)) n [].
(** decimal.go trim: zeros at the end are removed, and zero is 0 with dp 0 *)
Fixpoint trim_zeros (l : list Z) : list Z :=
  match l with
  | [] => []
  | d :: l => match trim_zeros l with [] => if d =? 0 then [] else [d] | r => d :: r end
  end.
Definition trim (a : decimal) : decimal :=
  match trim_zeros (dc_d a) with [] => Decimal [] 0 | l => Decimal l (dc_dp a) end.
(** decimal.go Assign, then Shift: the exact value of [m] * 2^[e].  m / 2^k is
    m * 5^k / 10^k. *)
Definition assign (m e : Z) : decimal :=
  if e <? 0 then let l := digits (m * 5 ^ (- e)) in trim (Decimal l (len l + e))
  else let l := digits (m * 2 ^ e) in trim (Decimal l (len l)).
(** decimal.go shouldRoundUp, for 0 <= nd < length: a 5 at the end of the number is
    rounded to the even digit *)
Definition should_round_up (l : list Z) (nd : nat) : bool :=
  match skipn nd l with
  | [d] => if d =? 5 then match nd with O => false | S k => negb (nth k l 0 mod 2 =? 0) end else 5 <=? d
  | d :: _ => 5 <=? d
  | [] => false
  end.
(** decimal.go RoundUp: the last digit below 9 of the first [nd] is increased, those
    after it dropped; [None]: there is no such digit.  The argument is the first nd
    digits, reversed. *)
Fixpoint bump (r : list Z) : option (list Z) :=
  match r with
  | [] => None
  | d :: r => if d <? 9 then Some (d + 1 :: r) else bump r
  end.
Definition round_up (a : decimal) (nd : nat) : decimal :=
  match bump (rev (firstn nd (dc_d a))) with
  | Some r => Decimal (rev r) (dc_dp a)
  | None => Decimal [1] (dc_dp a + 1)
  end.
(** decimal.go RoundDown *)
Definition round_down (a : decimal) (nd : nat) : decimal := trim (Decimal (firstn nd (dc_d a)) (dc_dp a)).
(** decimal.go Round *)
Definition round (a : decimal) (nd : Z) : decimal :=
  if (nd <? 0) || (len (dc_d a) <=? nd) then a
  else if should_round_up (dc_d a) (Z.to_nat nd) then round_up a (Z.to_nat nd)
  else round_down a (Z.to_nat nd).

Definition chars (l : list Z) : list Z := map (fun d => 48 + d) l.
Definition minus_sign (neg : bool) : list Z := if neg then [45] else [].
(** ftoa.go fmtF *)
Definition fmt_f (neg : bool) (d : decimal) (prec : Z) : list Z :=
  let nd := len (dc_d d) in
  minus_sign neg ++
  (if 0 <? dc_dp d then chars (firstn (Z.to_nat (dc_dp d)) (dc_d d) ++ repeat 0 (Z.to_nat (dc_dp d - nd))) else [48]) ++
  (if 0 <? prec then
     46 :: chars (map (fun i => let j := dc_dp d + Z.of_nat i in if (0 <=? j) && (j <? nd) then nth (Z.to_nat j) (dc_d d) 0 else 0) (seq 0 (Z.to_nat prec)))
   else []).
(** ftoa.go fmtE's last part: e, sign and two or three digits *)
Definition fmt_exp (e : Z) : list Z :=
  101 :: (if e <? 0 then 45 else 43) ::
  let e := Z.abs e in
  chars (if e <? 10 then [0; e] else if e <? 100 then [e / 10; e mod 10] else [e / 100; e / 10 mod 10; e mod 10]).
(** ftoa.go fmtE *)
Definition fmt_e (neg : bool) (d : decimal) (prec : Z) : list Z :=
  let l := dc_d d in
  minus_sign neg ++ [48 + nth 0 l 0] ++
  (if 0 <? prec then
     46 :: chars (firstn (Z.to_nat prec) (skipn 1 l) ++ repeat 0 (Z.to_nat (prec - (len l - 1))))
   else []) ++
  fmt_exp (match l with [] => 0 | _ => dc_dp d - 1 end).
(** ftoa.go formatDigits, %g with the digits rounded to [prec]; not the shortest ones *)
Definition fmt_g (neg : bool) (d : decimal) (prec : Z) : list Z :=
  let nd := len (dc_d d) in
  let eprec := if (nd <? prec) && (dc_dp d <=? nd) then nd else prec in
  let exp := dc_dp d - 1 in
  if (exp <? -4) || (eprec <=? exp) then fmt_e neg d (Z.min prec nd - 1)
  else fmt_f neg d (Z.max (nd - dc_dp d) 0).
(** ftoa.go FormatFloat(x, 'f', prec, 64) and FormatFloat(x, 'g', prec, 64) (prec > 0):
    special values, and bigFtoa *)
Definition s_nan : list Z := [78; 97; 78].
Definition s_plus_inf : list Z := [43; 73; 110; 102].
Definition s_minus_inf : list Z := [45; 73; 110; 102].
Definition format_f (prec : Z) (x : spec_float) : list Z :=
  match x with
  | S754_nan => s_nan
  | S754_infinity neg => if neg then s_minus_inf else s_plus_inf
  | S754_zero neg => fmt_f neg (Decimal [] 0) prec
  | S754_finite neg m e => let d := assign (Z.pos m) e in fmt_f neg (round d (dc_dp d + prec)) prec
  end.
Definition format_g (prec : Z) (x : spec_float) : list Z :=
  match x with
  | S754_nan => s_nan
  | S754_infinity neg => if neg then s_minus_inf else s_plus_inf
  | S754_zero neg => fmt_g neg (Decimal [] 0) prec
  | S754_finite neg m e => fmt_g neg (round (assign (Z.pos m) e) prec) prec
  end.

(** fmt/format.go fmtFloat, the # flag with %g: the loop over the text without its
    sign.  [saw]: a digit that is not 0 was seen (up to Go 1.13 every digit counts:
    start with true); the result is the number before the exponent, whether it has a
    point, the digits still missing, and the exponent *)
Fixpoint sharp_scan (t : list Z) (saw point : bool) (missing : Z) : list Z * bool * Z * list Z :=
  match t with
  | [] => ([], point, missing, [])
  | c :: t' =>
    if c =? 101 then ([], point, missing, t)
    else
      let saw := saw || (negb (c =? 46) && negb (c =? 48)) in
      let '(num, point, missing, tail) :=
        sharp_scan t' saw (point || (c =? 46)) (if (c =? 46) || negb saw then missing else missing - 1) in
      (c :: num, point, missing, tail)
  end.
(** fmtFloat's # part: a point is added if there is none, and zeros for the missing
    digits.  In the newer version a lone 0 counts as a digit. *)
Definition sharp (old : bool) (prec : Z) (t : list Z) : list Z :=
  let '(num, point, missing, tail) := sharp_scan t old false prec in
  let missing := if negb old && negb point && match num with [c] => c =? 48 | _ => false end then missing - 1 else missing in
  num ++ (if point then [] else [46]) ++ repeat 48 (Z.to_nat missing) ++ tail.

(** fmt.Sprintf("%0.2f", x): the 0 flag pads to a width of 0; NaN and infinities as
    they are *)
Definition sprintf_2f (x : spec_float) : list Z := format_f 2 x.
(** fmt.Sprintf("%#.3g", x) with fmtFloat's treatment of the sign *)
Definition sprintf_3g (old : bool) (x : spec_float) : list Z :=
  match x with
  | S754_nan => s_nan
  | S754_infinity neg => if neg then s_minus_inf else s_plus_inf
  | _ =>
    match format_g 3 x with
    | 45 :: t => 45 :: sharp old 3 t
    | t => sharp old 3 t
    end
  end.
(** obs.go:88 fmt.Sprintf("obs/sec: %#.3g", max) *)
Definition s_obs : list Z := [111; 98; 115; 47; 115; 101; 99; 58; 32].  (* "obs/sec: " *)
Definition obs_text (old : bool) (max : spec_float) : list Z := s_obs ++ sprintf_3g old max.
