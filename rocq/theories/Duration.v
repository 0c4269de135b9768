(** Model of the texts of durations: Go's time.ParseDuration and Duration.String, as
    config/common.go:19-26 (the duration of a configuration) and api/common.go:73-78
    (the duration of a query) use them.

    The standard library is not in /repo: this is time/format.go and time/time.go of
    Go 1.11, line by line.  int64 additions that wrap around to negative numbers, which
    the code refuses, are sums beyond 2^63 - 1 here (no sum reaches 2^64). *)
From Coq Require Import ZArith List Bool.
From Coq Require Import Floats.SpecFloat.
From Verif Require Import Base Convert Float Merge Draw Number.
Import ListNotations.
Open Scope Z_scope.

Definition max_i64 : Z := 2 ^ 63 - 1.
(** leadingInt *)
Fixpoint leading_int (x : Z) (s : list Z) : option (Z * list Z) :=
  match s with
  | c :: s' =>
      if is_digit c then
        if max_i64 / 10 <? x then None
        else let y := x * 10 + (c - 48) in if max_i64 <? y then None else leading_int y s'
      else Some (x, s)
  | [] => Some (x, [])
  end.
(** leadingFraction: digits that do not fit are left out *)
Fixpoint leading_fraction (overflow : bool) (x : Z) (scale : spec_float) (s : list Z) : Z * spec_float * list Z :=
  match s with
  | c :: s' =>
      if is_digit c then
        if overflow then leading_fraction true x scale s'
        else if max_i64 / 10 <? x then leading_fraction true x scale s'
        else let y := x * 10 + (c - 48) in
             if max_i64 <? y then leading_fraction true x scale s'
             else leading_fraction false y (f_mul scale (f_of_int 10)) s'
      else (x, scale, s)
  | [] => (x, scale, [])
  end.
(** the unit: everything up to a digit or point *)
Fixpoint unit_then (s : list Z) : list Z * list Z :=
  match s with
  | c :: s' => if (c =? 46) || is_digit c then ([], s) else let '(a, b) := unit_then s' in (c :: a, b)
  | [] => ([], [])
  end.
(** unitMap: ns, us, the two spellings of microseconds with a letter mu in UTF-8, ms,
    s, m, h *)
Definition unit_map : list (list Z * Z) :=
  [([110; 115], 1); ([117; 115], 1000); ([0xC2; 0xB5; 115], 1000); ([0xCE; 0xBC; 115], 1000);
   ([109; 115], 1000000); ([115], 1000000000); ([109], 60000000000); ([104], 3600000000000)].
Definition unit_of (u : list Z) : option Z := option_map snd (find (fun p => beqb (fst p) u) unit_map).
(** the loop of ParseDuration; the fuel is the length of the text *)
Fixpoint parse_parts (fuel : nat) (d : Z) (s : list Z) : option Z :=
  match s with
  | [] => Some d
  | c :: _ =>
      match fuel with
      | O => None
      | S fuel =>
          if negb ((c =? 46) || is_digit c) then None else
          match leading_int 0 s with
          | None => None
          | Some (v, s1) =>
              let pre := negb (Nat.eqb (length s1) (length s)) in
              let '(f, scale, s3, post) :=
                match s1 with
                | c :: s2 =>
                    if c =? 46 then
                      let '(f, scale, s3) := leading_fraction false 0 (f_of_int 1) s2 in (f, scale, s3, negb (Nat.eqb (length s3) (length s2)))
                    else (0, f_of_int 1, s1, false)
                | [] => (0, f_of_int 1, s1, false)
                end in
              if negb pre && negb post then None else
              let '(u, s4) := unit_then s3 in
              match unit_of u with
              | None => None
              | Some unit =>
                  if max_i64 / unit <? v then None else
                  let v := v * unit + (if 0 <? f then f_int (f_mul (f_of_int f) (f_div (f_of_int unit) scale)) else 0) in
                  if max_i64 <? v then None else
                  if max_i64 <? d + v then None else
                  parse_parts fuel (d + v) s4
              end
          end
      end
  end.
(** ParseDuration, [None] for an error *)
Definition parse_duration (s : list Z) : option Z :=
  let '(neg, s) := read_sign s in
  if beqb s [48] then Some 0 else
  match s with
  | [] => None
  | _ => option_map (fun d => if neg then - d else d) (parse_parts (length s) 0 s)
  end.

(** fmtFrac: the last [prec] digits of v behind a point, without zeros at the end; the
    texts are built from their end *)
Fixpoint fmt_frac (prec : nat) (print : bool) (v : Z) (tail : list Z) : list Z * Z :=
  match prec with
  | O => (if print then 46 :: tail else tail, v)
  | S prec =>
      let digit := v mod 10 in
      let print := print || negb (digit =? 0) in
      fmt_frac prec print (v / 10) (if print then 48 + digit :: tail else tail)
  end.
Definition fmt_int (v : Z) (tail : list Z) : list Z := itoa v ++ tail.
(** Duration.String *)
Definition duration_text (d : Z) : list Z :=
  let u := Z.abs d in
  if u =? 0 then [48; 115] else
  let t :=
    if u <? 1000000000 then
      let '(prec, unit) := if u <? 1000 then (0%nat, [110; 115]) else if u <? 1000000 then (3%nat, [0xC2; 0xB5; 115]) else (6%nat, [109; 115]) in
      let '(t, u) := fmt_frac prec false u unit in fmt_int u t
    else
      let '(t, u) := fmt_frac 9 false u [115] in
      let t := fmt_int (u mod 60) t in
      let u := u / 60 in
      if 0 <? u then
        let t := fmt_int (u mod 60) (109 :: t) in
        let u := u / 60 in
        if 0 <? u then fmt_int u (104 :: t) else t
      else t in
  if d <? 0 then 45 :: t else t.
