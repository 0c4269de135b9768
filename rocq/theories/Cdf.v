(** Model of dist/tdigest/wrapper.go: the Wrapper with its memoized quantiles.

    The t-digest itself (github.com/zeebo/tdigest) is a black box: a state [T]
    with [quantile] and [add].  A float64 argument is given by its bits, as in
    Float.v; the quantiles asked for (fractions of 64) are [spec_float]. *)
From Coq Require Import ZArith List Bool.
From Coq Require Import Floats.SpecFloat.
From Verif Require Import Base Float Merge.
Import ListNotations.
Open Scope Z_scope.

(** the digest library *)
Record digest (T : Type) := Digest { dg_quantile : T -> spec_float -> Z; dg_add : T -> Z -> T }.
Arguments dg_quantile {T} _ _ _.
Arguments dg_add {T} _ _ _.

(** wrapper.go:43-46 Wrapper; the map is an association list *)
Record wrapper (T : Type) := Wrapper { w_td : T; w_cache : list (spec_float * Z) }.
Arguments Wrapper {T} _ _.
Arguments w_td {T} _.
Arguments w_cache {T} _.
(** wrapper.go:49-51 Wrap *)
Definition wrap {T} (td : T) : wrapper T := Wrapper td [].
(** wrapper.go:64-66 Observe: only the digest changes *)
Definition w_observe {T} (D : digest T) (v : Z) (w : wrapper T) : wrapper T := Wrapper (dg_add D (w_td w) v) (w_cache w).
(** wrapper.go:74-76 Query *)
Definition w_query {T} (D : digest T) (x : spec_float) (w : wrapper T) : Z := dg_quantile D (w_td w) x.
(** look-up in a map[float64]float64 (keys compared with ==) *)
Fixpoint clookup (x : spec_float) (l : list (spec_float * Z)) : option Z :=
  match l with
  | [] => None
  | (k, v) :: l => if SFeqb k x then Some v else clookup x l
  end.
(** wrapper.go:80-90 quan *)
Definition w_quan {T} (D : digest T) (x : spec_float) (w : wrapper T) : Z * wrapper T :=
  match clookup x (w_cache w) with
  | Some v => (v, w)
  | None => let v := dg_quantile D (w_td w) x in (v, Wrapper (w_td w) ((x, v) :: w_cache w))
  end.
Definition f_half (a b : spec_float) : spec_float := f_div (f_add a b) (f_of_int 2).
(** wrapper.go:110-119 the bisection *)
Fixpoint bisect {T} (D : digest T) (n : nat) (x : Z) (minq maxq : spec_float) (w : wrapper T) : spec_float * wrapper T :=
  match n with
  | O => (f_half minq maxq, w)
  | S n' =>
      let medq := f_half minq maxq in
      let '(val, w) := w_quan D medq w in
      if fle val x then bisect D n' x medq maxq w else bisect D n' x minq medq w
  end.
(** wrapper.go:93-120 CDF *)
Definition w_cdf {T} (D : digest T) (x : Z) (w : wrapper T) : spec_float * wrapper T :=
  let '(min, w) := w_quan D (S754_zero false) w in
  let '(max, w) := w_quan D (f_of_int 1) w in
  if fle x min then (S754_zero false, w)
  else if fle max x then (f_of_int 1, w)
  else bisect D 6 x (S754_zero false) (f_of_int 1) w.
