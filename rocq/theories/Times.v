(** Model of the texts of times on charts: time.Unix(0, x).Format("1/2 @ 15:04")
    (graph.go:188).

    Package time is part of Go's standard library, not of /repo; it is modelled from its
    source (time/time.go, time/format.go, before Go 1.23 rewrote the same function).
    The zone, time.Local, is an arbitrary function: seconds east of UTC at a moment. *)
From Coq Require Import ZArith List Bool.
From Verif Require Import Base.
Import ListNotations.
Open Scope Z_scope.

(** time.go Unix(0, nsec): the seconds since 1970 *)
Definition unix_seconds (nsec : Z) : Z :=
  if (nsec <? 0) || (1000000000 <=? nsec) then
    let n := Z.quot nsec 1000000000 in
    if nsec - n * 1000000000 <? 0 then n - 1 else n
  else 0.

(** time.go's constants.  Years are counted from absoluteZeroYear, 1 modulo 400. *)
Definition absolute_zero_year : Z := -292277022399.
Definition days_to_1970 : Z := 106751990353932 + 719162.   (* -absoluteToInternal and unixToInternal, in days *)
Definition seconds_per_day : Z := 86400.
Definition days_per_400_years : Z := 365 * 400 + 97.
Definition days_per_100_years : Z := 365 * 100 + 24.
Definition days_per_4_years : Z := 365 * 4 + 1.
(** time.go Time.abs, locabs: a uint64 *)
Definition absolute (zone : Z -> Z) (sec : Z) : Z := (sec + zone sec + days_to_1970 * seconds_per_day) mod 2 ^ 64.
(** time.go isLeap, with Go's remainder *)
Definition is_leap (year : Z) : bool := (Z.rem year 4 =? 0) && (negb (Z.rem year 100 =? 0) || (Z.rem year 400 =? 0)).
(** time.go daysBefore *)
Definition days_before : list Z := [0; 31; 59; 90; 120; 151; 181; 212; 243; 273; 304; 334; 365].
(** time.go absDate's second half: month and day *)
Definition month_day (leap : bool) (yday : Z) : Z * Z :=
  if leap && (yday =? 31 + 29 - 1) then (2, 29)
  else
    let day := if leap && (31 + 29 - 1 <? yday) then yday - 1 else yday in
    let month := day / 31 in
    let end_ := nth (Z.to_nat (month + 1)) days_before 0 in
    if end_ <=? day then (month + 2, day - end_ + 1)
    else (month + 1, day - nth (Z.to_nat month) days_before 0 + 1).
(** time.go absDate: year and day of the year (from 0) *)
Definition year_day (abs : Z) : Z * Z :=
  let d := abs / seconds_per_day in
  let n := d / days_per_400_years in
  let y := 400 * n in
  let d := d - days_per_400_years * n in
  let n := d / days_per_100_years in
  let n := n - Z.shiftr n 2 in
  let y := y + 100 * n in
  let d := d - days_per_100_years * n in
  let n := d / days_per_4_years in
  let y := y + 4 * n in
  let d := d - days_per_4_years * n in
  let n := d / 365 in
  let n := n - Z.shiftr n 2 in
  let y := y + n in
  let d := d - 365 * n in
  (y + absolute_zero_year, d).
Definition abs_date (abs : Z) : Z * Z :=
  let '(y, yday) := year_day abs in month_day (is_leap y) yday.
(** time.go absClock *)
Definition abs_clock (abs : Z) : Z * Z :=
  let sec := abs mod seconds_per_day in
  let hour := sec / 3600 in
  (hour, (sec - hour * 3600) / 60).
(** format.go appendInt, for x >= 0: the digits, last first; then padded with zeros.
    20 digits are enough for a uint64. *)
Fixpoint int_digits (fuel : nat) (u : Z) : list Z :=
  match fuel with
  | O => []
  | S fuel => if 10 <=? u then 48 + (u - u / 10 * 10) :: int_digits fuel (u / 10) else [48 + u]
  end.
Definition append_int (x : Z) (width : nat) : list Z :=
  let l := rev (int_digits 20 x) in repeat 48 (width - length l) ++ l.
(** format.go nextStdChunk of "1/2 @ 15:04": month, "/", day, " @ ", hour (two digits),
    ":", minute (two digits) *)
Definition format_time (abs : Z) : list Z :=
  let '(month, day) := abs_date abs in
  let '(hour, min) := abs_clock abs in
  append_int month 0 ++ [47] ++ append_int day 0 ++ [32; 64; 32] ++ append_int hour 2 ++ [58] ++ append_int min 2.
(** graph.go:188 time.Unix(0, x).Format("1/2 @ 15:04") *)
Definition time_text (zone : Z -> Z) (x : Z) : list Z := format_time (absolute zone (unix_seconds x)).
