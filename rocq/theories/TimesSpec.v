(** The Gregorian calendar. *)
From Coq Require Import ZArith List Bool.
From Verif Require Import Base.
Import ListNotations.
Open Scope Z_scope.

Definition leap_year (y : Z) : bool := (y mod 4 =? 0) && (negb (y mod 100 =? 0) || (y mod 400 =? 0)).
Definition month_length (y m : Z) : Z :=
  if m =? 2 then (if leap_year y then 29 else 28)
  else if (m =? 4) || (m =? 6) || (m =? 9) || (m =? 11) then 30 else 31.
(** year, month, day *)
Definition date : Type := Z * Z * Z.
Definition real_date (t : date) : Prop := let '(y, m, d) := t in 1 <= m <= 12 /\ 1 <= d <= month_length y m.
Definition next_day (t : date) : date :=
  let '(y, m, d) := t in
  if d <? month_length y m then (y, m, d + 1) else if m <? 12 then (y, m + 1, 1) else (y + 1, 1, 1).
(** day [k] from 1 January 1970 *)
Inductive on_day : Z -> date -> Prop :=
| on_epoch : on_day 0 (1970, 1, 1)
| on_next k t : on_day k t -> on_day (k + 1) (next_day t)
| on_previous k t : real_date t -> on_day (k + 1) (next_day t) -> on_day k t.
(** numbers below 100 as texts *)
Definition two_digits (n : Z) : list Z := [48 + n / 10; 48 + n mod 10].
Definition plain_number (n : Z) : list Z := if n <? 10 then [48 + n] else two_digits n.
(** the text of a day and a time of day: 1/2 @ 15:04 *)
Definition says_time (m d hour minute : Z) : list Z :=
  plain_number m ++ [47] ++ plain_number d ++ [32; 64; 32] ++ two_digits hour ++ [58] ++ two_digits minute.
(** the text of a moment, in seconds since 1970, on the clocks of a place that are [local]
    seconds since 1 January 1970 *)
Definition clock_text (local : Z) (t : list Z) : Prop :=
  exists y m d, on_day (local / 86400) (y, m, d) /\ t = says_time m d (local mod 86400 / 3600) (local mod 3600 / 60).
(** offsets of time zones are less than two days *)
Definition is_zone (zone : Z -> Z) : Prop := forall s, -172800 <= zone s <= 172800.
