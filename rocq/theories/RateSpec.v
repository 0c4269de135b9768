(** The rate of a column as a real number. *)
From Coq Require Import ZArith Reals List.
From Verif Require Import Base PbRecord.
Import ListNotations.
Open Scope R_scope.

(** observations per second of a record: its observations, divided by the number
    of records merged into it, divided by its length (nanoseconds) in seconds *)
Definition rate (r : drecord) : R :=
  IZR (d_obs r) / IZR (d_merged r) / (IZR (d_end r - d_start r) / 10 ^ 9).
Definition sum_rates (l : list drecord) : R := fold_right (fun r z => rate r + z) 0 l.
Definition mean_rate (l : list drecord) : R := sum_rates l / INR (length l).
(** a record with counts and a length *)
Definition has_rate (r : drecord) : Prop :=
  (0 <= d_obs r < 2 ^ 63 /\ 0 < d_merged r < 2 ^ 63 /\ d_start r < d_end r)%Z.
