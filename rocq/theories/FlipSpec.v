(** Counting the bits in which two byte strings differ (C88). *)
From Coq Require Import ZArith List Bool.
From Verif Require Import Base.
Import ListNotations.
Open Scope Z_scope.

(** the bits of a byte string, eight per byte *)
Definition bits (s : list Z) : list bool := flat_map (fun b => map (Z.testbit b) [0; 1; 2; 3; 4; 5; 6; 7]) s.
(** in how many of them two strings of the same length differ *)
Definition flips (s t : list Z) : nat :=
  length (filter (fun p => negb (Bool.eqb (fst p) (snd p))) (combine (bits s) (bits t))).

(** Damage to the bytes [old] of a record (20 bytes of header, 4 of checksum, then
    the data) that leaves its two length bytes, 18 and 19, alone: between one and
    three flipped bits anywhere, or any odd number of them, or anything at all
    within four neighbouring bytes of the header, the checksum or the data. *)
Definition few_bits (old t : list Z) : Prop :=
  is_bytes t /\ length t = length old /\ sub 18 2 t = sub 18 2 old /\
  ((1 <= flips old t <= 3)%nat \/ Nat.odd (flips old t) = true).
Definition short_burst (old t : list Z) : Prop :=
  exists p x y s, old = p ++ x ++ s /\ t = p ++ y ++ s /\ is_bytes y /\ length y = length x /\ (length x <= 4)%nat /\ x <> y /\
    ((length p + length x <= 18)%nat \/ (20 <= length p /\ length p + length x <= 24)%nat \/ (24 <= length p)%nat).
