(** Durations as people write them: 1h30m, -1.5s, 250ms. *)
From Coq Require Import ZArith Reals List Bool.
From Verif Require Import NumberSpec.
Import ListNotations.
Open Scope Z_scope.

(** the units and their nanoseconds; there are two letters mu *)
Inductive unit_name : list Z -> Z -> Prop :=
| un_ns : unit_name [110; 115] 1
| un_us : unit_name [117; 115] (10 ^ 3)
| un_micro : unit_name [0xC2; 0xB5; 115] (10 ^ 3)
| un_mu : unit_name [0xCE; 0xBC; 115] (10 ^ 3)
| un_ms : unit_name [109; 115] (10 ^ 6)
| un_s : unit_name [115] (10 ^ 9)
| un_m : unit_name [109] (60 * 10 ^ 9)
| un_h : unit_name [104] (3600 * 10 ^ 9).
(** a part: digits, digits of a fraction, the nanoseconds of the unit *)
Record part := Part { p_whole : list Z; p_fraction : list Z; p_unit : Z }.
Inductive part_text : list Z -> part -> Prop :=
| pt ip dot fp u n : digits ip -> digits fp -> ip ++ fp <> [] -> (dot = [46] \/ dot = [] /\ fp = []) -> unit_name u n ->
    part_text (ip ++ dot ++ fp ++ u) (Part ip fp n).
Inductive parts_text : list Z -> list part -> Prop :=
| ps_end : parts_text [] []
| ps_part s p t l : part_text s p -> parts_text t l -> parts_text (s ++ t) (p :: l).
(** [written s neg l]: the text [s] is an optional sign and the parts [l], or "0" *)
Inductive written : list Z -> bool -> list part -> Prop :=
| w_parts neg sg s l : signed neg sg -> parts_text s l -> l <> [] -> written (sg ++ s) neg l
| w_zero neg sg : signed neg sg -> written (sg ++ [48]) neg [].

(** the nanoseconds of a part, not necessarily whole *)
Definition part_ns (p : part) : R := (IZR (spelled (p_whole p ++ p_fraction p) * p_unit p) / 10 ^ length (p_fraction p))%R.
Definition total_ns (l : list part) : R := fold_right (fun p x => (part_ns p + x)%R) 0%R l.
Definition signed_ns (neg : bool) (x : R) : R := if neg then (- x)%R else x.
(** a part with no more digits in its fraction than its unit has powers of ten: its
    nanoseconds are whole whatever the digits are *)
Definition short (p : part) : Prop := p_unit p mod 10 ^ Z.of_nat (length (p_fraction p)) = 0.
Definition whole_ns (p : part) : Z := spelled (p_whole p ++ p_fraction p) * (p_unit p / 10 ^ Z.of_nat (length (p_fraction p))).
Definition whole_total (l : list part) : Z := fold_right (fun p x => whole_ns p + x) 0 l.
(** the longest duration *)
Definition longest : Z := 2 ^ 63 - 1.
