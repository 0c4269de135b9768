(** Decimal numbers as people write them, and the float64 nearest to one. *)
From Coq Require Import ZArith Reals List Bool.
From Coq Require Import Floats.SpecFloat.
From Flocq Require Import Core.Core IEEE754.BinarySingleNaN.
Import ListNotations.
Open Scope Z_scope.

Definition digits (ds : list Z) : Prop := Forall (fun c => 48 <= c <= 57) ds.
(** the number that digits spell, most significant first *)
Fixpoint spelled (ds : list Z) : Z :=
  match ds with
  | [] => 0
  | c :: ds => (c - 48) * 10 ^ Z.of_nat (length ds) + spelled ds
  end.

(** an optional sign; [true] is minus *)
Inductive signed : bool -> list Z -> Prop :=
| sg_none : signed false [] | sg_plus : signed false [43] | sg_minus : signed true [45].
(** an optional exponent: e or E, an optional sign, digits *)
Inductive exponent : Z -> list Z -> Prop :=
| ex_none : exponent 0 []
| ex_some neg c sg ds : c = 101 \/ c = 69 -> signed neg sg -> digits ds -> ds <> [] ->
    exponent (if neg then - spelled ds else spelled ds) ([c] ++ sg ++ ds).
(** [numeral s neg n e k]: the text [s] is a number: a sign, digits with an optional
    point, an exponent [e]; it stands for n * 10^k, negative if [neg] *)
Inductive numeral : list Z -> bool -> Z -> Z -> Z -> Prop :=
| num_ neg sg ip dot fp e ex : signed neg sg -> digits ip -> digits fp -> ip ++ fp <> [] ->
    (dot = [46] \/ dot = [] /\ fp = []) -> exponent e ex ->
    numeral (sg ++ ip ++ dot ++ fp ++ ex) neg (spelled (ip ++ fp)) e (e - Z.of_nat (length fp)).
(** the real number *)
Definition decimal (neg : bool) (n k : Z) : R :=
  ((if neg then -1 else 1) * IZR n * powerRZ 10 k)%R.

(** the words: inf, infinity, with or without a sign, and nan, in any case *)
Definition same_letters (s t : list Z) : Prop := Forall2 (fun c d => c = d \/ 97 <= d <= 122 /\ c = d - 32) s t.
Inductive infinite_word : bool -> list Z -> Prop :=
| iw neg sg s : signed neg sg -> same_letters s [105; 110; 102] \/ same_letters s [105; 110; 102; 105; 110; 105; 116; 121] ->
    infinite_word neg (sg ++ s).
Definition nan_word (s : list Z) : Prop := same_letters s [110; 97; 110].

(** a finite float64 and the real number it is *)
Definition float64 (f : spec_float) : Prop := valid_binary 53 1024 f = true /\ is_finite_SF f = true.
Definition real (f : spec_float) : R := SF2R radix2 f.
Definition even_mantissa (f : spec_float) : Prop := match f with S754_finite _ m _ => Z.even (Zpos m) = true | _ => True end.
(** no float64 is nearer to [x] than [f], and between two equally near ones it is the
    one with an even mantissa *)
Definition nearest (x : R) (f : spec_float) : Prop :=
  float64 f /\
  forall g, float64 g -> (Rabs (x - real f) <= Rabs (x - real g))%R /\
    (Rabs (x - real f) = Rabs (x - real g) -> real f <> real g -> even_mantissa f).
(** halfway between the greatest float64 and the next power of two *)
Definition too_big (x : R) : Prop := (IZR (2 ^ 1024 - 2 ^ 970) <= Rabs x)%R.
