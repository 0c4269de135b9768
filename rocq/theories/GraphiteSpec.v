(** The graphite line protocol as a user knows it. *)
From Coq Require Import ZArith List Bool.
From Verif Require Import Base Writer.
Import ListNotations.
Open Scope Z_scope.

(** [line] is "metric value rest": three fields separated by single spaces *)
Definition three_fields (line metric value rest : list Z) : Prop :=
  line = metric ++ [32] ++ value ++ [32] ++ rest /\ ~ In 32 metric /\ ~ In 32 value /\ ~ In 32 rest.
(** the line says: add [v] to [metric] *)
Definition says (parse : list Z -> option Z) (line metric : list Z) (v : Z) : Prop :=
  exists value rest, three_fields line metric value rest /\ parse value = Some v.
(** the additions the lines ask for, in order, line [i] at time [clock i] *)
Inductive asked (parse : list Z -> option Z) (clock : nat -> Z) : nat -> list (list Z) -> list wevent -> Prop :=
| as_nil i : asked parse clock i [] []
| as_bad i line l es : (forall m v, ~ says parse line m v) -> asked parse clock (S i) l es -> asked parse clock i (line :: l) es
| as_good i line l es m v : says parse line m v -> asked parse clock (S i) l es ->
    asked parse clock i (line :: l) (EAdd (clock i) m v [] :: es).
(** lines sent, each ended by a newline ([false]) or by a carriage return and a
    newline ([true]) *)
Definition eol (crlf : bool) : list Z := if crlf then [13; 10] else [10].
Definition sent (lines : list (list Z * bool)) : list Z := flat_map (fun l => fst l ++ eol (snd l)) lines.
(** a line: no newline in it, no carriage return at its end, and short enough *)
Definition proper_line (l : list Z) : Prop := ~ In 10 l /\ last l 0 <> 13 /\ Z.of_nat (length l) < 65535.
