(** What the HTTP server must answer. *)
From Coq Require Import ZArith List Bool.
From Verif Require Import Base PbRecord.
Import ListNotations.
Open Scope Z_scope.

(** the records from the newest to the first one that ended before [t]
    (included) *)
Fixpoint upto (t : Z) (l : list (Z * Z * list Z)) : list (Z * Z * list Z) :=
  match l with
  | [] => []
  | x :: l => x :: (if snd (fst x) <? t then [] else upto t l)
  end.
(** a stored value and the record it holds *)
Definition holds_record (x : Z * Z * list Z) (r : drecord) : Prop := drec_unmarshal (snd x) = Ok r.
