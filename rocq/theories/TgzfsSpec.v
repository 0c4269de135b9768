(** Slash-separated paths, as a user reads them (the documentation of Go's
    path.Clean); independent of the model. *)
From Coq Require Import ZArith List Relation_Operators.
From Verif Require Import Base.
Import ListNotations.
Open Scope Z_scope.

(** [l] are the parts of the text [p] between slashes (47) *)
Fixpoint slashed (l : list (list Z)) : list Z :=
  match l with
  | [] => []
  | [c] => c
  | c :: r => c ++ 47 :: slashed r
  end.
Definition parts_of (p : list Z) (l : list (list Z)) : Prop :=
  l <> [] /\ (forall c, In c l -> ~ In 47 c) /\ slashed l = p.
Definition rooted_path (p : list Z) : Prop := exists q, p = 47 :: q.
(** one step of simplification that names the same place: an empty part, ".",
    a name followed by "..", or ".." at the root *)
Inductive same_place (rooted : Prop) : list (list Z) -> list (list Z) -> Prop :=
| sp_empty a b : same_place rooted (a ++ [] :: b) (a ++ b)
| sp_dot a b : same_place rooted (a ++ [46] :: b) (a ++ b)
| sp_up a c b : c <> [] -> c <> [46] -> c <> [46; 46] -> same_place rooted (a ++ c :: [46; 46] :: b) (a ++ b)
| sp_root b : rooted -> same_place rooted ([46; 46] :: b) b.
(** nothing is left to simplify: names only, after some ".." if not rooted *)
Definition simplest (rooted : Prop) (l : list (list Z)) : Prop :=
  exists ups names, l = ups ++ names /\
  (forall c, In c ups -> c = [46; 46]) /\ (rooted -> ups = []) /\
  (forall c, In c names -> c <> [] /\ c <> [46] /\ c <> [46; 46]).
Definition simplified (rooted : Prop) := clos_refl_trans _ (same_place rooted).
