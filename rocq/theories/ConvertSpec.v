(** Independent notions for the directory properties. *)
From Coq Require Import ZArith List Bool.
From Verif Require Import Base.
Import ListNotations.
Open Scope Z_scope.

(** the components of a slash separated path (like strings.Split(p, "/")) *)
Fixpoint components (p : list Z) : list (list Z) :=
  match p with
  | [] => [[]]
  | c :: r =>
      if c =? 47 then [] :: components r
      else match components r with
           | [] => [[c]]
           | h :: t => (c :: h) :: t
           end
  end.

(** a path component that is not empty and contains neither '.' nor '/':
    in particular it is neither "." nor ".." nor a "....data" file *)
Definition safe_component (c : list Z) : Prop := c <> [] /\ ~ In 46 c /\ ~ In 47 c.
