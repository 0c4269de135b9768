(** Model of database/files/internal/sset/set.go. *)
From Coq Require Import ZArith List Bool.
From Verif Require Import Base Maps Cache.
Import ListNotations.
Open Scope Z_scope.

(** Go's < on strings: bytewise lexicographic *)
Fixpoint blt (a b : list Z) : bool :=
  match a, b with
  | _, [] => false
  | [], _ :: _ => true
  | x :: a, y :: b => (x <? y) || ((x =? y) && blt a b)
  end.

(** set.go:6-9 the map (its keys) and the slice *)
Record sset := SSet { s_set : list (list Z); s_order : list (list Z) }.

(** set.go:12-17 New *)
Definition s_new : sset := SSet [] [].
(** set.go:20 Len *)
Definition s_len (s : sset) : Z := len (s_order s).
(** set.go:23-26 Has *)
Definition s_has (x : list Z) (s : sset) : bool := existsb (beqb x) (s_set s).

(** set.go:38-46 the binary search; [fuel] bounds the rounds *)
Fixpoint s_search (fuel : nat) (order : list (list Z)) (x : list Z) (i j : Z) : Z :=
  match fuel with
  | O => i
  | S fuel =>
      if i <? j then
        let h := (i + j) / 2 in
        if blt (nth (Z.to_nat h) order []) x then s_search fuel order x (h + 1) j
        else s_search fuel order x i h
      else i
  end.

(** set.go:49-51: append, copy(order[i+1:], order[i:]), order[i] = x *)
Definition s_insert (i : Z) (x : list Z) (order : list (list Z)) : list (list Z) :=
  let o := order ++ [x] in
  let k := Z.to_nat i in
  let o := firstn (S k) o ++ firstn (length o - S k) (skipn k o) in
  set_nth k x o.

(** set.go:28-52 Add *)
Definition s_add (x : list Z) (s : sset) : sset :=
  if s_has x s then s
  else
    let i := s_search (S (length (s_order s))) (s_order s) x 0 (len (s_order s)) in
    SSet (x :: s_set s) (s_insert i x (s_order s)).

(** set.go:55-65 Copy: a new slice and a new map with the keys of the slice *)
Definition s_copy (s : sset) : sset :=
  fold_left (fun o x => SSet (x :: s_set o) (s_order o ++ [x])) (s_order s) s_new.

(** set.go:68-75 s.Merge(o) *)
Definition s_merge (s o : sset) : sset := fold_left (fun s x => s_add x s) (s_order o) s.

(** set.go:78-84 Iter with an accumulator: the callback returns whether to go on *)
Fixpoint s_iter_ {A} (cb : A -> list Z -> A * bool) (l : list (list Z)) (acc : A) : A :=
  match l with
  | [] => acc
  | x :: l => let '(acc, go) := cb acc x in if go then s_iter_ cb l acc else acc
  end.
Definition s_iter {A} (cb : A -> list Z -> A * bool) (s : sset) (acc : A) : A :=
  s_iter_ cb (s_order s) acc.

(** programs over several sets (variables hold distinct sets) *)
Inductive sop := SNew | SAdd (k : nat) (x : list Z) | SMerge (k j : nat) | SCopy (k : nat).
Definition s_get (l : list sset) (k : nat) : sset := nth k l s_new.
Definition s_step (l : list sset) (o : sop) : list sset :=
  match o with
  | SNew => l ++ [s_new]
  | SAdd k x => set_nth k (s_add x (s_get l k)) l
  | SMerge k j => set_nth k (s_merge (s_get l k) (s_get l j)) l
  | SCopy k => l ++ [s_copy (s_get l k)]
  end.
(** what they mean: the names in each set *)
Definition n_step (l : list (list (list Z))) (o : sop) : list (list (list Z)) :=
  match o with
  | SNew => l ++ [[]]
  | SAdd k x => set_nth k (x :: nth k l []) l
  | SMerge k j => set_nth k (nth j l [] ++ nth k l []) l
  | SCopy k => l ++ [nth k l []]
  end.
