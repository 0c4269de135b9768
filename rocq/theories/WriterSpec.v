(** What Capture must return, from the history of calls alone. *)
From Coq Require Import ZArith List Bool.
From Verif Require Import Base PbRecord Float AggSpec Agg Writer.
Import ListNotations.
Open Scope Z_scope.

(** a value that counts: neither infinite nor NaN *)
Definition counts (v : Z) : bool := negb (finf v) && negb (fnan v).

(** the observations of metric [m] since the last Capture *)
Definition pending_add (m : list Z) (acc : list (Z * list Z)) (e : wevent) : list (Z * list Z) :=
  match e with
  | EAdd _ m' v id => if beqb m m' && counts v then acc ++ [(v, id)] else acc
  | ECapture _ _ _ => []
  | EIterate _ _ _ => acc
  end.
Definition pending (m : list Z) (h : list wevent) : list (Z * list Z) := fold_left (pending_add m) h [].

(** where the current window starts: at the first value ever added, then at
    every Capture *)
Definition boundary_add (b : option Z) (e : wevent) : option Z :=
  match e with
  | EAdd t _ v _ => match b with None => if counts v then Some t else None | _ => b end
  | ECapture t _ _ => match b with None => None | Some _ => Some t end
  | EIterate _ _ _ => b
  end.
Definition boundary (h : list wevent) : option Z := fold_left boundary_add h None.

(** all observations of metric [m] in the history *)
Fixpoint added (m : list Z) (h : list wevent) : list (Z * list Z) :=
  match h with
  | [] => []
  | EAdd _ m' v id :: h => if beqb m m' && counts v then (v, id) :: added m h else added m h
  | _ :: h => added m h
  end.

(** the record [r] describes the observations [log] of a metric over [start,end] *)
Definition describes (p : params) (start finish : Z) (log : list (Z * list Z)) (r : drecord) : Prop :=
  d_start r = start /\ d_end r = finish /\ reports r log /\
  d_dist r = p_marshal p (map fst log) /\ d_kind r = p_kind p /\ d_merged r = 1.

(** total of the observation counts captured for metric [m] *)
Definition obs_of (m : list Z) (recs : list (list Z * drecord)) : Z :=
  fold_right (fun mr z => if beqb m (fst mr) then d_obs (snd mr) + z else z) 0 recs.
Fixpoint captured_obs (m : list Z) (h : list wevent) : Z :=
  match h with
  | [] => 0
  | ECapture _ recs _ :: h => obs_of m recs + captured_obs m h
  | _ :: h => captured_obs m h
  end.
(** all captures ran to the end *)
Definition all_full (h : list wevent) : Prop :=
  forall now recs, ~ In (ECapture now recs false) h.
(** sizes Go can represent *)
Definition hist_fits (h : list wevent) : Prop := Z.of_nat (length h) < 2 ^ 63.
(** float64 bit patterns *)
Definition hist_floats (h : list wevent) : Prop :=
  forall t m v id, In (EAdd t m v id) h -> is_f64 v.
