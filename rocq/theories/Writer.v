(** Model of data/writer.go: Writer with calls that do not overlap.

    time.Now() is an input.  sync.Map is an association list; the order in which
    Range visits the entries is arbitrary, so Capture and Iterate take the
    order as an argument that must be a permutation of the entries. *)
From Coq Require Import ZArith List Bool Permutation.
From Verif Require Import Base Maps Pb PbRecord Float Agg.
Import ListNotations.
Open Scope Z_scope.

(** writer.go:18-21 type page *)
Record page := Page { pg_now : Z; pg_m : list (list Z * agg) }.

(** writer.go:31-34 Writer: the page pointer, nil in a fresh Writer *)
Definition writer := option page.
Definition w_new : writer := None.

(** writer.go:51-53 values Add ignores *)
Definition w_skip (val : Z) : bool := finf val || fnan val.

(** writer.go:47-89 Add *)
Definition w_add (p : params) (now : Z) (metric : list Z) (val : Z) (id : list Z) (s : writer) : res writer :=
  if w_skip val then Ok s
  else
    let pg := match s with Some pg => pg | None => Page now [] end in
    let a := match mget beqb metric (pg_m pg) with Some a => a | None => agg_new (pg_now pg) end in
    do a' <- agg_observe p val id a;
    Ok (Some (Page (pg_now pg) (mput beqb metric a' (pg_m pg)))).

(** the entries Range goes over *)
Definition w_entries (s : writer) : list (list Z * agg) := match s with Some pg => pg_m pg | None => [] end.

(** writer.go:116-121 (and 139-144): Finish and the callback for the entries of
    [ord] *)
Fixpoint w_range (p : params) (now : Z) (ord : list (list Z * agg)) : res (list (list Z * drecord)) :=
  match ord with
  | [] => Ok []
  | (k, a) :: ord =>
      do r <- agg_finish p now a;
      do rs <- w_range p now ord;
      Ok ((k, r) :: rs)
  end.

(** writer.go:94-122 Capture: the page left behind *)
Definition w_capture (now : Z) (s : writer) : writer :=
  match s with None => None | Some _ => Some (Page now []) end.

(** ** Histories *)
(** an event is a call with what it returned: [recs] are the records the
    callbacks saw, in order; [full] is false when a callback returned false,
    which ends the iteration *)
Inductive wevent :=
| EAdd (now : Z) (metric : list Z) (val : Z) (id : list Z)
| ECapture (now : Z) (recs : list (list Z * drecord)) (full : bool)
| EIterate (now : Z) (recs : list (list Z * drecord)) (full : bool).

(** the entries whose callback ran: all of them, or a prefix *)
Definition visited (s : writer) (ord vis : list (list Z * agg)) (full : bool) : Prop :=
  Permutation ord (w_entries s) /\
  (if full then vis = ord else exists k, vis = firstn k ord).

Inductive w_step (p : params) : writer -> wevent -> writer -> Prop :=
| ws_add s now m v id s' : w_add p now m v id s = Ok s' -> w_step p s (EAdd now m v id) s'
| ws_capture s now ord vis recs full : visited s ord vis full -> w_range p now vis = Ok recs ->
    w_step p s (ECapture now recs full) (w_capture now s)
| ws_iterate s now ord vis recs full : visited s ord vis full -> w_range p now vis = Ok recs ->
    w_step p s (EIterate now recs full) s.

(** [w_hist p h s]: the calls [h] on a fresh Writer leave it in state [s] *)
Inductive w_hist (p : params) : list wevent -> writer -> Prop :=
| wh_nil : w_hist p [] w_new
| wh_step h s e s' : w_hist p h s -> w_step p s e s' -> w_hist p (h ++ [e]) s'.
