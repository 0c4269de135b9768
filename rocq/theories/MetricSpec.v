(** Specification of the storage of one metric: a list of files, newest first,
    each holding a list of values, newest first.  Independent of bytes, slots,
    handles, caches and directories. *)
From Coq Require Import ZArith List Bool.
From Verif Require Import Base Metric.
Import ListNotations.
Open Scope Z_scope.

(** a file can hold [a_cap] records of at most [a_size] - 24 payload bytes *)
Record afile := AF { a_cap : Z; a_size : Z; a_vals : list value }.

(** the number of records a value of n bytes needs: at least 1 *)
Definition nrec (size : Z) (v : value) : Z :=
  if len (v_data v) =? 0 then 1
  else (len (v_data v) + (size - 24) - 1) / (size - 24).

Fixpoint used_ (size : Z) (vs : list value) : Z :=
  match vs with [] => 0 | v :: r => nrec size v + used_ size r end.
Definition used (f : afile) : Z := used_ (a_size f) (a_vals f).

(** [a_first] is the number of the oldest file *)
Record ametric := AM { a_first : Z; a_files : list afile }.
Definition a_last (am : ametric) : Z := a_first am + len (a_files am) - 1.

(** all retained values, newest first *)
Definition a_values (am : ametric) : list value := flat_map a_vals (a_files am).

(** end of the oldest value of a file *)
Definition oldest_end (f : afile) : option Z :=
  match rev (a_vals f) with [] => None | v :: _ => Some (v_end v) end.

(** what Query(end) reports: nothing if the newest file only has values at or
    after [end]; otherwise every retained value before [end] *)
Definition a_query (am : ametric) (end_ : Z) : list value :=
  match a_files am with
  | [] => []
  | f :: _ =>
      if match oldest_end f with Some o => end_ <=? o | None => false end then []
      else filter (fun v => v_end v <? end_) (a_values am)
  end.

(** [Write v] with options size, cap, max *)
Definition a_write (size cap max : Z) (am : ametric) (v : value) : ametric * res bool :=
  match a_files am with
  | [] => (am, Err)
  | f :: older =>
      if match a_vals f with w :: _ => v_end v <=? v_end w | [] => false end then (am, Ok false)
      else if used f + nrec (a_size f) v <=? a_cap f then
        (AM (a_first am) (AF (a_cap f) (a_size f) (v :: a_vals f) :: older), Ok true)
      else if (a_last am =? 1) && (used f =? 1) then (am, Err)
      else
        let drop := (max <=? a_last am - a_first am) && (0 <? max) in
        (AM (if drop then a_first am + 1 else a_first am)
            (AF cap size [v] :: if drop then removelast (a_files am) else a_files am),
         Ok true)
  end.

(** [Write v] for values of any size, on a metric whose newest file is not an
    empty one left by a rejected write: a value too large for an empty file is
    rejected after the oldest file was dropped and a new empty file was made *)
Definition a_write_any (size cap max : Z) (am : ametric) (v : value) : ametric * res bool :=
  match a_files am with
  | [] => (am, Err)
  | f :: older =>
      if match a_vals f with w :: _ => v_end v <=? v_end w | [] => false end then (am, Ok false)
      else if used f + nrec (a_size f) v <=? a_cap f then
        (AM (a_first am) (AF (a_cap f) (a_size f) (v :: a_vals f) :: older), Ok true)
      else if (a_last am =? 1) && (used f =? 1) then (am, Err)
      else
        let drop := (max <=? a_last am - a_first am) && (0 <? max) in
        let fits := nrec size v <=? cap in
        (AM (if drop then a_first am + 1 else a_first am)
            (AF cap size (if fits then [v] else []) :: if drop then removelast (a_files am) else a_files am),
         if fits then Ok true else Err)
  end.

(** the metric after its first file was created *)
Definition a_fresh (size cap : Z) : ametric := AM 1 [AF cap size []].

(** running a callback over a list of values until it stops or fails *)
Fixpoint run_cb {A} (cb : callback A) (acc : A) (l : list value) : A * res bool :=
  match l with
  | [] => (acc, Ok true)
  | v :: r => match cb acc v with
              | (acc, Ok true) => run_cb cb acc r
              | other => other
              end
  end.
(** as the result of the whole query: stopping early is not an error *)
Definition finish_cb {A} (r : A * res bool) : A * res unit :=
  let '(acc, x) := r in
  (acc, match x with Ok _ => Ok tt | Err => Err | Panic => Panic | Diverge => Diverge end).
