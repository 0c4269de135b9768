(** What a user knows of a distribution's quantiles and CDF. *)
From Coq Require Import ZArith List Bool.
From Coq Require Import Floats.SpecFloat.
From Verif Require Import Base Float Merge DrawSpec Cdf.
Import ListNotations.
Open Scope Z_scope.

(** the quantile function never decreases (so it is never NaN) *)
Definition monotone_quantile (Q : spec_float -> Z) : Prop := forall q q', SFleb q q' = true -> fle (Q q) (Q q') = true.
(** a wrapper around the digest [td] that was only asked for CDF values since the
    digest last changed *)
Inductive settled {T} (D : digest T) (td : T) : wrapper T -> Prop :=
| st_new : settled D td (wrap td)
| st_cdf w x : settled D td w -> settled D td (snd (w_cdf D x w)).

(** A history of a distribution: values observed and estimates asked for, in
    any order; [observed] are the values of the history, in order. *)
Inductive use := UObserve (v : Z) | UCdf (x : Z).
Definition use1 {T} (D : digest T) (w : wrapper T) (u : use) : wrapper T :=
  match u with UObserve v => w_observe D v w | UCdf x => snd (w_cdf D x w) end.
Definition uses {T} (D : digest T) (l : list use) (w : wrapper T) : wrapper T := fold_left (use1 D) l w.
Definition observed (l : list use) : list Z := flat_map (fun u => match u with UObserve v => [v] | UCdf _ => [] end) l.
