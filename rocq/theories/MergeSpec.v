(** What merging records and rendering columns must produce. *)
From Coq Require Import ZArith List Bool.
From Coq Require Import Floats.SpecFloat.
From Verif Require Import Base PbRecord Float Merge.
Import ListNotations.
Open Scope Z_scope.

Definition total (f : drecord -> Z) (l : list drecord) : Z := fold_right (fun r z => f r + z) 0 l.
(** a merge count of 0 (old records) counts as 1 *)
Definition merge_count (r : drecord) : Z := if d_merged r =? 0 then 1 else d_merged r.

(** [x] is the smallest (largest) of [f] over the list *)
Definition smallest (f : drecord -> Z) (x : Z) (l : list drecord) : Prop :=
  (exists r, In r l /\ f r = x) /\ forall r, In r l -> x <= f r.
Definition largest (f : drecord -> Z) (x : Z) (l : list drecord) : Prop :=
  (exists r, In r l /\ f r = x) /\ forall r, In r l -> f r <= x.
(** the same for floats *)
Definition fsmallest (f : drecord -> Z) (x : Z) (l : list drecord) : Prop :=
  (exists r, In r l /\ f r = x) /\ forall r, In r l -> flt (f r) x = false.
Definition flargest (f : drecord -> Z) (x : Z) (l : list drecord) : Prop :=
  (exists r, In r l /\ f r = x) /\ forall r, In r l -> flt x (f r) = false.

(** ** columns *)
(** the time span [lo,hi) of pixel [p] in a window of [w] pixels ending at
    [now] with [ps] nanoseconds per pixel *)
Definition px_lo (now ps w p : Z) : Z := now - (w - p) * ps.
Definition px_hi (now ps w p : Z) : Z := now - (w - p - 1) * ps.
(** the record's time range meets the span of the pixel *)
Definition shown (now ps w p : Z) (r : drecord) : bool :=
  (d_start r <? px_hi now ps w p) && (px_lo now ps w p <=? d_end r).
(** newest first *)
Fixpoint newest_first (l : list drecord) : Prop :=
  match l with
  | [] => True
  | r :: rest => (match rest with [] => True | r' :: _ => d_end r' <= d_end r end) /\ newest_first rest
  end.
Definition in_col (p : Z) (c : column) : Prop := col_x c <= p < col_x c + col_w c.
(** observations per second, averaged over the records, in doubles (RateSpec.v
    says which real number this is near to) *)
Definition obs_sec (l : list drecord) : spec_float :=
  f_div (fold_left (fun z r => f_add z (f_div (f_div (f_of_int (d_obs r)) (f_of_int (d_merged r))) (f_seconds (i64 (d_end r - d_start r)))))
                   l (S754_zero false))
        (f_of_int (Z.of_nat (length l))).
(** the column shows the merge of exactly these records, and their rate *)
Definition col_shows (o : moptions) (c : column) (l : list drecord) : Prop :=
  (exists out, merge (mo_params o) l = Ok out /\ mo_sample o out = Some (col_data c)) /\ col_rate c = obs_sec l.
