(** Property C63: the rate shown by a column. *)
From Coq Require Import ZArith Reals Bool Lia Lra Psatz List.
From Coq Require Import Floats.SpecFloat.
From Flocq Require Import Core.Core IEEE754.BinarySingleNaN.
From Verif Require Import FloatReal RateProofs Base PbRecord Float Merge MergeSpec MergeProofs Props_Merge RateSpec.
Import ListNotations.
Open Scope R_scope.

(** For columns as in C39: the rate of a column is a finite double, and it is
    the mean of the rates of the records that meet any of its pixels, up to a
    relative error of (n + 10) 2^-51 for n records. *)
Theorem C63_rate :
  forall o w l cols c p,
  let now := mo_now o in
  let ps := (mo_duration o / w)%Z in
  (0 < w < 2 ^ 61)%Z -> (w <= mo_duration o < 2 ^ 61)%Z ->
  (forall r, In r l -> d_start r < now /\ d_end r < now /\ now - d_start r < 2 ^ 61 /\ px_lo now ps w 0 <= d_end r)%Z ->
  newest_first l ->
  (forall r, In r l -> has_rate r) -> (Z.of_nat (length l) < 2 ^ 50)%Z ->
  mg_render o w l = Ok cols -> In c cols -> in_col p c ->
  let recs := filter (shown now ps w p) l in
  let x := SF2R radix2 (col_rate c) in
  is_finite_SF (col_rate c) = true /\
  Rabs (x - mean_rate recs) <= mean_rate recs * (INR (length recs + 10) / 2 ^ 51).
Proof.
  cbn zeta. intros o w l cols c p Hw Hd HR HN Hh Hlen E Hc Hp.
  destruct (C39_columns_partial o w l cols Hw Hd HR HN E) as (_ & _ & Hs & _).
  destruct (Hs c p Hc Hp) as ((out & Hm & _) & ->). set (recs := filter (shown (mo_now o) (mo_duration o / w) w p) l) in *.
  assert (Hne : recs <> []) by (intros X; rewrite X in Hm; discriminate).
  assert (Hl : forall r, In r recs -> has_rate r /\ (d_end r - d_start r < 2 ^ 63)%Z).
  { intros r Hr. apply filter_In in Hr. destruct Hr as [Hr _]. split; [now apply Hh|]. specialize (HR r Hr). lia. }
  assert (Hk : (Z.of_nat (length recs) < 2 ^ 50)%Z).
  { assert (length recs <= length l)%nat by (unfold recs; clear; induction l as [|r l IH]; cbn; [lia|]; destruct (shown _ _ _ _ r); cbn; lia). lia. }
  destruct (obs_sec_near recs Hne Hk Hl) as (b & -> & Fb & N). split; [now rewrite is_finite_SF_B2SF|].
  rewrite <- SF2R_B2SF in N. apply (near_error (length recs + 10)); [|exact N|lia].
  unfold mean_rate. unfold Rdiv; apply Rmult_le_pos; [now apply sum_rates_pos|]. left. apply Rinv_0_lt_compat.
  destruct recs; [contradiction|]. cbn [length]. rewrite S_INR. pose proof (pos_INR (length recs)). lra.
Qed.
Print Assumptions C63_rate.

(** Non-vacuity: the three columns of C39_example; the first, for 4 observations
    in 20 nanoseconds, has the rate 2 10^8 per second. *)
Example C63_example :
  (forall r, In r ex_recs -> has_rate r) /\
  match mg_render ex_o 10 ex_recs with
  | Ok (c :: _) => col_rate c = S754_finite false 6710886400000000 (-25)
  | _ => False
  end /\
  mean_rate [ex_rec 970 990 1] = 2 * 10 ^ 8.
Proof.
  split; [intros r [<-|[<-|[<-|[]]]]; unfold has_rate; cbn; lia|]. split; [vm_compute; reflexivity|].
  unfold mean_rate, sum_rates, rate. cbn [ex_rec d_obs d_merged d_end d_start fold_right length INR]. replace (990 - 970)%Z with 20%Z by reflexivity. cbn. lra.
Qed.
