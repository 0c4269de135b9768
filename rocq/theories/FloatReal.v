(** The double operations of SpecFloat as rounded real operations (from Flocq). *)
From Coq Require Import ZArith Reals Bool Lia Lra Psatz.
From Coq Require Import Floats.SpecFloat.
From Flocq Require Import Core.Core IEEE754.BinarySingleNaN.
Open Scope R_scope.

Global Instance Hprec : FLX.Prec_gt_0 53 := eq_refl _.
Global Instance Hmax : Prec_lt_emax 53 1024 := eq_refl _.
Notation rnd := (round radix2 (fexp 53 1024) (round_mode mode_NE)).
Notation bin := (binary_float 53 1024).

Lemma rne_equiv s m l : round_nearest_even m l = choice_mode mode_NE s m l.
Proof. case l; [reflexivity|intro c]. case c; [|reflexivity..]. now simpl; unfold Round.cond_incr; case Z.even. Qed.
Lemma round_aux_equiv sx mx ex lx : SpecFloat.binary_round_aux 53 1024 sx mx ex lx = binary_round_aux 53 1024 mode_NE sx mx ex lx.
Proof.
  unfold SpecFloat.binary_round_aux, binary_round_aux. set (a := shr_fexp _ _ _ _ _). case a; intros b e; simpl.
  now rewrite (rne_equiv sx).
Qed.
Lemma round_equiv s m e : SpecFloat.binary_round 53 1024 s m e = binary_round 53 1024 mode_NE s m e.
Proof. unfold SpecFloat.binary_round, binary_round, shl_align_fexp. set (a := shl_align _ _ _); case a as [mz ez]. apply round_aux_equiv. Qed.
Lemma normalize_equiv m e z : SpecFloat.binary_normalize 53 1024 m e z = B2SF (binary_normalize 53 1024 Hprec Hmax mode_NE m e z).
Proof. case m as [|p|p]; simpl; rewrite ?B2SF_SF2B; auto using round_equiv. Qed.
Lemma mul_equiv (x y : bin) : SFmul 53 1024 (B2SF x) (B2SF y) = B2SF (Bmult mode_NE x y).
Proof. destruct x, y; cbn [B2SF SFmul Bmult]; try reflexivity. rewrite B2SF_SF2B. apply round_aux_equiv. Qed.
Lemma div_equiv (x y : bin) : SFdiv 53 1024 (B2SF x) (B2SF y) = B2SF (Bdiv mode_NE x y).
Proof.
  destruct x, y; cbn [B2SF SFdiv Bdiv]; try reflexivity. rewrite B2SF_SF2B. destruct (SFdiv_core_binary 53 1024 _ _ _ _) as [[a b] c].
  apply round_aux_equiv.
Qed.

Lemma emax_big (k : Z) : (Z.abs k <= 2 ^ 1000)%Z -> Rabs (IZR k) < bpow radix2 1024.
Proof.
  intros H. rewrite <- abs_IZR. change (bpow radix2 1024) with (IZR (2 ^ 1024)). apply IZR_lt.
  eapply Z.le_lt_trans; [exact H|]. now apply Z.pow_lt_mono_r.
Qed.
(** an integer below 2^53 is a double, and so is its half *)
Lemma format_half (k : Z) : (Z.abs k <= 2 ^ 53)%Z -> generic_format radix2 (fexp 53 1024) (IZR k / 2).
Proof.
  intros H. destruct (Z.eq_dec (Z.abs k) (2 ^ 53)) as [E|E].
  - assert (IZR k / 2 = F2R (Float radix2 (Z.sgn k) 52)) as ->.
    { unfold F2R, Fnum, Fexp. assert (Ek : (k = 2 * (Z.sgn k * 2 ^ 52))%Z) by lia.
      assert (Er : IZR k = 2 * (IZR (Z.sgn k) * IZR (2 ^ 52))) by (rewrite <- !mult_IZR; now rewrite <- Ek).
      change (IZR (2 ^ 52)) with (bpow radix2 52) in Er. lra. }
    apply generic_format_FLT. apply FLT_spec with (Float radix2 (Z.sgn k) 52); [reflexivity|cbn [Fnum]; change (radix2 ^ 53)%Z with (2 ^ 53)%Z; lia|cbn [Fexp]; change (emin 53 1024) with (-1074)%Z; lia].
  - assert (IZR k / 2 = F2R (Float radix2 k (-1))) as ->.
    { unfold F2R. cbn [Fnum Fexp]. change (bpow radix2 (-1)) with (/ 2). reflexivity. }
    apply generic_format_FLT. apply FLT_spec with (Float radix2 k (-1)); [reflexivity|cbn [Fnum]|cbn [Fexp]; change (emin 53 1024) with (-1074)%Z; lia].
    change (radix2 ^ 53)%Z with (2 ^ 53)%Z. lia.
Qed.
Lemma format_int (k : Z) : (Z.abs k <= 2 ^ 52)%Z -> generic_format radix2 (fexp 53 1024) (IZR k).
Proof. intros H. replace (IZR k) with (IZR (2 * k) / 2) by (rewrite mult_IZR; lra). apply format_half. lia. Qed.

(** float64(k) is exact for small integers *)
Lemma of_int (k : Z) : (Z.abs k <= 2 ^ 52)%Z ->
  exists b : bin, SpecFloat.binary_normalize 53 1024 k 0 false = B2SF b /\ is_finite b = true /\ B2R b = IZR k.
Proof.
  intros H. rewrite normalize_equiv. eexists. split; [reflexivity|].
  pose proof (binary_normalize_correct 53 1024 Hprec Hmax mode_NE k 0 false) as C. cbn zeta in C.
  replace (F2R (Float radix2 k 0)) with (IZR k) in C by (unfold F2R; cbn; lra).
  rewrite (round_generic radix2 (fexp 53 1024) (round_mode mode_NE) (IZR k)) in C by now apply format_int.
  rewrite Rlt_bool_true in C by (apply emax_big; lia). destruct C as (A & B & _). auto.
Qed.

(** multiplication and division without overflow *)
Lemma mul_real (x y : bin) (k : Z) : is_finite x = true -> is_finite y = true -> (Z.abs k <= 2 ^ 52)%Z ->
  0 <= B2R x * B2R y <= IZR k ->
  exists b : bin, SFmul 53 1024 (B2SF x) (B2SF y) = B2SF b /\ is_finite b = true /\ B2R b = rnd (B2R x * B2R y).
Proof.
  intros Fx Fy Hk H. rewrite mul_equiv. eexists. split; [reflexivity|].
  pose proof (Bmult_correct 53 1024 Hprec Hmax mode_NE x y) as C.
  rewrite Rlt_bool_true in C; [destruct C as (A & B & _); rewrite Fx, Fy in B; auto|].
  assert (0 <= rnd (B2R x * B2R y)) by (apply round_ge_generic; [typeclasses eauto|typeclasses eauto|apply generic_format_0|lra]).
  assert (rnd (B2R x * B2R y) <= IZR k) by (apply round_le_generic; [typeclasses eauto|typeclasses eauto|now apply format_int|lra]).
  rewrite Rabs_pos_eq by assumption. eapply Rle_lt_trans; [eassumption|]. eapply Rle_lt_trans; [apply Rle_abs|]. apply emax_big. lia.
Qed.
Lemma div_real (x y : bin) (k : Z) : is_finite x = true -> is_finite y = true -> B2R y <> 0 -> (Z.abs k <= 2 ^ 52)%Z ->
  0 <= B2R x / B2R y <= IZR k ->
  exists b : bin, SFdiv 53 1024 (B2SF x) (B2SF y) = B2SF b /\ is_finite b = true /\ B2R b = rnd (B2R x / B2R y).
Proof.
  intros Fx Fy Ny Hk H. rewrite div_equiv. eexists. split; [reflexivity|].
  pose proof (Bdiv_correct 53 1024 Hprec Hmax mode_NE x y Ny) as C.
  rewrite Rlt_bool_true in C; [destruct C as (A & B & _); rewrite Fx in B; auto|].
  assert (0 <= rnd (B2R x / B2R y)) by (apply round_ge_generic; [typeclasses eauto|typeclasses eauto|apply generic_format_0|lra]).
  assert (rnd (B2R x / B2R y) <= IZR k) by (apply round_le_generic; [typeclasses eauto|typeclasses eauto|now apply format_int|lra]).
  rewrite Rabs_pos_eq by assumption. eapply Rle_lt_trans; [eassumption|]. eapply Rle_lt_trans; [apply Rle_abs|]. apply emax_big. lia.
Qed.
