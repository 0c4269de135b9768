(** The floating point part of ParseDuration: fractions of a unit (C87). *)
From Coq Require Import ZArith Reals List Bool Lia Lra Psatz.
From Coq Require Import Floats.SpecFloat.
From Flocq Require Import Core.Core IEEE754.BinarySingleNaN.
From Verif Require Import Base Merge Draw FloatReal DrawFloat GraphFloat Number Duration.
Import ListNotations.
Open Scope Z_scope.

Fixpoint scale_at (k : nat) : spec_float := match k with O => f_of_int 1 | S k => f_mul (scale_at k) (f_of_int 10) end.
Definition scale_ok (k : nat) : bool :=
  match scale_at k with
  | S754_finite false m e => valid_binary 53 1024 (S754_finite false m e) && (Zpos m * 2 ^ Z.max e 0 =? 10 ^ Z.of_nat k * 2 ^ Z.max (- e) 0)
  | _ => false
  end.
Lemma scales : forallb scale_ok (seq 0 23) = true.
Proof. vm_compute. reflexivity. Qed.
Lemma scale_real k : (k <= 22)%nat -> exists b : bin, scale_at k = B2SF b /\ is_finite b = true /\ B2R b = IZR (10 ^ Z.of_nat k).
Proof.
  intros H. pose proof scales as S. rewrite forallb_forall in S. specialize (S k ltac:(apply in_seq; lia)). unfold scale_ok in S.
  destruct (scale_at k) as [s|s| |s m e] eqn:E; try discriminate. destruct s; [discriminate|]. apply andb_prop in S as [V S3]. apply Z.eqb_eq in S3.
  exists (SF2B _ V). rewrite B2SF_SF2B. split; [reflexivity|]. split; [now rewrite is_finite_SF2B|]. rewrite B2R_SF2B. unfold SF2R, F2R. cbn [cond_Zopp Fnum Fexp].
  apply (f_equal IZR) in S3. rewrite !mult_IZR, !IZR_pow2 in S3 by lia. pose proof (bpow_gt_0 radix2 (Z.max (- e) 0)) as P.
  apply Rmult_eq_reg_r with (bpow radix2 (Z.max (- e) 0)); [|lra]. rewrite <- S3, Rmult_assoc, <- bpow_plus. f_equal. f_equal. lia.
Qed.
Definition frac (f : Z) (n : Z) (k : nat) : Z := f_int (f_mul (f_of_int f) (f_div (f_of_int n) (scale_at k))).
Lemma ten_pos k : 0 < 10 ^ Z.of_nat k.
Proof. apply Z.pow_pos_nonneg; lia. Qed.
(** nothing is rounded when the quotient is whole *)
Lemma frac_exact f n k : 0 < n <= 2 ^ 42 -> n mod 10 ^ Z.of_nat k = 0 -> (k <= 22)%nat -> 0 <= f < 10 ^ Z.of_nat k -> frac f n k = f * (n / 10 ^ Z.of_nat k).
Proof.
  intros Hn Hm Hk Hf. pose proof (ten_pos k) as T. set (t := 10 ^ Z.of_nat k) in *.
  assert (Q : n = t * (n / t)) by (pose proof (Z.div_mod n t ltac:(lia)); lia). set (q := n / t) in *.
  assert (q0 : 0 < q) by nia. assert (tn : t <= n) by nia. assert (qn : q <= n) by nia. assert (fq : f * q <= n) by nia.
  unfold frac, f_mul, f_div, f_of_int. destruct (of_int f) as (bf & -> & Ff & Rf); [lia|]. destruct (of_int n) as (bn & -> & Fn & Rn); [lia|].
  destruct (scale_real k Hk) as (bs & -> & Fs & Rs). fold t in Rs.
  assert (tR : (0 < IZR t)%R) by (apply IZR_lt; lia).
  assert (D : (B2R bn / B2R bs = IZR q)%R) by (rewrite Rn, Rs, Q, mult_IZR; field; lra).
  destruct (div_real bn bs q Fn Fs ltac:(lra) ltac:(lia)) as (bq & -> & Fq & Rq). { rewrite D. split; [apply IZR_le; lia|lra]. }
  rewrite D, round_generic in Rq by (try typeclasses eauto; apply format_int; lia).
  assert (M : (B2R bf * B2R bq = IZR (f * q))%R) by (rewrite Rf, Rq, mult_IZR; reflexivity).
  assert (fq0 : 0 <= f * q) by nia.
  destruct (mul_real bf bq (f * q) Ff Fq ltac:(lia)) as (bm & -> & Fm & Rm). { rewrite M. split; [apply IZR_le; lia|lra]. }
  rewrite M, round_generic in Rm by (try typeclasses eauto; apply format_int; lia).
  pose proof (f_int_spec bm Fm) as I. rewrite Rm in I. destruct I as [I1 I2]; [split; [apply IZR_le; lia|apply IZR_lt; lia]|].
  apply le_IZR in I1. rewrite <- plus_IZR in I2. apply lt_IZR in I2. lia.
Qed.
(** otherwise less than 1.01 nanoseconds are lost and less than 0.01 are gained *)
Lemma frac_close f n k : 0 < n <= 2 ^ 42 -> (k <= 22)%nat -> 0 < f < 10 ^ Z.of_nat k -> f < 2 ^ 63 ->
  let x := (IZR f * IZR n / IZR (10 ^ Z.of_nat k))%R in
  0 <= frac f n k <= 2 ^ 43 /\ (x - 101 / 100 < IZR (frac f n k) < x + 1 / 100)%R.
Proof.
  intros Hn Hk Hf Hf2 x. pose proof (ten_pos k) as T. assert (T22 : 10 ^ Z.of_nat k <= 10 ^ 22) by (apply Z.pow_le_mono_r; lia). set (t := 10 ^ Z.of_nat k) in *.
  unfold frac, f_mul, f_div. destruct (int_round f) as (bf & -> & Ff & Rf); [lia|]. destruct (of_int n) as (bn & En & Fn & Rn); [lia|].
  unfold f_of_int. rewrite En. destruct (scale_real k Hk) as (bs & -> & Fs & Rs). fold t in Rs.
  assert (tR : (1 <= IZR t)%R) by (apply IZR_le; lia). assert (nR : (1 <= IZR n <= IZR (2 ^ 42))%R) by (split; apply IZR_le; lia). assert (fR : (1 <= IZR f)%R) by (apply IZR_le; lia).
  assert (ft : (IZR f / IZR t <= 1)%R). { apply Rmult_le_reg_r with (IZR t); [lra|]. unfold Rdiv. rewrite Rmult_assoc, Rinv_l, Rmult_1_r, Rmult_1_l by lra. apply IZR_le. lia. }
  set (eps := (/ 2 ^ 53)%R). assert (He : (0 < eps < / IZR (2 ^ 52))%R).
  { unfold eps. rewrite (pow_IZR 2 53). change (2 ^ Z.of_nat 53) with (2 ^ 53). split; [apply Rinv_0_lt_compat, IZR_lt; lia|]. apply Rinv_lt_contravar; [rewrite <- mult_IZR; apply IZR_lt; reflexivity|apply IZR_lt; reflexivity]. }
  assert (Small : forall y, (/ IZR (10 ^ 23) <= y)%R -> (bpow radix2 (-1000) <= y)%R).
  { intros y Hy. eapply Rle_trans; [|exact Hy]. change (bpow radix2 (-1000)) with (/ IZR (2 ^ 1000))%R. apply Rinv_le; [apply IZR_lt; reflexivity|apply IZR_le]. apply Z.leb_le. vm_compute. reflexivity. }
  assert (I22 : (/ IZR (10 ^ 22) <= / IZR t)%R) by (apply Rinv_le; [lra|apply IZR_le; exact T22]).
  assert (i22 : (/ IZR (10 ^ 22) <= 1)%R) by (rewrite <- Rinv_1; apply Rinv_le; [lra|apply IZR_le; lia]).
  assert (i23 : (/ IZR (10 ^ 23) <= / IZR (10 ^ 22))%R) by (apply Rinv_le; [apply IZR_lt; lia|apply IZR_le; lia]).
  assert (it : (0 < / IZR t <= 1)%R). { split; [apply Rinv_0_lt_compat; lra|]. rewrite <- Rinv_1. apply Rinv_le; lra. }
  (* the float of f *)
  pose proof (rel_err (IZR f) (Small (IZR f) ltac:(lra))) as Ef. rewrite <- Rf in Ef. fold eps in Ef.
  (* the quotient *)
  assert (q1 : (IZR n * / IZR t <= IZR n)%R) by nra. assert (q2 : (/ IZR t <= IZR n * / IZR t)%R) by nra.
  destruct (div_real bn bs n Fn Fs ltac:(lra) ltac:(lia)) as (bq & -> & Fq & Rq). { rewrite Rn, Rs. unfold Rdiv. split; lra. }
  rewrite Rn, Rs in Rq. pose proof (rel_err (IZR n / IZR t) (Small (IZR n / IZR t)%R ltac:(unfold Rdiv; lra))) as Eq. rewrite <- Rq in Eq. fold eps in Eq.
  set (F := B2R bf) in *. set (Q := B2R bq) in *. set (q := (IZR n / IZR t)%R) in *.
  assert (X : x = (IZR f * q)%R) by (unfold x, q; field; lra).
  assert (qp : (/ IZR (10 ^ 22) <= q)%R) by (unfold q, Rdiv; lra). assert (z22 : (0 < / IZR (10 ^ 22))%R) by (apply Rinv_0_lt_compat, IZR_lt; reflexivity).
  assert (e1 : (eps <= 1 / 1000)%R). { assert (/ IZR (2 ^ 52) <= / 1000)%R by (apply Rinv_le; [lra|apply IZR_le; lia]). lra. }
  assert (Xb : (0 < x <= IZR (2 ^ 42))%R).
  { rewrite X. split; [apply Rmult_lt_0_compat; lra|]. unfold q. replace (IZR f * (IZR n / IZR t))%R with (IZR f / IZR t * IZR n)%R by (field; lra). apply Rle_trans with (1 * IZR n)%R; [apply Rmult_le_compat_r; lra|lra]. }
  assert (FQ1 : (x * (1 - 2 * eps) <= F * Q)%R).
  { rewrite X. apply Rle_trans with ((IZR f * (1 - eps)) * (q * (1 - eps)))%R; [|apply Rmult_le_compat; try lra; apply Rmult_le_pos; lra].
    replace (IZR f * (1 - eps) * (q * (1 - eps)))%R with (IZR f * q * (1 - 2 * eps + eps * eps))%R by ring. apply Rmult_le_compat_l; [lra|]. assert (0 <= eps * eps)%R by (apply Rmult_le_pos; lra). lra. }
  assert (FQ2 : (F * Q <= x * (1 + 3 * eps))%R).
  { rewrite X. apply Rle_trans with ((IZR f * (1 + eps)) * (q * (1 + eps)))%R.
    - apply Rmult_le_compat; try lra.
      + apply Rle_trans with (IZR f * (1 - eps))%R; [apply Rmult_le_pos; lra|lra].
      + apply Rle_trans with (q * (1 - eps))%R; [apply Rmult_le_pos; lra|lra].
    - replace (IZR f * (1 + eps) * (q * (1 + eps)))%R with (IZR f * q * (1 + 2 * eps + eps * eps))%R by ring. apply Rmult_le_compat_l; [lra|]. assert (eps * eps <= eps * 1)%R by (apply Rmult_le_compat_l; lra). lra. }
  assert (x3 : (x * eps <= / IZR (2 ^ 10))%R).
  { apply Rle_trans with (IZR (2 ^ 42) * / IZR (2 ^ 52))%R; [apply Rmult_le_compat; lra|]. change (2 ^ 52) with (2 ^ 42 * 2 ^ 10). rewrite mult_IZR. right. field. split; apply IZR_neq; lia. }
  (* eps is half of that bound *)
  assert (e53 : eps = (/ IZR (2 ^ 53))%R) by (unfold eps; rewrite (pow_IZR 2 53); reflexivity).
  assert (x4 : (x * eps <= / IZR (2 ^ 11))%R).
  { rewrite e53. apply Rle_trans with (IZR (2 ^ 42) * / IZR (2 ^ 53))%R; [apply Rmult_le_compat; try lra; rewrite <- e53; lra|]. change (2 ^ 53) with (2 ^ 42 * 2 ^ 11). rewrite mult_IZR. right. field. split; apply IZR_neq; lia. }
  assert (p11 : (/ IZR (2 ^ 11) <= / 2000)%R) by (apply Rinv_le; [lra|apply IZR_le; lia]).
  assert (xe : (0 <= x * eps)%R) by (apply Rmult_le_pos; lra).
  assert (FQb : (bpow radix2 (-1000) <= F * Q)%R).
  { apply Small. assert (Q22 : (/ IZR (10 ^ 22) * / 2 <= Q)%R) by (assert (q * eps <= q * (1 / 2))%R by (apply Rmult_le_compat_l; lra); lra).
    assert (Fb : (/ 2 <= F)%R) by (assert (1 * (1 - eps) <= IZR f * (1 - eps))%R by (apply Rmult_le_compat_r; lra); lra).
    apply Rle_trans with (/ 2 * (/ IZR (10 ^ 22) * / 2))%R; [|apply Rmult_le_compat; try lra; apply Rmult_le_pos; lra].
    change (10 ^ 23) with (10 * 10 ^ 22). rewrite mult_IZR, Rinv_mult. lra. }
  assert (Kb : (0 <= F * Q <= IZR (2 ^ 43))%R).
  { split; [pose proof (bpow_gt_0 radix2 (-1000)); lra|]. assert (IZR (2 ^ 43) = IZR (2 ^ 42) + IZR (2 ^ 42))%R by (rewrite <- plus_IZR; reflexivity). assert (1 <= IZR (2 ^ 42))%R by (apply IZR_le; lia).
    assert (x * (1 + 3 * eps) = x + 3 * (x * eps))%R by ring. lra. }
  destruct (mul_real bf bq (2 ^ 43) Ff Fq ltac:(lia) Kb) as (bm & -> & Fm & Rm). fold F Q in Rm. pose proof (rel_err _ FQb) as Em. rewrite <- Rm in Em. fold eps in Em. set (P := B2R bm) in *.
  assert (FQe : (F * Q * eps <= 2 * (x * eps))%R).
  { replace (2 * (x * eps))%R with (2 * x * eps)%R by ring. apply Rmult_le_compat_r; [lra|]. assert (x * (1 + 3 * eps) = x + 3 * (x * eps))%R by ring. assert (x * eps <= x * (1 / 1000))%R by (apply Rmult_le_compat_l; lra). lra. }
  assert (Pb : (x - 1 / 100 < P < x + 1 / 100)%R).
  { assert (x * (1 + 3 * eps) = x + 3 * (x * eps))%R by ring. assert (x * (1 - 2 * eps) = x - 2 * (x * eps))%R by ring.
    assert (F * Q * (1 - eps) = F * Q - F * Q * eps)%R by ring. assert (F * Q * (1 + eps) = F * Q + F * Q * eps)%R by ring. lra. }
  assert (P0 : (0 <= P)%R). { apply Rle_trans with (F * Q * (1 - eps))%R; [apply Rmult_le_pos; lra|lra]. }
  assert (p43 : (IZR (2 ^ 42) + 1 <= IZR (2 ^ 43))%R) by (rewrite <- (plus_IZR _ 1); apply IZR_le; lia).
  assert (p62 : (IZR (2 ^ 43) < IZR (2 ^ 62))%R) by (apply IZR_lt; lia).
  assert (Pr : (0 <= B2R bm < IZR (2 ^ 62))%R) by (change (B2R bm) with P; lra).
  pose proof (f_int_spec bm Fm Pr) as [I1 I2]. change (B2R bm) with P in I1, I2.
  split; [|lra]. split.
  - assert (-1 < f_int (B2SF bm)); [|lia]. apply lt_IZR. lra.
  - apply le_IZR. lra.
Qed.
