(** The label positions of charts, by real arithmetic. *)
From Coq Require Import ZArith Reals Bool Lia Lra Psatz.
From Coq Require Import Floats.SpecFloat.
From Flocq Require Import Core.Core IEEE754.BinarySingleNaN Relative.
From Verif Require Import Base Merge Draw DrawSpec FloatReal DrawFloat RateProofs Axis AxisSpec AxisFloat Graph.
Open Scope R_scope.

Lemma sub_equiv (x y : bin) : SFsub 53 1024 (B2SF x) (B2SF y) = B2SF (Bminus mode_NE x y).
Proof.
  destruct x, y; cbn [B2SF SFsub Bminus]; try reflexivity; try (destruct (Bool.eqb _ _); reflexivity).
  rewrite <- normalize_equiv. f_equal. unfold Fplus_naive. destruct s0; cbn [negb cond_Zopp]; ring.
Qed.
Lemma in_unit_of (b : bin) : is_finite b = true -> 0 <= B2R b <= 1 -> in_unit (B2SF b).
Proof.
  intros F R. destruct (of_int 1) as (b1 & E1 & F1 & R1); [lia|]. split; [apply valid_binary_B2SF|]. split.
  - change (S754_zero false) with (B2SF (B754_zero false : bin)). rewrite SFleb_real by auto. apply Rle_bool_true. cbn. lra.
  - unfold f_of_int. rewrite E1, SFleb_real by auto. apply Rle_bool_true. lra.
Qed.
Lemma int_round (n : Z) : (0 <= n < 2 ^ 63)%Z -> exists b : bin, f_of_int n = B2SF b /\ is_finite b = true /\ B2R b = rnd (IZR n).
Proof.
  intros H. unfold f_of_int. rewrite normalize_equiv. eexists. split; [reflexivity|].
  pose proof (binary_normalize_correct 53 1024 Hprec Hmax mode_NE n 0 false) as C. cbn zeta in C.
  replace (F2R (Float radix2 n 0)) with (IZR n) in C by (unfold F2R; cbn; lra).
  rewrite Rlt_bool_true in C; [destruct C as (A & B & _); auto|].
  assert (0 <= rnd (IZR n)) by (apply round_ge_generic; [typeclasses eauto|typeclasses eauto|apply generic_format_0|apply IZR_le; lia]).
  rewrite Rabs_pos_eq by assumption. apply Rle_lt_trans with (bpow radix2 63); [|apply bpow_lt; lia].
  apply round_le_generic; [typeclasses eauto|typeclasses eauto|apply generic_format_bpow; cbn; lia|]. change (bpow radix2 63) with (IZR (2 ^ 63)). apply IZR_le. lia.
Qed.
(** float64(p)/float64(q) *)
Lemma quot_unit p q : (0 <= p <= q)%Z -> (0 < q < 2 ^ 63)%Z ->
  exists b : bin, f_div (f_of_int p) (f_of_int q) = B2SF b /\ is_finite b = true /\ 0 <= B2R b <= 1 /\ Rabs (B2R b - IZR p / IZR q) <= / 2 ^ 49.
Proof.
  intros Hp Hq. destruct (int_round p) as (a & Ea & Fa & Ra); [lia|]. destruct (int_round q) as (c & Ec & Fc & Rc); [lia|].
  assert (Q1 : 1 <= B2R c) by (rewrite Rc; apply round_ge_generic; [typeclasses eauto|typeclasses eauto|apply (format_int 1); lia|apply IZR_le; lia]).
  assert (P0 : 0 <= B2R a) by (rewrite Ra; apply round_ge_generic; [typeclasses eauto|typeclasses eauto|apply generic_format_0|apply IZR_le; lia]).
  assert (PQ : B2R a <= B2R c) by (rewrite Ra, Rc; apply round_le; [typeclasses eauto|typeclasses eauto|apply IZR_le; lia]).
  assert (D : 0 <= B2R a / B2R c <= IZR 1).
  { split; [apply Rmult_le_pos; [lra|left; apply Rinv_0_lt_compat; lra]|]. apply Rmult_le_reg_r with (B2R c); [lra|]. unfold Rdiv. rewrite Rmult_assoc, Rinv_l by lra. lra. }
  destruct (div_real a c 1 Fa Fc ltac:(lra) ltac:(lia) D) as (b & Eb & Fb & Rb).
  exists b. unfold f_div. rewrite Ea, Ec. split; [exact Eb|]. split; [exact Fb|].
  assert (B01 : 0 <= B2R b <= 1).
  { rewrite Rb. split; [apply round_ge_generic; [typeclasses eauto|typeclasses eauto|apply generic_format_0|lra]|apply round_le_generic; [typeclasses eauto|typeclasses eauto|apply (format_int 1); lia|lra]]. }
  split; [exact B01|].
  destruct (Z.eq_dec p 0) as [->|Hp0].
  - assert (B2R a = 0) as A0 by (rewrite Ra; apply round_0; typeclasses eauto). unfold Rdiv in *. rewrite A0, Rmult_0_l in Rb. rewrite Rb, round_0 by typeclasses eauto. rewrite Rmult_0_l, Rminus_0_r, Rabs_R0. left. apply Rinv_0_lt_compat, pow_lt. lra.
  - assert (Qp : 0 < IZR q) by (apply IZR_lt; lia). assert (Pp : 1 <= IZR p) by (apply IZR_le; lia). assert (Pq : IZR p <= IZR q) by (apply IZR_le; lia).
    assert (Q63 : IZR q <= bpow radix2 63) by (change (bpow radix2 63) with (IZR (2 ^ 63)); apply IZR_le; lia).
    assert (L : bpow radix2 (-63) <= IZR p / IZR q).
    { apply Rmult_le_reg_r with (IZR q); [lra|]. unfold Rdiv. rewrite Rmult_assoc, Rinv_l by lra. apply Rle_trans with (bpow radix2 (-63) * bpow radix2 63).
      - apply Rmult_le_compat_l; [apply bpow_ge_0|exact Q63]. - rewrite <- bpow_plus. change (bpow radix2 (-63 + 63)) with 1. lra. }
    assert (U : IZR p / IZR q <= 1) by (apply Rmult_le_reg_r with (IZR q); [lra|]; unfold Rdiv; rewrite Rmult_assoc, Rinv_l by lra; lra).
    pose proof (int_near p ltac:(lia)) as Np. pose proof (int_near q ltac:(lia)) as Nq.
    pose proof (div_near 1 1 (IZR p) (IZR q) _ _ Np Nq (one_le_fair _ Pp) Qp) as N.
    destruct N as (b' & Eb' & Fb' & Nb').
    + right. apply Rle_trans with (bpow radix2 (-63)); [apply bpow_le; lia|exact L].
    + apply Rle_trans with 1; [exact U|]. change 1 with (bpow radix2 0). apply bpow_le. lia.
    + cbn. lia.
    + unfold f_of_int in Ea, Ec. rewrite Ea, Ec, Eb in Eb'. assert (B2R b = B2R b') as -> by (rewrite <- !SF2R_B2SF, Eb'; reflexivity).
      eapply Rle_trans; [apply (near_error 3 (IZR p / IZR q)); [pose proof (bpow_ge_0 radix2 (-63)); lra|exact Nb'|cbn; lia]|].
      assert (V51 : 0 < / 2 ^ 51) by (apply Rinv_0_lt_compat, pow_lt; lra). replace (INR 3) with 3 by (cbn; lra).
      apply Rle_trans with (1 * (3 * / 2 ^ 51)); [apply Rmult_le_compat_r; lra|].
      assert (E : / 2 ^ 49 = 4 * / 2 ^ 51) by (replace 51%nat with (49 + 2)%nat by reflexivity; rewrite pow_add; field). lra.
Qed.
Lemma quot_in_unit p q : (0 <= p <= q)%Z -> (0 < q < 2 ^ 63)%Z -> in_unit (f_div (f_of_int p) (f_of_int q)).
Proof. intros Hp Hq. destruct (quot_unit p q Hp Hq) as (b & -> & F & R & _). now apply in_unit_of. Qed.
(** 1 - f *)
Lemma one_minus (b : bin) : is_finite b = true -> 0 <= B2R b <= 1 ->
  exists c : bin, f_sub f_one (B2SF b) = B2SF c /\ is_finite c = true /\ 0 <= B2R c <= 1 /\ Rabs (B2R c - (1 - B2R b)) <= / 2 ^ 53.
Proof.
  intros F R. destruct (of_int 1) as (b1 & E1 & F1 & R1); [lia|]. unfold f_one, f_sub, f_of_int. rewrite E1, sub_equiv. eexists. split; [reflexivity|].
  pose proof (Bminus_correct 53 1024 Hprec Hmax mode_NE b1 b F1 F) as C. rewrite R1 in C.
  assert (B : 0 <= rnd (1 - B2R b) <= 1).
  { split; [apply round_ge_generic; [typeclasses eauto|typeclasses eauto|apply generic_format_0|lra]|apply round_le_generic; [typeclasses eauto|typeclasses eauto|apply (format_int 1); lia|lra]]. }
  rewrite Rlt_bool_true in C.
  - destruct C as (A & Fc & _). split; [exact Fc|]. rewrite A. split; [exact B|].
    pose proof (error_le_half_ulp radix2 (fexp 53 1024) (fun x => negb (Z.even x)) (1 - B2R b)) as E. eapply Rle_trans; [exact E|].
    assert (U : ulp radix2 (fexp 53 1024) (1 - B2R b) <= ulp radix2 (fexp 53 1024) 1).
    { apply ulp_le; [typeclasses eauto|typeclasses eauto|]. rewrite !Rabs_pos_eq by lra. lra. }
    assert (U1 : ulp radix2 (fexp 53 1024) 1 = bpow radix2 (-52)).
    { change 1 with (bpow radix2 0). rewrite ulp_bpow. reflexivity. }
    rewrite U1 in U. assert (E53 : bpow radix2 (-52) = 2 * / 2 ^ 53).
    { change (bpow radix2 (-52)) with (/ IZR (2 ^ 52)). rewrite pow2_R. change (2 ^ Z.of_nat 53)%Z with (2 * 2 ^ 52)%Z. rewrite mult_IZR. field. apply not_0_IZR. lia. }
    lra.
  - rewrite Rabs_pos_eq by lra. apply Rle_lt_trans with 1; [lra|]. change 1 with (bpow radix2 0). apply bpow_lt. lia.
Qed.
(** the position of a time on the axis *)
Lemma time_pos p q : (0 <= p <= q)%Z -> (0 < q < 2 ^ 63)%Z ->
  let f := f_sub f_one (f_div (f_of_int p) (f_of_int q)) in
  in_unit f /\ Rabs (SF2R radix2 f - (1 - IZR p / IZR q)) <= / 2 ^ 48.
Proof.
  intros Hp Hq f. destruct (quot_unit p q Hp Hq) as (b & E & F & R & D). destruct (one_minus b F R) as (c & Ec & Fc & Rc & Dc).
  unfold f. rewrite E, Ec. split; [now apply in_unit_of|]. rewrite SF2R_B2SF.
  assert (E1 : / 2 ^ 48 = 2 * / 2 ^ 49) by (replace 49%nat with (48 + 1)%nat by reflexivity; rewrite pow_add; field).
  assert (E2 : / 2 ^ 53 < / 2 ^ 49) by (apply Rinv_lt_contravar; [apply Rmult_lt_0_compat; apply pow_lt; lra|apply Rlt_pow; [lra|lia]]).
  apply Rabs_le. apply Rabs_le_inv in D. apply Rabs_le_inv in Dc. lra.
Qed.
