(** The rate of a column (merger.go:205-212) as a real number: how far the double
    arithmetic can be from the exact mean. *)
From Coq Require Import ZArith Reals Bool Lia Lra Psatz List.
From Coq Require Import Floats.SpecFloat.
From Flocq Require Import Core.Core IEEE754.BinarySingleNaN Relative.
From Verif Require Import FloatReal.
Import ListNotations.
Open Scope R_scope.

Lemma add_equiv (x y : bin) : SFadd 53 1024 (B2SF x) (B2SF y) = B2SF (Bplus mode_NE x y).
Proof.
  destruct x, y; cbn [B2SF SFadd Bplus]; try reflexivity; try (destruct (Bool.eqb _ _); reflexivity).
  rewrite <- normalize_equiv. reflexivity.
Qed.

Definition v : R := bpow radix2 (-52).
Definition g (k : nat) : R := (1 + v) ^ k.
(** [x] is [r] up to a factor of (1 + 2^-52)^k *)
Definition near (k : nat) (r x : R) : Prop := r / g k <= x <= r * g k.
Lemma v_pos : 0 < v. Proof. apply bpow_gt_0. Qed.
Lemma v_small : v < / 2. Proof. unfold v. change (/ 2) with (bpow radix2 (-1)). apply bpow_lt. lia. Qed.
Lemma g_ge1 k : 1 <= g k.
Proof. unfold g. apply pow_R1_Rle. pose proof v_pos. lra. Qed.
Lemma g_S k : g (S k) = (1 + v) * g k. Proof. reflexivity. Qed.
Lemma g_add j k : g (j + k) = g j * g k. Proof. apply pow_add. Qed.
Lemma g_mono j k : (j <= k)%nat -> g j <= g k.
Proof. intros H. unfold g. apply Rle_pow; [pose proof v_pos; lra|exact H]. Qed.
Lemma near_mono j k r x : 0 <= r -> (j <= k)%nat -> near j r x -> near k r x.
Proof.
  intros Hr H [A B]. pose proof (g_ge1 j). pose proof (g_mono _ _ H). split.
  - eapply Rle_trans; [|exact A]. apply Rmult_le_compat_l; [exact Hr|]. apply Rinv_le; lra.
  - eapply Rle_trans; [exact B|]. apply Rmult_le_compat_l; lra.
Qed.
Lemma near_pos k r x : 0 <= r -> near k r x -> 0 <= x.
Proof. intros Hr [A _]. eapply Rle_trans; [|exact A]. apply Rmult_le_pos; [exact Hr|]. left. apply Rinv_0_lt_compat. pose proof (g_ge1 k). lra. Qed.
Lemma near_gt k r x : 0 < r -> near k r x -> 0 < x.
Proof. intros Hr [A _]. eapply Rlt_le_trans; [|exact A]. apply Rmult_lt_0_compat; [exact Hr|]. apply Rinv_0_lt_compat. pose proof (g_ge1 k). lra. Qed.
(** the factor is at most 2 for up to 2^51 roundings *)
Lemma g_le2 k : (Z.of_nat k <= 2 ^ 51)%Z -> g k <= 2.
Proof.
  intros Hk. assert (B : forall n, (Z.of_nat n <= 2 ^ 51)%Z -> g n * (1 - INR n * v) <= 1).
  { induction n as [|n IH]; intros Hn; [unfold g; cbn; lra|]. specialize (IH ltac:(lia)). rewrite g_S, S_INR.
    pose proof (g_ge1 n). pose proof v_pos. assert (0 <= INR n) by apply pos_INR.
    assert (E : (1 + v) * g n * (1 - (INR n + 1) * v) = g n * (1 - INR n * v) - g n * v * v * (INR n + 1)) by ring.
    assert (0 <= g n * v * v * (INR n + 1)) by (repeat apply Rmult_le_pos; lra). lra. }
  specialize (B k Hk). pose proof (g_ge1 k).
  assert (INR k * v <= / 2).
  { rewrite INR_IZR_INZ. unfold v. replace (/ 2) with (IZR (2 ^ 51) * bpow radix2 (-52)).
    - apply Rmult_le_compat_r; [apply bpow_ge_0|]. apply IZR_le. exact Hk.
    - change (IZR (2 ^ 51)) with (bpow radix2 51). rewrite <- bpow_plus. reflexivity. }
  nra.
Qed.

(** rounding a positive real that is not tiny *)
Lemma near_round k r x : 0 <= r -> near k r x -> (r = 0 \/ bpow radix2 (-900) <= r) -> (Z.of_nat k <= 2 ^ 51)%Z -> near (S k) r (rnd x).
Proof.
  intros Hr Hn Hb Hk. pose proof (near_pos _ _ _ Hr Hn) as Hx. destruct Hb as [->|Hb].
  - destruct Hn as [A B]. assert (x = 0) as ->.
    { unfold Rdiv in A. rewrite Rmult_0_l in A, B. lra. }
    rewrite round_0 by typeclasses eauto. unfold near, Rdiv. rewrite !Rmult_0_l. lra.
  - assert (Hx' : bpow radix2 (-1022) <= Rabs x).
    { rewrite Rabs_pos_eq by exact Hx. destruct Hn as [A _]. eapply Rle_trans; [|exact A]. pose proof (g_le2 k Hk). pose proof (g_ge1 k).
      apply Rle_trans with (bpow radix2 (-900) / 2).
      - change (bpow radix2 (-900) / 2) with (bpow radix2 (-900) * bpow radix2 (-1)). rewrite <- bpow_plus. apply bpow_le. lia.
      - unfold Rdiv. apply Rmult_le_compat; [apply bpow_ge_0|lra|exact Hb|]. apply Rinv_le; lra. }
    pose proof (relative_error_N_FLT radix2 (-1074) 53 eq_refl (fun z => negb (Z.even z)) x) as E.
    change (-1074 + 53 - 1)%Z with (-1022)%Z in E. specialize (E Hx').
    change (- (53) + 1)%Z with (-52)%Z in E. fold v in E. rewrite (Rabs_pos_eq x) in E by exact Hx.
    change (rnd x) with (round radix2 (FLT_exp (-1074) 53) (Znearest (fun z => negb (Z.even z))) x).
    set (y := round _ _ _ x) in *. apply Rabs_le_inv in E. pose proof v_pos. pose proof v_small. destruct Hn as [A B]. pose proof (g_ge1 k).
    split; rewrite g_S.
    + replace (r / ((1 + v) * g k)) with ((r / g k) * / (1 + v)) by (field; lra).
      apply Rle_trans with (x * / (1 + v)); [apply Rmult_le_compat_r; [left; apply Rinv_0_lt_compat; lra|exact A]|].
      apply Rmult_le_reg_r with (1 + v); [lra|]. rewrite Rmult_assoc, Rinv_l, Rmult_1_r by lra. nra.
    + assert (y <= (1 + v) * x) by nra. nra.
Qed.
Lemma near_div j k r s x y : 0 <= r -> 0 < s -> near j r x -> near k s y -> near (j + k) (r / s) (x / y).
Proof.
  intros Hr Hs [A B] [C D]. pose proof (g_ge1 j). pose proof (g_ge1 k).
  assert (Hy : 0 < y). { eapply Rlt_le_trans; [|exact C]. apply Rmult_lt_0_compat; [exact Hs|]. apply Rinv_0_lt_compat. lra. }
  assert (0 <= x). { eapply Rle_trans; [|exact A]. apply Rmult_le_pos; [exact Hr|]. left. apply Rinv_0_lt_compat. lra. }
  unfold near. rewrite g_add. split.
  - replace (r / s / (g j * g k)) with ((r / g j) * / (s * g k)) by (field; lra). unfold Rdiv at 2.
    apply Rmult_le_compat; [apply Rmult_le_pos; [lra|left; apply Rinv_0_lt_compat; lra]|left; apply Rinv_0_lt_compat; nra|exact A|].
    apply Rinv_le; lra.
  - replace (r / s * (g j * g k)) with ((r * g j) * / (s / g k)) by (field; lra). unfold Rdiv at 1.
    apply Rmult_le_compat; [lra|left; now apply Rinv_0_lt_compat|exact B|]. apply Rinv_le; [|exact C].
    apply Rmult_lt_0_compat; [lra|]. apply Rinv_0_lt_compat. lra.
Qed.
Lemma near_add k r s x y : near k r x -> near k s y -> near k (r + s) (x + y).
Proof. intros [A B] [C D]. unfold near, Rdiv. rewrite !Rmult_plus_distr_r. unfold Rdiv in *. lra. Qed.

(** [x] is a finite double near [r] *)
Definition fnear (k : nat) (r : R) (x : spec_float) : Prop :=
  exists b : bin, x = B2SF b /\ is_finite b = true /\ near k r (B2R b).
Definition fair (r : R) : Prop := r = 0 \/ bpow radix2 (-900) <= r.
Lemma fair_pos r : fair r -> 0 <= r.
Proof. intros [->|H]; [lra|]. eapply Rle_trans; [apply bpow_ge_0|exact H]. Qed.
Lemma near_fits k r x : 0 <= r -> r <= bpow radix2 900 -> near k r x -> (Z.of_nat k <= 2 ^ 51)%Z -> Rabs x < bpow radix2 1024.
Proof.
  intros H0 Hr Hn Hk. rewrite Rabs_pos_eq by (eapply near_pos; eauto). destruct Hn as [_ B]. pose proof (g_le2 k Hk). pose proof (g_ge1 k).
  eapply Rle_lt_trans; [exact B|]. apply Rle_lt_trans with (bpow radix2 900 * bpow radix2 1).
  - apply Rmult_le_compat; try lra. change (bpow radix2 1) with 2. lra.
  - rewrite <- bpow_plus. apply bpow_lt. lia.
Qed.
Lemma near_refl r : near 0 r r.
Proof. unfold near, g. cbn. unfold Rdiv. rewrite Rinv_1. lra. Qed.
Lemma int_near n : (0 <= n < 2 ^ 63)%Z -> fnear 1 (IZR n) (SpecFloat.binary_normalize 53 1024 n 0 false).
Proof.
  intros H. rewrite normalize_equiv. eexists. split; [reflexivity|].
  pose proof (binary_normalize_correct 53 1024 Hprec Hmax mode_NE n 0 false) as C. cbn zeta in C.
  replace (F2R (Float radix2 n 0)) with (IZR n) in C by (unfold F2R; cbn; lra).
  assert (N : near 1 (IZR n) (rnd (IZR n))).
  { apply near_round; [apply IZR_le; lia|apply near_refl| |cbn; lia]. destruct (Z.eq_dec n 0) as [->|Hn]; [now left|right].
    apply Rle_trans with 1; [change 1 with (bpow radix2 0); apply bpow_le; lia|apply IZR_le; lia]. }
  rewrite Rlt_bool_true in C.
  - destruct C as (A & B & _). split; [exact B|]. rewrite A. exact N.
  - apply (near_fits 1 (IZR n)); [apply IZR_le; lia| |exact N|cbn; lia].
    apply Rle_trans with (bpow radix2 63); [change (bpow radix2 63) with (IZR (2 ^ 63)); apply IZR_le; lia|apply bpow_le; lia].
Qed.
Lemma div_near j k r s x y : fnear j r x -> fnear k s y -> fair r -> 0 < s -> fair (r / s) -> r / s <= bpow radix2 900 ->
  (Z.of_nat (S (j + k)) <= 2 ^ 51)%Z -> fnear (S (j + k)) (r / s) (SFdiv 53 1024 x y).
Proof.
  intros (a & -> & Fa & Na) (b & -> & Fb & Nb) Hr Hs Hf Hb Hk. rewrite div_equiv. eexists. split; [reflexivity|].
  pose proof (near_gt _ _ _ Hs Nb) as Hy.
  pose proof (Bdiv_correct 53 1024 Hprec Hmax mode_NE a b ltac:(lra)) as C.
  assert (N : near (S (j + k)) (r / s) (rnd (B2R a / B2R b))).
  { apply near_round; [now apply fair_pos|apply near_div; auto; now apply fair_pos|exact Hf|lia]. }
  rewrite Rlt_bool_true in C.
  - destruct C as (A & B & _). split; [congruence|]. rewrite A. exact N.
  - eapply near_fits; eauto. now apply fair_pos.
Qed.
Lemma add_near k r s x y : fnear k r x -> fnear k s y -> fair r -> fair s -> r + s <= bpow radix2 900 ->
  (Z.of_nat (S k) <= 2 ^ 51)%Z -> fnear (S k) (r + s) (SFadd 53 1024 x y) /\ fair (r + s).
Proof.
  intros (a & -> & Fa & Na) (b & -> & Fb & Nb) Hr Hs Hb Hk.
  pose proof (fair_pos _ Hr). pose proof (fair_pos _ Hs).
  assert (Hf : fair (r + s)).
  { destruct Hr as [->|Hr]; [rewrite Rplus_0_l; exact Hs|]. right. lra. }
  split; [|exact Hf]. rewrite add_equiv. eexists. split; [reflexivity|].
  pose proof (Bplus_correct 53 1024 Hprec Hmax mode_NE a b Fa Fb) as C.
  assert (N : near (S k) (r + s) (rnd (B2R a + B2R b))).
  { apply near_round; [lra|now apply near_add|exact Hf|lia]. }
  rewrite Rlt_bool_true in C.
  - destruct C as (A & B & _). split; [exact B|]. rewrite A. exact N.
  - apply (near_fits (S k) (r + s)); [lra|exact Hb|exact N|exact Hk].
Qed.
Lemma fnear_mono j k r x : 0 <= r -> (j <= k)%nat -> fnear j r x -> fnear k r x.
Proof. intros Hr H (b & E & F & N). exists b. split; [exact E|]. split; [exact F|]. eapply near_mono; eauto. Qed.

From Verif Require Import Base PbRecord Float Merge MergeSpec RateSpec.
Lemma fair_big r : / 2 ^ 200 <= r -> fair r.
Proof.
  intros H. right. eapply Rle_trans; [|exact H]. replace (/ 2 ^ 200) with (bpow radix2 (-200)); [apply bpow_le; lia|].
  change (bpow radix2 (-200)) with (/ IZR (2 ^ 200)). f_equal. symmetry. exact (pow_IZR 2 200).
Qed.
Lemma le900 (k : nat) r : (k <= 900)%nat -> r <= 2 ^ k -> r <= bpow radix2 900.
Proof.
  intros Hk H. eapply Rle_trans; [exact H|]. apply Rle_trans with (2 ^ 900); [apply Rle_pow; [lra|exact Hk]|]. right.
  change (bpow radix2 900) with (IZR (2 ^ 900)). exact (pow_IZR 2 900).
Qed.
Lemma seconds_near n : (0 < n < 2 ^ 63)%Z -> fnear 4 (IZR n / 10 ^ 9) (f_seconds n).
Proof.
  intros Hn. unfold f_seconds, f_add, f_div, f_of_int.
  assert (Hq : (Z.quot n 1000000000 = n / 1000000000)%Z) by (apply Z.quot_div_nonneg; lia).
  assert (Hm : (Z.rem n 1000000000 = n mod 1000000000)%Z) by (apply Z.rem_mod_nonneg; lia).
  rewrite Hq, Hm. pose proof (Z.div_mod n 1000000000 ltac:(lia)) as E. pose proof (Z.mod_pos_bound n 1000000000 ltac:(lia)) as Hb.
  set (q := (n / 1000000000)%Z) in *. set (m := (n mod 1000000000)%Z) in *.
  assert (Hqr : (0 <= q < 2 ^ 63)%Z) by lia.
  assert (Er : IZR n / 10 ^ 9 = IZR q + IZR m / IZR 1000000000).
  { rewrite E, plus_IZR, mult_IZR. change (10 ^ 9) with (10 * (10 * (10 * (10 * (10 * (10 * (10 * (10 * (10 * 1))))))))). field. }
  rewrite Er.
  assert (D : fnear 3 (IZR m / IZR 1000000000) (SFdiv 53 1024 (SpecFloat.binary_normalize 53 1024 m 0 false) (SpecFloat.binary_normalize 53 1024 1000000000 0 false)) /\ fair (IZR m / IZR 1000000000)).
  { assert (F : fair (IZR m / IZR 1000000000)).
    { destruct (Z.eq_dec m 0) as [->|H]; [left; unfold Rdiv; apply Rmult_0_l|]. apply fair_big. assert (1 <= IZR m) by (apply IZR_le; lia).
      apply Rle_trans with (/ IZR 1000000000); [apply Rinv_le; [lra|]|lra].
      apply Rle_trans with (2 ^ 30); [cbn; lra|apply Rle_pow; [lra|lia]]. }
    split; [|exact F]. assert (IZR m <= 1000000000) by (apply IZR_le; lia). assert (0 <= IZR m) by (apply IZR_le; lia).
    apply (div_near 1 1); [apply int_near; lia|apply int_near; lia| |lra|exact F| |cbn; lia].
    - destruct (Z.eq_dec m 0) as [->|H1]; [now left|]. apply fair_big. assert (1 <= IZR m) by (apply IZR_le; lia).
      apply Rle_trans with 1; [|lra]. rewrite <- Rinv_1. apply Rinv_le; [lra|]. apply pow_R1_Rle. lra.
    - apply (le900 1); [lia|]. cbn. lra. }
  destruct D as [D F].
  assert (Fq : fair (IZR q)).
  { destruct (Z.eq_dec q 0) as [->|H1]; [now left|]. apply fair_big. assert (1 <= IZR q) by (apply IZR_le; lia).
    apply Rle_trans with 1; [|lra]. rewrite <- Rinv_1. apply Rinv_le; [lra|]. apply pow_R1_Rle. lra. }
  apply (add_near 3); auto; [|  |cbn; lia].
  - apply (fnear_mono 1); [apply IZR_le; lia|lia|apply int_near; lia].
  - rewrite <- Er. apply (le900 63); [lia|]. assert (IZR n <= 2 ^ 63) by (change 2 with (IZR 2); rewrite (pow_IZR 2 63); apply IZR_le; cbn; lia).
    assert (0 < IZR n) by (apply IZR_lt; lia). apply Rle_trans with (IZR n); [|lra]. unfold Rdiv. rewrite <- (Rmult_1_r (IZR n)) at 2.
    apply Rmult_le_compat_l; [lra|]. rewrite <- Rinv_1. apply Rinv_le; [lra|]. apply pow_R1_Rle. lra.
Qed.
Lemma pow2_R (k : nat) : 2 ^ k = IZR (2 ^ Z.of_nat k).
Proof. exact (pow_IZR 2 k). Qed.
Lemma one_le_fair r : 1 <= r -> fair r.
Proof. intros H. apply fair_big. apply Rle_trans with 1; [|exact H]. rewrite <- Rinv_1. apply Rinv_le; [lra|]. apply pow_R1_Rle. lra. Qed.
Lemma nat_fair n : (0 <= n)%Z -> fair (IZR n).
Proof. intros H. destruct (Z.eq_dec n 0) as [->|H1]; [now left|]. apply one_le_fair. apply IZR_le. lia. Qed.
Lemma quot_bounds a b (i j : nat) : 1 <= a <= 2 ^ i -> / 2 ^ 30 <= b <= 2 ^ j -> / 2 ^ j <= a / b <= 2 ^ (i + 30).
Proof.
  intros [A1 A2] [B1 B2]. assert (0 < / 2 ^ 30) by (apply Rinv_0_lt_compat; apply pow_lt; lra).
  assert (/ 2 ^ j <= / b) by (apply Rinv_le; lra).
  assert (/ b <= 2 ^ 30) by (rewrite <- (Rinv_inv (2 ^ 30)); apply Rinv_le; lra).
  assert (0 < / 2 ^ j) by (apply Rinv_0_lt_compat; apply pow_lt; lra). assert (0 < 2 ^ i) by (apply pow_lt; lra).
  unfold Rdiv. split; [|rewrite pow_add; apply Rmult_le_compat; lra].
  rewrite <- (Rmult_1_l (/ 2 ^ j)). apply Rmult_le_compat; lra.
Qed.
Lemma rate_bounds r : has_rate r -> (d_end r - d_start r < 2 ^ 63)%Z ->
  fair (IZR (d_obs r) / IZR (d_merged r)) /\ IZR (d_obs r) / IZR (d_merged r) <= 2 ^ 93 /\
  0 < IZR (d_end r - d_start r) / 10 ^ 9 /\ fair (rate r) /\ 0 <= rate r <= 2 ^ 123.
Proof.
  intros (Ho & Hm & Hd) Hl.
  assert (M1 : 1 <= IZR (d_merged r)) by (apply IZR_le; lia).
  assert (M2 : IZR (d_merged r) <= 2 ^ 63) by (rewrite pow2_R; apply IZR_le; cbn; lia).
  assert (L1 : 1 <= IZR (d_end r - d_start r)) by (apply IZR_le; lia).
  assert (L2 : IZR (d_end r - d_start r) <= 2 ^ 63) by (rewrite pow2_R; apply IZR_le; cbn; lia).
  assert (T9 : 1 <= 10 ^ 9 <= 2 ^ 30) by (cbn; lra).
  assert (S1 : / 2 ^ 30 <= IZR (d_end r - d_start r) / 10 ^ 9 <= 2 ^ 63).
  { assert (/ 2 ^ 30 <= / 10 ^ 9) by (apply Rinv_le; lra). assert (/ 10 ^ 9 <= 1) by (rewrite <- Rinv_1; apply Rinv_le; lra).
    assert (0 < / 2 ^ 30) by (apply Rinv_0_lt_compat; apply pow_lt; lra). unfold Rdiv. nra. }
  assert (P30 : 0 < / 2 ^ 30) by (apply Rinv_0_lt_compat; apply pow_lt; lra).
  destruct (Z.eq_dec (d_obs r) 0) as [E|E].
  - unfold rate. rewrite E. unfold Rdiv. rewrite !Rmult_0_l. assert (0 < 2 ^ 93) by (apply pow_lt; lra). assert (0 < 2 ^ 123) by (apply pow_lt; lra).
    split; [now left|]. split; [lra|]. split; [unfold Rdiv in S1; lra|]. split; [now left|lra].
  - assert (O1 : 1 <= IZR (d_obs r)) by (apply IZR_le; lia).
    assert (O2 : IZR (d_obs r) <= 2 ^ 63) by (rewrite pow2_R; apply IZR_le; cbn; lia).
    assert (Q : / 2 ^ 63 <= IZR (d_obs r) / IZR (d_merged r) <= 2 ^ 93).
    { apply (quot_bounds _ _ 63 63); split; lra. }
    assert (P63 : 0 < / 2 ^ 63) by (apply Rinv_0_lt_compat; apply pow_lt; lra).
    assert (Q2 : / 2 ^ 126 <= rate r <= 2 ^ 123).
    { unfold rate. set (a := IZR (d_obs r) / IZR (d_merged r)) in *. set (b := IZR (d_end r - d_start r) / 10 ^ 9) in *.
      assert (/ 2 ^ 63 <= / b) by (apply Rinv_le; lra).
      assert (/ b <= 2 ^ 30) by (rewrite <- (Rinv_inv (2 ^ 30)); apply Rinv_le; lra).
      unfold Rdiv. split.
      - replace 126%nat with (63 + 63)%nat by reflexivity. rewrite pow_add, Rinv_mult. apply Rmult_le_compat; lra.
      - replace 123%nat with (93 + 30)%nat by reflexivity. rewrite pow_add. apply Rmult_le_compat; lra. }
    assert (P126 : 0 < / 2 ^ 126) by (apply Rinv_0_lt_compat; apply pow_lt; lra).
    assert (I200 : forall k, (k <= 200)%nat -> / 2 ^ 200 <= / 2 ^ k).
    { intros k Hk. apply Rinv_le; [apply pow_lt; lra|]. apply Rle_pow; [lra|exact Hk]. }
    split; [apply fair_big; specialize (I200 63%nat ltac:(lia)); lra|]. split; [lra|]. split; [lra|].
    split; [apply fair_big; specialize (I200 126%nat ltac:(lia)); lra|lra].
Qed.
Lemma rate_near r : has_rate r -> (d_end r - d_start r < 2 ^ 63)%Z ->
  fnear 8 (rate r) (f_div (f_div (f_of_int (d_obs r)) (f_of_int (d_merged r))) (f_seconds (i64 (d_end r - d_start r)))).
Proof.
  intros H Hl. destruct (rate_bounds r H Hl) as (F1 & B1 & P & F2 & B2). destruct H as (Ho & Hm & Hd).
  rewrite i64_id by (unfold is_i64; lia). unfold rate, f_div.
  apply (div_near 3 4); auto; [|now apply seconds_near; lia|apply (le900 123); [lia|apply B2]|cbn; lia].
  apply (div_near 1 1); [apply int_near; lia|apply int_near; lia|apply nat_fair; lia|apply IZR_lt; lia|exact F1|apply (le900 93); [lia|exact B1]|cbn; lia].
Qed.
Lemma sum_near l : forall (k : nat) z s, (8 <= k)%nat -> (Z.of_nat (k + length l) < 2 ^ 51)%Z ->
  (forall r, In r l -> has_rate r /\ (d_end r - d_start r < 2 ^ 63)%Z) ->
  fnear k s z -> fair s -> s <= INR k * 2 ^ 123 ->
  let z' := fold_left (fun z r => f_add z (f_div (f_div (f_of_int (d_obs r)) (f_of_int (d_merged r))) (f_seconds (i64 (d_end r - d_start r))))) l z in
  fnear (k + length l) (s + sum_rates l) z' /\ fair (s + sum_rates l) /\ s + sum_rates l <= INR (k + length l) * 2 ^ 123.
Proof.
  assert (P : 0 < 2 ^ 123) by (apply pow_lt; lra).
  induction l as [|r l IH]; intros k z s Hk Hn Hl N F B; cbn zeta; cbn [fold_left sum_rates fold_right length] in *.
  - rewrite Nat.add_0_r, Rplus_0_r. auto.
  - destruct (Hl r (or_introl eq_refl)) as [H1 H2]. destruct (rate_bounds r H1 H2) as (_ & _ & _ & Fr & Br).
    assert (B' : s + rate r <= INR (S k) * 2 ^ 123) by (rewrite S_INR; lra).
    destruct (add_near k s (rate r) z (f_div (f_div (f_of_int (d_obs r)) (f_of_int (d_merged r))) (f_seconds (i64 (d_end r - d_start r))))) as [N' F']; auto.
    + apply (fnear_mono 8); [lra|exact Hk|now apply rate_near].
    + eapply Rle_trans; [exact B'|]. apply (le900 (51 + 123)); [lia|]. rewrite pow_add. apply Rmult_le_compat_r; [lra|].
      rewrite INR_IZR_INZ, pow2_R. apply IZR_le. cbn [Z.of_nat]. lia.
    + lia.
    + destruct (IH (S k) _ _ ltac:(lia) ltac:(lia) (fun r' H => Hl r' (or_intror H)) N' F' B') as (A1 & A2 & A3).
      fold (sum_rates l). rewrite <- Rplus_assoc. replace (k + S (length l))%nat with (S k + length l)%nat by lia. auto.
Qed.
Lemma sum_rates_pos l : (forall r, In r l -> has_rate r /\ (d_end r - d_start r < 2 ^ 63)%Z) -> 0 <= sum_rates l.
Proof.
  induction l as [|r l IH]; intros H; cbn; [lra|]. destruct (H r (or_introl eq_refl)) as [A B]. destruct (rate_bounds r A B) as (_ & _ & _ & _ & C).
  specialize (IH (fun x Hx => H x (or_intror Hx))). unfold sum_rates in IH. lra.
Qed.
Lemma obs_sec_near l : l <> [] -> (Z.of_nat (length l) < 2 ^ 50)%Z ->
  (forall r, In r l -> has_rate r /\ (d_end r - d_start r < 2 ^ 63)%Z) ->
  fnear (length l + 10) (mean_rate l) (obs_sec l).
Proof.
  intros Hne Hn Hl. unfold obs_sec, mean_rate, f_div at 1.
  assert (N0 : fnear 8 0 (S754_zero false)).
  { exists (B754_zero false). split; [reflexivity|]. split; [reflexivity|]. cbn. unfold near, Rdiv. rewrite !Rmult_0_l. lra. }
  assert (P : 0 < 2 ^ 123) by (apply pow_lt; lra).
  destruct (sum_near l 8 (S754_zero false) 0 ltac:(lia) ltac:(lia) Hl N0) as (A & F & B); [now left|cbn; lra|].
  rewrite Rplus_0_l in *. assert (H0 : 0 <= sum_rates l) by now apply sum_rates_pos.
  assert (L1 : 1 <= INR (length l)) by (destruct l; [contradiction|]; cbn [length]; rewrite S_INR; pose proof (pos_INR (length l)); lra).
  replace (length l + 10)%nat with (S (8 + length l + 1)) by lia.
  rewrite INR_IZR_INZ in L1 |- *.
  assert (Hinv : / IZR (Z.of_nat (length l)) <= 1) by (rewrite <- Rinv_1; apply Rinv_le; lra).
  assert (Hinv0 : 0 < / IZR (Z.of_nat (length l))) by (apply Rinv_0_lt_compat; lra).
  apply (div_near (8 + length l) 1); auto.
  - apply int_near. lia.
  - lra.
  - destruct F as [->|F]; [left; unfold Rdiv; apply Rmult_0_l|].
    destruct (Req_dec (sum_rates l) 0) as [->|Hz]; [left; unfold Rdiv; apply Rmult_0_l|]. clear F.
    apply fair_big. assert (Big : / 2 ^ 126 <= sum_rates l).
    { clear - Hl Hz P. induction l as [|r l IH]; [cbn in Hz; lra|]. cbn [sum_rates fold_right] in *. fold (sum_rates l) in *.
      destruct (Hl r (or_introl eq_refl)) as [H1 H2]. destruct (rate_bounds r H1 H2) as (_ & _ & _ & _ & Br).
      pose proof (sum_rates_pos l (fun x Hx => Hl x (or_intror Hx))) as Hp.
      destruct (Req_dec (sum_rates l) 0) as [E|E]; [|specialize (IH (fun x Hx => Hl x (or_intror Hx)) E); lra].
      assert (Hr : rate r <> 0) by lra.
      destruct H1 as (Ho & Hm & Hd).
      assert (O1 : 1 <= IZR (d_obs r)).
      { apply IZR_le. destruct (Z.eq_dec (d_obs r) 0) as [E0|]; [|lia]. exfalso. apply Hr. unfold rate. rewrite E0. unfold Rdiv. rewrite !Rmult_0_l. reflexivity. }
      assert (M1 : 1 <= IZR (d_merged r)) by (apply IZR_le; lia).
      assert (M2 : IZR (d_merged r) <= 2 ^ 63) by (rewrite pow2_R; apply IZR_le; cbn; lia).
      assert (D1 : 1 <= IZR (d_end r - d_start r)) by (apply IZR_le; lia).
      assert (D2 : IZR (d_end r - d_start r) <= 2 ^ 63) by (rewrite pow2_R; apply IZR_le; cbn; lia).
      assert (T : 1 <= 10 ^ 9) by (cbn; lra).
      assert (T2 : IZR (d_end r - d_start r) / 10 ^ 9 <= 2 ^ 63).
      { assert (/ 10 ^ 9 <= 1) by (rewrite <- Rinv_1; apply Rinv_le; lra). assert (0 < / 10 ^ 9) by (apply Rinv_0_lt_compat; lra). unfold Rdiv. nra. }
      assert (T3 : 0 < IZR (d_end r - d_start r) / 10 ^ 9) by (apply Rdiv_lt_0_compat; lra).
      assert (Q1 : / 2 ^ 63 <= / IZR (d_merged r)) by (apply Rinv_le; lra).
      assert (Q2 : / 2 ^ 63 <= / (IZR (d_end r - d_start r) / 10 ^ 9)) by (apply Rinv_le; lra).
      assert (P63 : 0 < / 2 ^ 63) by (apply Rinv_0_lt_compat; apply pow_lt; lra).
      assert (/ 2 ^ 126 <= rate r).
      { replace 126%nat with (63 + 63)%nat by reflexivity. rewrite pow_add, Rinv_mult. unfold rate, Rdiv at 1.
        apply Rmult_le_compat; try lra. unfold Rdiv. rewrite <- (Rmult_1_l (/ 2 ^ 63)). apply Rmult_le_compat; lra. }
      lra. }
    assert (Inv : / 2 ^ 50 <= / IZR (Z.of_nat (length l))).
    { apply Rinv_le; [lra|]. rewrite pow2_R. apply IZR_le. cbn [Z.of_nat]. lia. }
    assert (P126 : 0 < / 2 ^ 126) by (apply Rinv_0_lt_compat; apply pow_lt; lra).
    assert (P50 : 0 < / 2 ^ 50) by (apply Rinv_0_lt_compat; apply pow_lt; lra).
    apply Rle_trans with (/ 2 ^ 126 * / 2 ^ 50); [rewrite <- Rinv_mult, <- pow_add; apply Rinv_le; [apply pow_lt; lra|apply Rle_pow; [lra|lia]]|].
    unfold Rdiv. apply Rmult_le_compat; lra.
  - apply (le900 (51 + 123)); [lia|]. apply Rle_trans with (sum_rates l); [unfold Rdiv; nra|]. eapply Rle_trans; [exact B|]. rewrite pow_add.
    apply Rmult_le_compat_r; [lra|]. rewrite INR_IZR_INZ, pow2_R. apply IZR_le. cbn [Z.of_nat]. lia.
  - lia.
Qed.
(** the same as a relative error *)
Lemma near_error k r x : 0 <= r -> near k r x -> (Z.of_nat k <= 2 ^ 51)%Z -> Rabs (x - r) <= r * (INR k * / 2 ^ 51).
Proof.
  intros Hr [A B] Hk. pose proof (g_ge1 k) as G1.
  assert (G : g k <= 1 + INR k * / 2 ^ 51).
  { assert (Bn : g k * (1 - INR k * v) <= 1).
    { clear A B G1. revert Hk. induction k as [|n IH]; intros Hn; [unfold g; cbn; lra|]. specialize (IH ltac:(lia)). rewrite g_S, S_INR.
      pose proof (g_ge1 n). pose proof v_pos. assert (0 <= INR n) by apply pos_INR.
      assert (E : (1 + v) * g n * (1 - (INR n + 1) * v) = g n * (1 - INR n * v) - g n * v * v * (INR n + 1)) by ring.
      assert (0 <= g n * v * v * (INR n + 1)) by (repeat apply Rmult_le_pos; lra). lra. }
    pose proof (g_le2 k Hk) as G2.
    assert (Ev : 2 * v = / 2 ^ 51).
    { unfold v. change (bpow radix2 (-52)) with (/ IZR (2 ^ 52)). rewrite pow2_R. change (2 ^ 52)%Z with (2 * 2 ^ 51)%Z. rewrite mult_IZR.
      change (2 ^ Z.of_nat 51)%Z with (2 ^ 51)%Z. field. apply not_0_IZR. lia. }
    rewrite <- Ev. pose proof v_pos. assert (0 <= INR k) by apply pos_INR. assert (0 <= INR k * v) by nra. nra. }
  assert (Hl : r - r * (g k - 1) <= r / g k).
  { unfold Rdiv. replace (r - r * (g k - 1)) with (r * (2 - g k)) by ring. apply Rmult_le_compat_l; [exact Hr|].
    apply Rmult_le_reg_r with (g k); [lra|]. rewrite Rinv_l by lra. nra. }
  assert (r * (g k - 1) <= r * (INR k * / 2 ^ 51)) by (apply Rmult_le_compat_l; lra).
  apply Rabs_le. nra.
Qed.
