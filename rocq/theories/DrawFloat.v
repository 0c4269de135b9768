(** The float index computations of the drawing code, as integer facts. *)
From Coq Require Import ZArith Reals Bool Lia Lra Psatz.
From Coq Require Import Floats.SpecFloat.
From Flocq Require Import Core.Core IEEE754.BinarySingleNaN Relative.
From Verif Require Import Base Merge Draw DrawSpec FloatReal.
Open Scope R_scope.

Lemma IZR_pow2 (e : Z) : (0 <= e)%Z -> IZR (2 ^ e) = bpow radix2 e.
Proof. intros H. rewrite <- (IZR_Zpower radix2 e H). reflexivity. Qed.

(** int(f) truncates *)
Lemma f_int_spec (b : bin) : is_finite b = true -> 0 <= B2R b < IZR (2 ^ 62) ->
  IZR (f_int (B2SF b)) <= B2R b < IZR (f_int (B2SF b)) + 1.
Proof.
  destruct b as [s|s| |s m e Hb]; cbn [is_finite B2SF f_int]; try discriminate; intros _ H.
  - cbn [B2R]. lra.
  - cbn [B2R] in H |- *. destruct s.
    + cbn [cond_Zopp] in H. exfalso. destruct H as [H _].
      assert (F2R (Float radix2 (- Z.pos m) e) < 0) by (apply F2R_lt_0; cbn; lia). cbn in *. lra.
    + cbn [cond_Zopp] in H |- *. change (cond_Zopp false (Z.pos m)) with (Z.pos m) in *.
      assert (A : IZR (if (0 <=? e)%Z then Z.pos m * 2 ^ e else Z.pos m / 2 ^ (- e)) <= F2R (Float radix2 (Z.pos m) e)
                  < IZR (if (0 <=? e)%Z then Z.pos m * 2 ^ e else Z.pos m / 2 ^ (- e)) + 1).
      { unfold F2R, Fnum, Fexp. destruct (Z.leb_spec 0 e) as [L|L].
        - rewrite mult_IZR, IZR_pow2 by assumption. lra.
        - pose proof (Z.pow_pos_nonneg 2 (- e) ltac:(lia) ltac:(lia)) as Hp.
          pose proof (Z.div_mod (Z.pos m) (2 ^ (- e)) ltac:(lia)) as D. pose proof (Z.mod_pos_bound (Z.pos m) (2 ^ (- e)) Hp) as M.
          assert (Hq : bpow radix2 e * IZR (2 ^ (- e)) = 1).
          { rewrite IZR_pow2 by lia. rewrite <- bpow_plus. replace (e + - e)%Z with 0%Z by lia. reflexivity. }
          assert (Hb0 : 0 < bpow radix2 e) by apply bpow_gt_0.
          set (q := (Z.pos m / 2 ^ (- e))%Z) in *. set (r := (Z.pos m mod 2 ^ (- e))%Z) in *. set (P := (2 ^ (- e))%Z) in *.
          assert (Dm : IZR (Z.pos m) = IZR P * IZR q + IZR r) by (rewrite <- mult_IZR, <- plus_IZR; now f_equal).
          assert (0 <= IZR r) by (apply IZR_le; lia). assert (IZR r < IZR P) by (apply IZR_lt; lia).
          rewrite Dm. assert (E1 : (IZR P * IZR q + IZR r) * bpow radix2 e = IZR q + IZR r * bpow radix2 e) by (rewrite Rmult_plus_distr_r; f_equal; replace (IZR P * IZR q * bpow radix2 e) with (IZR q * (bpow radix2 e * IZR P)) by ring; rewrite Hq; ring).
          rewrite E1. assert (IZR r * bpow radix2 e < IZR P * bpow radix2 e) by (apply Rmult_lt_compat_r; lra).
          assert (0 <= IZR r * bpow radix2 e) by (apply Rmult_le_pos; lra). lra. }
      set (a := (if (0 <=? e)%Z then Z.pos m * 2 ^ e else Z.pos m / 2 ^ (- e))%Z) in *.
      assert (a < 2 ^ 63)%Z.
      { apply lt_IZR. apply Rle_lt_trans with (IZR (2 ^ 62)); [lra|]. apply IZR_lt. reflexivity. }
      replace (a <? 2 ^ 63)%Z with true by lia. exact A.
Qed.

Lemma rel_err (x : R) : bpow radix2 (-1000) <= x -> x * (1 - / 2 ^ 53) <= rnd x <= x * (1 + / 2 ^ 53).
Proof.
  intros H. assert (0 < x) by (pose proof (bpow_gt_0 radix2 (-1000)); lra).
  pose proof (relative_error_N_FLT radix2 (-1074) 53 eq_refl (fun x => negb (Z.even x)) x) as E.
  assert (E' : Rabs (rnd x - x) <= / 2 * bpow radix2 (- (53) + 1) * Rabs x).
  { apply E. rewrite Rabs_pos_eq by lra. eapply Rle_trans; [|exact H]. apply bpow_le. lia. }
  rewrite (Rabs_pos_eq x) in E' by lra. change (bpow radix2 (- (53) + 1)) with (/ IZR (2 ^ 52)) in E'.
  assert (K : / 2 * / IZR (2 ^ 52) = / 2 ^ 53).
  { rewrite <- Rinv_mult. f_equal. rewrite (pow_IZR 2 53). rewrite <- mult_IZR. f_equal. }
  rewrite K in E'. apply Rabs_le_inv in E'. lra.
Qed.

(** int(float64(y) * (float64(n-1) / float64(h-1))) *)
Lemma scaled_index (n h y : Z) : (1 <= n <= 2 ^ 24)%Z -> (2 <= h <= 2 ^ 24)%Z -> (0 <= y <= h - 1)%Z ->
  let i := f_int (f_mul (f_of_int y) (f_div (f_of_int (n - 1)) (f_of_int (h - 1)))) in
  (0 <= i /\ i * (h - 1) <= y * (n - 1) <= (i + 1) * (h - 1))%Z.
Proof.
  intros Hn Hh Hy. cbn zeta. unfold f_mul, f_of_int, f_div.
  destruct (of_int y) as (by_ & -> & Fy & Ry); [lia|]. destruct (of_int (n - 1)) as (bn & -> & Fn & Rn); [lia|].
  destruct (of_int (h - 1)) as (bh & -> & Fh & Rh); [lia|].
  assert (H1 : 1 <= IZR (h - 1) <= IZR (2 ^ 24)) by (split; apply IZR_le; lia).
  assert (H2 : 0 <= IZR (n - 1) <= IZR (2 ^ 24)) by (split; apply IZR_le; lia).
  assert (H3 : 0 <= IZR y <= IZR (h - 1)) by (split; apply IZR_le; lia).
  set (N := IZR (n - 1)) in *. set (H := IZR (h - 1)) in *. set (Y := IZR y) in *.
  assert (Hinv : 0 < / H <= 1) by (split; [apply Rinv_0_lt_compat; lra|rewrite <- Rinv_1; apply Rinv_le; lra]).
  assert (HH : H * / H = 1) by (apply Rinv_r; lra).
  destruct (div_real bn bh (2 ^ 24) Fn Fh) as (bs & -> & Fs & Rs); [lra|lia| |].
  { rewrite Rn, Rh. unfold Rdiv. split; [apply Rmult_le_pos; lra|]. apply Rle_trans with (N * 1); [apply Rmult_le_compat_l; lra|lra]. }
  rewrite Rn, Rh in Rs.
  (* n = 1 or y = 0: everything is zero *)
  destruct (Z.eq_dec n 1) as [En|En]; [|destruct (Z.eq_dec y 0) as [Ey|Ey]].
  - subst n. assert (N = 0) by (unfold N; reflexivity). rewrite H0 in Rs. unfold Rdiv in Rs. rewrite Rmult_0_l, round_0 in Rs by typeclasses eauto.
    destruct (mul_real by_ bs 1 Fy Fs) as (bp & -> & Fp & Rp); [lia|rewrite Rs, Rmult_0_r; lra|].
    rewrite Rs, Rmult_0_r, round_0 in Rp by typeclasses eauto.
    destruct (f_int_spec bp Fp) as [A B]; [rewrite Rp; split; [lra|apply IZR_lt; reflexivity]|]. rewrite Rp in A, B.
    apply le_IZR in A. change 1 with (IZR 1) in B. rewrite <- plus_IZR in B. apply lt_IZR in B. nia.
  - assert (EY : Y = 0) by (unfold Y; now rewrite Ey).
    destruct (mul_real by_ bs 1 Fy Fs) as (bp & -> & Fp & Rp); [lia|rewrite Ry, EY, Rmult_0_l; lra|].
    rewrite Ry, EY, Rmult_0_l, round_0 in Rp by typeclasses eauto.
    destruct (f_int_spec bp Fp) as [A B]; [rewrite Rp; split; [lra|apply IZR_lt; reflexivity]|]. rewrite Rp in A, B.
    apply le_IZR in A. change 1 with (IZR 1) in B. rewrite <- plus_IZR in B. apply lt_IZR in B. nia.
  - assert (1 <= N) by (apply IZR_le; lia). assert (1 <= Y) by (apply IZR_le; lia).
    assert (T : IZR (2 ^ 24) = 16777216) by reflexivity. rewrite T in *. clear T.
    assert (S0 : / 16777216 <= N / H).
    { unfold Rdiv. apply Rle_trans with (1 * / H); [rewrite Rmult_1_l; apply Rinv_le; lra|apply Rmult_le_compat_r; lra]. }
    assert (S1 : N / H <= 16777216) by (unfold Rdiv; apply Rle_trans with (N * 1); [apply Rmult_le_compat_l; lra|lra]).
    assert (small : bpow radix2 (-1000) <= / 16777216).
    { apply Rle_trans with (bpow radix2 (-24)); [apply bpow_le; lia|]. apply Req_le. reflexivity. }
    destruct (rel_err (N / H)) as [E1 E2]; [lra|]. rewrite <- Rs in E1, E2. set (S := B2R bs) in *.
    set (d := / 2 ^ 53) in *. assert (Hd : 0 < d <= / 9007199254740992) by (unfold d; split; [apply Rinv_0_lt_compat; apply pow_lt; lra|apply Req_le; f_equal; rewrite (pow_IZR 2 53); reflexivity]).
    assert (Y * (N / H) <= N).
    { apply Rle_trans with (H * (N / H)); [apply Rmult_le_compat_r; lra|]. unfold Rdiv. replace (H * (N * / H)) with (N * (H * / H)) by ring. rewrite HH. lra. }
    set (e := Y * (N / H)) in *.
    assert (e0 : / 16777216 <= e) by (unfold e; apply Rle_trans with (1 * (N / H)); [lra|apply Rmult_le_compat_r; lra]).
    assert (P1 : e * (1 - d) <= Y * S) by (unfold e; rewrite Rmult_assoc; apply Rmult_le_compat_l; lra).
    assert (P2 : Y * S <= e * (1 + d)) by (unfold e; rewrite Rmult_assoc; apply Rmult_le_compat_l; lra).
    assert (ed : 0 <= e * d <= 16777216 * d) by (split; [apply Rmult_le_pos; lra|apply Rmult_le_compat_r; lra]).
    assert (B0 : 0 <= Y * S <= 16777217) by lra.
    destruct (mul_real by_ bs 16777217 Fy Fs) as (bp & -> & Fp & Rp); [lia|rewrite Ry; exact B0|]. rewrite Ry in Rp. fold S in Rp.
    assert (YS0 : bpow radix2 (-1000) <= Y * S).
    { apply Rle_trans with (bpow radix2 (-25)); [apply bpow_le; lia|]. change (bpow radix2 (-25)) with (/ 33554432).
      eapply Rle_trans; [|exact P1]. assert (0 <= e * d <= e * / 2) by (split; [apply Rmult_le_pos; lra|apply Rmult_le_compat_l; lra]). lra. }
    destruct (rel_err (Y * S) YS0) as [Q1 Q2]. rewrite <- Rp in Q1, Q2.
    set (r := B2R bp) in *. fold d in Q1, Q2.
    assert (Dd : 0 <= d * d <= d) by (split; [apply Rmult_le_pos; lra|apply Rle_trans with (d * 1); [apply Rmult_le_compat_l; lra|lra]]).
    assert (U1 : r <= e * (1 + d) * (1 + d)) by (eapply Rle_trans; [exact Q2|]; apply Rmult_le_compat_r; lra).
    assert (L1 : e * (1 - d) * (1 - d) <= r) by (eapply Rle_trans; [|exact Q1]; apply Rmult_le_compat_r; lra).
    assert (K1 : e * (2 * d + d * d) <= 16777216 * (3 * d)) by (apply Rmult_le_compat; lra).
    assert (K2 : 0 <= e * (d * d)) by (apply Rmult_le_pos; lra).
    assert (U2 : r <= e + / 33554432) by lra. assert (L2 : e - / 33554432 <= r) by lra.
    destruct (f_int_spec bp Fp) as [A B]; [fold r; split; [nra|apply Rlt_trans with (IZR 16777218); [nra|apply IZR_lt; reflexivity]]|].
    fold r in A, B. set (i := f_int (B2SF bp)) in *.
    assert (EH : e * H = IZR (y * (n - 1))).
    { unfold e, Rdiv. replace (Y * (N * / H) * H) with (Y * N * (H * / H)) by ring. rewrite HH, mult_IZR. unfold Y, N. ring. }
    assert (HiH : / 33554432 * H < 1) by nra.
    split; [|split].
    + assert (-1 < i)%Z; [|lia]. apply lt_IZR. change (IZR (-1)) with (-1). nra.
    + assert (i * (h - 1) < y * (n - 1) + 1)%Z; [|lia]. apply lt_IZR. rewrite (mult_IZR i), plus_IZR, <- EH. fold H. nra.
    + assert (y * (n - 1) < (i + 1) * (h - 1) + 1)%Z; [|lia]. apply lt_IZR. rewrite plus_IZR, (mult_IZR (i + 1)), plus_IZR, <- EH. fold H. nra.
Qed.

(** int(f * float64(n)) for f in [0, 1] *)
Lemma unit_index (f : bin) (n : Z) : (0 <= n <= 2 ^ 24)%Z -> is_finite f = true -> 0 <= B2R f <= 1 ->
  let i := f_int (f_mul (B2SF f) (f_of_int n)) in (0 <= i <= n)%Z.
Proof.
  intros Hn Ff Hf. cbn zeta. unfold f_mul, f_of_int. destruct (of_int n) as (bn & -> & Fn & Rn); [lia|].
  assert (H2 : 0 <= IZR n) by (apply IZR_le; lia).
  assert (M : 0 <= B2R f * B2R bn <= IZR n) by (rewrite Rn; split; [apply Rmult_le_pos; lra|apply Rle_trans with (1 * IZR n); [apply Rmult_le_compat_r; lra|lra]]).
  destruct (mul_real f bn n Ff Fn) as (bp & -> & Fp & Rp); [lia|exact M|].
  assert (0 <= B2R bp) by (rewrite Rp; apply round_ge_generic; [typeclasses eauto|typeclasses eauto|apply generic_format_0|lra]).
  assert (B2R bp <= IZR n) by (rewrite Rp; apply round_le_generic; [typeclasses eauto|typeclasses eauto|apply format_int; lia|lra]).
  destruct (f_int_spec bp Fp) as [A B]; [split; [lra|apply Rle_lt_trans with (IZR n); [lra|apply IZR_lt; lia]]|].
  split.
  - assert (-1 < f_int (B2SF bp))%Z; [|lia]. apply lt_IZR. change (IZR (-1)) with (-1). lra.
  - apply le_IZR. lra.
Qed.

Lemma in_unit_real f : in_unit f -> exists b : bin, B2SF b = f /\ is_finite b = true /\ 0 <= B2R b <= 1.
Proof.
  intros (V & L & U). pose (b := SF2B f V). assert (E : B2SF b = f) by apply B2SF_SF2B. exists b. split; [exact E|].
  destruct (of_int 1) as (b1 & E1 & F1 & R1); [lia|]. unfold f_of_int in U. rewrite E1 in U.
  assert (F : is_finite b = true).
  { destruct f as [s|s| |s m e]; cbn in E |- *; try reflexivity; exfalso.
    - destruct s; [discriminate L|]. destruct b1 as [|[]| |[]]; cbn in U; try discriminate F1; discriminate U.
    - discriminate L. }
  split; [exact F|]. rewrite <- E in L, U.
  pose proof (Bleb_correct 53 1024 b b1 F F1) as C1. unfold Bleb in C1. rewrite U in C1. symmetry in C1.
  pose proof (Bleb_correct 53 1024 (B754_zero false) b eq_refl F) as C0. unfold Bleb in C0. cbn [B2SF] in C0. rewrite L in C0. symmetry in C0.
  rewrite R1 in C1. cbn [B2R] in C0.
  revert C0 C1. case Rle_bool_spec; [|discriminate]. case Rle_bool_spec; [|discriminate]. lra.
Qed.
Lemma unit_index_ f n : (0 <= n <= 2 ^ 24)%Z -> in_unit f -> (0 <= f_int (f_mul f (f_of_int n)) <= n)%Z.
Proof. intros Hn Hf. destruct (in_unit_real f Hf) as (b & <- & F & R). now apply unit_index. Qed.

Lemma format_shift (k : Z) (e : Z) : (Z.abs k < 2 ^ 53)%Z -> (-1074 <= e)%Z -> generic_format radix2 (fexp 53 1024) (IZR k * bpow radix2 e).
Proof.
  intros H He. apply generic_format_FLT. apply FLT_spec with (Float radix2 k e); [reflexivity|cbn [Fnum]; change (radix2 ^ 53)%Z with (2 ^ 53)%Z; lia|cbn [Fexp]; change (emin 53 1024) with (-1074)%Z; lia].
Qed.
(** k/128 as a double is exact, and so is its product with a small integer *)
Lemma k128_index (k n : Z) : (0 <= k <= 128)%Z -> (0 <= n <= 2 ^ 24)%Z -> f_int (f_mul (k128 k) (f_of_int n)) = (k * n / 128)%Z.
Proof.
  intros Hk Hn. unfold k128, f_mul, f_of_int, f_div.
  destruct (of_int k) as (bk & -> & Fk & Rk); [lia|]. destruct (of_int 128) as (bd & -> & Fd & Rd); [lia|].
  destruct (of_int n) as (bn & -> & Fn & Rn); [lia|].
  assert (K : 0 <= IZR k <= 128) by (split; apply IZR_le; lia). assert (N : 0 <= IZR n <= IZR (2 ^ 24)) by (split; apply IZR_le; lia).
  assert (T : bpow radix2 (-7) = / 128) by reflexivity.
  destruct (div_real bk bd 1 Fk Fd) as (bq & -> & Fq & Rq); [rewrite Rd; lra|lia|rewrite Rk, Rd; lra|].
  rewrite Rk, Rd in Rq. unfold Rdiv in Rq. rewrite <- T in Rq. rewrite round_generic in Rq; [|typeclasses eauto|apply format_shift; lia].
  rewrite T in Rq. assert (Rp0 : B2R bq * B2R bn = IZR (k * n) * bpow radix2 (-7)) by (rewrite Rq, Rn, T, mult_IZR; ring).
  assert (KN : 0 <= IZR k * IZR n <= 128 * IZR n) by (split; [apply Rmult_le_pos; lra|apply Rmult_le_compat_r; lra]).
  destruct (mul_real bq bn n Fq Fn) as (bp & -> & Fp & Rp); [lia|rewrite Rp0, T, mult_IZR; lra|].
  rewrite Rp0, round_generic in Rp; [|typeclasses eauto|apply format_shift; [nia|lia]].
  rewrite T in Rp. pose proof (Z.div_mod (k * n) 128 ltac:(lia)) as D. pose proof (Z.mod_pos_bound (k * n) 128 ltac:(lia)) as M.
  destruct (f_int_spec bp Fp) as [A B].
  { rewrite Rp, mult_IZR. split; [lra|]. apply Rle_lt_trans with (IZR (2 ^ 24)); [lra|apply IZR_lt; reflexivity]. }
  rewrite Rp in A, B. set (i := f_int (B2SF bp)) in *.
  assert (i * 128 <= k * n)%Z by (apply le_IZR; rewrite (mult_IZR i); lra).
  assert (k * n < (i + 1) * 128)%Z by (apply lt_IZR; rewrite (mult_IZR (i + 1)), plus_IZR; lra).
  lia.
Qed.
(** int(a/b*255) for 0 <= a <= b, b > 0 *)
Lemma ratio_index (a b : bin) : is_finite a = true -> is_finite b = true -> 0 <= B2R a <= B2R b -> 0 < B2R b ->
  (0 <= f_int (f_mul (f_div (B2SF a) (B2SF b)) (f_of_int 255)) <= 255)%Z.
Proof.
  intros Fa Fb Hab Hb. unfold f_div.
  assert (Q : 0 <= B2R a / B2R b <= 1).
  { unfold Rdiv. assert (0 < / B2R b) by now apply Rinv_0_lt_compat. split; [apply Rmult_le_pos; lra|].
    replace 1 with (B2R b * / B2R b) by (apply Rinv_r; lra). apply Rmult_le_compat_r; lra. }
  destruct (div_real a b 1 Fa Fb) as (bq & -> & Fq & Rq); [lra|lia|exact Q|].
  apply (unit_index bq 255); [lia|exact Fq|]. rewrite Rq. split.
  - apply round_ge_generic; [typeclasses eauto|typeclasses eauto|apply generic_format_0|lra].
  - apply round_le_generic; [typeclasses eauto|typeclasses eauto|change 1 with (IZR 1); apply format_int; lia|lra].
Qed.

Lemma is_rate_real f : is_rate f -> exists b : bin, B2SF b = f /\ is_finite b = true /\ 0 <= B2R b.
Proof.
  intros (V & L & U). pose (b := SF2B f V). assert (E : B2SF b = f) by apply B2SF_SF2B. exists b. split; [exact E|].
  assert (F : is_finite b = true).
  { destruct f as [s|s| |s m e]; cbn in E |- *; try reflexivity; exfalso; [|discriminate L]. destruct s; [discriminate L|discriminate U]. }
  split; [exact F|]. rewrite <- E in L.
  pose proof (Bleb_correct 53 1024 (B754_zero false) b eq_refl F) as C0. unfold Bleb in C0. cbn [B2SF] in C0. rewrite L in C0. symmetry in C0.
  cbn [B2R] in C0. revert C0. case Rle_bool_spec; [auto|discriminate].
Qed.
Lemma SFltb_real (a b : bin) : is_finite a = true -> is_finite b = true -> SFltb (B2SF a) (B2SF b) = Rlt_bool (B2R a) (B2R b).
Proof. intros. now apply Bltb_correct. Qed.
Lemma SFleb_real (a b : bin) : is_finite a = true -> is_finite b = true -> SFleb (B2SF a) (B2SF b) = Rle_bool (B2R a) (B2R b).
Proof. intros. now apply Bleb_correct. Qed.

Definition ratio (a b : spec_float) : Z := f_int (f_mul (f_div a b) (f_of_int 255)).
(** the value that is truncated *)
Lemma ratio_value (a b : bin) : is_finite a = true -> is_finite b = true -> 0 <= B2R a <= B2R b -> 0 < B2R b ->
  IZR (ratio (B2SF a) (B2SF b)) <= rnd (rnd (B2R a / B2R b) * 255) < IZR (ratio (B2SF a) (B2SF b)) + 1.
Proof.
  intros Fa Fb Hab Hb. unfold ratio, f_div, f_mul, f_of_int.
  assert (Q : 0 <= B2R a / B2R b <= 1).
  { unfold Rdiv. assert (0 < / B2R b) by now apply Rinv_0_lt_compat. split; [apply Rmult_le_pos; lra|].
    replace 1 with (B2R b * / B2R b) by (apply Rinv_r; lra). apply Rmult_le_compat_r; lra. }
  destruct (div_real a b 1 Fa Fb) as (bq & -> & Fq & Rq); [lra|lia|exact Q|].
  assert (Q' : 0 <= B2R bq <= 1).
  { rewrite Rq. split.
    - apply round_ge_generic; [typeclasses eauto|typeclasses eauto|apply generic_format_0|lra].
    - apply round_le_generic; [typeclasses eauto|typeclasses eauto|change 1 with (IZR 1); apply format_int; lia|lra]. }
  destruct (of_int 255) as (bc & -> & Fc & Rc); [lia|].
  destruct (mul_real bq bc 255 Fq Fc) as (bp & -> & Fp & Rp); [lia|rewrite Rc; lra|]. rewrite Rc in Rp. rewrite <- Rq, <- Rp.
  apply f_int_spec; [exact Fp|]. rewrite Rp. split.
  - apply round_ge_generic; [typeclasses eauto|typeclasses eauto|apply generic_format_0|lra].
  - apply Rle_lt_trans with 255; [|apply IZR_lt; reflexivity].
    apply round_le_generic; [typeclasses eauto|typeclasses eauto|change 255 with (IZR 255); apply format_int; lia|lra].
Qed.
Lemma ratio_mono (a a' b : bin) : is_finite a = true -> is_finite a' = true -> is_finite b = true -> 0 <= B2R a -> B2R a <= B2R a' <= B2R b -> 0 < B2R b ->
  (ratio (B2SF a) (B2SF b) <= ratio (B2SF a') (B2SF b))%Z.
Proof.
  intros Fa Fa' Fb H0 H Hb. pose proof (ratio_value a b Fa Fb ltac:(lra) Hb) as A. pose proof (ratio_value a' b Fa' Fb ltac:(lra) Hb) as A'.
  assert (rnd (rnd (B2R a / B2R b) * 255) <= rnd (rnd (B2R a' / B2R b) * 255)).
  { apply round_le; [typeclasses eauto|typeclasses eauto|]. apply Rmult_le_compat_r; [lra|]. apply round_le; [typeclasses eauto|typeclasses eauto|].
    unfold Rdiv. apply Rmult_le_compat_r; [|lra]. left. now apply Rinv_0_lt_compat. }
  assert (ratio (B2SF a) (B2SF b) < ratio (B2SF a') (B2SF b) + 1)%Z; [|lia]. apply lt_IZR. rewrite plus_IZR. lra.
Qed.
Lemma ratio_full (b : bin) : is_finite b = true -> 0 < B2R b -> ratio (B2SF b) (B2SF b) = 255%Z.
Proof.
  intros Fb Hb. pose proof (ratio_value b b Fb Fb ltac:(lra) Hb) as A.
  assert (E : B2R b / B2R b = 1) by (unfold Rdiv; apply Rinv_r; lra). rewrite E in A.
  rewrite (round_generic radix2 (fexp 53 1024) (round_mode mode_NE) 1) in A by (change 1 with (IZR 1); apply format_int; lia).
  rewrite Rmult_1_l in A. rewrite round_generic in A by (try typeclasses eauto; change 255 with (IZR 255); apply format_int; lia).
  destruct A as [A B]. apply le_IZR in A. assert (255 < ratio (B2SF b) (B2SF b) + 1)%Z by (apply lt_IZR; rewrite plus_IZR; lra). lia.
Qed.
Lemma ratio_zero (a b : bin) : is_finite a = true -> is_finite b = true -> B2R a = 0 -> 0 < B2R b -> ratio (B2SF a) (B2SF b) = 0%Z.
Proof.
  intros Fa Fb Ha Hb. pose proof (ratio_value a b Fa Fb ltac:(lra) Hb) as A. rewrite Ha in A. unfold Rdiv in A. rewrite Rmult_0_l, round_0, Rmult_0_l, round_0 in A by typeclasses eauto.
  destruct A as [A B]. apply le_IZR in A. assert (0 < ratio (B2SF a) (B2SF b) + 1)%Z by (apply lt_IZR; rewrite plus_IZR; lra). lia.
Qed.
Lemma ratio_range (a b : spec_float) : is_rate a -> is_rate b -> SFleb a b = true -> SFltb (S754_zero false) b = true -> (0 <= ratio a b <= 255)%Z.
Proof.
  intros Ha Hb L P. destruct (is_rate_real a Ha) as (x & <- & Fx & Rx). destruct (is_rate_real b Hb) as (y & <- & Fy & Ry).
  rewrite SFleb_real in L by assumption. revert L. case Rle_bool_spec; [intros L _|discriminate].
  change (S754_zero false) with (B2SF (B754_zero false : bin)) in P. rewrite SFltb_real in P by (auto; reflexivity). revert P. case Rlt_bool_spec; [cbn [B2R]; intros P _|discriminate].
  apply ratio_index; auto; lra.
Qed.
(** in terms of doubles only *)
Lemma ratio_mono_sf (a a' b : spec_float) : is_rate a -> is_rate a' -> is_rate b -> SFleb a a' = true -> SFleb a' b = true -> SFltb (S754_zero false) b = true ->
  (ratio a b <= ratio a' b)%Z.
Proof.
  intros Ha Ha' Hb L L' P. destruct (is_rate_real a Ha) as (x & <- & Fx & Rx). destruct (is_rate_real a' Ha') as (x' & <- & Fx' & Rx'). destruct (is_rate_real b Hb) as (y & <- & Fy & Ry).
  rewrite SFleb_real in L, L' by assumption. revert L L'. case Rle_bool_spec; [intros L _|discriminate]. case Rle_bool_spec; [intros L' _|discriminate].
  change (S754_zero false) with (B2SF (B754_zero false : bin)) in P. rewrite SFltb_real in P by (auto; reflexivity). revert P. case Rlt_bool_spec; [cbn [B2R]; intros P _|discriminate].
  apply ratio_mono; auto; lra.
Qed.
Lemma ratio_full_sf b : is_rate b -> SFltb (S754_zero false) b = true -> ratio b b = 255%Z.
Proof.
  intros Hb P. destruct (is_rate_real b Hb) as (y & <- & Fy & Ry).
  change (S754_zero false) with (B2SF (B754_zero false : bin)) in P. rewrite SFltb_real in P by (auto; reflexivity). revert P. case Rlt_bool_spec; [cbn [B2R]; intros P _|discriminate].
  now apply ratio_full.
Qed.
Lemma SFltb_total_rate a b : is_rate a -> is_rate b -> SFltb a b = negb (SFleb b a).
Proof.
  intros Ha Hb. destruct (is_rate_real a Ha) as (x & <- & Fx & Rx). destruct (is_rate_real b Hb) as (y & <- & Fy & Ry).
  rewrite SFltb_real, SFleb_real by assumption. case Rlt_bool_spec; case Rle_bool_spec; auto; intros; exfalso; lra.
Qed.
Lemma SFleb_trans_rate a b c : is_rate a -> is_rate b -> is_rate c -> SFleb a b = true -> SFleb b c = true -> SFleb a c = true.
Proof.
  intros Ha Hb Hc. destruct (is_rate_real a Ha) as (x & <- & Fx & Rx). destruct (is_rate_real b Hb) as (y & <- & Fy & Ry). destruct (is_rate_real c Hc) as (z & <- & Fz & Rz).
  rewrite !SFleb_real by assumption.
  assert (I : forall u v, Rle_bool u v = true -> u <= v) by (intros u v; case Rle_bool_spec; [auto|discriminate]).
  intros L L'. apply I in L, L'. apply Rle_bool_true. lra.
Qed.
Lemma SFleb_refl_rate a : is_rate a -> SFleb a a = true.
Proof. intros Ha. destruct (is_rate_real a Ha) as (x & <- & Fx & Rx). rewrite SFleb_real by assumption. apply Rle_bool_true. lra. Qed.
