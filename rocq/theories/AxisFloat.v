(** The tick positions, by real arithmetic. *)
From Coq Require Import ZArith Reals Bool Lia Lra Psatz.
From Coq Require Import Floats.SpecFloat.
From Flocq Require Import Core.Core IEEE754.BinarySingleNaN Relative.
From Verif Require Import Base Merge Draw DrawSpec FloatReal DrawFloat Axis AxisSpec.
Open Scope R_scope.

Lemma f_mul_comm a b : f_mul a b = f_mul b a.
Proof.
  unfold f_mul, SFmul. destruct a as [s|s| |s m e], b as [s'|s'| |s' m' e']; try reflexivity; rewrite (xorb_comm s s'); try reflexivity.
  rewrite (Pos.mul_comm m m'), (Z.add_comm e e'). reflexivity.
Qed.
Lemma SF2R_B2SF (b : bin) : SF2R radix2 (B2SF b) = B2R b.
Proof. destruct b; reflexivity. Qed.
Lemma tick_ok length l : (1 <= length <= 2 ^ 24)%Z -> in_unit (l_pos l) -> tick_at length (l_pos l) (tick_of length l).
Proof.
  intros Hl Hu. unfold tick_of. rewrite f_mul_comm. pose proof (unit_index_ (l_pos l) (length - 1) ltac:(lia) Hu) as R0.
  destruct (in_unit_real _ Hu) as (b & E & F & R). rewrite <- E in *. clear E Hu. unfold tick_at. rewrite SF2R_B2SF. set (n := (length - 1)%Z) in *.
  split; [lia|]. unfold f_mul, f_of_int in *. destruct (of_int n) as (bn & En & Fn & Rn); [lia|]. rewrite En in *.
  assert (H2 : 0 <= IZR n) by (apply IZR_le; lia). assert (H3 : IZR n <= 2 ^ 24) by (replace (2 ^ 24) with (IZR (2 ^ 24)) by (rewrite (pow_IZR 2 24); reflexivity); apply IZR_le; lia).
  assert (M : 0 <= B2R b * B2R bn <= IZR n) by (rewrite Rn; split; [apply Rmult_le_pos; lra|apply Rle_trans with (1 * IZR n); [apply Rmult_le_compat_r; lra|lra]]).
  destruct (mul_real b bn n F Fn) as (bp & Ep & Fp & Rp); [lia|exact M|]. rewrite Ep in *.
  assert (P0 : 0 <= B2R bp) by (rewrite Rp; apply round_ge_generic; [typeclasses eauto|typeclasses eauto|apply generic_format_0|lra]).
  assert (P1 : B2R bp <= IZR n) by (rewrite Rp; apply round_le_generic; [typeclasses eauto|typeclasses eauto|apply format_int; lia|lra]).
  destruct (f_int_spec bp Fp) as [A B]; [split; [lra|apply Rle_lt_trans with (IZR n); [lra|apply IZR_lt; lia]]|].
  set (y := f_int (B2SF bp)) in *. rewrite Rn in *. rewrite (Rmult_comm (IZR n)).
  set (x := B2R b * IZR n) in *.
  assert (e20 : / 2 ^ 20 > 0) by (apply Rinv_0_lt_compat; apply pow_lt; lra).
  split.
  - destruct (Rle_or_lt (bpow radix2 (-1000)) x) as [C|C].
    + pose proof (rel_err x C) as [E1 E2]. fold rnd in Rp. rewrite <- Rp in E1, E2.
      assert (K : x * / 2 ^ 53 <= / 2 ^ 29).
      { apply Rle_trans with (2 ^ 24 * / 2 ^ 53); [apply Rmult_le_compat_r; [left; apply Rinv_0_lt_compat, pow_lt; lra|lra]|].
        right. replace 53%nat with (24 + 29)%nat by reflexivity. rewrite pow_add. field. }
      assert (K2 : / 2 ^ 29 < / 2 ^ 20) by (apply Rinv_lt_contravar; [apply Rmult_lt_0_compat; apply pow_lt; lra|apply Rlt_pow; [lra|lia]]).
      lra.
    + assert (S : bpow radix2 (-1000) < / 2 ^ 20).
      { replace (/ 2 ^ 20) with (bpow radix2 (-20)) by (change (bpow radix2 (-20)) with (/ IZR (2 ^ 20)); f_equal; rewrite (pow_IZR 2 20); reflexivity). apply bpow_lt. lia. }
      assert (0 <= IZR y) by (apply IZR_le; lia). assert (B2R bp <= bpow radix2 (-1000)).
      { rewrite Rp. apply round_le_generic; [typeclasses eauto|typeclasses eauto|apply generic_format_bpow; cbn; lia|lra]. }
      lra.
  - intros k Ek. assert (Q : B2R bp = IZR k).
    { rewrite Rp. rewrite Ek. apply round_generic; [typeclasses eauto|]. apply format_int.
      assert (-1 < k)%Z by (apply lt_IZR; lra). assert (k <= n)%Z by (apply le_IZR; lra). lia. }
    rewrite Q in A, B. assert (y <= k)%Z by (apply le_IZR; lra). assert (k < y + 1)%Z by (apply lt_IZR; rewrite plus_IZR; lra). lia.
Qed.
