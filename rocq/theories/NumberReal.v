(** The division of [Number.nearest_float] gives the nearest float64. *)
From Coq Require Import ZArith Reals List Bool Lia Lra Psatz.
From Coq Require Import Floats.SpecFloat.
From Flocq Require Import Core.Core IEEE754.BinarySingleNaN.
From Verif Require Import Base Float FloatReal Number NumberSpec.
Open Scope R_scope.

Notation dfexp := (SpecFloat.fexp 53 1024).
Global Instance Hne : Exists_NE radix2 dfexp.
Proof. apply (exists_NE_FLT radix2 (-1074) 53). right. lia. Qed.
Lemma float64_b f : float64 f -> exists b : bin, f = B2SF b /\ is_finite b = true /\ real f = B2R b.
Proof.
  intros [V F]. exists (SF2B f V). rewrite B2SF_SF2B, is_finite_SF2B. repeat split; auto. unfold real. now rewrite B2R_SF2B.
Qed.
Lemma float64_format f : float64 f -> generic_format radix2 dfexp (real f).
Proof. intros H. destruct (float64_b f H) as (b & _ & _ & ->). apply generic_format_B2R. Qed.
Lemma rnd_nearest x g : generic_format radix2 dfexp g -> Rabs (x - rnd x) <= Rabs (x - g).
Proof.
  intros G. pose proof (round_N_pt radix2 dfexp (fun x => negb (Z.even x)) x) as [_ H].
  rewrite (Rabs_minus_sym x g), (Rabs_minus_sym x (rnd x)). apply H. exact G.
Qed.
Lemma nearest_of_round x f : float64 f -> real f = rnd x -> nearest x f.
Proof.
  intros F E. split; [assumption|]. intros g G. rewrite E. pose proof (rnd_nearest x (real g) (float64_format g G)) as L.
  split; [exact L|]. intros Q N.
  pose proof (round_NE_pt radix2 dfexp x) as [_ [P|U]].
  - destruct P as (h & Eh & Ch & Ev). destruct f as [s|s| |s m e]; cbn [even_mantissa]; auto.
    destruct F as [V _]. cbn in V.
    assert (C : canonical radix2 dfexp (Float radix2 (cond_Zopp s (Zpos m)) e)).
    { apply canonical_canonical_mantissa. unfold bounded in V. now apply andb_prop in V. }
    assert (K : h = Float radix2 (cond_Zopp s (Zpos m)) e).
    { apply (canonical_unique radix2 dfexp); [assumption..|]. rewrite <- Eh. symmetry. exact E. }
    rewrite K in Ev. cbn [Fnum] in Ev. destruct s; exact Ev.
  - exfalso. apply N. symmetry. apply U. split; [now apply float64_format|]. intros k Kk.
    pose proof (rnd_nearest x k Kk) as M. rewrite (Rabs_minus_sym _ x), (Rabs_minus_sym k x). rewrite <- Q. exact M.
Qed.

(** the largest float64 and the halfway point above it *)
Definition maxf : R := IZR (2 ^ 1024 - 2 ^ 971).
Definition midf : R := IZR (2 ^ 1024 - 2 ^ 970).
Lemma bpow1024 : bpow radix2 1024 = IZR (2 ^ 1024).
Proof. reflexivity. Qed.
Lemma maxf_format : generic_format radix2 dfexp maxf.
Proof.
  apply generic_format_FLT. apply FLT_spec with (Float radix2 (2 ^ 53 - 1) 971).
  - unfold maxf, F2R. cbn [Fnum Fexp]. change (bpow radix2 971) with (IZR (2 ^ 971)). rewrite <- mult_IZR. apply f_equal. vm_compute. reflexivity.
  - cbn [Fnum]. change (radix2 ^ 53)%Z with (2 ^ 53)%Z. lia.
  - cbn [Fexp]. vm_compute. discriminate.
Qed.
Lemma top_format : generic_format radix2 dfexp (bpow radix2 1024).
Proof. apply generic_format_bpow. vm_compute. discriminate. Qed.
(** no float strictly between the greatest and 2^1024 *)
Lemma gap g : generic_format radix2 dfexp g -> g < bpow radix2 1024 -> g <= maxf.
Proof.
  intros G L. assert (P : pred radix2 dfexp (bpow radix2 1024) = maxf).
  { rewrite pred_eq_pos by apply bpow_ge_0. 
    unfold pred_pos. rewrite mag_bpow. replace (1024 + 1 - 1)%Z with 1024%Z by lia. rewrite Req_bool_true by reflexivity.
    change (dfexp 1024) with 971%Z. unfold maxf. rewrite minus_IZR. reflexivity. }
  rewrite <- P. apply pred_ge_gt; [typeclasses eauto|assumption|apply top_format|assumption].
Qed.
Lemma rnd_mid : ~ rnd midf < bpow radix2 1024.
Proof.
  intros L. pose proof (binary_normalize_correct 53 1024 Hprec Hmax mode_NE (2 ^ 1024 - 2 ^ 970) 0 false) as C. cbv zeta in C.
  replace (F2R (Float radix2 (2 ^ 1024 - 2 ^ 970) 0)) with midf in C by (unfold F2R, midf; cbn [Fnum Fexp]; change (bpow radix2 0) with 1; ring).
  assert (M : 0 <= rnd midf).
  { apply round_ge_generic; [typeclasses eauto|typeclasses eauto|apply generic_format_0|]. unfold midf. apply IZR_le. vm_compute. discriminate. }
  rewrite Rlt_bool_true in C by (rewrite Rabs_pos_eq; assumption). destruct C as (_ & F & _).
  rewrite <- is_finite_SF_B2SF, <- normalize_equiv in F.
  assert (N : SpecFloat.binary_normalize 53 1024 (2 ^ 1024 - 2 ^ 970) 0 false = S754_infinity false) by (vm_compute; reflexivity).
  rewrite N in F. discriminate F.
Qed.
Lemma rnd_overflow x : Rabs (rnd x) < bpow radix2 1024 <-> Rabs x < midf.
Proof.
  replace (Rabs (rnd x)) with (rnd (Rabs x)) by apply round_NE_abs, _. set (y := Rabs x).
  split.
  - intros L. apply Rnot_le_lt. intros M. apply rnd_mid. eapply Rle_lt_trans; [|exact L]. apply round_le; [typeclasses eauto|typeclasses eauto|exact M].
  - intros L. apply Rnot_le_lt. intros M.
    pose proof (rnd_nearest y maxf maxf_format) as N.
    assert (Y : y < bpow radix2 1024) by (rewrite bpow1024; apply Rlt_trans with midf; [exact L|unfold midf; apply IZR_lt; vm_compute; reflexivity]).
    rewrite (Rabs_minus_sym y (rnd y)), (Rabs_pos_eq (rnd y - y)) in N by lra.
    assert (D : bpow radix2 1024 - midf = midf - maxf) by (rewrite bpow1024; unfold midf, maxf; rewrite <- !minus_IZR; apply f_equal; vm_compute; reflexivity).
    destruct (Rle_or_lt maxf y) as [B|B].
    + rewrite Rabs_pos_eq in N by lra. lra.
    + rewrite Rabs_left in N by lra.
      assert (0 <= maxf) by (unfold maxf; apply IZR_le; vm_compute; discriminate).
      (* rnd y <= maxf by monotonicity *)
      assert (rnd y <= maxf) by (apply round_le_generic; [typeclasses eauto|typeclasses eauto|apply maxf_format|lra]).
      assert (maxf < bpow radix2 1024) by (rewrite bpow1024; unfold maxf; apply IZR_lt; vm_compute; reflexivity). lra.
Qed.

(** the division *)
Lemma quotient_nearest (neg : bool) (a b : positive) :
  let x := (if neg then -1 else 1) * (IZR (Zpos a) / IZR (Zpos b)) in
  let f : spec_float := let '(q, e, l) := SFdiv_core_binary 53 1024 (Zpos a) 0 (Zpos b) 0 in SpecFloat.binary_round_aux 53 1024 neg q e l in
  (Rabs x < midf -> float64 f /\ real f = rnd x /\ sign_SF f = neg) /\ (~ Rabs x < midf -> f = S754_infinity neg).
Proof.
  intros x f. pose proof (Bdiv_correct_aux 53 1024 Hprec Hmax mode_NE neg a 0 false b 0) as C. cbv zeta in C.
  assert (X : F2R (Float radix2 (cond_Zopp neg (Zpos a)) 0) / F2R (Float radix2 (cond_Zopp false (Zpos b)) 0) = x).
  { unfold F2R, x. cbn [Fnum Fexp cond_Zopp]. change (bpow radix2 0) with 1. rewrite !Rmult_1_r. unfold Rdiv. destruct neg; cbn [cond_Zopp].
    - rewrite opp_IZR. ring.
    - ring. }
  rewrite X in C.
  assert (E : (let '(mz, ez, lz) := SFdiv_core_binary 53 1024 (Zpos a) 0 (Zpos b) 0 in binary_round_aux 53 1024 mode_NE (xorb neg false) mz ez lz) = f).
  { unfold f. destruct (SFdiv_core_binary 53 1024 (Zpos a) 0 (Zpos b) 0) as [[q e] l]. rewrite xorb_false_r. symmetry. apply round_aux_equiv. }
  rewrite E, xorb_false_r in C. destruct C as [V C]. rewrite <- rnd_overflow. split; intros H.
  - rewrite Rlt_bool_true in C by assumption. destruct C as (A & B & S). unfold float64, real. auto.
  - rewrite Rlt_bool_false in C by (now apply Rnot_lt_le). rewrite C. reflexivity.
Qed.

Lemma pow10_pos k : (0 <= k -> 0 < 10 ^ k)%Z.
Proof. intros. apply Z.pow_pos_nonneg; lia. Qed.
Lemma powerRZ_Z k : (0 <= k)%Z -> powerRZ 10 k = IZR (10 ^ k).
Proof.
  intros H. rewrite <- (Z2Nat.id k) by assumption. set (n := Z.to_nat k). rewrite <- pow_powerRZ, <- pow_IZR. reflexivity.
Qed.
Theorem nearest_float_ok (neg : bool) (n k : Z) : (0 <= n)%Z ->
  let x := decimal neg n k in let f := nearest_float neg n k in
  (~ too_big x -> float64 f /\ real f = rnd x /\ sign_SF f = neg) /\ (too_big x -> f = S754_infinity neg).
Proof.
  intros Hn x f. fold (too_big x). unfold too_big. fold midf.
  assert (T : forall P Q : Prop, ((Rabs x < midf -> P) /\ (~ Rabs x < midf -> Q)) -> (~ (midf <= Rabs x) -> P) /\ (midf <= Rabs x -> Q)).
  { intros P Q [A B]. split; intros H; [apply A; now apply Rnot_le_lt|apply B; now apply Rle_not_lt]. }
  apply T. clear T.
  pose proof (pow10_pos (Z.max k 0) ltac:(lia)) as P1. pose proof (pow10_pos (Z.max (- k) 0) ltac:(lia)) as P2.
  destruct (Z.eq_dec n 0) as [->|Nz].
  - assert (X : x = 0) by (unfold x, decimal; ring).
    assert (F : f = S754_zero neg) by (unfold f, nearest_float; rewrite Z.mul_0_l; reflexivity).
    rewrite X, F, Rabs_R0. split; intros H.
    + repeat split. unfold real. cbn [SF2R]. symmetry. apply round_0. typeclasses eauto.
    + exfalso. apply H. unfold midf. apply IZR_lt. vm_compute. reflexivity.
  - destruct (n * 10 ^ Z.max k 0)%Z as [|a|a] eqn:Ea; [nia| |nia]. destruct (10 ^ Z.max (- k) 0)%Z as [|b|b] eqn:Eb; [lia| |lia].
    assert (F : f = let '(q, e, l) := SFdiv_core_binary 53 1024 (Zpos a) 0 (Zpos b) 0 in SpecFloat.binary_round_aux 53 1024 neg q e l).
    { unfold f, nearest_float. rewrite Ea, Eb. reflexivity. }
    assert (X : x = (if neg then -1 else 1) * (IZR (Zpos a) / IZR (Zpos b))).
    { unfold x, decimal. rewrite Rmult_assoc. f_equal. rewrite <- Ea, <- Eb. rewrite mult_IZR. destruct (Z.le_gt_cases 0 k).
      - rewrite !Z.max_l, (Z.max_r (- k) 0) by lia. rewrite powerRZ_Z by lia. change (10 ^ 0)%Z with 1%Z. field.
      - rewrite (Z.max_r k 0), (Z.max_l (- k) 0) by lia. change (10 ^ 0)%Z with 1%Z.
        replace k with (- (- k))%Z at 1 by lia. rewrite powerRZ_neg', powerRZ_Z by lia. field. apply not_0_IZR. pose proof (pow10_pos (- k)). lia. }
    rewrite X, F. apply (quotient_nearest neg a b).
Qed.

(** the bit pattern *)
Lemma fdecode_bits f : valid_binary 53 1024 f = true -> is_nan_SF f = false -> fdecode (float_bits f) = f /\ is_f64 (float_bits f).
Proof.
  destruct f as [s|s| |s m e]; intros V N; try discriminate.
  - destruct s; split; try reflexivity; unfold is_f64, float_bits; lia.
  - destruct s; split; try reflexivity; unfold is_f64, float_bits; lia.
  - cbn in V. unfold bounded, canonical_mantissa in V. apply andb_prop in V as [V1 V2]. apply Zeq_bool_eq in V1. apply Zle_bool_imp_le in V2.
    change (Z.pos (digits2_pos m)) with (Zdigits2 (Zpos m)) in V1. rewrite Zdigits2_Zdigits in V1.
    pose proof (Zdigits_correct radix2 (Zpos m)) as D. rewrite Z.abs_eq in D by lia. set (d := Zdigits radix2 (Zpos m)) in *.
    change (Z.pow radix2) with (Z.pow 2) in D.
    unfold SpecFloat.fexp, SpecFloat.emin in V1. change (3 - 1024 - 53)%Z with (-1074)%Z in V1.
    assert (Hd : (1 <= d)%Z) by (pose proof (Zdigits_gt_0 radix2 (Zpos m) ltac:(lia)); unfold d; lia).
    assert (Hd' : (d <= 53)%Z) by lia.
    assert (U : (Zpos m < 2 ^ 53)%Z) by (eapply Z.lt_le_trans; [apply D|]; apply Z.pow_le_mono_r; lia).
    assert (He : (-1074 <= e <= 971)%Z) by (split; [lia|exact V2]).
    set (b := ((e + 1074) * 2 ^ 52 + Zpos m)%Z).
    assert (Hb : (0 <= b < 2047 * 2 ^ 52)%Z) by (unfold b; nia).
    assert (S : float_bits (S754_finite s m e) = ((if s then 2 ^ 63 else 0) + b)%Z) by (unfold float_bits, b; ring).
    rewrite S. split; [|unfold is_f64; destruct s; lia].
    assert (FS : fsign ((if s then 2 ^ 63 else 0) + b) = s) by (unfold fsign; destruct s; [apply Z.leb_le|apply Z.leb_gt]; lia).
    assert (FE : (Float.fexp ((if s then 2 ^ 63 else 0) + b) = b / 2 ^ 52)%Z).
    { unfold Float.fexp. replace ((if s then 2 ^ 63 else 0) + b)%Z with (b + (if s then 2 ^ 11 else 0) * 2 ^ 52)%Z by (destruct s; ring).
      rewrite Z.div_add by lia. destruct s; [rewrite <- (Z.mul_1_l (2 ^ 11)%Z) at 1; rewrite Z_mod_plus_full|rewrite Z.add_0_r]; apply Z.mod_small; split; try (apply Z.div_pos; lia); apply Z.div_lt_upper_bound; lia. }
    assert (FM : (fman ((if s then 2 ^ 63 else 0) + b) = b mod 2 ^ 52)%Z).
    { unfold fman. replace ((if s then 2 ^ 63 else 0) + b)%Z with (b + (if s then 2 ^ 11 else 0) * 2 ^ 52)%Z by (destruct s; ring). apply Z_mod_plus_full. }
    unfold fdecode. rewrite FS, FE, FM. unfold b. rewrite Z.add_comm, Z.div_add, Z_mod_plus_full by lia.
    destruct (Z_lt_le_dec (Zpos m) (2 ^ 52)) as [L|L].
    + assert (e = -1074)%Z.
      { assert (d <= 52)%Z; [|lia]. destruct (Z.le_gt_cases d 52); [assumption|]. exfalso. assert (2 ^ 52 <= 2 ^ (d - 1))%Z by (apply Z.pow_le_mono_r; lia). lia. }
      subst e. rewrite Z.div_small, Z.mod_small by lia. reflexivity.
    + rewrite <- (Z.div_unique (Zpos m) (2 ^ 52) 1 (Zpos m - 2 ^ 52)) by lia.
      rewrite <- (Z.mod_unique (Zpos m) (2 ^ 52) 1 (Zpos m - 2 ^ 52)) by lia.
      replace (1 + (e + 1074))%Z with (e + 1075)%Z by ring.
      destruct (Z.eqb_spec (e + 1075) 0); [lia|]. destruct (Z.eqb_spec (e + 1075) 2047); [lia|].
      replace (2 ^ 52 + (Zpos m - 2 ^ 52))%Z with (Zpos m) by ring. f_equal. ring.
Qed.
