(** Shortest digits read back, and no fewer do (C86). *)
From Coq Require Import ZArith Reals List Bool Lia Lra.
From Coq Require Import Floats.SpecFloat.
From Flocq Require Import Core.Core IEEE754.BinarySingleNaN.
From Verif Require Import Base Float FloatReal Number NumberSpec NumberProofs NumberReal Merge Format FormatSpec FormatProofs FloatText.
Import ListNotations.
Open Scope Z_scope.

Definition sg (neg : bool) (y : R) : R := if neg then (- y)%R else y.
Lemma decimal_real neg n k : NumberSpec.decimal neg n k = sg neg (IZR n * bpow ten k).
Proof. unfold NumberSpec.decimal, sg. rewrite bpow_powerRZ. change (IZR ten) with 10%R. destruct neg; ring. Qed.
Lemma rnd_sg neg y : rnd (sg neg y) = sg neg (rnd y).
Proof. unfold sg. destruct neg; [|reflexivity]. cbn [round_mode]. now rewrite round_NE_opp. Qed.
Lemma sg_inj neg a b : sg neg a = sg neg b -> a = b.
Proof. unfold sg. destruct neg; intros; lra. Qed.
Lemma not_nan f : is_finite_SF f = true -> is_nan_SF f = false.
Proof. destruct f; cbn; congruence. Qed.
Lemma float64_unique_ f g : float64 f -> float64 g -> real f = real g -> sign_SF f = sign_SF g -> f = g.
Proof.
  intros F G E S. destruct (float64_b f F) as (a & -> & Fa & Ra). destruct (float64_b g G) as (b & -> & Fb & Rb).
  f_equal. apply B2R_Bsign_inj; auto; [congruence|]. destruct a, b; cbn in *; congruence.
Qed.
Lemma below_top f : float64 f -> (Rabs (real f) < bpow radix2 1024)%R.
Proof. intros F. destruct (float64_b f F) as (b & _ & _ & ->). apply abs_B2R_lt_emax. Qed.

(** a number that rounds to a float64 reads as it *)
Lemma nearest_is neg n k x : 0 <= n -> float64 x -> sign_SF x = neg -> (nearest_float neg n k = x <-> rnd (NumberSpec.decimal neg n k) = real x).
Proof.
  intros Hn F S. destruct (nearest_float_ok neg n k Hn) as [A O]. set (y := NumberSpec.decimal neg n k) in *. set (f := nearest_float neg n k) in *. split.
  - intros E. assert (T : ~ too_big y) by (intros T; rewrite (O T) in E; subst x; destruct F; discriminate).
    destruct (A T) as (_ & R & _). now rewrite <- R, E.
  - intros R. assert (T : ~ too_big y) by (apply Rlt_not_le; fold midf; apply rnd_overflow; rewrite R; now apply below_top).
    destruct (A T) as (G & Rf & Sf). apply float64_unique_; auto; congruence.
Qed.
Lemma bits_inj neg n k x : 0 <= n -> float64 x -> float_bits (nearest_float neg n k) = float_bits x -> nearest_float neg n k = x.
Proof.
  intros Hn F E. destruct (nearest_float_ok neg n k Hn) as [A O].
  destruct (Rlt_or_le (Rabs (NumberSpec.decimal neg n k)) midf) as [L|L].
  - destruct (A (Rlt_not_le _ _ L)) as (G & _). destruct G as [G1 G2]. destruct F as [F1 F2].
    destruct (fdecode_bits _ G1 (not_nan _ G2)) as [D1 _]. destruct (fdecode_bits _ F1 (not_nan _ F2)) as [D2 _]. congruence.
  - rewrite (O L) in *. destruct F as [F1 F2]. destruct (fdecode_bits _ F1 (not_nan _ F2)) as [D2 _].
    assert (D1 : fdecode (float_bits (S754_infinity neg)) = S754_infinity neg) by (destruct neg; reflexivity). congruence.
Qed.
Lemma reads_iff neg d x : float64 x -> sign_SF x = neg -> Forall dig (dc_d d) -> (reads_back neg d x = true <-> rnd (dval d) = Rabs (real x)).
Proof.
  intros F S D. unfold reads_back, decimal_float. fold (num (dc_d d)). pose proof (num_bound _ D) as B. rewrite Z.eqb_eq.
  assert (X : real x = sg neg (Rabs (real x))).
  { subst neg. destruct x as [s|s| |s m e]; try (destruct F; discriminate); unfold real, SF2R, sg, sign_SF.
    - rewrite Rabs_R0. destruct s; lra.
    - pose proof (F2R_gt_0 radix2 (Float radix2 (Zpos m) e) eq_refl) as P. destruct s; cbn [cond_Zopp].
      + change (Float radix2 (Z.neg m) e) with (Float radix2 (- Zpos m) e). rewrite F2R_Zopp, Rabs_Ropp, Rabs_pos_eq by lra. reflexivity.
      + rewrite Rabs_pos_eq by lra. reflexivity. }
  assert (Y : NumberSpec.decimal neg (num (dc_d d)) (dc_dp d - len (dc_d d)) = sg neg (dval d)) by apply decimal_real.
  assert (I : nearest_float neg (num (dc_d d)) (dc_dp d - len (dc_d d)) = x <-> rnd (dval d) = Rabs (real x)).
  { rewrite (nearest_is neg _ _ x) by (auto; lia). rewrite Y, rnd_sg. rewrite X at 1. split; [apply sg_inj|now intros ->]. }
  rewrite <- I. split; [apply bits_inj; auto; lia|now intros ->].
Qed.

(** rounding down and up *)
Lemma cut_ok a nd : good a -> (1 <= nd < length (dc_d a))%nat ->
  let B := bpow ten (dc_dp a - Z.of_nat nd) in let N := num (firstn nd (dc_d a)) in
  (good (round_down a nd) /\ dc_d (round_down a nd) <> [] /\ (length (dc_d (round_down a nd)) <= nd)%nat /\ dval (round_down a nd) = (IZR N * B)%R) /\
  (good (round_up a nd) /\ dc_d (round_up a nd) <> [] /\ (length (dc_d (round_up a nd)) <= nd)%nat /\ dval (round_up a nd) = (IZR (N + 1) * B)%R) /\
  (IZR N * B <= dval a < IZR (N + 1) * B)%R /\ 10 ^ (Z.of_nat nd - 1) <= N < 10 ^ Z.of_nat nd.
Proof.
  intros G Hn B N. destruct a as [l dp]. destruct G as [F Hh La _]. cbn [dc_d dc_dp] in *.
  assert (F1 : Forall dig (firstn nd l)) by (rewrite <- (firstn_skipn nd l) in F; now apply Forall_app in F).
  assert (F2 : Forall dig (skipn nd l)) by (rewrite <- (firstn_skipn nd l) in F; now apply Forall_app in F).
  assert (Lf : length (firstn nd l) = nd) by (apply firstn_length_le; lia).
  assert (Ne : firstn nd l <> []) by (intros X; rewrite X in Lf; cbn in Lf; lia).
  assert (Hf : hd 0 (firstn nd l) <> 0).
  { assert (l <> []) by (intros ->; cbn in Hn; lia). specialize (Hh H). destruct l; [easy|]. destruct nd; [lia|]. exact Hh. }
  split; [|split; [|split]].
  - unfold round_down. cbn [dc_d dc_dp]. destruct (trim_ok (firstn nd l) dp F1 (fun _ => Hf)) as (A & V & C & D). split; [exact A|]. split; [now apply D|]. split; [lia|].
    rewrite V. unfold dval. cbn [dc_d dc_dp]. unfold len. now rewrite Lf.
  - unfold round_up. cbn [dc_d dc_dp]. pose proof (bump_ok (rev (firstn nd l)) (Forall_rev F1)) as K. rewrite rev_involutive in K.
    destruct (bump (rev (firstn nd l))) as [r|].
    + destruct K as (A & (j & B1 & B2) & C & D & E). rewrite rev_length, Lf in B2.
      assert (Nr : rev r <> []) by (intros X; apply C; rewrite <- (rev_involutive r), X; reflexivity).
      cbn [dc_d dc_dp]. split; [constructor; cbn [dc_d dc_dp]|split; [exact Nr|split]].
      * now apply Forall_rev.
      * intros _. rewrite (hd_rev r C). apply E. destruct (firstn nd l) as [|x f]; [easy|]. cbn [rev]. rewrite last_last. exact Hf.
      * intros _. destruct r as [|x r]; [easy|]. cbn [rev]. rewrite last_last. exact D.
      * intros X. now destruct (Nr X).
      * rewrite rev_length. lia.
      * unfold dval. cbn [dc_d dc_dp]. unfold N. rewrite B1, mult_IZR, <- bpow_Z by lia. rewrite Rmult_assoc. unfold B. rewrite <- bpow_plus. f_equal. f_equal. unfold len. rewrite rev_length. lia.
    + cbn [dc_d dc_dp]. split; [constructor; cbn; try lia; try easy; repeat constructor; unfold dig; lia|]. split; [easy|]. split; [cbn; lia|].
      unfold dval. cbn [dc_d dc_dp]. change (num [1]) with 1. change (len [1]) with 1. unfold N. rewrite K. unfold len. rewrite rev_length, Lf. rewrite <- bpow_Z by lia. unfold B. rewrite <- bpow_plus, Rmult_1_l. f_equal. lia.
  - unfold dval. cbn [dc_d dc_dp]. set (k := Z.of_nat (length l - nd)).
    assert (Hk : dp - Z.of_nat nd = dp - len l + k) by (unfold len, k; lia).
    assert (Nl : num l = N * 10 ^ k + num (skipn nd l)).
    { rewrite <- (firstn_skipn nd l) at 1. rewrite num_app. f_equal. f_equal. f_equal. unfold len. rewrite skipn_length. reflexivity. }
    pose proof (num_bound _ F2) as Sb. assert (Ls : len (skipn nd l) = k) by (unfold len; rewrite skipn_length; reflexivity). rewrite Ls in Sb.
    unfold B. rewrite Hk, Z.add_comm, bpow_plus, (bpow_Z k) by (unfold k; lia). rewrite <- !Rmult_assoc, <- !mult_IZR. pose proof (bpow_gt_0 ten (dp - len l)) as P.
    split; [apply Rmult_le_compat_r; [lra|apply IZR_le; lia]|apply Rmult_lt_compat_r; [lra|apply IZR_lt; lia]].
  - pose proof (num_bound _ F1) as Nb. unfold len in Nb. rewrite Lf in Nb. fold N in Nb. split; [|apply Nb].
    unfold N. destruct (firstn nd l) as [|x f] eqn:Ef; [easy|]. cbn [hd] in Hf. assert (Dx : dig x) by (now inversion F1). assert (Df : Forall dig f) by (now inversion F1). unfold dig in Dx. rewrite num_cons. pose proof (num_bound _ Df) as Bf.
    replace (Z.of_nat nd - 1) with (len f) by (unfold len; cbn [length] in Lf; lia).
    assert (0 < 10 ^ len f) by (apply pow_pos_; unfold len; lia). nia.
Qed.
Lemma cut_cases a nd : (0 < nd < length (dc_d a))%nat -> Format.round a (Z.of_nat nd) = round_up a nd \/ Format.round a (Z.of_nat nd) = round_down a nd.
Proof.
  intros H. unfold Format.round. replace ((Z.of_nat nd <? 0) || (len (dc_d a) <=? Z.of_nat nd)) with false by (unfold len; lia).
  rewrite Nat2Z.id. destruct (should_round_up (dc_d a) nd); auto.
Qed.

(** the loop *)
Lemma shortest_from_ok neg x a : good a -> dc_d a <> [] -> reads_back neg a x = true ->
  forall n nd, (1 <= nd)%nat -> (nd + n = length (dc_d a))%nat ->
  let d := shortest_from n neg x a nd in
  good d /\ dc_d d <> [] /\ reads_back neg d x = true /\ (length (dc_d d) <= length (dc_d a))%nat /\
  forall p, (nd <= p < length (dc_d d))%nat -> reads_back neg (round_down a p) x = false /\ reads_back neg (round_up a p) x = false.
Proof.
  intros G N R. induction n as [|n IH]; intros nd H1 H2; cbn [shortest_from].
  - split; [exact G|]. split; [exact N|]. split; [exact R|]. split; [lia|]. intros p Hp. lia.
  - destruct (cut_ok a nd G ltac:(lia)) as ((D1 & D2 & D3 & _) & (U1 & U2 & U3 & _) & _).
    destruct (reads_back neg (round_down a nd) x) eqn:Ed, (reads_back neg (round_up a nd) x) eqn:Eu; cbn [andb].
    + destruct (cut_cases a nd ltac:(lia)) as [E|E]; rewrite E.
      * refine (conj U1 (conj U2 (conj Eu (conj _ _)))); [lia|intros p Hp; lia].
      * refine (conj D1 (conj D2 (conj Ed (conj _ _)))); [lia|intros p Hp; lia].
    + refine (conj D1 (conj D2 (conj Ed (conj _ _)))); [lia|intros p Hp; lia].
    + refine (conj U1 (conj U2 (conj Eu (conj _ _)))); [lia|intros p Hp; lia].
    + destruct (IH (S nd) ltac:(lia) ltac:(lia)) as (A & B & C & L & D). refine (conj A (conj B (conj C (conj L _)))).
      intros p Hp. destruct (Nat.eq_dec p nd) as [->|]; [split; [exact Ed|exact Eu]|apply D; lia].
Qed.
Lemma assign_reads neg m e : valid_binary 53 1024 (S754_finite neg m e) = true -> reads_back neg (assign (Zpos m) e) (S754_finite neg m e) = true.
Proof.
  intros V. destruct (assign_ok (Zpos m) e eq_refl) as (G & N & E). assert (F : float64 (S754_finite neg m e)) by (split; [exact V|reflexivity]).
  apply reads_iff; [exact F|reflexivity|apply G|]. rewrite E.
  assert (F' : float64 (S754_finite false m e)) by (split; [exact V|reflexivity]).
  assert (X : real (S754_finite false m e) = (IZR (Zpos m) * bpow radix2 e)%R) by reflexivity.
  rewrite <- X. rewrite round_generic by (try typeclasses eauto; now apply float64_format).
  unfold real, SF2R. destruct neg; cbn [cond_Zopp].
  - change (Float radix2 (Z.neg m) e) with (Float radix2 (- Zpos m) e). rewrite F2R_Zopp, Rabs_Ropp, Rabs_pos_eq; [reflexivity|]. apply Rlt_le, F2R_gt_0. reflexivity.
  - rewrite Rabs_pos_eq; [reflexivity|]. apply Rlt_le, F2R_gt_0. reflexivity.
Qed.
Lemma shortest_ok neg m e : valid_binary 53 1024 (S754_finite neg m e) = true ->
  let d := shortest neg m e in let a := assign (Zpos m) e in
  good d /\ dc_d d <> [] /\ reads_back neg d (S754_finite neg m e) = true /\ (length (dc_d d) <= length (dc_d a))%nat /\
  forall p, (1 <= p < length (dc_d d))%nat -> reads_back neg (round_down a p) (S754_finite neg m e) = false /\ reads_back neg (round_up a p) (S754_finite neg m e) = false.
Proof.
  intros V. destruct (assign_ok (Zpos m) e eq_refl) as (G & N & E). unfold shortest. cbv zeta.
  apply (shortest_from_ok neg _ _ G N (assign_reads neg m e V)); [lia|]. destruct (dc_d (assign (Z.pos m) e)); [easy|cbn [length]; lia].
Qed.

(** every decimal with fewer digits is on the far side of the cut ones *)
Lemma far a p c j : good a -> (1 <= p < length (dc_d a))%nat -> 0 <= c < 10 ^ Z.of_nat p ->
  let y := (IZR c * bpow ten j)%R in
  ((y <= dval a)%R -> (y <= dval (round_down a p))%R) /\ ((dval a < y)%R -> (dval (round_up a p) <= y)%R).
Proof.
  intros G Hp Hc y. destruct (cut_ok a p G Hp) as ((_ & _ & _ & Vd) & (_ & _ & _ & Vu) & V & Nb). rewrite Vd, Vu.
  set (N := num (firstn p (dc_d a))) in *. set (B := bpow ten (dc_dp a - Z.of_nat p)) in *.
  assert (Bp : (0 < B)%R) by apply bpow_gt_0.
  destruct (Z_le_gt_dec (dc_dp a - Z.of_nat p) j) as [L|L].
  - assert (Y : y = (IZR (c * 10 ^ (j - (dc_dp a - Z.of_nat p))) * B)%R).
    { unfold y, B. rewrite mult_IZR, <- bpow_Z by lia. rewrite Rmult_assoc, <- bpow_plus. f_equal. f_equal. lia. }
    set (K := c * _) in Y. clearbody K. rewrite Y. split; intros H.
    + apply Rmult_le_compat_r; [lra|]. apply IZR_le. assert (K < N + 1); [|lia]. apply lt_IZR. apply Rmult_lt_reg_r with B; lra.
    + apply Rmult_le_compat_r; [lra|]. apply IZR_le. assert (N < K); [|lia]. apply lt_IZR. apply Rmult_lt_reg_r with B; lra.
  - assert (Y : (y < bpow ten (dc_dp a - 1))%R).
    { unfold y. apply Rlt_le_trans with (IZR (10 ^ Z.of_nat p) * bpow ten j)%R.
      - apply Rmult_lt_compat_r; [apply bpow_gt_0|]. apply IZR_lt. lia.
      - rewrite <- bpow_Z by lia. rewrite <- bpow_plus. apply bpow_le. lia. }
    assert (Lo : (bpow ten (dc_dp a - 1) <= IZR N * B)%R).
    { replace (dc_dp a - 1) with ((Z.of_nat p - 1) + (dc_dp a - Z.of_nat p)) by lia. rewrite bpow_plus. apply Rmult_le_compat_r; [apply bpow_ge_0|]. rewrite bpow_Z by lia. apply IZR_le. lia. }
    split; intros H; lra.
Qed.
(** so they do not read back *)
Lemma fewer neg m e c j p : valid_binary 53 1024 (S754_finite neg m e) = true -> (1 <= p < length (dc_d (shortest neg m e)))%nat ->
  0 <= c < 10 ^ Z.of_nat p -> nearest_float neg c j <> S754_finite neg m e.
Proof.
  intros V Hp Hc. destruct (shortest_ok neg m e V) as (_ & _ & _ & L & Fail). cbv zeta in *. destruct (Fail p Hp) as [Fd Fu].
  destruct (assign_ok (Zpos m) e eq_refl) as (G & Na & Ea). set (a := assign (Z.pos m) e) in *. set (x := S754_finite neg m e) in *.
  assert (F : float64 x) by (split; [exact V|reflexivity]). pose proof (assign_reads neg m e V) as Ra. fold a x in Ra.
  destruct (cut_ok a p G ltac:(lia)) as ((D1 & _ & _ & Vd) & (U1 & _ & _ & Vu) & Vb & _). destruct (far a p c j G ltac:(lia) Hc) as [F1 F2].
  assert (Fd' : rnd (dval (round_down a p)) <> Rabs (real x)) by (intros X; apply (reads_iff neg _ x F eq_refl (gd_dig _ D1)) in X; congruence).
  assert (Fu' : rnd (dval (round_up a p)) <> Rabs (real x)) by (intros X; apply (reads_iff neg _ x F eq_refl (gd_dig _ U1)) in X; congruence).
  apply (reads_iff neg a x F eq_refl (gd_dig _ G)) in Ra.
  intros E. apply (nearest_is neg c j x) in E; [|lia|exact F|reflexivity]. rewrite decimal_real, rnd_sg in E. set (y := (IZR c * bpow ten j)%R) in *.
  assert (Ey : rnd y = Rabs (real x)).
  { assert (X : real x = sg neg (Rabs (real x))).
    { unfold x, real, SF2R, sg. pose proof (F2R_gt_0 radix2 (Float radix2 (Zpos m) e) eq_refl) as P. destruct neg; cbn [cond_Zopp].
      + change (Float radix2 (Z.neg m) e) with (Float radix2 (- Zpos m) e). rewrite F2R_Zopp, Rabs_Ropp, Rabs_pos_eq by lra. reflexivity.
      + rewrite Rabs_pos_eq by lra. reflexivity. }
    rewrite X in E. now apply sg_inj in E. }
  assert (M : forall u v, (u <= v)%R -> (rnd u <= rnd v)%R) by (intros; apply round_le; [typeclasses eauto|typeclasses eauto|assumption]).
  rewrite Vd in *. rewrite Vu in *. destruct (Rle_or_lt y (dval a)) as [C|C].
  - pose proof (M _ _ (F1 C)) as M1. pose proof (M _ _ (proj1 Vb)) as M2. apply Fd'. lra.
  - pose proof (M _ _ (F2 C)) as M1. pose proof (M _ _ (Rlt_le _ _ (proj2 Vb))) as M2. apply Fu'. lra.
Qed.
