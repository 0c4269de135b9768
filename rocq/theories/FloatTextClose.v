(** The shortest digits are the closest of their length (C86). *)
From Coq Require Import ZArith Reals List Bool Lia Lra.
From Coq Require Import Floats.SpecFloat.
From Flocq Require Import Core.Core IEEE754.BinarySingleNaN.
From Verif Require Import Base Float FloatReal Number NumberSpec NumberProofs NumberReal Merge Format FormatSpec FormatProofs FloatText FloatTextProofs.
Import ListNotations.
Open Scope Z_scope.

Lemma znearest_best (t : R) (m : Z) : (Rabs (IZR (ZnearestE t) - t) <= Rabs (IZR m - t))%R.
Proof.
  pose proof (Znearest_half (fun x => negb (Z.even x)) t) as H. destruct (Z.eq_dec m (ZnearestE t)) as [->|N]; [lra|].
  set (n := ZnearestE t) in *. assert (1 <= Rabs (IZR m - IZR n))%R.
  { rewrite <- minus_IZR, <- abs_IZR. apply IZR_le. lia. }
  pose proof (Rabs_triang (IZR m - t) (t - IZR n)) as T. replace (IZR m - t + (t - IZR n))%R with (IZR m - IZR n)%R in T by ring.
  rewrite (Rabs_minus_sym (IZR n) t). lra.
Qed.
Lemma round_closer a nd : good a -> (1 <= nd < length (dc_d a))%nat ->
  (Rabs (dval (Format.round a (Z.of_nat nd)) - dval a) <= Rabs (dval (round_down a nd) - dval a))%R /\
  (Rabs (dval (Format.round a (Z.of_nat nd)) - dval a) <= Rabs (dval (round_up a nd) - dval a))%R.
Proof.
  intros G H. destruct (cut_ok a nd G H) as ((_ & _ & _ & Vd) & (_ & _ & _ & Vu) & _).
  destruct (round_ok a (Z.of_nat nd) G ltac:(unfold len; lia)) as (_ & _ & V & _). rewrite V, Vd, Vu.
  set (B := bpow ten (dc_dp a - Z.of_nat nd)). assert (Bp : (0 < B)%R) by apply bpow_gt_0.
  set (t := (dval a * bpow ten (Z.of_nat nd - dc_dp a))%R).
  assert (T : dval a = (t * B)%R). { unfold t, B. rewrite Rmult_assoc, <- bpow_plus. replace (Z.of_nat nd - dc_dp a + (dc_dp a - Z.of_nat nd)) with 0 by lia. cbn [bpow]. ring. }
  assert (K : forall m, (Rabs (IZR (ZnearestE t) * B - dval a) <= Rabs (IZR m * B - dval a))%R).
  { intros m. rewrite T. rewrite <- !Rmult_minus_distr_r, !Rabs_mult. apply Rmult_le_compat_r; [apply Rabs_pos|apply znearest_best]. }
  split; apply K.
Qed.

(** between the exact value and something that reads back, everything reads back *)
Lemma shortest_from_close neg x a : float64 x -> sign_SF x = neg -> good a -> dc_d a <> [] -> rnd (dval a) = Rabs (real x) ->
  forall n nd, (1 <= nd)%nat -> (nd + n = length (dc_d a))%nat -> let d := shortest_from n neg x a nd in
  forall c j, 0 <= c < 10 ^ Z.of_nat (length (dc_d d)) -> rnd (IZR c * bpow ten j) = Rabs (real x) ->
  (Rabs (dval d - dval a) <= Rabs (IZR c * bpow ten j - dval a))%R.
Proof.
  intros F S G N Ra. assert (M : forall u v, (u <= v)%R -> (rnd u <= rnd v)%R) by (intros; apply round_le; [typeclasses eauto|typeclasses eauto|assumption]).
  assert (Self : forall y, (Rabs (dval a - dval a) <= Rabs (y - dval a))%R) by (intros y; replace (dval a - dval a)%R with 0%R by ring; rewrite Rabs_R0; apply Rabs_pos).
  induction n as [|n IH]; intros nd H1 H2; cbn [shortest_from]; [intros; apply Self|].
  pose proof (cut_ok a nd G ltac:(lia)) as ((D1 & D2 & D3 & Vd) & (U1 & U2 & U3 & Vu) & Vb & _).
  destruct (round_closer a nd G ltac:(lia)) as [C1 C2]. pose proof (cut_cases a nd ltac:(lia)) as CC.
  pose proof (reads_iff neg (round_down a nd) x F S (gd_dig _ D1)) as Rd. pose proof (reads_iff neg (round_up a nd) x F S (gd_dig _ U1)) as Ru.
  assert (Key : forall d c j, (length (dc_d d) <= nd)%nat -> 0 <= c < 10 ^ Z.of_nat (length (dc_d d)) -> rnd (IZR c * bpow ten j) = Rabs (real x) ->
    (reads_back neg (round_down a nd) x = true /\ (Rabs (dval (round_down a nd) - dval a) <= Rabs (IZR c * bpow ten j - dval a))%R) \/
    (reads_back neg (round_up a nd) x = true /\ (Rabs (dval (round_up a nd) - dval a) <= Rabs (IZR c * bpow ten j - dval a))%R)).
  { intros d c j L Hc R. assert (Hc' : 0 <= c < 10 ^ Z.of_nat nd) by (split; [lia|]; eapply Z.lt_le_trans; [apply Hc|]; apply Z.pow_le_mono_r; lia).
    destruct (far a nd c j G ltac:(lia) Hc') as [F1 F2]. cbv zeta in *. set (y := (IZR c * bpow ten j)%R) in *.
    destruct (Rle_or_lt y (dval a)) as [C|C].
    - left. specialize (F1 C). rewrite <- Vd in Vb. split; [apply Rd|].
      + pose proof (M _ _ F1). pose proof (M _ _ (proj1 Vb)). lra.
      + rewrite !Rabs_left1 by lra. lra.
    - right. specialize (F2 C). rewrite <- Vu in Vb. split; [apply Ru|].
      + pose proof (M _ _ F2). pose proof (M _ _ (Rlt_le _ _ (proj2 Vb))). lra.
      + rewrite !Rabs_pos_eq by lra. lra. }
  destruct (reads_back neg (round_down a nd) x) eqn:Ed, (reads_back neg (round_up a nd) x) eqn:Eu; cbn [andb].
  - intros c j Hc R. assert (L : (length (dc_d (Format.round a (Z.of_nat nd))) <= nd)%nat) by (destruct CC as [E|E]; rewrite E; assumption).
    destruct (Key _ c j L Hc R) as [[_ K]|[_ K]]; lra.
  - intros c j Hc R. destruct (Key _ c j D3 Hc R) as [[_ K]|[K _]]; [exact K|discriminate].
  - intros c j Hc R. destruct (Key _ c j U3 Hc R) as [[K _]|[_ K]]; [discriminate|exact K].
  - apply IH; lia.
Qed.

Lemma shortest_close neg m e : valid_binary 53 1024 (S754_finite neg m e) = true -> let d := shortest neg m e in
  forall c j, 0 <= c < 10 ^ Z.of_nat (length (dc_d d)) -> rnd (IZR c * bpow ten j) = Rabs (real (S754_finite neg m e)) ->
  (Rabs (dval d - Rabs (real (S754_finite neg m e))) <= Rabs (IZR c * bpow ten j - Rabs (real (S754_finite neg m e))))%R.
Proof.
  intros V d c j Hc R. destruct (assign_ok (Zpos m) e eq_refl) as (G & N & E).
  assert (F : float64 (S754_finite neg m e)) by (split; [exact V|reflexivity]).
  pose proof (assign_reads neg m e V) as Ra. apply (reads_iff neg _ _ F eq_refl (gd_dig _ G)) in Ra.
  assert (X : Rabs (real (S754_finite neg m e)) = dval (assign (Zpos m) e)).
  { rewrite E. unfold real, SF2R. change (IZR (Z.pos m) * bpow radix2 e)%R with (F2R (Float radix2 (Zpos m) e)). pose proof (F2R_gt_0 radix2 (Float radix2 (Zpos m) e) eq_refl) as P. destruct neg; cbn [cond_Zopp].
    - change (Float radix2 (Z.neg m) e) with (Float radix2 (- Zpos m) e). rewrite F2R_Zopp, Rabs_Ropp, Rabs_pos_eq by lra. reflexivity.
    - rewrite Rabs_pos_eq by lra. reflexivity. }
  rewrite X at 1 2. unfold d, shortest in *. cbv zeta in *.
  apply (shortest_from_close neg (S754_finite neg m e) _ F eq_refl G N Ra); auto.
  destruct (dc_d (assign (Z.pos m) e)); [easy|cbn [length]; lia].
Qed.
