(** Property C82: the numbers on a chart say what they stand for. *)
From Coq Require Import ZArith Reals List Bool Lia Lra.
From Coq Require Import Floats.SpecFloat.
From Flocq Require Import Core.Core IEEE754.BinarySingleNaN Relative.
From Verif Require Import Base Merge Draw DrawSpec DrawProofs DrawFloat Axis AxisSpec AxisFloat Graph GraphSpec GraphProofs Props_Draw Props_Graph FontSpec Format FormatSpec FormatProofs.
Import ListNotations.
Open Scope Z_scope.

Lemma plain x : is_number x -> plain_number x.
Proof. intros [_ H]. exact H. Qed.
(** A text of the form %0.2f, read as a decimal number, is the number with two decimals
    that is nearest to the value. *)
Theorem C82_fixed : forall x, is_number x -> read_number (sprintf_2f x) = Some (to_decimals 2 (val x)).
Proof. intros x Nx. apply format_f_ok; [lia|now apply plain]. Qed.
Print Assumptions C82_fixed.
(** A text of the form %#.3g is the nearest number with three significant digits. *)
Theorem C82_significant : forall old x, is_number x -> read_number (sprintf_3g old x) = Some (to_significant 3 (val x)).
Proof. intros old x Nx. apply sprintf_3g_read; [now apply plain|apply Nx]. Qed.
Print Assumptions C82_significant.
(** No multiple of 0.01 is nearer; no number with three significant digits is. *)
Theorem C82_nearest : forall r : R,
  ((exists n : Z, to_decimals 2 r = IZR n / 100) /\ (forall n : Z, Rabs (to_decimals 2 r - r) <= Rabs (IZR n / 100 - r)) /\
   (exists n e : Z, to_significant 3 r = IZR n * bpow ten e /\ (Z.abs n < 1000)%Z) /\
   (forall n e : Z, (Z.abs n < 1000)%Z -> Rabs (to_significant 3 r - r) <= Rabs (IZR n * bpow ten e - r)))%R.
Proof.
  intros r. pose proof flx3 as V3. assert (C : bpow ten (-2) = (/ 100)%R) by (cbn; lra).
  pose proof (round_N_pt ten (FIX_exp (-2)) (fun x => negb (Z.even x)) r) as [F1 N1]. pose proof (round_N_pt ten (FLX_exp 3) (fun x => negb (Z.even x)) r) as [F2 N2].
  repeat split.
  - apply FIX_format_generic in F1. destruct F1 as [f E1 E2]. exists (Fnum f). change (to_decimals 2 r) with (Generic_fmt.round ten (FIX_exp (-2)) ZnearestE r). rewrite E1. unfold F2R. rewrite E2, C. reflexivity.
  - intros n. apply N1. apply generic_format_FIX. exists (Float ten n (-2)); [|reflexivity]. unfold F2R. cbn [Fnum Fexp]. now rewrite C.
  - apply FLX_format_generic in F2; [|red; lia]. destruct F2 as [f E1 E2]. exists (Fnum f), (Fexp f). split; [exact E1|exact E2].
  - intros n e Hn. apply N2. apply generic_format_FLX. exists (Float ten n e); [reflexivity|exact Hn].
Qed.
Print Assumptions C82_nearest.
Lemma dec_error r : (Rabs (to_decimals 2 r - r) <= / 200)%R.
Proof.
  assert (H : (Rabs (to_decimals 2 r - r) <= / 2 * ulp ten (FIX_exp (-2)) r)%R) by (apply error_le_half_ulp; typeclasses eauto). rewrite ulp_FIX in H. cbn in H. lra.
Qed.
Lemma sig_error r : (Rabs (to_significant 3 r - r) <= Rabs r / 200)%R.
Proof.
  assert (H : (Rabs (to_significant 3 r - r) <= / 2 * bpow ten (- (3) + 1) * Rabs r)%R) by (apply (relative_error_N_FLX ten 3 ltac:(lia))).
  replace (bpow ten (- (3) + 1)) with (/ 100)%R in H by (cbn; lra). lra.
Qed.
(** They are off by at most 1/200, resp. by 1/200 of the value. *)
Theorem C82_error : forall old x, is_number x ->
  exists a b, read_number (sprintf_2f x) = Some a /\ (Rabs (a - val x) <= / 200)%R /\
  read_number (sprintf_3g old x) = Some b /\ (Rabs (b - val x) <= Rabs (val x) / 200)%R.
Proof.
  intros old x Nx. exists (to_decimals 2 (val x)), (to_significant 3 (val x)). rewrite (C82_fixed x Nx), (C82_significant old x Nx). repeat split; [apply dec_error|apply sig_error].
Qed.
Print Assumptions C82_error.
(** The texts are in the order of the values; so equal texts are of values that are
    nearly equal. *)
Theorem C82_order : forall old x y, is_number x -> is_number y -> (val x <= val y)%R ->
  (exists a b, read_number (sprintf_2f x) = Some a /\ read_number (sprintf_2f y) = Some b /\ (a <= b)%R) /\
  (exists a b, read_number (sprintf_3g old x) = Some a /\ read_number (sprintf_3g old y) = Some b /\ (a <= b)%R) /\
  (sprintf_2f x = sprintf_2f y -> (val y - val x <= / 100)%R) /\
  (sprintf_3g old x = sprintf_3g old y -> (val y - val x <= (Rabs (val x) + Rabs (val y)) / 200)%R).
Proof.
  intros old x y Nx Ny L. pose proof flx3. rewrite !C82_fixed, !C82_significant by assumption. repeat split.
  - eexists _, _. split; [reflexivity|]. split; [reflexivity|]. apply round_le; [typeclasses eauto|typeclasses eauto|exact L].
  - eexists _, _. split; [reflexivity|]. split; [reflexivity|]. apply round_le; [typeclasses eauto|typeclasses eauto|exact L].
  - intros E. assert (E' : to_decimals 2 (val x) = to_decimals 2 (val y)) by (apply (f_equal read_number) in E; rewrite !C82_fixed in E by assumption; now injection E).
    pose proof (dec_error (val x)) as A. pose proof (dec_error (val y)) as B. rewrite E' in A. apply Rabs_le_inv in A. apply Rabs_le_inv in B. lra.
  - intros E. assert (E' : to_significant 3 (val x) = to_significant 3 (val y)) by (apply (f_equal read_number) in E; rewrite !C82_significant in E by assumption; now injection E).
    pose proof (sig_error (val x)) as A. pose proof (sig_error (val y)) as B. rewrite E' in A. apply Rabs_le_inv in A. apply Rabs_le_inv in B. lra.
Qed.
Print Assumptions C82_order.
(** Three significant digits are shown, zeros at the end included (by Go 1.14 and
    later; earlier versions may show fewer of them for values below 0.1). *)
Theorem C82_three_digits : forall x, is_number x -> val x <> 0%R -> shown_digits false (sprintf_3g false x) = 3.
Proof.
  intros x Nx N0. destruct (sprintf_3g_parts false x (plain x Nx) (proj1 Nx)) as (ip & fp & ex & F1 & F2 & _ & E & Hex & Hz). rewrite E. destruct (Hz eq_refl N0) as (z & a & b & c & Ha & Ez & Da & Db & Dc).
  replace (shown_digits false (minus_sign (negative x) ++ chars ip ++ 46 :: chars fp ++ ex)) with (shown_digits false (chars ip ++ 46 :: chars fp ++ ex)) by (destruct (negative x); reflexivity).
  rewrite shown_digits_point by exact F1. rewrite Ez, shown_digits_zeros. change (chars [a; b; c] ++ ex) with (48 + a :: (chars [b; c] ++ ex)).
  assert (St : forall t, shown_digits false (48 + a :: t) = 1 + shown_digits true t) by (intros t; cbn [shown_digits]; destruct (char_facts a Da) as (A & _ & B); rewrite A, (B Ha), (is_digit_char a Da); reflexivity).
  rewrite St, shown_digits_all; [reflexivity|all_dig|]. destruct Hex as [[-> _]|(s & l & _ & -> & _)]; [exact I|reflexivity].
Qed.
Print Assumptions C82_three_digits.
(** What is not a number is named. *)
Theorem C82_specials : forall old,
  sprintf_2f S754_nan = [78; 97; 78] /\ sprintf_3g old S754_nan = [78; 97; 78] /\
  sprintf_2f (S754_infinity false) = [43; 73; 110; 102] /\ sprintf_3g old (S754_infinity false) = [43; 73; 110; 102] /\
  sprintf_2f (S754_infinity true) = [45; 73; 110; 102] /\ sprintf_3g old (S754_infinity true) = [45; 73; 110; 102].
Proof. intros old. repeat split. Qed.
Print Assumptions C82_specials.

Lemma chars_numeric l : Forall dig l -> Forall numeric (chars l).
Proof. induction 1 as [|d l D F IH]; constructor; [left; unfold dig in D; lia|exact IH]. Qed.
Lemma sign_numeric b : Forall numeric (minus_sign b).
Proof. destruct b; [apply Forall_cons; [right; cbn; tauto|]|]; apply Forall_nil. Qed.
Lemma point_numeric : numeric 46.
Proof. right. cbn. tauto. Qed.
(** The characters of the texts are digits, points, signs, e and those of NaN and Inf:
    their glyphs differ in the font, and leave the first row and the last two of a cell
    empty (C81). *)
Theorem C82_characters : forall old x, valid_binary 53 1024 x = true -> Forall numeric (sprintf_2f x) /\ Forall numeric (sprintf_3g old x).
Proof.
  intros old x V. destruct x as [s|s| |s m e].
  2,3: try destruct s; split; repeat (apply Forall_cons; [right; cbn; tauto|]); apply Forall_nil.
  all: match goal with V : valid_binary _ _ ?x = _ |- _ => assert (Nx : plain_number x) by exact I;
    destruct (format_f_parts 2 x ltac:(lia) Nx) as (ip & fp & F1 & F2 & _ & _ & E & _); destruct (sprintf_3g_parts old x Nx V) as (iq & fq & ex & G1 & G2 & _ & Eg & Hex & _) end; (split;
    [unfold sprintf_2f; rewrite E; apply Forall_app; split; [apply sign_numeric|]; apply Forall_app; split; [now apply chars_numeric|]; constructor; [apply point_numeric|now apply chars_numeric]|]);
    rewrite Eg; apply Forall_app; split; try apply sign_numeric; apply Forall_app; split; try (now apply chars_numeric); constructor; try apply point_numeric; apply Forall_app; split; try (now apply chars_numeric);
    destruct Hex as [[-> _]|(sg & l & Hs & -> & Fl & _)]; [constructor|]; constructor; [right; cbn; tauto|]; constructor; [destruct Hs as [-> | ->]; right; cbn; tauto|now apply chars_numeric].
Qed.
Print Assumptions C82_characters.
(** The lengths: a quantile from 0 to 1 takes four characters, a value up to ten, or
    nine if its exponent has two digits; one less if it has no sign. *)
Theorem C82_length : forall old x, valid_binary 53 1024 x = true ->
  (in_unit x -> x <> S754_zero true -> len (sprintf_2f x) = 4) /\
  1 <= len (sprintf_3g old x) <= 10 /\ (two_digit_exponent x -> len (sprintf_3g old x) <= 9) /\
  (SFleb (S754_zero false) x = true -> x <> S754_zero true -> len (sprintf_3g old x) <= 9 /\ (two_digit_exponent x -> len (sprintf_3g old x) <= 8)).
Proof.
  intros old x V. split.
  - intros U N0. destruct (in_unit_real x U) as (b & Eb & Fb & Rb).
    assert (Nx : plain_number x) by (rewrite <- Eb; destruct b; try discriminate Fb; exact I). assert (Ng : negative x = false).
    { destruct U as (_ & U1 & _). destruct x as [[]| | |[]]; try reflexivity; [now destruct N0|discriminate U1]. }
    destruct (format_f_parts 2 x ltac:(lia) Nx) as (ip & fp & F1 & F2 & L1 & L2 & E & Hn). unfold sprintf_2f. rewrite E, Ng. cbn [minus_sign app]. rewrite len_app3. replace (len (46 :: chars fp)) with (1 + len (chars fp)) by (unfold len; cbn [length]; lia). rewrite !chars_len, L2.
    assert (len ip <= 1); [|lia]. apply Hn; [lia|]. rewrite <- Eb, SF2R_B2SF, Rabs_pos_eq by lra. cbn. lra.
  - destruct x as [sg|sg| |sg mm ee].
    + assert (T : len (sprintf_3g old (S754_zero sg)) = if sg then 5 else 4) by (destruct old, sg; reflexivity). rewrite T. destruct sg; repeat split; try lia.
    + destruct sg; cbn; repeat split; lia.
    + cbn; repeat split; lia.
    + set (x := S754_finite sg mm ee) in *. assert (Nx : plain_number x) by exact I.
      assert (G : 1 <= len (sprintf_3g old x) <= 9 + (if negative x then 1 else 0) /\ (two_digit_exponent x -> len (sprintf_3g old x) <= 8 + (if negative x then 1 else 0))).
      { destruct (sprintf_3g_parts old x Nx V) as (ip & fp & ex & F1 & F2 & Ni & E & Hex & _). rewrite E, !len_app3. replace (len (46 :: chars fp ++ ex)) with (1 + len (chars fp ++ ex)) by (unfold len; cbn [length]; lia). rewrite len_app3, !chars_len.
        replace (len (minus_sign (negative x))) with (if negative x then 1 else 0) by (destruct (negative x); reflexivity). assert (1 <= len ip) by (unfold len; destruct ip; [easy|cbn [length]; lia]). assert (0 <= len fp) by (unfold len; lia).
        destruct Hex as [[-> L]|(s & l & Hs & -> & Fl & L3 & Ll & L2)].
        - change (len []) with 0. destruct (negative x); lia.
        - replace (len (101 :: s :: chars l)) with (2 + len (chars l)) by (unfold len; cbn [length]; lia). rewrite chars_len. split; [destruct (negative x); lia|]. intros T. rewrite L2; [destruct (negative x); lia|].
          destruct (T (conj V Nx)) as [T0|T0]; [|exact T0]. exfalso. unfold val, x in T0. rewrite SF2R_finite in T0. assert (0 < IZR (Z.pos mm) * bpow radix2 ee)%R by (apply Rmult_lt_0_compat; [apply IZR_lt; lia|apply bpow_gt_0]). destruct sg; lra. }
      destruct G as [G1 G2]. destruct sg; cbn [negative x] in G1, G2.
      * split; [lia|]. split; [intros T; specialize (G2 T); lia|]. intros D. discriminate D.
      * split; [lia|]. split; [intros T; specialize (G2 T); lia|]. intros _ _. split; [lia|]. intros T. specialize (G2 T). lia.
Qed.
Print Assumptions C82_length.

(** * the chart *)
(** a label of the text [t] at [pos] of the way down says [r] *)
Definition says (l : label) (r : R) : Prop := read_number (l_text l) = Some r.
Lemma unit_number f : in_unit f -> is_number f.
Proof. intros U. split; [apply U|]. destruct (in_unit_real f U) as (b & Eb & Fb & _). rewrite <- Eb. destruct b; try discriminate Fb; exact I. Qed.
Lemma quantile_in text zero h ls l : quantile_labels text zero h ls -> In l ls ->
  (exists f, l_text l = text f /\ in_unit f /\ (Rabs (val f - (1 - val (l_pos l))) <= / 2 ^ 47)%R) \/ (l_text l = zero /\ val (l_pos l) = 1%R).
Proof.
  intros (ys & above & last & -> & _ & _ & F & Z0 & L1) Hl. apply in_app_or in Hl as [Hl|[<-|[]]]; [left|right; now split].
  induction F as [|y l' ys above (U & P & f & T & Uf & D) F IH]; [destruct Hl|]. destruct Hl as [<-|Hl]; [|now apply IH]. exists f. split; [exact T|]. split; [exact Uf|].
  apply Rabs_le_inv in P. apply Rabs_le_inv in D. unfold val. assert (E : (/ 2 ^ 47 = 2 * / 2 ^ 48)%R) by (replace 48%nat with (47 + 1)%nat by reflexivity; rewrite pow_add; field; apply pow_nonzero; lra). rewrite E. apply Rabs_le. lra.
Qed.
(** The labels at the left of a chart say which part of the values is below their row:
    the one at p of the way down says 1 - p, up to 1/200 (and 2^-47). *)
Theorem C82_left_axis : forall o m d, drawable o m d -> g_fmt2 o = sprintf_2f ->
  forall l, In l (ao_labels (am_opts (gm_left m))) -> exists r, says l r /\ (Rabs (r - (1 - val (l_pos l))) <= / 200 + / 2 ^ 47)%R.
Proof.
  intros o m d DW Ef l Hl. destruct (C66_quantiles o m d DW) as [Q _]. rewrite Ef in Q. assert (0 < / 2 ^ 47)%R by (apply Rinv_0_lt_compat, pow_lt; lra).
  destruct (quantile_in _ _ _ _ _ Q Hl) as [(f & T & U & D)|[T P]].
  - exists (to_decimals 2 (val f)). split; [unfold says; rewrite T; apply C82_fixed, unit_number, U|]. pose proof (dec_error (val f)) as E. apply Rabs_le_inv in E. apply Rabs_le_inv in D. apply Rabs_le. lra.
  - exists 0%R. split; [unfold says; rewrite T; cbn; f_equal; unfold value; cbn [fst]; ring|]. rewrite P. replace (0 - (1 - 1))%R with 0%R by ring. rewrite Rabs_R0. lra.
Qed.
Print Assumptions C82_left_axis.
(** Those at the right say the quantile there of the newest record, up to 1/200 of it:
    [quantile] is Query, and the rounding to 16 bits. *)
Theorem C82_right_axis : forall old quantile o m d, drawable o m d -> g_query o = Some (fun f => sprintf_3g old (quantile f)) ->
  forall l, In l (ao_labels (am_opts (gm_right m))) ->
  exists f, in_unit f /\ (Rabs (val f - (1 - val (l_pos l))) <= / 2 ^ 47)%R /\ l_text l = sprintf_3g old (quantile f) /\
  (is_number (quantile f) -> exists r, says l r /\ r = to_significant 3 (val (quantile f)) /\ (Rabs (r - val (quantile f)) <= Rabs (val (quantile f)) / 200)%R).
Proof.
  intros old quantile o m d DW Ef l Hl. destruct (C66_quantiles o m d DW) as [_ Q]. specialize (Q _ Ef). assert (0 < / 2 ^ 47)%R by (apply Rinv_0_lt_compat, pow_lt; lra).
  assert (K : exists f, l_text l = sprintf_3g old (quantile f) /\ in_unit f /\ (Rabs (val f - (1 - val (l_pos l))) <= / 2 ^ 47)%R).
  { destruct (quantile_in _ _ _ _ _ Q Hl) as [K|[T P]]; [exact K|]. exists (S754_zero false). split; [exact T|]. split; [split; [|split]; reflexivity|]. rewrite P. unfold val. cbn [SF2R]. replace (0 - (1 - 1))%R with 0%R by ring. rewrite Rabs_R0. lra. }
  destruct K as (f & T & U & D). exists f. split; [exact U|]. split; [exact D|]. split; [exact T|]. intros Nx. exists (to_significant 3 (val (quantile f))). split; [unfold says; rewrite T; now apply C82_significant|]. split; [reflexivity|apply sig_error].
Qed.
Print Assumptions C82_right_axis.
(** The text over the rates says the largest rate, up to 1/200 of it. *)
Theorem C82_rate : forall old x, is_number x ->
  exists t, obs_text old x = [111; 98; 115; 47; 115; 101; 99; 58; 32] ++ t /\ read_number t = Some (to_significant 3 (val x)) /\ (Rabs (to_significant 3 (val x) - val x) <= Rabs (val x) / 200)%R.
Proof. intros old x Nx. exists (sprintf_3g old x). split; [reflexivity|]. split; [now apply C82_significant|apply sig_error]. Qed.
Print Assumptions C82_rate.
(** It fits in the place kept for it, 17 characters, if its exponent has two digits. *)
Theorem C82_rate_length : forall old x, is_rate x -> x <> S754_zero true -> two_digit_exponent x -> len (obs_text old x) <= 17.
Proof.
  intros old x (V & L & _) N0 T. unfold obs_text. rewrite len_app3. destruct (C82_length old x V) as (_ & _ & _ & H). destruct (H L N0) as [_ H2]. specialize (H2 T). change (len s_obs) with 9. lia.
Qed.
Print Assumptions C82_rate_length.
(** An exponent of three digits makes it 18: the last character may be cut off at the
    right edge (C81: nothing is drawn beyond the part). *)
Definition rate_1e100 : spec_float := f_mul (S754_finite false 5146971002709138 280) (S754_finite false 4503599627370496 (-52)).
Theorem C82_rate_length_refuted : exists x, is_rate x /\ x <> S754_zero true /\ forall old, len (obs_text old x) = 18.
Proof. exists rate_1e100. split; [split; [|split]; vm_compute; reflexivity|]. split; [vm_compute; discriminate|]. intros []; vm_compute; reflexivity. Qed.
Print Assumptions C82_rate_length_refuted.
(** So the charts with these texts are those of C66 (C66_drawable): *)
Theorem C82_short : short_text 4 sprintf_2f /\
  forall old quantile, (forall f, valid_binary 53 1024 (quantile f) = true) -> (forall f, in_unit f -> two_digit_exponent (quantile f)) -> short_text 9 (fun f => sprintf_3g old (quantile f)).
Proof.
  split.
  - split.
    + intros f E. destruct f as [[]|[]| |s m e]; try discriminate E. destruct (format_f_parts 2 (S754_finite s m e) ltac:(lia) I) as (ip & fp & _ & _ & L & _ & E' & _). unfold sprintf_2f in E. rewrite E' in E. apply app_eq_nil in E as [_ E]. apply app_eq_nil in E as [E _]. destruct ip; [change (len []) with 0 in L; lia|discriminate E].
    + intros f U N0. destruct (C82_length false f (proj1 U)) as (H & _). rewrite (H U N0). lia.
  - intros old quantile V HQ. split.
    + intros f E. destruct (C82_length old (quantile f) (V f)) as (_ & [H _] & _). rewrite E in H. change (len []) with 0 in H. lia.
    + intros f U _. destruct (C82_length old (quantile f) (V f)) as (_ & _ & H & _). exact (H (HQ f U)).
Qed.
Print Assumptions C82_short.

(** * the hypotheses are met *)
Definition ex_num (m e : Z) : spec_float := SpecFloat.binary_normalize 53 1024 m e false.
(** 0.735 (the float64 is just below), 1234.5, 2^-30, -3, 5/16, 10237/1024 *)
Example C82_ex :
  is_number (ex_num 6620291452234629 (-53)) /\ val (ex_num 2469 (-1)) <> 0%R /\ sprintf_2f (ex_num 6620291452234629 (-53)) = [48; 46; 55; 51] /\
  is_number (ex_num 2469 (-1)) /\ sprintf_3g false (ex_num 2469 (-1)) = [49; 46; 50; 51; 101; 43; 48; 51] /\
  sprintf_3g true (ex_num 1 (-30)) = [57; 46; 51; 49; 101; 45; 49; 48] /\ sprintf_3g false (ex_num (-3) 0) = [45; 51; 46; 48; 48] /\
  sprintf_3g false (ex_num 5 (-4)) = [48; 46; 51; 49; 50] /\ sprintf_3g false (ex_num 10237 (-10)) = [49; 48; 46; 48] /\ two_digit_exponent (ex_num 2469 (-1)).
Proof.
  split; [split; [vm_compute; reflexivity|exact I]|]. assert (E : val (ex_num 2469 (-1)) = (2469 * / 2)%R).
  { change (ex_num 2469 (-1)) with (S754_finite false 5429388417957888 (-42)). unfold val. rewrite SF2R_finite. change (bpow radix2 (-42)) with (/ IZR (2 ^ 42))%R. change (2 ^ 42) with 4398046511104. lra. }
  split; [rewrite E; lra|]. split; [vm_compute; reflexivity|]. split; [split; [vm_compute; reflexivity|exact I]|]. repeat (split; [vm_compute; reflexivity|]).
  intros _. right. rewrite E, Rabs_pos_eq by lra. split.
  - apply Rle_trans with (bpow ten 0); [apply bpow_le; lia|cbn; lra].
  - apply Rlt_le_trans with (bpow ten 4); [cbn; lra|apply bpow_le; lia].
Qed.
(** C66's chart, with these texts, of a record whose values are 1234.5 and 10237/1024 *)
Definition ex_quantile (f : spec_float) : spec_float := if SFleb (ex_num 1 (-1)) f then ex_num 2469 (-1) else ex_num 10237 (-10).
Lemma ex_quantile_short f : in_unit f -> two_digit_exponent (ex_quantile f).
Proof.
  intros _. unfold ex_quantile. destruct (SFleb _ _); [apply C82_ex|]. intros _. right.
    change (ex_num 10237 (-10)) with (S754_finite false 5627850266771456 (-49)). unfold val. rewrite SF2R_finite. change (bpow radix2 (-49)) with (/ IZR (2 ^ 49))%R. change (2 ^ 49) with 562949953421312. rewrite Rabs_pos_eq by lra. split.
    - apply Rle_trans with (bpow ten 0); [apply bpow_le; lia|cbn; lra].
    - apply Rlt_le_trans with (bpow ten 4); [cbn; lra|apply bpow_le; lia].
Qed.
Definition ex_fopts : gopts := GOpts (Some (fun f => sprintf_3g false (ex_quantile f))) (g_now ex_opts) (g_duration ex_opts) (g_width ex_opts) (g_height ex_opts) (g_padding ex_opts) sprintf_2f (g_time ex_opts).
Definition ex_fdopts : dopts := DOpts (d_canvas ex_dopts) (d_columns ex_dopts) (d_colors ex_dopts) (d_map ex_dopts) (obs_text false).
Example C82_ex_chart : exists m, graph_measure ex_fopts = Ok (Some m) /\ drawable ex_fopts m ex_fdopts /\
  map l_text (firstn 3 (ao_labels (am_opts (gm_left m)))) = [[49; 46; 48; 48]; [48; 46; 56; 56]; [48; 46; 55; 54]] /\
  map l_text (ao_labels (am_opts (gm_right m))) = repeat [49; 46; 50; 51; 101; 43; 48; 51] 5 ++ repeat [49; 48; 46; 48] 4.
Proof.
  assert (TQ : short_text 9 (fun f => sprintf_3g false (ex_quantile f))) by (apply C82_short; [intros f; unfold ex_quantile; destruct (SFleb _ _); vm_compute; reflexivity|exact ex_quantile_short]).
  destruct (C66_drawable ex_fopts) as (m & E & _ & W1 & D).
  1-5: vm_compute; first [congruence|split; congruence].
  - exact (proj1 C82_short).
  - intros q Q. injection Q as <-. exact TQ.
  - intros t. cbn. lia.
  - exists m. split; [exact E|]. split.
    2: { assert (F : match graph_measure ex_fopts with Ok (Some m) => map l_text (firstn 3 (ao_labels (am_opts (gm_left m)))) = [[49; 46; 48; 48]; [48; 46; 56; 56]; [48; 46; 55; 54]] /\
           map l_text (ao_labels (am_opts (gm_right m))) = repeat [49; 46; 50; 51; 101; 43; 48; 51] 5 ++ repeat [49; 48; 46; 48] 4 | _ => False end) by (vm_compute; split; reflexivity). rewrite E in F. exact F. }
    change (g_width ex_fopts) with 1000 in W1. apply D.
    + intros c [<-|[<-|[]]]; cbn; lia.
    + intros _ c [<-|[<-|[]]]; (split; [cbn; lia|]); intros v Hv; apply k128_unit; cbn in Hv; intuition subst; lia.
    + cbn. lia.
Qed.
