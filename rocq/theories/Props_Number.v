(** Property C85: the numbers on graphite lines. *)
From Coq Require Import ZArith Reals List Bool Lia Lra.
From Coq Require Import Floats.SpecFloat.
From Flocq Require Import Core.Core IEEE754.BinarySingleNaN.
From Verif Require Import Base Maps Pb PbRecord Float FloatReal Agg Writer WriterSpec WriterProofs Query Graphite GraphiteSpec Props_Data Props_Graphite
  Number NumberSpec NumberProofs NumberReal.
Import ListNotations.
Open Scope Z_scope.

Lemma numeral_read s neg n e k : numeral s neg n e k -> Z.abs e < 100000 -> read_number s = Some (neg, n, k) /\ 0 <= n.
Proof.
  intros H B. destruct H as [neg sg ip dot fp e ex Hs Hi Hf Hn Hd He]. split.
  - apply read_number_complete; auto. now apply exponent_small.
  - apply spelled_bound. now apply Forall_app.
Qed.
Lemma parse_numeral s neg n e k : numeral s neg n e k -> Z.abs e < 100000 ->
  (~ too_big (decimal neg n k) -> exists f, parse_spec s = Some f /\ parse_float s = Some (float_bits f) /\ fdecode (float_bits f) = f /\
     float64 f /\ real f = rnd (decimal neg n k) /\ sign_SF f = neg) /\
  (too_big (decimal neg n k) -> parse_float s = None).
Proof.
  intros H B. destruct (numeral_read _ _ _ _ _ H B) as [R N]. destruct (nearest_float_ok neg n k N) as [A O].
  unfold parse_float, parse_spec. rewrite (numeral_not_word _ _ _ _ R), R. split; intros T.
  - destruct (A T) as (F & E & S). exists (nearest_float neg n k).
    assert (X : match nearest_float neg n k with S754_infinity _ => None | f => Some f end = Some (nearest_float neg n k)).
    { destruct F as [_ F]. destruct (nearest_float neg n k); try reflexivity; discriminate. }
    rewrite X. cbn [option_map]. repeat split; auto; try apply F. apply fdecode_bits; [apply F|]. destruct F as [_ F]. destruct (nearest_float neg n k); try reflexivity; discriminate.
  - rewrite (O T). reflexivity.
Qed.

(** * C85 *)
(** A number on a line is taken as the float64 nearest to it (of two equally near
    ones the even one, keeping the sign of zero), and refused exactly when it is
    beyond the greatest one *)
Theorem C85_number :
  forall s neg n e k, numeral s neg n e k -> Z.abs e < 100000 ->
  (~ too_big (decimal neg n k) -> exists v, parse_float s = Some v /\ is_f64 v /\ nearest (decimal neg n k) (fdecode v) /\ sign_SF (fdecode v) = neg) /\
  (too_big (decimal neg n k) -> parse_float s = None).
Proof.
  intros s neg n e k H B. destruct (parse_numeral _ _ _ _ _ H B) as [A O]. split; [|exact O]. intros T.
  destruct (A T) as (f & _ & P & D & F & E & S). exists (float_bits f). rewrite D. split; [assumption|split; [|split; [|assumption]]].
  - apply fdecode_bits; [apply F|]. destruct F as [_ F]. destruct f; try reflexivity; discriminate.
  - now apply nearest_of_round.
Qed.
Print Assumptions C85_number.
(** "-12.50e-1": minus 1250 * 10^-3 *)
Example C85_number_example :
  numeral [45; 49; 50; 46; 53; 48; 101; 45; 49] true 1250 (-1) (-3) /\ ~ too_big (decimal true 1250 (-3)) /\
  parse_float [45; 49; 50; 46; 53; 48; 101; 45; 49] = Some (2 ^ 63 + 0x3FF4000000000000) /\
  numeral [49; 101; 51; 48; 57] false 1 309 309 /\ too_big (decimal false 1 309) /\ parse_float [49; 101; 51; 48; 57] = None.
Proof.
  split; [|split; [|split; [|split; [|split]]]].
  - apply (num_ true [45] [49; 50] [46] [53; 48] (-1) [101; 45; 49]); [constructor|repeat (apply Forall_cons; [lia|]); apply Forall_nil..|discriminate|now left|].
    apply (ex_some true 101 [45] [49]); [now left|constructor|repeat (apply Forall_cons; [lia|]); apply Forall_nil|discriminate].
  - unfold too_big, decimal. apply Rlt_not_le. change (powerRZ 10 (-3)) with (/ 10 ^ 3)%R.
    assert (P : (0 < / 10 ^ 3 <= 1)%R) by (split; [apply Rinv_0_lt_compat; lra|rewrite <- Rinv_1; apply Rinv_le; lra]).
    apply Rle_lt_trans with 1250%R; [|apply IZR_lt; vm_compute; reflexivity].
    rewrite !Rabs_mult, (Rabs_pos_eq (/ 10 ^ 3)), (Rabs_pos_eq 1250), (Rabs_left (-1)) by lra. lra.
  - vm_compute. reflexivity.
  - apply (num_ false [] [49] [] [] 309 [101; 51; 48; 57]); [constructor|repeat (apply Forall_cons; [lia|]); apply Forall_nil..|discriminate|now right|].
    apply (ex_some false 101 [] [51; 48; 57]); [now left|constructor|repeat (apply Forall_cons; [lia|]); apply Forall_nil|discriminate].
  - unfold too_big, decimal. rewrite powerRZ_Z by lia. rewrite !Rmult_1_l, Rabs_pos_eq by (apply IZR_le; vm_compute; discriminate).
    apply IZR_le. vm_compute. discriminate.
  - vm_compute. reflexivity.
Qed.

(** and the words; nothing else is a number *)
Theorem C85_words :
  forall s, (forall neg, infinite_word neg s -> exists v, parse_float s = Some v /\ fdecode v = S754_infinity neg) /\
  (nan_word s -> exists v, parse_float s = Some v /\ fnan v = true) /\
  (forall v, parse_float s = Some v ->
     (finf v = true /\ exists neg, infinite_word neg s) \/ (fnan v = true /\ nan_word s) \/
     (fnan v = false /\ finf v = false /\ exists neg n e k, numeral s neg n e k)).
Proof.
  intros s. split; [|split].
  - intros neg H. assert (R : read_word s = Some (S754_infinity neg)) by (apply read_word_iff; left; eauto).
    exists (float_bits (S754_infinity neg)). unfold parse_float, parse_spec. rewrite R. split; [reflexivity|]. now destruct neg.
  - intros H. assert (R : read_word s = Some S754_nan) by (apply read_word_iff; right; auto).
    exists (float_bits S754_nan). unfold parse_float, parse_spec. rewrite R. split; reflexivity.
  - intros v. unfold parse_float, parse_spec. destruct (read_word s) as [f|] eqn:R.
    + cbn [option_map]. intros E. injection E as <-. apply read_word_iff in R. destruct R as [(neg & -> & H)|[-> H]].
      * left. split; [now destruct neg|eauto].
      * right; left. split; [reflexivity|assumption].
    + destruct (read_number s) as [[[neg n] k]|] eqn:N; [|discriminate]. intros E. right; right.
      destruct (read_number_sound _ _ _ _ N) as (sg & ip & dot & fp & e & ex & -> & Hs & Hi & Hf & Hn & Hd & He & -> & ->).
      assert (P : 0 <= spelled (ip ++ fp)) by (apply spelled_bound; now apply Forall_app).
      destruct (nearest_float_ok neg _ (e - Z.of_nat (length fp)) P) as [A O]. set (x := decimal _ _ _) in *. set (f := nearest_float _ _ _) in *.
      assert (T : ~ too_big x) by (intros T; rewrite (O T) in E; discriminate). destruct (A T) as (F & _ & _).
      assert (X : float_bits f = v) by (destruct F as [_ F]; destruct f; try discriminate; now injection E). subst v.
      assert (D : fdecode (float_bits f) = f) by (apply fdecode_bits; [apply F|]; destruct F as [_ F]; destruct f; try reflexivity; discriminate).
      unfold fnan, finf. rewrite D. destruct F as [_ F]. split; [destruct f; try reflexivity; discriminate|]. split; [destruct f; try reflexivity; discriminate|].
      destruct (exponent_text _ _ He) as (e' & He' & _). exists neg, (spelled (ip ++ fp)), e', (e' - Z.of_nat (length fp)). now constructor.
Qed.
Print Assumptions C85_words.
(** "-Inf", "NaN", "1.2.3" *)
Example C85_words_example :
  infinite_word true [45; 73; 110; 102] /\ nan_word [78; 97; 78] /\
  parse_float [49; 46; 50; 46; 51] = None /\ parse_float [] = None /\ parse_float [46] = None /\ parse_float [49; 101] = None /\ parse_float [46; 53] <> None.
Proof.
  split; [|split; [|repeat split; vm_compute; congruence]].
  - apply (iw true [45] [73; 110; 102]); [constructor|left]. repeat (apply Forall2_cons; [lia|]). apply Forall2_nil.
  - repeat (apply Forall2_cons; [lia|]). apply Forall2_nil.
Qed.

Lemma nearest_self f g : float64 g -> nearest (real g) f -> real f = real g.
Proof.
  intros G [_ N]. destruct (N g G) as [L _]. rewrite (Rminus_diag_eq (real g) (real g) eq_refl), Rabs_R0 in L.
  pose proof (Rabs_pos (real g - real f)). assert (E : Rabs (real g - real f) = 0%R) by lra.
  apply Rminus_diag_uniq_sym. destruct (Req_dec (real g - real f) 0) as [Z|Z]; [assumption|]. now apply Rabs_no_R0 in Z.
Qed.
Lemma float64_not_big f : float64 f -> ~ too_big (real f).
Proof.
  intros F. apply Rlt_not_le. fold midf. apply rnd_overflow. rewrite round_generic by (try typeclasses eauto; now apply float64_format).
  destruct (float64_b f F) as (b & _ & _ & ->). apply abs_B2R_lt_emax.
Qed.
Lemma float64_unique f g : float64 f -> float64 g -> real f = real g -> sign_SF f = sign_SF g -> f = g.
Proof.
  intros F G E S. destruct (float64_b f F) as (a & -> & Fa & Ra). destruct (float64_b g G) as (b & -> & Fb & Rb).
  f_equal. apply B2R_Bsign_inj; auto; [congruence|]. destruct a, b; cbn in *; congruence.
Qed.
(** A number that is a float64 is taken exactly: the decimal expansion of any
    float64, however long, reads back as the same bits *)
Theorem C85_exact :
  forall s neg n e k g, numeral s neg n e k -> Z.abs e < 100000 -> float64 g -> decimal neg n k = real g -> sign_SF g = neg ->
  parse_float s = Some (float_bits g) /\ fdecode (float_bits g) = g.
Proof.
  intros s neg n e k g H B G X S. destruct (parse_numeral _ _ _ _ _ H B) as [A _]. rewrite X in A.
  destruct (A (float64_not_big g G)) as (f & _ & P & D & F & E & Sf).
  assert (f = g); [|subst f; auto].
  apply float64_unique; auto; [|congruence]. apply nearest_self; [assumption|]. now apply nearest_of_round.
Qed.
Print Assumptions C85_exact.
Example C85_exact_example :  (* -0.0 and 0.1's exact neighbour 0.125 *)
  numeral [45; 48; 46; 48] true 0 0 (-1) /\ decimal true 0 (-1) = real (S754_zero true) /\ parse_float [45; 48; 46; 48] = Some (2 ^ 63) /\
  parse_float [48; 46; 49; 50; 53] = Some 0x3FC0000000000000.
Proof.
  split; [|split; [|split; vm_compute; reflexivity]].
  - apply (num_ true [45] [48] [46] [48] 0 []); [constructor|repeat (apply Forall_cons; [lia|]); apply Forall_nil..|discriminate|now left|constructor].
  - unfold decimal, real. cbn [SF2R]. ring.
Qed.

(** Whole numbers up to 2^53 are exact *)
Theorem C85_whole :
  forall neg sg ds, signed neg sg -> digits ds -> ds <> [] -> spelled ds <= 2 ^ 53 ->
  exists v, parse_float (sg ++ ds) = Some v /\ real (fdecode v) = IZR (if neg then - spelled ds else spelled ds) /\ sign_SF (fdecode v) = neg.
Proof.
  intros neg sg ds Hs Hd Hn B. pose proof (spelled_bound ds Hd) as P.
  assert (N : numeral (sg ++ ds) neg (spelled ds) 0 0).
  { pose proof (num_ neg sg ds [] [] 0 [] Hs Hd (Forall_nil _)) as N. rewrite !app_nil_r in N. cbn [app length] in N. apply N; auto. constructor. }
  assert (X : decimal neg (spelled ds) 0 = IZR (if neg then - spelled ds else spelled ds)).
  { unfold decimal. cbn [powerRZ]. destruct neg; [rewrite opp_IZR|]; ring. }
  assert (Fm : generic_format radix2 dfexp (decimal neg (spelled ds) 0)).
  { rewrite X. replace (IZR (if neg then - spelled ds else spelled ds)) with (IZR (2 * (if neg then - spelled ds else spelled ds)) / 2)%R by (rewrite mult_IZR; lra).
    destruct (Z.eq_dec (spelled ds) (2 ^ 53)) as [Q|Q].
    - rewrite Q. apply generic_format_FLT. apply FLT_spec with (Float radix2 (if neg then -1 else 1) 53).
      + unfold F2R. cbn [Fnum Fexp]. change (bpow radix2 53) with (IZR (2 ^ 53)). rewrite mult_IZR.
        destruct neg; [rewrite opp_IZR|]; lra.
      + cbn [Fnum]. destruct neg; vm_compute; reflexivity.
      + cbn [Fexp]. vm_compute. discriminate.
    - replace (IZR (2 * (if neg then - spelled ds else spelled ds)) / 2)%R with (IZR (if neg then - spelled ds else spelled ds)) by (rewrite mult_IZR; lra).
      apply generic_format_FLT. apply FLT_spec with (Float radix2 (if neg then - spelled ds else spelled ds) 0).
      + unfold F2R. cbn [Fnum Fexp]. change (bpow radix2 0) with 1%R. ring.
      + cbn [Fnum]. change (radix2 ^ 53) with (2 ^ 53). destruct neg; lia.
      + cbn [Fexp]. vm_compute. discriminate. }
  assert (T : ~ too_big (decimal neg (spelled ds) 0)).
  { apply Rlt_not_le. rewrite X, <- abs_IZR. apply IZR_lt. apply Z.le_lt_trans with (2 ^ 53); [destruct neg; lia|vm_compute; reflexivity]. }
  destruct (parse_numeral _ _ _ _ _ N ltac:(lia)) as [A _]. destruct (A T) as (f & _ & Q & D & F & E & S).
  exists (float_bits f). rewrite D. repeat split; auto. rewrite E, <- X. apply round_generic; [typeclasses eauto|assumption].
Qed.
Print Assumptions C85_whole.
Example C85_whole_example : digits [57; 48; 48; 55] /\ spelled [57; 48; 48; 55] = 9007 /\ 9007 <= 2 ^ 53.
Proof. split; [repeat (apply Forall_cons; [lia|]); apply Forall_nil|]. split; [reflexivity|lia]. Qed.

(** Order is kept: a number that is not greater is not taken as a greater float *)
Theorem C85_order :
  forall s1 neg1 n1 e1 k1 s2 neg2 n2 e2 k2 v1 v2,
  numeral s1 neg1 n1 e1 k1 -> Z.abs e1 < 100000 -> numeral s2 neg2 n2 e2 k2 -> Z.abs e2 < 100000 ->
  parse_float s1 = Some v1 -> parse_float s2 = Some v2 ->
  (decimal neg1 n1 k1 <= decimal neg2 n2 k2)%R -> fle v1 v2 = true.
Proof.
  intros s1 neg1 n1 e1 k1 s2 neg2 n2 e2 k2 v1 v2 H1 B1 H2 B2 P1 P2 L.
  destruct (parse_numeral _ _ _ _ _ H1 B1) as [A1 O1]. destruct (parse_numeral _ _ _ _ _ H2 B2) as [A2 O2].
  destruct A1 as (f1 & _ & Q1 & D1 & F1 & E1 & _); [intros T; rewrite (O1 T) in P1; discriminate|].
  destruct A2 as (f2 & _ & Q2 & D2 & F2 & E2 & _); [intros T; rewrite (O2 T) in P2; discriminate|].
  rewrite Q1 in P1. rewrite Q2 in P2. injection P1 as <-. injection P2 as <-. unfold fle. rewrite D1, D2.
  destruct (float64_b f1 F1) as (b1 & X1 & G1 & R1). destruct (float64_b f2 F2) as (b2 & X2 & G2 & R2). rewrite X1, X2.
  change (SFleb (B2SF b1) (B2SF b2)) with (Bleb b1 b2). rewrite Bleb_correct by assumption. apply Rle_bool_true.
  rewrite <- R1, <- R2, E1, E2. apply round_le; [typeclasses eauto|typeclasses eauto|assumption].
Qed.
Print Assumptions C85_order.
(** 0.1 and 1e-1 *)
Example C85_order_example :
  numeral [48; 46; 49] false 1 0 (-1) /\ numeral [49; 101; 45; 49] false 1 (-1) (-1) /\
  parse_float [48; 46; 49] = Some 0x3FB999999999999A /\ parse_float [49; 101; 45; 49] = Some 0x3FB999999999999A.
Proof.
  split; [|split; [|split; vm_compute; reflexivity]].
  - apply (num_ false [] [48] [46] [49] 0 []); [constructor|repeat (apply Forall_cons; [lia|]); apply Forall_nil..|discriminate|now left|constructor].
  - apply (num_ false [] [49] [] [] (-1) [101; 45; 49]); [constructor|repeat (apply Forall_cons; [lia|]); apply Forall_nil..|discriminate|now right|].
    apply (ex_some true 101 [45] [49]); [now left|constructor|repeat (apply Forall_cons; [lia|]); apply Forall_nil|discriminate].
Qed.

(** What a line does: one more value for its metric, the float64 nearest to the
    number on the line; a line with an infinity or nan is accepted and does nothing;
    every other line is refused and does nothing *)
Definition means_number (value : list Z) (v : Z) : Prop :=
  exists neg n e k, numeral value neg n e k /\ (Z.abs e < 100000 -> ~ too_big (decimal neg n k) /\ nearest (decimal neg n k) (fdecode v)).
Theorem C85_line :
  forall p now line h s s' ok,
  w_hist p h s -> handle_line parse_float p now line s = Ok (ok, s') ->
  (ok = true -> exists metric value rest, three_fields line metric value rest /\
     ((exists v, means_number value v /\ finite v /\ w_hist p (h ++ [EAdd now metric v []]) s' /\
         forall m, pending m (h ++ [EAdd now metric v []]) = pending m h ++ (if beqb m metric then [(v, [])] else [])) \/
      (((exists neg, infinite_word neg value) \/ nan_word value) /\ s' = s))) /\
  (ok = false -> s' = s /\
     forall metric value rest, three_fields line metric value rest -> ~ (exists neg, infinite_word neg value) /\ ~ nan_word value /\
       forall neg n e k, numeral value neg n e k -> Z.abs e < 100000 -> too_big (decimal neg n k)).
Proof.
  intros p now line h s s' ok Hh E. destruct (C44_effect parse_float p now line h s s' ok Hh E) as [A O]. split.
  - intros ->. destruct (A eq_refl) as (metric & v & (value & rest & T & P) & W & Pn). exists metric, value, rest. split; [assumption|].
    destruct (C85_words value) as (_ & _ & C). destruct (C v P) as [[I L]|[[I L]|(N & I & neg & n & e & k & Nu)]].
    + right. split; [now left|]. rewrite (handle_line_says parse_float p now line s metric v) in E by (exists value, rest; auto).
      unfold w_add, w_skip in E. rewrite I in E. cbn in E. now injection E.
    + right. split; [now right|]. rewrite (handle_line_says parse_float p now line s metric v) in E by (exists value, rest; auto).
      unfold w_add, w_skip in E. rewrite I, orb_true_r in E. cbn in E. now injection E.
    + left. exists v. split; [|split; [|split; [assumption|]]].
      * exists neg, n, e, k. split; [assumption|]. intros B. destruct (parse_numeral _ _ _ _ _ Nu B) as [A1 O1].
        assert (T' : ~ too_big (decimal neg n k)) by (intros T'; rewrite (O1 T') in P; discriminate). split; [assumption|].
        destruct (A1 T') as (f & _ & Q & D & F & R & _). rewrite Q in P. injection P as <-. rewrite D. now apply nearest_of_round.
      * unfold finite. split; [|auto]. unfold parse_float in P. destruct (parse_spec value) as [f|] eqn:Ps; [|discriminate]. cbn [option_map] in P. injection P as <-.
        unfold parse_spec in Ps. destruct (read_word value) as [g|] eqn:Rw.
        { injection Ps as ->. apply read_word_iff in Rw. destruct Rw as [(b & -> & _)|[-> _]]; [now destruct b|discriminate]. }
        destruct (read_number value) as [[[neg' n'] k']|] eqn:Rn; [|discriminate].
        destruct (read_number_sound _ _ _ _ Rn) as (sg & ip & dot & fp & e' & ex & _ & _ & Hi & Hf & _ & _ & _ & -> & ->).
        assert (Pp : 0 <= spelled (ip ++ fp)) by (apply spelled_bound; now apply Forall_app).
        destruct (nearest_float_ok neg' _ (e' - Z.of_nat (length fp)) Pp) as [A1 O1].
        assert (T' : ~ too_big (decimal neg' (spelled (ip ++ fp)) (e' - Z.of_nat (length fp)))) by (intros T'; rewrite (O1 T') in Ps; discriminate).
        destruct (A1 T') as (F & _). assert (X : f = nearest_float neg' (spelled (ip ++ fp)) (e' - Z.of_nat (length fp))).
        { destruct F as [_ F]. destruct (nearest_float _ _ _); try discriminate; now injection Ps. }
        rewrite <- X in F. apply fdecode_bits; [apply F|]. destruct F as [_ F]. destruct f; try reflexivity; discriminate.
      * intros m. rewrite (Pn m). unfold counts. rewrite N, I. cbn. now rewrite andb_true_r.
  - intros ->. split; [now apply O|]. intros metric value rest T.
    assert (P : parse_float value = None).
    { destruct (parse_float value) as [v|] eqn:P; [|reflexivity]. exfalso.
      destruct (C44_accepted parse_float p now line s s' false E) as [_ K]. assert (false = true); [|discriminate]. apply K.
      exists metric, value, rest. split; [assumption|congruence]. }
    destruct (C85_words value) as (Wi & Wn & _). split; [|split].
    + intros (neg & H). destruct (Wi neg H) as (v & Q & _). congruence.
    + intros H. destruct (Wn H) as (v & Q & _). congruence.
    + intros neg n e k Nu B. destruct (parse_numeral _ _ _ _ _ Nu B) as [A1 _].
      unfold too_big. apply Rnot_lt_le. intros L. destruct A1 as (f & _ & Q & _); [now apply Rlt_not_le|congruence].
Qed.
Print Assumptions C85_line.
(** "m 0.1 0", "m nan 0", "m 0x1 0" *)
Example C85_line_example :
  (exists s', handle_line parse_float ex_params 10 [109; 32; 48; 46; 49; 32; 48] w_new = Ok (true, s')) /\
  handle_line parse_float ex_params 10 [109; 32; 110; 97; 110; 32; 48] w_new = Ok (true, w_new) /\
  handle_line parse_float ex_params 10 [109; 32; 48; 120; 49; 32; 48] w_new = Ok (false, w_new).
Proof. split; [|split; vm_compute; reflexivity]. eexists. vm_compute. reflexivity. Qed.

Lemma spelled_zeros z ds : spelled (repeat 48 z ++ ds) = spelled ds.
Proof. induction z as [|z IH]; [reflexivity|]. cbn [repeat app spelled]. rewrite IH. lia. Qed.
Lemma digits_zeros z : digits (repeat 48 z).
Proof. induction z; cbn [repeat]; constructor; auto. lia. Qed.
(** The bound on the exponent is needed: "0.", 10400 zeros, "1e100000", short enough
    for a line, is far beyond the greatest float64 and is taken as 0 *)
Theorem C85_long_exponent_refuted :
  exists s neg n e k, numeral s neg n e k /\ Z.of_nat (length s) < 65536 /\ too_big (decimal neg n k) /\ parse_float s = Some 0.
Proof.
  set (z := Z.to_nat 10400). set (fp := repeat 48 z ++ [49]).
  assert (Hf : digits fp) by (apply Forall_app; split; [apply digits_zeros|repeat (apply Forall_cons; [lia|]); apply Forall_nil]).
  assert (Hi : digits [48]) by (repeat (apply Forall_cons; [lia|]); apply Forall_nil).
  assert (Hx : digits [49; 48; 48; 48; 48; 48]) by (repeat (apply Forall_cons; [lia|]); apply Forall_nil).
  assert (Lf : Z.of_nat (length fp) = 10401) by (unfold fp; rewrite app_length, repeat_length; unfold z; cbn [length]; lia).
  assert (Sp : spelled ([48] ++ fp) = 1) by (change ([48] ++ fp) with (repeat 48 1 ++ (repeat 48 z ++ [49])); rewrite !spelled_zeros; reflexivity).
  exists ([] ++ [48] ++ [46] ++ fp ++ [101; 49; 48; 48; 48; 48; 48]), false, (spelled ([48] ++ fp)), 100000, (100000 - Z.of_nat (length fp)).
  split; [|split; [|split]].
  - apply num_; auto; [constructor|discriminate|]. apply (ex_some false 101 [] [49; 48; 48; 48; 48; 48]); [now left|constructor|assumption|discriminate].
  - rewrite !app_length. cbn [length]. lia.
  - rewrite Sp, Lf. unfold too_big, decimal. rewrite powerRZ_Z by lia. rewrite !Rmult_1_l, Rabs_pos_eq.
    2:{ apply IZR_le. apply Z.pow_nonneg. lia. }
    apply IZR_le. apply Z.le_trans with (10 ^ 309); [vm_compute; discriminate|]. apply Z.pow_le_mono_r; lia.
  - assert (R : read_number ([] ++ [48] ++ [46] ++ fp ++ [101; 49; 48; 48; 48; 48; 48]) = Some (false, spelled ([48] ++ fp), 10000 - Z.of_nat (length fp))).
    { apply read_number_complete; auto; [constructor|discriminate|]. apply (er_some false 101 [] [49; 48; 48; 48; 48; 48]); [now left|constructor|assumption|discriminate]. }
    unfold parse_float, parse_spec. rewrite (numeral_not_word _ _ _ _ R), R, Sp, Lf. vm_compute. reflexivity.
Qed.
Print Assumptions C85_long_exponent_refuted.
