(** Property C86: floats in JSON answers read back exactly and are short. *)
From Coq Require Import ZArith Reals List Bool Lia Lra.
From Coq Require Import Floats.SpecFloat.
From Flocq Require Import Core.Core IEEE754.BinarySingleNaN.
From Verif Require Import Base Float FloatReal Number NumberSpec NumberProofs NumberReal Props_Number Server Merge Convert ConvertProofs Json JsonSpec JsonProofs Props_Json DrawFloat
  Format FormatSpec FormatProofs FloatText FloatTextProofs FloatTextRead FloatTextClose FloatValid.
Import ListNotations.
Open Scope Z_scope.

Lemma abs_real neg m e : Rabs (real (S754_finite neg m e)) = (IZR (Zpos m) * bpow radix2 e)%R.
Proof.
  unfold real, SF2R. change (IZR (Z.pos m) * bpow radix2 e)%R with (F2R (Float radix2 (Zpos m) e)). pose proof (F2R_gt_0 radix2 (Float radix2 (Zpos m) e) eq_refl) as P. destruct neg; cbn [cond_Zopp].
  - change (Float radix2 (Z.neg m) e) with (Float radix2 (- Zpos m) e). rewrite F2R_Zopp, Rabs_Ropp, Rabs_pos_eq by lra. reflexivity.
  - rewrite Rabs_pos_eq by lra. reflexivity.
Qed.
Lemma real_sg x : float64 x -> real x = sg (sign_SF x) (Rabs (real x)).
Proof.
  intros F. destruct x as [s|s| |s m e]; try (destruct F; discriminate); unfold sg, sign_SF.
  - unfold real, SF2R. rewrite Rabs_R0. destruct s; lra.
  - rewrite abs_real. unfold real, SF2R. change (IZR (Z.pos m) * bpow radix2 e)%R with (F2R (Float radix2 (Zpos m) e)). destruct s; cbn [cond_Zopp]; [|reflexivity].
    change (Float radix2 (Z.neg m) e) with (Float radix2 (- Zpos m) e). now rewrite F2R_Zopp.
Qed.
(** the digits round to the float64 *)
Lemma digits_round x : float64 x -> rnd (dval (digits_of x)) = Rabs (real x).
Proof.
  intros F. destruct x as [s|s| |s m e]; try (destruct F; discriminate).
  - unfold digits_of, dval. cbn [dc_d dc_dp]. change (num []) with 0. rewrite Rmult_0_l, round_0 by typeclasses eauto. unfold real, SF2R. now rewrite Rabs_R0.
  - destruct F as [V Fi]. destruct (shortest_ok s m e V) as (G & N & R & _). cbv zeta in *. cbn [digits_of]. apply (reads_iff s _ _ (conj V Fi) eq_refl (gd_dig _ G)) in R. exact R.
Qed.
Lemma text_numeral_of x : float64 x -> exists n e k, numeral (json_number_text x) (sign_SF x) n e k /\ Z.abs e < 1000 /\ 0 <= n /\ NumberSpec.decimal (sign_SF x) n k = sg (sign_SF x) (dval (digits_of x)).
Proof.
  intros F. destruct (text_parts x F) as (ip & fp & ex & -> & T & B & E). exists (num (ip ++ fp)), (exp_of ex), (exp_of ex - len fp).
  split; [now apply text_numeral|]. split; [exact B|]. split.
  - destruct T as (Hi & Hf & _). apply (num_bound (ip ++ fp)). apply Forall_app. now split.
  - now rewrite decimal_real, E.
Qed.

(** * reading *)
(** The text of a finite float64 is a number (with the float64's sign, zeros too), and
    the float64 is the one nearest to it ... *)
Theorem C86_nearest : forall x, float64 x ->
  exists n e k, numeral (json_number_text x) (sign_SF x) n e k /\ Z.abs e < 1000 /\ nearest (NumberSpec.decimal (sign_SF x) n k) x.
Proof.
  intros x F. destruct (text_numeral_of x F) as (n & e & k & N & B & Hn & E). exists n, e, k. split; [exact N|]. split; [exact B|].
  apply nearest_of_round; [exact F|]. rewrite E, rnd_sg, digits_round by exact F. now apply real_sg.
Qed.
Print Assumptions C86_nearest.
(** ... so that reading it gives the same bits *)
Theorem C86_reads_back : forall x, float64 x -> parse_float (json_number_text x) = Some (float_bits x) /\ fdecode (float_bits x) = x.
Proof.
  intros x F. destruct (text_numeral_of x F) as (n & e & k & N & B & Hn & E). destruct (parse_numeral _ _ _ _ _ N ltac:(lia)) as [A _].
  assert (R : rnd (NumberSpec.decimal (sign_SF x) n k) = real x) by (rewrite E, rnd_sg, digits_round by exact F; symmetry; now apply real_sg).
  assert (T : ~ too_big (NumberSpec.decimal (sign_SF x) n k)) by (apply Rlt_not_le; fold midf; apply rnd_overflow; rewrite R; now apply below_top).
  destruct (A T) as (f & _ & P & D & Ff & Rf & Sf). assert (f = x) by (apply float64_unique; auto; congruence). subst f. split; assumption.
Qed.
Print Assumptions C86_reads_back.
(** The text is a number of JSON. *)
Theorem C86_json : forall x, float64 x -> is_json_number (json_number_text x) = true.
Proof. intros x F. destruct (text_parts x F) as (ip & fp & ex & -> & T & _). now apply text_json. Qed.
Print Assumptions C86_json.

(** * length *)
Lemma reads_round x s n e k : float64 x -> numeral s (sign_SF x) n e k -> Z.abs e < 100000 -> parse_float s = Some (float_bits x) ->
  0 <= n /\ rnd (NumberSpec.decimal (sign_SF x) n k) = real x.
Proof.
  intros F N B P. destruct (numeral_read _ _ _ _ _ N B) as [_ Hn]. split; [exact Hn|]. destruct (parse_numeral _ _ _ _ _ N B) as [A O].
  destruct (Rlt_or_le (Rabs (NumberSpec.decimal (sign_SF x) n k)) midf) as [L|L]; [|rewrite (O L) in P; discriminate].
  destruct (A (Rlt_not_le _ _ L)) as (f & _ & P' & D & Ff & Rf & _). rewrite P in P'. injection P' as P'.
  assert (f = x). { rewrite <- D, <- P'. apply fdecode_bits; [apply F|]. apply not_nan, F. } congruence.
Qed.
Lemma sg_abs neg a b : (Rabs (sg neg a - sg neg b) = Rabs (a - b))%R.
Proof. unfold sg. destruct neg; [|reflexivity]. replace (- a - - b)%R with (- (a - b))%R by ring. apply Rabs_Ropp. Qed.
(** The text of a number but 0 has q digits, without the zeros it begins or ends with:
    its value is c * 10^j for a c of q digits.  Whatever else reads as this float64 has
    no fewer digits, and if it has as many it is no closer to the float64. *)
Theorem C86_shortest : forall x, float64 x -> real x <> 0%R ->
  exists n e k c j q,
    numeral (json_number_text x) (sign_SF x) n e k /\ NumberSpec.decimal (sign_SF x) n k = NumberSpec.decimal (sign_SF x) c j /\
    1 <= q /\ 10 ^ (q - 1) <= c < 10 ^ q /\ c mod 10 <> 0 /\
    forall s n' e' k', numeral s (sign_SF x) n' e' k' -> Z.abs e' < 100000 -> parse_float s = Some (float_bits x) ->
      10 ^ (q - 1) <= n' /\
      (n' < 10 ^ q -> (Rabs (NumberSpec.decimal (sign_SF x) c j - real x) <= Rabs (NumberSpec.decimal (sign_SF x) n' k' - real x))%R).
Proof.
  intros x F NZ. destruct (text_numeral_of x F) as (n & e & k & N & _ & Hn & E).
  destruct x as [s|s| |s m ex]; try (destruct F; discriminate); [now destruct NZ|]. destruct F as [V Fi].
  set (x := S754_finite s m ex) in *. assert (F : float64 x) by (split; assumption). cbn [sign_SF digits_of x] in *.
  destruct (shortest_ok s m ex V) as (G & Nd & _). cbv zeta in *. set (d := shortest s m ex) in *.
  assert (Ld : (1 <= length (dc_d d))%nat) by (destruct (dc_d d); [easy|cbn [length]; lia]).
  exists n, e, k, (num (dc_d d)), (dc_dp d - len (dc_d d)), (len (dc_d d)).
  assert (Ge : 10 ^ (len (dc_d d) - 1) <= num (dc_d d)).
  { pose proof (gd_hd _ G Nd) as Hh. pose proof (gd_dig _ G) as Fd. destruct (dc_d d) as [|y r]; [easy|]. cbn [hd] in Hh. assert (dig y) by (now inversion Fd). assert (Fr : Forall dig r) by (now inversion Fd). unfold dig in H. rewrite num_cons. pose proof (num_bound _ Fr).
    replace (len (y :: r) - 1) with (len r) by (unfold len; cbn [length]; lia). assert (0 < 10 ^ len r) by (apply pow_pos_; unfold len; lia). nia. }
  assert (Lt : num (dc_d d) < 10 ^ len (dc_d d)) by apply (num_bound _ (gd_dig _ G)).
  split; [exact N|]. split; [rewrite E, decimal_real; reflexivity|]. split; [unfold len; lia|]. split; [split; assumption|]. split.
  { pose proof (gd_last _ G Nd) as Hl. pose proof (gd_dig _ G) as Fd. destruct (exists_last Nd) as (r & y & Er). rewrite Er in *. rewrite last_last in Hl. apply Forall_app in Fd as [_ Fy].
    assert (dig y) by (now inversion Fy). unfold dig in H. rewrite num_app. change (len [y]) with 1. change (num [y]) with y. change (10 ^ 1) with 10. rewrite Z.add_comm, Z_mod_plus_full, Z.mod_small by lia. lia. }
  intros t n' e' k' Nt Bt Pt. destruct (reads_round x t n' e' k' F Nt Bt Pt) as [Hn' R].
  assert (Ra : rnd (IZR n' * bpow ten k') = Rabs (real x)).
  { rewrite decimal_real, rnd_sg in R. rewrite (real_sg x F) in R. now apply sg_inj in R. }
  split.
  - destruct (Z_lt_le_dec n' (10 ^ (len (dc_d d) - 1))) as [C|C]; [exfalso|exact C].
    destruct (Nat.eq_dec (length (dc_d d)) 1) as [L1|L1].
    + unfold len in C. rewrite L1 in C. change (10 ^ (Z.of_nat 1 - 1)) with 1 in C. assert (n' = 0) by lia. subst n'. rewrite Rmult_0_l, round_0 in Ra by typeclasses eauto.
      apply NZ. destruct (Req_dec (real x) 0); [assumption|]. apply Rabs_pos_lt in H. lra.
    + apply (fewer s m ex n' k' (length (dc_d d) - 1) V); [fold d; lia| |].
      * split; [lia|]. unfold len in C. replace (Z.of_nat (length (dc_d d) - 1)) with (Z.of_nat (length (dc_d d)) - 1) by lia. exact C.
      * apply (nearest_is s n' k' x Hn' F eq_refl). exact R.
  - intros C. pose proof (shortest_close s m ex V n' k' ltac:(cbv zeta; fold d; split; [lia|exact C]) Ra) as K. fold d in K. fold x in K.
    rewrite !decimal_real. rewrite (real_sg x F) at 1 2. cbn [sign_SF x]. rewrite !sg_abs. exact K.
Qed.
Print Assumptions C86_shortest.

(** * exponents *)
Lemma no_e l : Forall dig l -> ~ In 101 (chars l).
Proof. intros H X. unfold chars in X. apply in_map_iff in X as (d & E & Hd). rewrite Forall_forall in H. apply H in Hd. unfold dig in Hd. lia. Qed.
(** There is an exponent exactly in texts of numbers but 0 that are below the float64
    1e-6 or not below 1e21. *)
Theorem C86_exponent : forall x small large, float64 x ->
  parse_float [49; 101; 45; 54] = Some small -> parse_float [49; 101; 50; 49] = Some large ->
  In 101 (json_number_text x) <-> real x <> 0%R /\ (Rabs (real x) < real (fdecode small) \/ real (fdecode large) <= Rabs (real x))%R.
Proof.
  intros x small large F Hs Hl.
  assert (Es : fdecode small = small_limit) by (vm_compute in Hs; injection Hs as <-; reflexivity).
  assert (El : fdecode large = large_limit) by (vm_compute in Hl; injection Hl as <-; reflexivity).
  rewrite Es, El. clear Hs Hl Es El small large.
  destruct x as [s|s| |s m e]; try (destruct F; discriminate).
  - split; [|intros [X _]; now destruct X]. intros X. exfalso. destruct s; cbn in X; repeat (destruct X as [X|X]; [discriminate|]); exact X.
  - destruct F as [V Fi]. assert (F : float64 (S754_finite false m e)) by (split; [exact V|reflexivity]).
    assert (Fs : float64 small_limit) by (split; [apply fdecode_valid|reflexivity]). assert (Fl : float64 large_limit) by (split; [apply fdecode_valid|reflexivity]).
    destruct (float64_b _ F) as (b & Eb & Fb & Rb). destruct (float64_b _ Fs) as (bs & Ebs & Fbs & Rbs). destruct (float64_b _ Fl) as (bl & Ebl & Fbl & Rbl).
    assert (Ra : Rabs (real (S754_finite s m e)) = real (S754_finite false m e)) by (rewrite abs_real; reflexivity).
    assert (NZ : real (S754_finite s m e) <> 0%R).
    { intros X. rewrite X, Rabs_R0 in Ra. pose proof (F2R_gt_0 radix2 (Float radix2 (Zpos m) e) eq_refl) as P. unfold real, SF2R in Ra. cbn [cond_Zopp] in Ra. lra. }
    assert (C : SFltb (S754_finite false m e) small_limit || SFleb large_limit (S754_finite false m e) = true <->
      (Rabs (real (S754_finite s m e)) < real small_limit \/ real large_limit <= Rabs (real (S754_finite s m e)))%R).
    { rewrite Ra, Rb, Rbs, Rbl. rewrite Eb, Ebs, Ebl, SFltb_real, SFleb_real by assumption. rewrite orb_true_iff.
      split; (intros [H|H]; [left|right]).
      - revert H. case Rlt_bool_spec; [auto|discriminate].
      - revert H. case Rle_bool_spec; [auto|discriminate].
      - now apply Rlt_bool_true.
      - now apply Rle_bool_true. }
    destruct (shortest_ok s m e V) as (G & Nd & _). cbv zeta in *. pose proof (shortest_dp s m e V) as D. cbn [json_number_text].
    destruct (SFltb _ _ || SFleb _ _).
    + split; [|intros _]; [intros _; split; [exact NZ|now apply C]|].
      unfold fmt_e. destruct (shortest s m e) as [l dp] eqn:Ed. cbn [dc_d dc_dp] in *. rewrite !app_assoc.
      match goal with |- In _ (clean_exp (?p ++ _)) => destruct (exp_clean p (match l with [] => 0 | _ => dp - 1 end) ltac:(destruct l; [easy|lia])) as (ds & _ & _ & _ & X) end.
      destruct l as [|y r]; [easy|]. rewrite X. apply in_or_app. right. left. reflexivity.
    + split; [|intros [_ H]; apply C in H; discriminate]. intros X. exfalso. destruct (plain_text s _ G Nd) as (ip & fp & Et & (Ti & Tf & _) & _). cbv zeta in Et. rewrite Et in X. unfold number_text in X.
      apply in_app_iff in X as [X|X]; [destruct s; cbn in X; repeat (destruct X as [X|X]; [discriminate|]); exact X|].
      apply in_app_iff in X as [X|X]; [now apply no_e in X|]. apply in_app_iff in X as [X|[]]. unfold frac_text in X. destruct fp as [|f fp]; [destruct X|]. destruct X as [X|X]; [discriminate|now apply no_e in X].
Qed.
Print Assumptions C86_exponent.

(** * charts *)
From Coq Require Import String.
Open Scope list_scope.
Lemma writes : writes_numbers json_number_text.
Proof. intros f V J. apply C86_json. split; [exact V|]. destruct f; [reflexivity|discriminate..|reflexivity]. Qed.
(** what is found at a number: the text of a number, nearest to which is the float64;
    reading it gives its bits *)
Definition number_read (v : json) (x : spec_float) : Prop :=
  exists t n e k, v = NNum t /\ numeral t (sign_SF x) n e k /\ nearest (NumberSpec.decimal (sign_SF x) n k) x /\ parse_float t = Some (float_bits x) /\ fdecode (float_bits x) = x.
Definition floats_read (c : column) (v : json) : Prop :=
  exists x w data rate, is_int x (col_x c) /\ is_int w (col_w c) /\ v = NObj [(key "X", x); (key "W", w); (key "Data", NArr data); (key "ObsSec", rate)] /\
  Forall2 (fun v b => number_read v (fdecode b)) data (col_data c) /\ number_read rate (col_rate c).
Lemma number_reads x : SpecFloat.valid_binary 53 1024 x = true -> json_float x = true -> number_read (NNum (json_number_text x)) x.
Proof.
  intros V J. assert (F : float64 x) by (split; [exact V|]; destruct x; [reflexivity|discriminate..|reflexivity]).
  destruct (C86_nearest x F) as (n & e & k & A & _ & B). destruct (C86_reads_back x F) as [C D]. exists (json_number_text x), n, e, k. repeat (split; [assumption||reflexivity|]). exact D.
Qed.
(** The JSON answer of a chart has its columns, and their floats read back exactly. *)
Theorem C86_graph : forall metric cols earliest p, Forall byte metric -> Forall column_ok cols -> forallb json_column cols = true ->
  (forall l, earliest = Some l -> Forall byte l) -> window_ok p -> cols <> [] ->
  exists v rest columns, reads_json (graph_text json_number_text metric cols earliest p) v /\ graph_read json_number_text metric cols earliest p v /\
  v = NObj ((key "columns", NArr columns) :: rest) /\ Forall2 floats_read cols columns.
Proof.
  intros metric cols earliest p B C J E W NE. destruct (C84_graph json_number_text metric cols earliest p writes B C J E W) as (v & R & G). pose proof G as G0.
  destruct G as (columns & duration & first & height & name & now & padding & width & Ev & Hc & _).
  destruct cols as [|c0 cols0]; [easy|]. destruct Hc as (l & -> & Fl). set (cols := c0 :: cols0) in *. exists v. eexists. exists l. split; [exact R|]. split; [exact G0|]. split; [exact Ev|].
  clear - Fl C J. clearbody cols. rewrite forallb_forall in J. rewrite Forall_forall in C.
  induction Fl as [|c w cols l (x & y & Hx & Hy & ->) F IH]; [constructor|]. constructor; [|apply IH; intros z Hz; [apply C|apply J]; now right].
  pose proof (J c (or_introl eq_refl)) as Jc. unfold json_column in Jc. apply andb_prop in Jc as [J1 J2]. destruct (C c (or_introl eq_refl)) as (_ & _ & V).
  eexists x, y, _, _. split; [exact Hx|]. split; [exact Hy|]. split; [reflexivity|]. split; [|now apply number_reads].
  rewrite forallb_forall in J2. clear - J2. induction (col_data c) as [|b d IH]; [constructor|]. cbn [map]. constructor; [|apply IH; intros z Hz; apply J2; now right].
  apply number_reads; [apply fdecode_valid|]. apply data_float, J2. now left.
Qed.
Print Assumptions C86_graph.

(** * examples *)
Example C86_ex : json_number_text (fdecode 0x3FB999999999999A) = [48; 46; 49] (* 0.1 *) /\
  json_number_text (fdecode 0xC05EDD2F1A9FBE77) = [45; 49; 50; 51; 46; 52; 53; 54] (* -123.456 *) /\
  json_number_text (fdecode 0x4340000000000000) = [57; 48; 48; 55; 49; 57; 57; 50; 53; 52; 55; 52; 48; 57; 57; 50] (* 2^53 *) /\
  json_number_text (fdecode 1) = [53; 101; 45; 51; 50; 52] (* 5e-324 *) /\
  json_number_text (fdecode 0x8000000000000000) = [45; 48] /\
  json_number_text large_limit = [49; 101; 43; 50; 49].
Proof. vm_compute. repeat split; reflexivity. Qed.
Example C86_ex_float : float64 (fdecode 0x3FB999999999999A) /\ real (fdecode 0x3FB999999999999A) <> 0%R.
Proof.
  split; [split; reflexivity|]. intros X. pose proof (abs_real false 7205759403792794 (-56)) as A. change (fdecode 0x3FB999999999999A) with (S754_finite false 7205759403792794 (-56)) in X.
  rewrite X, Rabs_R0 in A. pose proof (F2R_gt_0 radix2 (Float radix2 7205759403792794 (-56)) eq_refl) as P. unfold F2R in P. cbn [Fnum Fexp] in P. lra.
Qed.
Example C86_ex_limits : parse_float [49; 101; 45; 54] = Some 0x3EB0C6F7A0B5ED8D /\ parse_float [49; 101; 50; 49] = Some 0x444B1AE4D6E2EF50.
Proof. vm_compute. split; reflexivity. Qed.
Example C86_ex_graph :
  let cols := [Col 1 2 [0x3FB999999999999A; 0xC05EDD2F1A9FBE77] (S754_zero false)] in
  Forall column_ok cols /\ forallb json_column cols = true /\ window_ok (MParams 1000 100 10 20 (-3)).
Proof. split; [constructor; [|constructor]|split; [reflexivity|]]; unfold column_ok, window_ok, is_i64; cbn; repeat split; lia. Qed.
