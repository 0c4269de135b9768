(** Property C84: the JSON answers of the api. *)
From Coq Require Import ZArith List Bool Lia SpecFloat String.
From Verif Require Import Base Convert ConvertProofs Float Merge QuerySpec Props_Query Server Props_Server Json JsonSpec JsonProofs JsonTree FloatValid.
Import ListNotations.
Open Scope Z_scope.
Open Scope list_scope.

(** * one reading *)
Lemma utf8_inj c d s t : scalar c -> scalar d -> utf8_of c ++ s = utf8_of d ++ t -> c = d /\ s = t.
Proof.
  intros C D. destruct (utf8_cases c C) as [[A1 U]|[(a1 & x1 & E1 & A1 & B1 & U)|[(a1 & x1 & y1 & E1 & A1 & B1 & C1 & D1 & F1 & U)|(a1 & x1 & y1 & z1 & E1 & A1 & B1 & C1 & D1 & F1 & U)]]];
  destruct (utf8_cases d D) as [[A2 V]|[(a2 & x2 & E2 & A2 & B2 & V)|[(a2 & x2 & y2 & E2 & A2 & B2 & C2 & D2 & F2 & V)|(a2 & x2 & y2 & z2 & E2 & A2 & B2 & C2 & D2 & F2 & V)]]];
  rewrite U, V; cbn [app]; intros H; unfold scalar in C, D;
  repeat match goal with X : _ :: _ = _ :: _ |- _ => apply cons_inv in X as [? ?] end; (split; [lia|assumption]) || (exfalso; lia).
Qed.
Lemma is_utf8_inj s l : is_utf8 s l -> forall m, is_utf8 s m -> l = m.
Proof.
  intros [F E]. subst s. induction F as [|c l Sc F IH]; intros [|d m] [G E]; [reflexivity| | |].
  - cbn [flat_map] in E. destruct (utf8_nonempty d) as (b & r & U). rewrite U in E. discriminate.
  - cbn [flat_map] in E. destruct (utf8_nonempty c) as (b & r & U). rewrite U in E. discriminate.
  - inversion G; subst. cbn [flat_map] in E. apply utf8_inj in E as [-> E]; [|assumption..]. f_equal. apply IH. split; assumption.
Qed.
Lemma shown_utf8 s l : is_utf8 s l -> forall m, shown_as s m -> m = l.
Proof.
  intros [F E]. revert s E. induction F as [|c l Sc F IH]; intros s E m H; cbn [flat_map] in E.
  - subst s. inversion H; subst; [reflexivity|]. destruct (utf8_nonempty c) as (b & r & U). rewrite U in *. discriminate.
  - subst s. inversion H; subst.
    + destruct (utf8_nonempty c) as (b & r & U). rewrite U in *. discriminate.
    + apply utf8_inj in H0 as [-> ->]; [|assumption..]. f_equal. now apply (IH _ eq_refl).
    + exfalso. eapply H1; [exact Sc|]. rewrite H0. reflexivity.
Qed.
Lemma is_utf8_bytes s l : is_utf8 s l -> Forall byte s.
Proof.
  intros [F ->]. induction F as [|c l Sc F IH]; [constructor|]. cbn [flat_map]. apply Forall_app. split; [|exact IH].
  unfold scalar in Sc. destruct (utf8_cases c Sc) as [[A ->]|[(a & x & _ & A & B & ->)|[(a & x & y & _ & A & B & C & D & G & ->)|(a & x & y & z & _ & A & B & C & D & G & ->)]]];
    repeat (apply Forall_cons; [unfold byte; lia|]); constructor.
Qed.
(** Bytes have at most one reading as JSON. *)
Theorem C84_one_reading : forall s v w, reads_json s v -> reads_json s w -> v = w.
Proof. intros s v w (t & T1 & T2) (u & U1 & U2). pose proof (is_utf8_inj _ _ T1 _ U1). subst u. congruence. Qed.
Print Assumptions C84_one_reading.

(** * names *)
Lemma chars_shown s : Forall byte s -> shown_as s (map fst (chars s)).
Proof. intros B. apply (quote_chars (List.length s) s (le_n _) B). Qed.
Lemma names_read names : Forall (Forall byte) names -> reads_json (names_text names) (NArr (map NStr (map (fun s => map fst (chars s)) names))).
Proof.
  intros B. assert (W : wf (JArr (map JStr names))) by (apply wf_arr, Forall_forall; intros v Hv; apply in_map_iff in Hv as (s & <- & Hs); rewrite Forall_forall in B; apply B, Hs).
  destruct (answer _ W) as [A1 A2]. exists (encc (JArr (map JStr names)) ++ [10]). split; [exact A1|]. rewrite A2. cbn [sem]. rewrite !map_map. reflexivity.
Qed.
(** Whatever bytes the names are, the answer is JSON in UTF-8: the list of the names, in
    order, with U+FFFD for what is not UTF-8. *)
Theorem C84_names : forall names, Forall (Forall byte) names ->
  exists shown, reads_json (names_text names) (NArr (map NStr shown)) /\ Forall2 shown_as names shown.
Proof.
  intros names B. eexists. split; [apply names_read, B|]. induction B; constructor; auto. now apply chars_shown.
Qed.
Print Assumptions C84_names.
(** Names in UTF-8 come back as they are ... *)
Theorem C84_exact : forall names texts, Forall2 is_utf8 names texts -> reads_json (names_text names) (NArr (map NStr texts)).
Proof.
  intros names texts F. assert (B : Forall (Forall byte) names) by (induction F; constructor; auto; eapply is_utf8_bytes; eauto).
  pose proof (names_read names B) as R. replace texts with (map (fun s => map fst (chars s)) names); [exact R|]. clear R.
  induction F as [|s l names texts U F IH]; [reflexivity|]. inversion B; subst. cbn [map]. f_equal; [|now apply IH]. eapply shown_utf8; [exact U|]. now apply chars_shown.
Qed.
Print Assumptions C84_exact.
Lemma texts_of l : Forall (fun s => exists t, is_utf8 s t) l -> exists ts, Forall2 is_utf8 l ts.
Proof. induction 1 as [|s l [t T] F [ts IH]]; [exists []; constructor|]. exists (t :: ts). constructor; assumption. Qed.
(** ... so the answer determines them. *)
Theorem C84_determined : forall a b, Forall (fun s => exists l, is_utf8 s l) a -> Forall (fun s => exists l, is_utf8 s l) b -> names_text a = names_text b -> a = b.
Proof.
  intros a b A B E.
  destruct (texts_of a A) as [ta Ta], (texts_of b B) as [tb Tb]. pose proof (C84_exact a ta Ta) as Ra. pose proof (C84_exact b tb Tb) as Rb. rewrite E in Ra.
  pose proof (C84_one_reading _ _ _ Ra Rb) as Y. injection Y as Y.
  assert (Et : ta = tb). { clear - Y. revert tb Y. induction ta as [|x ta IH]; intros [|y tb] Y; try discriminate; [reflexivity|]. cbn in Y. injection Y as -> Y. f_equal. now apply IH. }
  subst tb. clear - Ta Tb. revert b Tb. induction Ta as [|s t a ta [_ U] F IH]; intros b Tb; inversion Tb as [|? ? ? ? [_ V] G]; subst; [reflexivity|]. f_equal; now apply IH.
Qed.
Print Assumptions C84_determined.
(** REFUTED for other names: two names that are not UTF-8 get the same answer, and the
    name shown there is a third one. *)
Theorem C84_not_utf8_refuted : exists a b shown, Forall byte a /\ Forall byte b /\ a <> b /\ names_text [a] = names_text [b] /\
  reads_json (names_text [a]) (NArr [NStr shown]) /\ flat_map utf8_of shown <> a /\ flat_map utf8_of shown <> b.
Proof.
  exists [99; 97; 102; 233], [99; 97; 102; 232], [99; 97; 102; 0xFFFD].
  assert (B : forall x, 0 <= x <= 255 -> Forall byte [99; 97; 102; x]) by (intros x Hx; repeat (apply Forall_cons; [unfold byte; lia|]); constructor).
  split; [apply B; lia|]. split; [apply B; lia|]. split; [discriminate|]. split; [reflexivity|]. split; [|split; discriminate].
  apply (names_read [[99; 97; 102; 233]]). constructor; [apply B; lia|constructor].
Qed.
Print Assumptions C84_not_utf8_refuted.

(** * pages *)
(** No answer contains <, > or & (or, but for the last newline, control characters), so
    it cannot end or begin an element of a page. *)
Definition harmless (b : Z) : Prop := 32 <= b /\ b <> 60 /\ b <> 62 /\ b <> 38.
Lemma escape_harmless c : 0 <= c < 0x80 -> Forall harmless (escape c).
Proof.
  intros H. unfold escape, html_safe. destruct (_ && _) eqn:A; [apply Forall_cons; [unfold harmless; lia|constructor]|].
  destruct ((c =? 92) || (c =? 34)) eqn:B; [repeat (apply Forall_cons; [unfold harmless; lia|]); constructor|].
  destruct (c =? 10); [repeat (apply Forall_cons; [unfold harmless; lia|]); constructor|]. destruct (c =? 13); [repeat (apply Forall_cons; [unfold harmless; lia|]); constructor|]. destruct (c =? 9); [repeat (apply Forall_cons; [unfold harmless; lia|]); constructor|].
  assert (X : forall n, 0 <= n < 16 -> harmless (hex n)) by (intros n Hn; unfold hex, harmless; destruct (n <? 10) eqn:?; lia).
  rewrite Z.shiftr_div_pow2 by lia. change 15 with (Z.ones 4). rewrite Z.land_ones by lia.
  repeat (apply Forall_cons; [unfold harmless; lia|]).
  apply Forall_cons; [apply X; change (2 ^ 4) with 16; Z.div_mod_to_equations; lia|]. apply Forall_cons; [apply X; change (2 ^ 4) with 16; Z.div_mod_to_equations; lia|]. constructor.
Qed.
Lemma quotec_harmless s : Forall byte s -> Forall harmless (quotec s).
Proof.
  intros B. destruct (quote_chars (List.length s) s (le_n _) B) as (_ & _ & O). unfold quotec, chars. apply Forall_cons; [unfold harmless; lia|]. apply Forall_app. split; [|apply Forall_cons; [unfold harmless; lia|constructor]].
  induction O as [|[c bad] l [Sc Bd] O IH]; [constructor|]. cbn [flat_map]. apply Forall_app. split; [|exact IH]. cbn [fst snd] in *. unfold esc.
  destruct bad; [repeat (apply Forall_cons; [unfold harmless; lia|]); constructor|]. destruct (Z.ltb_spec c 0x80); [apply escape_harmless; unfold scalar in Sc; lia|].
  destruct ((c =? 0x2028) || (c =? 0x2029)) eqn:U; [|apply Forall_cons; [unfold harmless; lia|constructor]].
  assert (c = 0x2028 \/ c = 0x2029) as [->| ->] by lia; repeat (apply Forall_cons; [unfold harmless; cbn; lia|]); constructor.
Qed.
Lemma encc_harmless v : wf v -> Forall harmless (encc v).
Proof.
  induction v as [|t|s|l IH|l IH] using jvalue_rec'; intros W.
  - cbn [encc]. repeat (apply Forall_cons; [unfold harmless; lia|]). constructor.
  - cbn [encc wf] in *. apply number_chars in W as [D _]. rewrite forallb_forall in D. apply Forall_forall. intros c Hc. apply D in Hc. unfold number_char, digit in Hc. unfold harmless. lia.
  - now apply quotec_harmless.
  - apply wf_arr in W. cbn [encc]. apply Forall_cons; [unfold harmless; lia|]. apply Forall_app. split; [|apply Forall_cons; [unfold harmless; lia|constructor]].
    apply commas_forall; [unfold harmless; lia|]. rewrite Forall_forall in *. intros t Ht. apply in_map_iff in Ht as (v & <- & Hv). auto.
  - apply wf_obj in W. rewrite encc_obj. apply Forall_cons; [unfold harmless; lia|]. apply Forall_app. split; [|apply Forall_cons; [unfold harmless; lia|constructor]].
    apply commas_forall; [unfold harmless; lia|]. rewrite Forall_forall in *. intros t Ht. apply in_map_iff in Ht as (m & <- & Hm). destruct (W m Hm) as [Wk Wv]. unfold member. apply Forall_app. split; [now apply quotec_harmless|].
    apply Forall_cons; [unfold harmless; lia|]. auto.
Qed.
Lemma encode_harmless v : wf v -> Forall harmless (encode v).
Proof.
  intros W. rewrite encode_utf8 by exact W. pose proof (encc_harmless v W) as H. pose proof (encc_scalar v W) as S.
  induction H as [|c l Hc H IH]; [constructor|]. inversion S; subst. cbn [flat_map]. apply Forall_app. split; [|now apply IH].
  eapply Forall_impl; [|now apply utf8_bytes]. intros b [<-|X]; [exact Hc|unfold harmless; lia].
Qed.

(** * charts *)
(** what a reader should find: the numbers are integers by their decimal texts, floats
    by the text [num] gives them *)
Definition is_int (v : json) (n : Z) : Prop := exists t, v = NNum t /\ int_of t = Some n.
Definition key (s : string) : list Z := bytes_of s.
Definition column_read (num : spec_float -> list Z) (c : column) (v : json) : Prop :=
  exists x w, is_int x (col_x c) /\ is_int w (col_w c) /\
  v = NObj [(key "X", x); (key "W", w); (key "Data", NArr (map (fun b => NNum (num (fdecode b))) (col_data c))); (key "ObsSec", NNum (num (col_rate c)))].
Definition graph_read (num : spec_float -> list Z) (metric : list Z) (cols : list column) (earliest : option (list Z)) (p : mparams) (v : json) : Prop :=
  exists columns duration first height name now padding width,
  v = NObj [(key "columns", columns); (key "duration", duration); (key "earliest", first); (key "height", height); (key "metric", NStr name);
            (key "now", now); (key "padding", padding); (key "width", width)] /\
  match cols with [] => columns = NNull | _ => exists l, columns = NArr l /\ Forall2 (column_read num) cols l end /\
  match earliest with Some (b :: l) => exists t, first = NStr t /\ unbase64 t = Some (b :: l) | _ => first = NNull end /\
  shown_as metric name /\
  is_int duration (mp_dur p) /\ is_int height (mp_height p) /\ is_int now (mp_now p) /\ is_int padding (mp_padding p) /\ is_int width (mp_width p).

Lemma digits_lead f : forall n acc, 0 < n < 10 ^ Z.of_nat f -> exists d ds, digits f n acc = d :: ds ++ acc /\ 49 <= d <= 57 /\ forallb digit ds = true.
Proof.
  induction f as [|f IH]; intros n acc Hn; [cbn in Hn; lia|]. rewrite Nat2Z.inj_succ, Z.pow_succ_r in Hn by lia. cbn [digits].
  destruct (Z.eqb_spec (n / 10) 0) as [e|ne].
  - exists (48 + n mod 10), []. split; [reflexivity|]. split; [Z.div_mod_to_equations; lia|reflexivity].
  - destruct (IH (n / 10) ((48 + n mod 10) :: acc)) as (d & ds & E & D & F); [split; [|apply Z.div_lt_upper_bound; lia]; Z.div_mod_to_equations; lia|].
    exists d, (ds ++ [48 + n mod 10]). rewrite E, <- app_assoc. split; [reflexivity|]. split; [exact D|]. rewrite forallb_app, F. cbn [forallb]. unfold digit.
    rewrite !andb_true_r. cbn [andb]. Z.div_mod_to_equations. lia.
Qed.
Lemma skip_all l : forallb digit l = true -> skip_digits l = [].
Proof. induction l as [|c l IH]; [reflexivity|]. cbn [forallb skip_digits]. intros H. apply andb_prop in H as [-> H]. auto. Qed.
Lemma nat_of_undigits l : forall a, nat_of a l = undigits a l.
Proof. induction l as [|c l IH]; intros a; [reflexivity|]. cbn [nat_of undigits]. unfold digit. destruct (_ && _); auto. Qed.
Lemma itoa_json n : is_i64 n -> is_json_number (itoa n) = true /\ int_of (itoa n) = Some n.
Proof.
  intros Hn. unfold is_i64 in Hn. assert (P20 : 10 ^ Z.of_nat 20 = 100000000000000000000) by reflexivity.
  assert (K : forall m, 0 < m < 10 ^ Z.of_nat 20 -> exists d ds, digits 20 m [] = d :: ds /\ 49 <= d <= 57 /\ forallb digit ds = true /\ nat_of 0 (d :: ds) = Some m).
  { intros m Hm. destruct (digits_lead 20 m [] Hm) as (d & ds & E & D & F). rewrite app_nil_r in E. exists d, ds. split; [exact E|]. split; [exact D|]. split; [exact F|].
    destruct (digits_spec 20 m []) as (ds' & E' & _ & U & _); [lia|lia|]. rewrite app_nil_r in E'. rewrite nat_of_undigits, <- E, E'. exact U. }
  assert (J : forall d ds, 49 <= d <= 57 -> forallb digit ds = true -> match after_whole (d :: ds) with Some t => match after_fraction t with Some t => match after_exponent t with Some [] => true | _ => false end | None => false end | None => false end = true).
  { intros d ds D F. unfold after_whole. replace (d =? 48) with false by lia. cbn [after_digits]. replace (digit d) with true by (unfold digit; lia). rewrite skip_all by exact F. reflexivity. }
  unfold itoa. destruct (Z.ltb_spec n 0).
  - destruct (K (- n)) as (d & ds & -> & D & F & U); [lia|]. split; [unfold is_json_number; cbn [Z.eqb Pos.eqb]; now apply J|]. unfold int_of. cbn [Z.eqb Pos.eqb]. rewrite U. cbn [option_map]. f_equal. lia.
  - destruct (Z.eq_dec n 0) as [->|]; [split; reflexivity|]. destruct (K n) as (d & ds & -> & D & F & U); [lia|]. split.
    + unfold is_json_number. replace (d =? 45) with false by lia. now apply J.
    + unfold int_of. replace (d =? 45) with false by lia. exact U.
Qed.
(** base64 *)
Lemma base64_char_ok n : 0 <= n < 64 -> base64_value (base64_char n) = Some n /\ 43 <= base64_char n <= 122 /\ base64_char n <> 61.
Proof.
  intros H. unfold base64_char. destruct (Z.ltb_spec n 26); [|destruct (Z.ltb_spec n 52); [|destruct (Z.ltb_spec n 62); [|destruct (Z.eqb_spec n 62)]]]; unfold base64_value.
  - replace ((65 <=? 65 + n) && (65 + n <=? 90)) with true by lia. split; [f_equal; lia|lia].
  - replace ((65 <=? 71 + n) && (71 + n <=? 90)) with false by lia. replace ((97 <=? 71 + n) && (71 + n <=? 122)) with true by lia. split; [f_equal; lia|lia].
  - replace ((65 <=? n - 4) && (n - 4 <=? 90)) with false by lia. replace ((97 <=? n - 4) && (n - 4 <=? 122)) with false by lia. replace ((48 <=? n - 4) && (n - 4 <=? 57)) with true by lia. split; [f_equal; lia|lia].
  - subst n. split; [reflexivity|lia].
  - assert (n = 63) as -> by lia. split; [reflexivity|lia].
Qed.
Lemma group a b c : byte a -> byte b -> byte c -> let v := Z.lor (Z.lor (Z.shiftl a 16) (Z.shiftl b 8)) c in
  Z.land (Z.shiftr v 18) 63 = a / 4 /\ Z.land (Z.shiftr v 12) 63 = a mod 4 * 16 + b / 16 /\ Z.land (Z.shiftr v 6) 63 = b mod 16 * 4 + c / 64 /\ Z.land v 63 = c mod 64.
Proof.
  unfold byte. intros A B C. cbv zeta. rewrite <- Z.lor_assoc, (lor_shift b 8), (lor_shift a 16) by lia.
  change 63 with (Z.ones 6). rewrite !Z.land_ones, !Z.shiftr_div_pow2 by lia.
  change (2 ^ 18) with 262144. change (2 ^ 16) with 65536. change (2 ^ 12) with 4096. change (2 ^ 8) with 256. change (2 ^ 6) with 64.
  repeat split; Z.div_mod_to_equations; lia.
Qed.
Lemma unbase64_ok n : forall s, (List.length s <= n)%nat -> Forall byte s -> unbase64 (base64 s) = Some s /\ Forall (fun c => 43 <= c <= 122) (base64 s).
Proof.
  induction n as [|n IH]; intros s L B; [destruct s; [split; [reflexivity|constructor]|cbn in L; lia]|].
  destruct s as [|a [|b [|c s]]]; [split; [reflexivity|constructor]|..].
  - inversion B as [|? ? Ba _]; subst. cbn [base64]. cbv zeta. destruct (group a 0 0 Ba ltac:(unfold byte; lia) ltac:(unfold byte; lia)) as (G1 & G2 & _). cbv zeta in G1, G2.
    change (Z.shiftl 0 8) with 0 in G1, G2. rewrite !Z.lor_0_r in G1, G2. rewrite G1, G2. clear G1 G2. unfold byte in Ba.
    destruct (base64_char_ok (a / 4) ltac:(Z.div_mod_to_equations; lia)) as (E1 & F1 & _). destruct (base64_char_ok (a mod 4 * 16 + 0 / 16) ltac:(Z.div_mod_to_equations; lia)) as (E2 & F2 & _).
    split; [|repeat (apply Forall_cons; [lia|]); constructor]. cbn [unbase64]. rewrite E1, E2. cbn [Z.eqb Pos.eqb andb]. change (0 / 16) with 0.
    replace ((a mod 4 * 16 + 0) mod 16 =? 0) with true by (Z.div_mod_to_equations; lia). f_equal. f_equal. Z.div_mod_to_equations; lia.
  - inversion B as [|? ? Ba B1]; subst. inversion B1 as [|? ? Bb _]; subst. cbn [base64]. cbv zeta. destruct (group a b 0 Ba Bb ltac:(unfold byte; lia)) as (G1 & G2 & G3 & _). cbv zeta in G1, G2, G3.
    rewrite !Z.lor_0_r in G1, G2, G3. rewrite G1, G2, G3. clear G1 G2 G3. unfold byte in Ba, Bb.
    destruct (base64_char_ok (a / 4) ltac:(Z.div_mod_to_equations; lia)) as (E1 & F1 & _). destruct (base64_char_ok (a mod 4 * 16 + b / 16) ltac:(Z.div_mod_to_equations; lia)) as (E2 & F2 & _).
    destruct (base64_char_ok (b mod 16 * 4 + 0 / 64) ltac:(Z.div_mod_to_equations; lia)) as (E3 & F3 & N3).
    split; [|repeat (apply Forall_cons; [lia|]); constructor]. cbn [unbase64]. rewrite E1, E2, E3. replace (base64_char (b mod 16 * 4 + 0 / 64) =? 61) with false by lia. cbn [Z.eqb Pos.eqb andb]. change (0 / 64) with 0.
    replace ((b mod 16 * 4 + 0) mod 4 =? 0) with true by (Z.div_mod_to_equations; lia). f_equal. f_equal; [Z.div_mod_to_equations; lia|]. f_equal. Z.div_mod_to_equations; lia.
  - inversion B as [|? ? Ba B1]; subst. inversion B1 as [|? ? Bb B2]; subst. inversion B2 as [|? ? Bc B3]; subst. cbn [base64]. cbv zeta. destruct (group a b c Ba Bb Bc) as (G1 & G2 & G3 & G4). cbv zeta in G1, G2, G3, G4.
    rewrite G1, G2, G3, G4. clear G1 G2 G3 G4. unfold byte in Ba, Bb, Bc. destruct (IH s ltac:(cbn in L; lia) B3) as [U F].
    destruct (base64_char_ok (a / 4) ltac:(Z.div_mod_to_equations; lia)) as (E1 & F1 & _). destruct (base64_char_ok (a mod 4 * 16 + b / 16) ltac:(Z.div_mod_to_equations; lia)) as (E2 & F2 & _).
    destruct (base64_char_ok (b mod 16 * 4 + c / 64) ltac:(Z.div_mod_to_equations; lia)) as (E3 & F3 & N3). destruct (base64_char_ok (c mod 64) ltac:(Z.div_mod_to_equations; lia)) as (E4 & F4 & N4).
    split; [|cbn [app]; repeat (apply Forall_cons; [lia|]); exact F]. cbn [app unbase64]. rewrite E1, E2, E3, E4. replace (base64_char (b mod 16 * 4 + c / 64) =? 61) with false by lia. cbn [andb].
    replace (base64_char (c mod 64) =? 61) with false by lia. rewrite U. f_equal. f_equal; [Z.div_mod_to_equations; lia|]. f_equal; [Z.div_mod_to_equations; lia|]. f_equal. Z.div_mod_to_equations; lia.
Qed.
Lemma chars_ascii s : Forall (fun c => 0 <= c < 0x80) s -> map fst (chars s) = s.
Proof.
  intros H. apply (shown_utf8 s s).
  - split; [eapply Forall_impl; [|exact H]; intros a Ha; cbv beta in Ha; left; lia|]. symmetry. apply utf8_smalls. eapply Forall_impl; [|exact H]. intros a Ha. cbv beta in *. lia.
  - apply chars_shown. eapply Forall_impl; [|exact H]. intros a Ha. cbv beta in *. unfold byte. lia.
Qed.
(** integers of the machine, a float64 *)
Definition column_ok (c : column) : Prop := is_i64 (col_x c) /\ is_i64 (col_w c) /\ SpecFloat.valid_binary 53 1024 (col_rate c) = true.
Definition window_ok (p : mparams) : Prop := is_i64 (mp_now p) /\ is_i64 (mp_dur p) /\ is_i64 (mp_width p) /\ is_i64 (mp_height p) /\ is_i64 (mp_padding p).
(** a finite float64 is written as a JSON number; C86_json: the encoder's texts are *)
Definition writes_numbers (num : spec_float -> list Z) : Prop := forall f, SpecFloat.valid_binary 53 1024 f = true -> json_float f = true -> is_json_number (num f) = true.
Lemma bytes_key s : Forall byte (bytes_of s).
Proof. unfold bytes_of. induction s as [|a s IH]; constructor; [|exact IH]. unfold byte. destruct a as [b0 b1 b2 b3 b4 b5 b6 b7]. destruct b0, b1, b2, b3, b4, b5, b6, b7; cbn; lia. Qed.
Lemma data_float b : negb (fnan b) && negb (finf b) = true -> json_float (fdecode b) = true.
Proof. unfold fnan, finf, json_float. destruct (fdecode b); cbn; congruence. Qed.
Lemma column_wf num c : writes_numbers num -> column_ok c -> json_column c = true -> wf (column_json num c).
Proof.
  intros N (X & W & V) J. unfold json_column in J. apply andb_prop in J as [J1 J2]. unfold column_json. apply wf_obj.
  repeat (apply Forall_cons; [cbn [fst snd]; split; [apply bytes_key|]|]); try constructor.
  - apply itoa_json, X.
  - apply itoa_json, W.
  - apply wf_arr, Forall_forall. intros v Hv. apply in_map_iff in Hv as (b & <- & Hb). rewrite forallb_forall in J2. cbn [wf]. apply N; [apply fdecode_valid|]. apply data_float, J2, Hb.
  - cbn [wf]. now apply N.
Qed.
Lemma graph_wf num metric cols earliest p : writes_numbers num -> Forall byte metric -> Forall column_ok cols -> forallb json_column cols = true ->
  (forall l, earliest = Some l -> Forall byte l) -> window_ok p -> wf (graph_json num metric cols earliest p).
Proof.
  intros N M C J E (P1 & P2 & P3 & P4 & P5). unfold graph_json. apply wf_obj.
  apply Forall_cons; [cbn [fst snd]; split; [apply bytes_key|]|].
  { assert (X : Forall wf (map (column_json num) cols)).
    { apply Forall_forall. intros v Hv. apply in_map_iff in Hv as (c & <- & Hc). rewrite Forall_forall in C. rewrite forallb_forall in J. apply column_wf; auto. }
    destruct cols; [exact I|]. now apply wf_arr. }
  apply Forall_cons; [cbn [fst snd]; split; [apply bytes_key|apply itoa_json, P2]|].
  apply Forall_cons; [cbn [fst snd]; split; [apply bytes_key|]|].
  { destruct earliest as [[|b l]|]; [exact I| |exact I]. cbn [wf]. destruct (unbase64_ok _ (b :: l) (le_n _) (E _ eq_refl)) as [_ F]. eapply Forall_impl; [|exact F]. intros a Ha. cbv beta in Ha. unfold byte. lia. }
  apply Forall_cons; [cbn [fst snd]; split; [apply bytes_key|apply itoa_json, P4]|].
  apply Forall_cons; [cbn [fst snd]; split; [apply bytes_key|exact M]|].
  apply Forall_cons; [cbn [fst snd]; split; [apply bytes_key|apply itoa_json, P1]|].
  apply Forall_cons; [cbn [fst snd]; split; [apply bytes_key|apply itoa_json, P5]|].
  apply Forall_cons; [cbn [fst snd]; split; [apply bytes_key|apply itoa_json, P3]|]. constructor.
Qed.
Lemma int_read n : is_i64 n -> is_int (sem (jint n)) n.
Proof. intros H. exists (itoa n). split; [reflexivity|]. apply itoa_json, H. Qed.
(** The answer of a chart as JSON: its columns, window and size, its name, and the bytes
    of the newest record. *)
Theorem C84_graph : forall num metric cols earliest p, writes_numbers num -> Forall byte metric -> Forall column_ok cols -> forallb json_column cols = true ->
  (forall l, earliest = Some l -> Forall byte l) -> window_ok p ->
  exists v, reads_json (graph_text num metric cols earliest p) v /\ graph_read num metric cols earliest p v.
Proof.
  intros num metric cols earliest p N M C J E P. pose proof (graph_wf num metric cols earliest p N M C J E P) as W. destruct (answer _ W) as [A1 A2].
  eexists. split; [exists (encc (graph_json num metric cols earliest p) ++ [10]); split; [exact A1|exact A2]|]. destruct P as (P1 & P2 & P3 & P4 & P5).
  unfold graph_json. cbn [sem map fst snd]. unfold graph_read.
  eexists (match cols with [] => NNull | _ => NArr (map sem (map (column_json num) cols)) end), (sem (jint (mp_dur p))), (match earliest with Some (b :: l) => NStr (base64 (b :: l)) | _ => NNull end),
    (sem (jint (mp_height p))), (map fst (chars metric)), (sem (jint (mp_now p))), (sem (jint (mp_padding p))), (sem (jint (mp_width p))).
  split; [|split; [|split; [|split]]].
  - assert (B : forall l, earliest = Some l -> map fst (chars (base64 l)) = base64 l).
    { intros l El. apply chars_ascii. destruct (unbase64_ok _ l (le_n _) (E _ El)) as [_ F]. eapply Forall_impl; [|exact F]. intros a Ha. cbv beta in *. lia. }
    change (map fst (chars (bytes_of "columns"))) with (key "columns"). change (map fst (chars (bytes_of "duration"))) with (key "duration").
    change (map fst (chars (bytes_of "earliest"))) with (key "earliest"). change (map fst (chars (bytes_of "height"))) with (key "height").
    change (map fst (chars (bytes_of "metric"))) with (key "metric"). change (map fst (chars (bytes_of "now"))) with (key "now").
    change (map fst (chars (bytes_of "padding"))) with (key "padding"). change (map fst (chars (bytes_of "width"))) with (key "width").
    do 2 f_equal; [destruct cols; reflexivity|]. do 2 f_equal. do 2 f_equal. destruct earliest as [[|b l]|]; [reflexivity| |reflexivity]. cbn [sem]. now rewrite B.
  - destruct cols as [|c cols]; [reflexivity|]. eexists. split; [reflexivity|]. clear J A1 A2 W. induction C as [|x l Cx C IH]; [constructor|]. cbn [map]. constructor; [|exact IH].
    destruct Cx as (Cx & Cw & _). exists (sem (jint (col_x x))), (sem (jint (col_w x))). split; [now apply int_read|]. split; [now apply int_read|].
    unfold column_json. cbn [sem map fst snd]. rewrite map_map. reflexivity.
  - destruct earliest as [[|b l]|]; [reflexivity| |reflexivity]. eexists. split; [reflexivity|]. apply (unbase64_ok _ (b :: l) (le_n _)). now apply E.
  - now apply chars_shown.
  - repeat (split; [now apply int_read|]). now apply int_read.
Qed.
Print Assumptions C84_graph.
Theorem C84_harmless : forall num names metric cols earliest p, Forall (Forall byte) names ->
  writes_numbers num -> Forall byte metric -> Forall column_ok cols -> forallb json_column cols = true -> (forall l, earliest = Some l -> Forall byte l) -> window_ok p ->
  (exists t, names_text names = t ++ [10] /\ Forall harmless t) /\ (exists t, graph_text num metric cols earliest p = t ++ [10] /\ Forall harmless t).
Proof.
  intros num names metric cols earliest p B N M C J E P. split; eexists; (split; [reflexivity|]); apply encode_harmless.
  - apply wf_arr, Forall_forall. intros v Hv. apply in_map_iff in Hv as (s & <- & Hs). rewrite Forall_forall in B. apply B, Hs.
  - now apply graph_wf.
Qed.
Print Assumptions C84_harmless.

(** * the endpoints *)
(** what is sent for an answer *)
Definition text_of_body (num : spec_float -> list Z) (b : body) : option (list Z) :=
  match b with
  | BNames l => Some (names_text l)
  | BGraph metric cols earliest p => Some (graph_text num metric cols earliest p)
  | _ => None
  end.
(** A query: the client reads the first [results] matching names of the database. *)
Theorem C84_query : forall num o e r names ok,
  trusted o r -> rq_method r = method_get -> rq_path r = path_query -> e_metrics e = (names, false) -> Forall (fun s => exists l, is_utf8 s l) names ->
  let q := form_value (rq_form r) (bytes_of "query") in
  let k := get_int (form_value (rq_form r) (bytes_of "results")) 10 in
  0 <= k -> decides_query q ok ->
  exists b s shown, serve o e r = Ok (Resp 200 (origin_of o) false b) /\ text_of_body num b = Some s /\
  reads_json s (NArr (map NStr shown)) /\ Forall2 is_utf8 (firstn (Z.to_nat k) (filter ok names)) shown.
Proof.
  intros num o e r names ok Ht Hm Hp He U q k Hk Hok. pose proof (C52_query_partial o e r names ok Ht Hm Hp He Hk Hok) as S. fold k in S.
  assert (F : exists shown, Forall2 is_utf8 (firstn (Z.to_nat k) (filter ok names)) shown).
  { assert (V : Forall (fun s => exists l, is_utf8 s l) (firstn (Z.to_nat k) (filter ok names))).
    { rewrite Forall_forall in *. intros s Hs. apply U. assert (X : In s (filter ok names)) by (rewrite <- (firstn_skipn (Z.to_nat k) (filter ok names)); apply in_or_app; now left). now apply filter_In in X. }
    now apply texts_of. }
  destruct F as [shown F]. eexists _, _, shown. split; [exact S|]. split; [reflexivity|]. split; [now apply C84_exact|exact F].
Qed.
Print Assumptions C84_query.

(** * examples *)
Definition ex_names : list (list Z) := [bytes_of "a.<b>"; [0xC3; 0xA9]; [0xFF; 34; 10]].
Example C84_ex : read_json (names_text [bytes_of "a.<b>"; bytes_of "x""y"]) = Some (NArr [NStr (bytes_of "a.<b>"); NStr (bytes_of "x""y")]).
Proof. vm_compute. reflexivity. Qed.
Example C84_ex_bytes : names_text ex_names =
  bytes_of "[""a.\u003cb\u003e"",""" ++ [0xC3; 0xA9] ++ bytes_of """,""\ufffd\""\n""]" ++ [10].
Proof. vm_compute. reflexivity. Qed.
Definition ex_num (f : spec_float) : list Z := [49; 46; 53].
Example C84_ex_graph :
  let p := MParams 1000 100 10 20 (-3) in
  writes_numbers ex_num /\ window_ok p /\
  graph_text ex_num [109] [Col 1 2 [0x3FF8000000000000] (S754_zero false)] (Some [1; 2; 3; 255]) p =
  bytes_of "{""columns"":[{""X"":1,""W"":2,""Data"":[1.5],""ObsSec"":1.5}],""duration"":100,""earliest"":""AQID/w=="",""height"":20,""metric"":""m"",""now"":1000,""padding"":-3,""width"":10}" ++ [10].
Proof. split; [intros f _ _; reflexivity|]. split; [unfold window_ok, is_i64; cbn; lia|]. vm_compute. reflexivity. Qed.
