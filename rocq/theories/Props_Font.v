(** Property C81: texts in the pictures can be read. *)
From Coq Require Import ZArith List Bool Lia.
From Coq Require Import Reals.
From Coq Require Import Floats.SpecFloat.
From Flocq Require Import Core.Core IEEE754.BinarySingleNaN.
From Verif Require Import Base Merge Draw DrawSpec DrawProofs Axis AxisSpec AxisFloat AxisProofs Props_Draw Props_Axis Graph GraphSpec GraphProofs Props_Graph Font FontSpec FontProofs.
Import ListNotations.
Open Scope Z_scope.

(** Drawing a text on a picture (a part of it) never panics; it changes exactly the
    pixels of its cells, each 6 wide, 11 above and 3 below the base line, cut off at
    the right and lower edges of the part, by the darkness of its characters' glyphs;
    the dot moves by 6 for every character with a glyph. *)
Theorem C81_text : forall W H v x y t pix, is_image W H pix -> shows_part W H v ->
  exists pix', draw_string iosevka v (64 * x) (64 * y) t pix = Ok (64 * (x + 6 * len (filter in_font t)), pix') /\ is_image W H pix' /\
  forall px py, 0 <= px < W -> 0 <= py < H ->
  pixel W pix' px py =
  if in_box (i_x v + x) (i_y v + y - 11) (6 * len t) 14 px py && (px <? i_x v + i_width v) && (py <? i_y v + i_height v)
  then over_pixel (text_dark t (px - (i_x v + x)) (py - (i_y v + y - 11))) (pixel W pix px py) else pixel W pix px py.
Proof. intros W H v x y t pix Hi V. destruct (string_ok W H v y V t x pix Hi) as (p & E & P1 & P2). exists p. auto. Qed.
Print Assumptions C81_text.
(** So the texts of axes and charts (C64, C66) are drawn in cells. *)
Theorem C81_draws_cells : draws_cells iosevka_shade 11 3 6 iosevka_text.
Proof.
  intros W H v x y t pix Hi V. destruct (string_ok W H v y V t x pix Hi) as (p & E & P1 & P2). unfold iosevka_text. rewrite E. split; [exact P1|exact P2].
Qed.
Print Assumptions C81_draws_cells.
(** Measuring: the bounds and the advance are those of C64's face. *)
Lemma bound_more t : forall n b, 0 < n -> b = Rect 0 (- 64 * 11) (64 * 6 * n) (64 * 3) ->
  bound_string iosevka b (64 * 6 * n) t = (Rect 0 (- 64 * 11) (64 * 6 * (n + len t)) (64 * 3), 64 * 6 * (n + len t)).
Proof.
  induction t as [|c t IH]; intros n b Hn ->; cbn [bound_string].
  - change (len (@nil Z)) with 0. rewrite Z.add_0_r. reflexivity.
  - change (fix6 (- bf_ascent iosevka)) with (- 64 * 11). change (fix6 (bf_width iosevka)) with (64 * 6). change (fix6 (bf_descent iosevka)) with (64 * 3). change (fix6 (bf_advance iosevka)) with (64 * 6).
    replace (64 * 6 * n + 64 * 6) with (64 * 6 * (n + 1)) by ring.
    rewrite IH; [|lia|].
    + replace (n + 1 + len t) with (n + len (c :: t)) by (unfold len; cbn [length]; lia). reflexivity.
    + unfold r_union, r_empty. cbn [r_minx r_miny r_maxx r_maxy].
      replace ((64 * 6 * n <=? 0) || (64 * 3 <=? - 64 * 11)) with false by lia.
      replace ((64 * 6 + 64 * 6 * n <=? 64 * 6 * n) || (64 * 3 <=? - 64 * 11)) with false by lia. f_equal; lia.
Qed.
Theorem C81_measure : forall t,
  fst (bound_string iosevka (Rect 0 0 0 0) 0 t) = fc_bounds (mono_face 11 3 6) t /\
  snd (bound_string iosevka (Rect 0 0 0 0) 0 t) = fc_advance (mono_face 11 3 6) t.
Proof.
  intros [|c t]; [split; reflexivity|]. cbn [bound_string].
  change (r_union (Rect 0 0 0 0) (Rect 0 (fix6 (- bf_ascent iosevka)) (fix6 (bf_width iosevka) + 0) (fix6 (bf_descent iosevka)))) with (Rect 0 (- 64 * 11) (64 * 6 * 1) (64 * 3)).
  change (0 + fix6 (bf_advance iosevka)) with (64 * 6 * 1). rewrite (bound_more t 1 _ ltac:(lia) eq_refl). cbn [fst snd mono_face fc_bounds fc_advance].
  unfold fix6. replace (1 + len t) with (len (c :: t)) by (unfold len; cbn [length]; lia). split; [f_equal|]; lia.
Qed.
Print Assumptions C81_measure.
(** What is drawn is as wide as what was measured for texts of characters in the
    font. *)
Theorem C81_advance : forall W H v x y t pix, is_image W H pix -> shows_part W H v -> Forall (fun c => in_font c = true) t ->
  exists pix', draw_string iosevka v (64 * x) (64 * y) t pix = Ok (64 * x + fc_advance (mono_face 11 3 6) t, pix').
Proof.
  intros W H v x y t pix Hi V F. destruct (string_ok W H v y V t x pix Hi) as (p & E & _). exists p. rewrite E. f_equal. f_equal. cbn [mono_face fc_advance]. unfold fix6.
  assert (X : filter in_font t = t) by (clear - F; induction F as [|c t Hc F IH]; [reflexivity|]; cbn [filter]; now rewrite Hc, IH). rewrite X. ring.
Qed.
Print Assumptions C81_advance.

(** * reading *)
(** on white, a pixel of a text is as dark as its glyph says *)
Theorem C81_on_white : forall t i j, 0 <= i -> 0 <= j < 14 -> iosevka_shade t i j (opaque white) = opaque (grey (255 - text_dark t i j)).
Proof. intros t i j Hi Hj. apply over_white. now apply text_dark_byte. Qed.
Print Assumptions C81_on_white.
(** on any pixel, each channel is less than one level away from the exact mixture of
    black and what was there *)
Lemma mask16 ma : 0 <= ma <= 255 -> Z.lor ma (Z.shiftl ma 8) = 257 * ma.
Proof.
  intros H. rewrite <- Z.lxor_lor.
  - rewrite <- Z.add_nocarry_lxor.
    + rewrite Z.shiftl_mul_pow2 by lia. lia.
    + apply Z.bits_inj'. intros n Hn. rewrite Z.land_spec, Z.bits_0. destruct (Z_lt_le_dec n 8).
      * rewrite Z.shiftl_spec_low by lia. apply andb_false_r.
      * rewrite <- (Z.mod_small ma (2 ^ 8)) by lia. rewrite Z.mod_pow2_bits_high by lia. reflexivity.
  - apply Z.bits_inj'. intros n Hn. rewrite Z.land_spec, Z.bits_0. destruct (Z_lt_le_dec n 8).
      * rewrite Z.shiftl_spec_low by lia. apply andb_false_r.
      * rewrite <- (Z.mod_small ma (2 ^ 8)) by lia. rewrite Z.mod_pow2_bits_high by lia. reflexivity.
Qed.
Lemma mix_value ma s d : 0 <= ma <= 255 -> 0 <= d <= 255 -> s = 0 \/ s = 65535 ->
  mix ma s 65535 d = ((d * (255 - ma) * 66049 + s * (257 * ma)) / 65535 / 256) mod 256.
Proof.
  intros M D S. unfold mix. cbv zeta. rewrite mask16 by exact M. unfold u32.
  rewrite (Z.mod_small (65535 * (257 * ma))) by lia. rewrite (Z.mul_comm 65535 (257 * ma)), Z.div_mul by lia.
  rewrite (Z.mod_small ((65535 - 257 * ma) * 257)) by lia.
  replace (d * ((65535 - 257 * ma) * 257)) with (d * (255 - ma) * 66049) by ring.
  assert (E : 0 <= d * (255 - ma) <= 255 * (255 - ma)) by nia.
  remember (d * (255 - ma)) as e eqn:X. clear X. change (2 ^ 32) with 4294967296.
  rewrite (Z.mod_small (e * 66049)) by lia.
  assert (S1 : 0 <= s * (257 * ma) <= 65535 * (257 * ma)) by (destruct S; subst s; lia). rewrite (Z.mod_small (s * (257 * ma))) by lia.
  rewrite (Z.mod_small (e * 66049 + s * (257 * ma))) by lia.
  rewrite Z.shiftr_div_pow2 by lia. reflexivity.
Qed.
Lemma level_ok ma d : 0 <= ma <= 255 -> 0 <= d <= 255 ->
  Z.abs (255 * mix ma 0 65535 d - d * (255 - ma)) < 255 /\ Z.abs (255 * mix ma 65535 65535 d - (255 * ma + d * (255 - ma))) < 255.
Proof.
  intros M D. rewrite !mix_value by auto.
  assert (E : 0 <= d * (255 - ma) <= 255 * (255 - ma)) by nia. remember (d * (255 - ma)) as e eqn:X. clear X.
  rewrite !Z.div_div by lia. rewrite !Z.mod_small; [split; [|]|..]; Z.div_mod_to_equations; lia.
Qed.
Theorem C81_blend : forall ma r g b a, 0 <= ma <= 255 -> Forall (fun d => 0 <= d <= 255) [r; g; b; a] ->
  exists r' g' b' a', over_pixel ma [r; g; b; a] = [r'; g'; b'; a'] /\
  Z.abs (255 * r' - r * (255 - ma)) < 255 /\ Z.abs (255 * g' - g * (255 - ma)) < 255 /\ Z.abs (255 * b' - b * (255 - ma)) < 255 /\
  Z.abs (255 * a' - (255 * ma + a * (255 - ma))) < 255.
Proof.
  intros ma r g b a M F. inversion F as [|? ? F1 G1]; subst. inversion G1 as [|? ? F2 G2]; subst. inversion G2 as [|? ? F3 G3]; subst. inversion G3 as [|? ? F4 _]; subst.
  unfold over_pixel. destruct (Z.eqb_spec ma 0) as [->|N].
  - exists r, g, b, a. split; [reflexivity|]. split; [lia|]. split; [lia|]. split; lia.
  - exists (mix ma 0 65535 r), (mix ma 0 65535 g), (mix ma 0 65535 b), (mix ma 65535 65535 a). split; [reflexivity|].
    exact (conj (proj1 (level_ok ma r M F1)) (conj (proj1 (level_ok ma g M F2)) (conj (proj1 (level_ok ma b M F3)) (proj2 (level_ok ma a M F4))))).
Qed.
Print Assumptions C81_blend.

Definition cell (rows : nat) (c : Z) : list Z := flat_map (fun j => map (fun i => dark c (Z.of_nat i) (Z.of_nat j)) (seq 0 6)) (seq 0 rows).
Definition ascii : list Z := map Z.of_nat (seq 32 95).
Lemma ascii_in c : printable c -> In c ascii.
Proof. intros H. apply in_map_iff. exists (Z.to_nat c). unfold printable in H. split; [lia|]. apply in_seq. lia. Qed.
Lemma cell_ext rows c c' : (forall i j, 0 <= i < 6 -> 0 <= j < Z.of_nat rows -> dark c i j = dark c' i j) -> cell rows c = cell rows c'.
Proof.
  intros H. unfold cell. rewrite !flat_map_concat_map. f_equal. apply map_ext_in. intros j Hj. apply in_seq in Hj. apply map_ext_in. intros i Hi. apply in_seq in Hi. apply H; lia.
Qed.
Lemma cells_differ : forallb (fun a => forallb (fun b => (fst a =? fst b) || negb (beqb (snd a) (snd b))) (map (fun c => (c, cell 14 c)) ascii)) (map (fun c => (c, cell 14 c)) ascii) = true.
Proof. vm_compute. reflexivity. Qed.
Lemma glyph_tells c c' : printable c -> printable c' -> (forall i j, 0 <= i < 6 -> 0 <= j < 14 -> dark c i j = dark c' i j) -> c = c'.
Proof.
  intros Hc Hc' H. pose proof cells_differ as X. rewrite forallb_forall in X. specialize (X (c, cell 14 c) (in_map (fun c => (c, cell 14 c)) _ _ (ascii_in c Hc))). rewrite forallb_forall in X.
  specialize (X (c', cell 14 c') (in_map (fun c => (c, cell 14 c)) _ _ (ascii_in c' Hc'))). cbn [fst snd] in X.
  rewrite (cell_ext 14 c c') in X by exact H. rewrite beqb_refl in X. cbn in X. rewrite orb_false_r in X. now apply Z.eqb_eq.
Qed.
Lemma printable_in c : printable c -> in_font c = true.
Proof. unfold printable, in_font. lia. Qed.
Lemma printable_filter t : Forall printable t -> filter in_font t = t.
Proof. induction 1 as [|c t Hc F IH]; [reflexivity|]. cbn [filter]. now rewrite (printable_in c Hc), IH. Qed.
Lemma space_dark i j : dark 32 i j = 0.
Proof.
  unfold dark. change (find (fun g => fst g =? 32) iosevka_glyphs) with (Some (32, repeat (repeat 0 6) 14)). cbn [snd].
  assert (N : forall n k, nth n (repeat 0 k) 0 = 0) by (intros n k; revert n; induction k as [|k IH]; intros [|n]; cbn; auto).
  assert (M : forall n k, nth n (repeat (repeat 0 6) k) [] = repeat 0 6 \/ nth n (repeat (repeat 0 6) k) [] = []).
  { intros n k. revert n. induction k as [|k IH]; intros [|n]; cbn [repeat nth]; auto. }
  destruct (M (Z.to_nat j) 14%nat) as [E|E]; rewrite E; [apply N|now destruct (Z.to_nat i)].
Qed.
Lemma text_dark_char t k i j : Forall printable t -> 0 <= i < 6 -> text_dark t (6 * Z.of_nat k + i) j = dark (nth k t 32) i j.
Proof.
  intros F Hi. unfold text_dark. rewrite printable_filter by exact F.
  replace ((6 * Z.of_nat k + i) / 6) with (Z.of_nat k) by (rewrite Z.add_comm, Z.mul_comm, Z.div_add by lia; rewrite Z.div_small by lia; reflexivity).
  replace ((6 * Z.of_nat k + i) mod 6) with i by (rewrite Z.add_comm, Z.mul_comm, Z.mod_add by lia; rewrite Z.mod_small by lia; reflexivity).
  rewrite Nat2Z.id. destruct (nth_error t k) as [c|] eqn:E.
  - now rewrite (nth_error_nth _ _ _ E).
  - apply nth_error_None in E. rewrite nth_overflow by exact E. now rewrite space_dark.
Qed.
Lemma trim_nth t t' : (forall k, nth k t 32 = nth k t' 32) -> trim_end t = trim_end t'.
Proof.
  assert (Nil : forall t, (forall k, nth k t 32 = 32) -> trim_end t = []).
  { induction t0 as [|c t0 IH]; intros H; [reflexivity|]. cbn [trim_end]. rewrite IH by (intros k; exact (H (S k))). specialize (H 0%nat). cbn in H. subst c. reflexivity. }
  revert t'. induction t as [|c t IH]; intros t' H.
  - symmetry. apply Nil. intros k. rewrite <- H. now destruct k.
  - destruct t' as [|c' t'].
    + apply Nil. intros k. rewrite H. now destruct k.
    + pose proof (H 0%nat) as E. cbn in E. subst c'. cbn [trim_end]. now rewrite (IH t' (fun k => H (S k))).
Qed.
Lemma printable_nth t k : Forall printable t -> printable (nth k t 32).
Proof.
  intros F. destruct (Nat.lt_ge_cases k (length t)) as [L|L].
  - rewrite Forall_forall in F. apply F. now apply nth_In.
  - rewrite nth_overflow by exact L. unfold printable. lia.
Qed.
(** Two printable texts that look the same, drawn at the same place of a white
    picture with room for both, are the same but for spaces at the end. *)
Theorem C81_legible : forall W H v x y t t' pix d d' pix', is_image W H pix -> shows_part W H v ->
  Forall printable t -> Forall printable t' ->
  (forall px py, 0 <= px < W -> 0 <= py < H -> pixel W pix px py = opaque white) ->
  0 <= i_x v + x -> x + 6 * len t <= i_width v -> x + 6 * len t' <= i_width v -> 0 <= i_y v + y - 11 -> y + 3 <= i_height v ->
  draw_string iosevka v (64 * x) (64 * y) t pix = Ok (d, pix') -> draw_string iosevka v (64 * x) (64 * y) t' pix = Ok (d', pix') ->
  trim_end t = trim_end t'.
Proof.
  intros W H v x y t t' pix d d' pix' Hi V F F' Wh X1 X2 X3 Y1 Y2 E E'.
  destruct (C81_text W H v x y t pix Hi V) as (p1 & E1 & _ & P1). rewrite E in E1. injection E1 as _ <-.
  destruct (C81_text W H v x y t' pix Hi V) as (p2 & E2 & _ & P2). rewrite E' in E2. injection E2 as _ <-.
  pose proof V as (_ & V1 & V2 & V3 & V4 & V5 & V6).
  assert (K : forall i j, 0 <= i -> 0 <= j < 14 -> text_dark t i j = text_dark t' i j).
  { intros i j Hi0 Hj. destruct (Z_lt_le_dec i (6 * len t)) as [A|A], (Z_lt_le_dec i (6 * len t')) as [B|B].
    4: rewrite !text_dark_after; [reflexivity|rewrite printable_filter by exact F'; exact B|rewrite printable_filter by exact F; exact A].
    all: specialize (P1 (i_x v + x + i) (i_y v + y - 11 + j) ltac:(lia) ltac:(lia)); specialize (P2 (i_x v + x + i) (i_y v + y - 11 + j) ltac:(lia) ltac:(lia));
      rewrite P1 in P2; rewrite !Wh in P2 by lia;
      replace (i_x v + x + i - (i_x v + x)) with i in P2 by ring; replace (i_y v + y - 11 + j - (i_y v + y - 11)) with j in P2 by ring.
    - replace (in_box (i_x v + x) (i_y v + y - 11) (6 * len t) 14 (i_x v + x + i) (i_y v + y - 11 + j)) with true in P2 by (unfold in_box; lia).
      replace (in_box (i_x v + x) (i_y v + y - 11) (6 * len t') 14 (i_x v + x + i) (i_y v + y - 11 + j)) with true in P2 by (unfold in_box; lia).
      replace (i_x v + x + i <? i_x v + i_width v) with true in P2 by lia. replace (i_y v + y - 11 + j <? i_y v + i_height v) with true in P2 by lia. cbn [andb] in P2.
      rewrite !over_white in P2 by (apply text_dark_byte; lia). apply (f_equal (hd 0)) in P2. cbn [hd opaque grey c_r] in P2. lia.
    - replace (in_box (i_x v + x) (i_y v + y - 11) (6 * len t) 14 (i_x v + x + i) (i_y v + y - 11 + j)) with true in P2 by (unfold in_box; lia).
      replace (in_box (i_x v + x) (i_y v + y - 11) (6 * len t') 14 (i_x v + x + i) (i_y v + y - 11 + j)) with false in P2 by (unfold in_box; lia).
      replace (i_x v + x + i <? i_x v + i_width v) with true in P2 by lia. replace (i_y v + y - 11 + j <? i_y v + i_height v) with true in P2 by lia. cbn [andb] in P2.
      rewrite !over_white in P2 by (apply text_dark_byte; lia). rewrite (text_dark_after t') by (rewrite printable_filter by exact F'; exact B).
      apply (f_equal (hd 0)) in P2. cbn [hd opaque grey white c_r] in P2. lia.
    - replace (in_box (i_x v + x) (i_y v + y - 11) (6 * len t) 14 (i_x v + x + i) (i_y v + y - 11 + j)) with false in P2 by (unfold in_box; lia).
      replace (in_box (i_x v + x) (i_y v + y - 11) (6 * len t') 14 (i_x v + x + i) (i_y v + y - 11 + j)) with true in P2 by (unfold in_box; lia).
      replace (i_x v + x + i <? i_x v + i_width v) with true in P2 by lia. replace (i_y v + y - 11 + j <? i_y v + i_height v) with true in P2 by lia. cbn [andb] in P2.
      rewrite !over_white in P2 by (apply text_dark_byte; lia). rewrite (text_dark_after t) by (rewrite printable_filter by exact F; exact A).
      apply (f_equal (hd 0)) in P2. cbn [hd opaque grey white c_r] in P2. lia. }
  apply trim_nth. intros k. apply glyph_tells; [now apply printable_nth|now apply printable_nth|].
  intros i j Hi0 Hj. rewrite <- !text_dark_char by assumption. apply K; lia.
Qed.
Print Assumptions C81_legible.

(** * labels of axes *)
Definition numeric_chars : list Z := map Z.of_nat (seq 48 10) ++ [46; 43; 45; 101; 78; 97; 73; 110; 102].
Lemma numeric_in c : numeric c -> In c numeric_chars.
Proof.
  intros [H|H]; apply in_or_app; [left|right; exact H]. apply in_map_iff. exists (Z.to_nat c). split; [lia|]. apply in_seq. lia.
Qed.
Lemma numeric_printable c : numeric c -> printable c.
Proof. unfold printable. intros [H|H]; [lia|]. cbn in H. lia. Qed.
Lemma numeric_blank c i j : numeric c -> 0 <= i < 6 -> j = 0 \/ j = 12 \/ j = 13 -> dark c i j = 0.
Proof.
  assert (X : forallb (fun c => forallb (fun j => forallb (fun i => dark c (Z.of_nat i) j =? 0) (seq 0 6)) [0; 12; 13]) numeric_chars = true) by (vm_compute; reflexivity).
  intros Hc Hi Hj. rewrite forallb_forall in X. specialize (X c (numeric_in c Hc)). rewrite forallb_forall in X. specialize (X j ltac:(cbn; lia)).
  rewrite forallb_forall in X. specialize (X _ (nats_in 6 i Hi)). rewrite Z2Nat.id in X by lia. lia.
Qed.
Lemma text_blank t i j : Forall numeric t -> 0 <= i -> j = 0 \/ j = 12 \/ j = 13 -> text_dark t i j = 0.
Proof.
  intros F Hi Hj. unfold text_dark. destruct (nth_error (filter in_font t) (Z.to_nat (i / 6))) as [c|] eqn:E; [|reflexivity].
  apply nth_error_In in E. apply filter_In in E as [E _]. rewrite Forall_forall in F. apply numeric_blank; [now apply F|apply Z.mod_pos_bound; lia|exact Hj].
Qed.
Lemma numbers_differ : forallb (fun a => forallb (fun b => (fst a =? fst b) || negb (beqb (snd a) (snd b))) (map (fun c => (c, cell 11 c)) numeric_chars)) (map (fun c => (c, cell 11 c)) numeric_chars) = true.
Proof. vm_compute. reflexivity. Qed.
Lemma number_tells c c' : numeric c -> numeric c' -> (forall i j, 0 <= i < 6 -> 0 <= j < 11 -> dark c i j = dark c' i j) -> c = c'.
Proof.
  intros Hc Hc' H. pose proof numbers_differ as X. rewrite forallb_forall in X. specialize (X (c, cell 11 c) (in_map (fun c => (c, cell 11 c)) _ _ (numeric_in c Hc))). rewrite forallb_forall in X.
  specialize (X (c', cell 11 c') (in_map (fun c => (c, cell 11 c)) _ _ (numeric_in c' Hc'))). cbn [fst snd] in X.
  rewrite (cell_ext 11 c c') in X by exact H. rewrite beqb_refl in X. cbn in X. rewrite orb_false_r in X. now apply Z.eqb_eq.
Qed.
Lemma numeric_text_tells t t' : Forall numeric t -> Forall numeric t' -> length t = length t' ->
  (forall i j, 0 <= i < 6 * len t -> 0 <= j < 11 -> text_dark t i j = text_dark t' i j) -> t = t'.
Proof.
  intros F F' L H. apply (nth_ext t t' 32 32 L). intros k Hk.
  assert (P : Forall printable t) by (eapply Forall_impl; [|exact F]; apply numeric_printable). assert (P' : Forall printable t') by (eapply Forall_impl; [|exact F']; apply numeric_printable).
  rewrite Forall_forall in F, F'. apply number_tells; [apply F; now apply nth_In|apply F'; apply nth_In; lia|].
  intros i j Hi Hj. rewrite <- !text_dark_char by assumption. apply H; [unfold len; lia|lia].
Qed.

Lemma lettered_alone shade a d w l b q e x y p : l = b ++ q :: e ->
  (forall r p, In r b \/ In r e -> let '(cx, cy, t) := r in in_box cx cy (w * len t) (a + d) x y = true -> shade t (x - cx) (y - cy) p = p) ->
  lettered shade a d w l x y p = lettered shade a d w [q] x y p.
Proof.
  intros -> N. assert (K : forall l p, (forall r p, In r l -> let '(cx, cy, t) := r in in_box cx cy (w * len t) (a + d) x y = true -> shade t (x - cx) (y - cy) p = p) -> lettered shade a d w l x y p = p).
  { clear. unfold lettered. induction l as [|[[cx cy] t] l IH]; intros p N; [reflexivity|]. cbn [fold_left].
    replace (if in_box cx cy (w * len t) (a + d) x y then shade t (x - cx) (y - cy) p else p) with p.
    - apply IH. intros r p' Hr. apply N. now right.
    - destruct (in_box cx cy (w * len t) (a + d) x y) eqn:B; [|reflexivity]. symmetry. exact (N (cx, cy, t) p (or_introl eq_refl) B). }
  unfold lettered. rewrite fold_left_app. cbn [fold_left].
  fold (lettered shade a d w b x y p). rewrite (K b) by (intros r p' Hr; apply N; auto).
  match goal with |- fold_left _ e ?z = _ => fold (lettered shade a d w e x y z); generalize z end. intros z. apply K. intros r p' Hr. apply N. auto.
Qed.

(** Numbers beside a vertical axis drawn on a white part of a picture: every label that
    is drawn can be read: its pixels are as dark as its glyphs say, whatever other
    labels there are, except that rows below the measured height are cut off; and no
    other number of as many characters looks like this. *)
Theorem C81_vertical_labels : forall o, readable 11 3 6 o -> ao_vertical o = true ->
  (forall l, In l (ao_labels o) -> Forall numeric (l_text l)) ->
  let m := axis_measure o in
  exists ps drawn, placed o ps /\ spaced (too_high 11) None (candidates 11 o ps) drawn /\
  forall W H v pix, is_image W H pix -> shows_part W H v -> rgb_size v = (am_width m, am_height m) ->
  (forall x y, i_x v <= x < i_x v + i_width v -> i_y v <= y < i_y v + i_height v -> pixel W pix x y = opaque white) ->
  exists pix', axis_draw iosevka_text m (Some (v, pix)) = Ok (v, pix') /\
  forall q, In q drawn ->
  let left := i_x v + (if ao_flip o then am_width m - 13 - text_width 6 q else 13) in
  let t := l_text (fst q) in
  (forall i j, 0 <= i < text_width 6 q -> 0 <= j < 14 -> snd q + j < am_height m ->
     pixel W pix' (left + i) (i_y v + snd q + j) = opaque (grey (255 - text_dark t i j))) /\
  (forall t', Forall numeric t' -> length t' = length t ->
     (forall i j, 0 <= i < text_width 6 q -> 0 <= j < 14 -> snd q + j < am_height m ->
        pixel W pix' (left + i) (i_y v + snd q + j) = opaque (grey (255 - text_dark t' i j))) -> t' = t).
Proof.
  intros o R V Nu m. destruct (vertical_at iosevka_shade 11 3 6 iosevka_text o R V C81_draws_cells) as (drawn & S & Dr). fold m in Dr.
  exists (map (at_tick o) (ao_labels o)), drawn. split; [now apply (placed_map 11 3 6)|]. split; [exact S|].
  destruct (vmeasure 11 3 6 o (readable_v 11 3 6 o R V)) as (_ & A & B & C & _). fold m in A, B, C. change text_offset with 13 in *.
  assert (Sz : forall q, In q drawn -> 13 + text_width 6 q <= am_width m /\ snd q + 11 <= am_height m /\ Forall numeric (l_text (fst q)) /\ 0 <= snd q).
  { intros q Hq. apply (AxisProofs.spaced_in _ _ _ _ S) in Hq. rewrite <- cand_map in Hq. apply in_map_iff in Hq as (l & <- & Hl). apply filter_In in Hl as [Hl Hc].
    unfold text_width. cbn [fst snd at_tick]. destruct (C l Hl Hc). repeat split; try assumption; [now apply Nu|].
    apply (tick_ok (ao_length o) l); [apply (rd_length _ _ _ _ R)|apply (rd_labels _ _ _ _ R l Hl)]. }
  pose proof (C65_vertical 11 _ drawn ltac:(lia) S) as Sep.
  intros W H v pix Hi Sv Hz Wh. destruct (Dr W H v pix Hi Sv Hz) as (pix' & E & I & P). exists pix'. split; [exact E|].
  unfold rgb_size in Hz. assert (Hw : i_width v = am_width m) by congruence. assert (Hh : i_height v = am_height m) by congruence.
  intros q Hq left t. pose proof Sv as (_ & V1 & V2 & V3 & V4 & V5 & V6). destruct (Sz q Hq) as (Q1 & Q2 & Q3 & Q4).
  assert (G : forall i j, 0 <= i < text_width 6 q -> 0 <= j < 14 -> snd q + j < am_height m ->
     pixel W pix' (left + i) (i_y v + snd q + j) = opaque (grey (255 - text_dark t i j))).
  { intros i j Hi0 Hj Hb.
    assert (Lf : i_x v <= left + i < i_x v + am_width m /\ (if ao_flip o then am_width m - 1 - (left + i - i_x v) else left + i - i_x v) >= 13) by (unfold left; destruct (ao_flip o); lia).
    rewrite P by lia. rewrite (Wh (left + i) (i_y v + snd q + j)) by lia. unfold vertical_picture.
    replace (in_box 0 0 (am_width m) (am_height m) (left + i - i_x v) (i_y v + snd q + j - i_y v)) with true by (unfold in_box; lia).
    destruct Lf as [Lf1 Lf2]. remember (if ao_flip o then am_width m - 1 - (left + i - i_x v) else left + i - i_x v) as away eqn:Ea. clear Ea.
    replace (away =? 0) with false by lia. replace (away <=? 10) with false by lia. replace (away <? 13) with false by lia. rewrite andb_false_r. cbn [andb].
    apply in_split in Hq as (bf & af & Ed).
    rewrite (lettered_alone iosevka_shade 11 3 6 _ (map (fun q => (if ao_flip o then am_width m - 13 - text_width 6 q else 13, snd q, l_text (fst q))) bf)
       (if ao_flip o then am_width m - 13 - text_width 6 q else 13, snd q, l_text (fst q))
       (map (fun q => (if ao_flip o then am_width m - 13 - text_width 6 q else 13, snd q, l_text (fst q))) af)).
    - unfold lettered. cbn [fold_left]. change (6 * len (l_text (fst q))) with (text_width 6 q).
      replace (in_box (if ao_flip o then am_width m - 13 - text_width 6 q else 13) (snd q) (text_width 6 q) (11 + 3) (left + i - i_x v) (i_y v + snd q + j - i_y v)) with true
        by (unfold in_box, left; lia).
      replace (left + i - i_x v - (if ao_flip o then am_width m - 13 - text_width 6 q else 13)) with i by (unfold left; lia).
      replace (i_y v + snd q + j - i_y v - snd q) with j by ring. apply C81_on_white; lia.
    - rewrite Ed, map_app. reflexivity.
    - intros r p Hr. destruct r as [[cx cy] tt]. intros Bx. unfold iosevka_shade.
      assert (Z0 : text_dark tt (left + i - i_x v - cx) (i_y v + snd q + j - i_y v - cy) = 0); [|rewrite Z0; apply over_0].
      unfold in_box in Bx. destruct Hr as [Hr|Hr]; apply in_map_iff in Hr as (r & Er & Hr); injection Er as Ex Ey Et; subst tt cy.
      + assert (snd r + 11 + 2 <= snd q). { apply in_split in Hr as (b1 & b2 & ->). apply (Sep b1 r b2 q af). rewrite Ed, <- app_assoc. reflexivity. }
        assert (In r drawn) as Hr2 by (rewrite Ed; apply in_or_app; now left). destruct (Sz r Hr2) as (_ & _ & N & _). apply text_blank; [exact N|lia|lia].
      + assert (snd q + 11 + 2 <= snd r). { apply in_split in Hr as (b1 & b2 & ->). apply (Sep bf q b1 r b2). rewrite Ed. reflexivity. }
        assert (In r drawn) as Hr2 by (rewrite Ed; apply in_or_app; right; now right). destruct (Sz r Hr2) as (_ & _ & N & _). apply text_blank; [exact N|lia|lia]. }
  split; [exact G|]. intros t' N' L' Same. apply numeric_text_tells; [exact N'|exact Q3|exact L'|].
  intros i j Hi0 Hj. assert (Wi : 0 <= i < text_width 6 q) by (unfold text_width; fold t; unfold len in *; rewrite <- L'; lia).
  specialize (Same i j Wi ltac:(lia) ltac:(lia)). rewrite (G i j Wi ltac:(lia) ltac:(lia)) in Same.
  apply (f_equal (hd 0)) in Same. cbn [hd opaque grey c_r] in Same. fold t. lia.
Qed.
Print Assumptions C81_vertical_labels.

(** The same below a horizontal axis, for all printable texts, when no label but the
    first starts in the first ten pixels (else texts may cover each other, C65): only
    the pixel where the tick ends in the text's first row is always black. *)
Lemma cells_differ_below : forallb (fun a => forallb (fun b => (fst a =? fst b) || negb (beqb (snd a) (snd b))) (map (fun c => (c, skipn 6 (cell 14 c))) ascii)) (map (fun c => (c, skipn 6 (cell 14 c))) ascii) = true.
Proof. vm_compute. reflexivity. Qed.
Lemma cell_below c c' : (forall i j, 0 <= i < 6 -> 1 <= j < 14 -> dark c i j = dark c' i j) -> skipn 6 (cell 14 c) = skipn 6 (cell 14 c').
Proof.
  intros H. assert (E : forall c, skipn 6 (cell 14 c) = flat_map (fun j => map (fun i => dark c (Z.of_nat i) (Z.of_nat j)) (seq 0 6)) (seq 1 13)) by (intros; reflexivity).
  rewrite !E. rewrite !flat_map_concat_map. f_equal. apply map_ext_in. intros j Hj. apply in_seq in Hj. apply map_ext_in. intros i Hi. apply in_seq in Hi. apply H; lia.
Qed.
Lemma glyph_tells_below c c' : printable c -> printable c' -> (forall i j, 0 <= i < 6 -> 1 <= j < 14 -> dark c i j = dark c' i j) -> c = c'.
Proof.
  intros Hc Hc' H. pose proof cells_differ_below as X. rewrite forallb_forall in X. specialize (X (c, skipn 6 (cell 14 c)) (in_map (fun c => (c, skipn 6 (cell 14 c))) _ _ (ascii_in c Hc))). rewrite forallb_forall in X.
  specialize (X (c', skipn 6 (cell 14 c')) (in_map (fun c => (c, skipn 6 (cell 14 c))) _ _ (ascii_in c' Hc'))). cbn [fst snd] in X.
  rewrite (cell_below c c') in X by exact H. rewrite beqb_refl in X. cbn [negb] in X. rewrite orb_false_r in X. now apply Z.eqb_eq.
Qed.
Lemma text_tells_below t t' : Forall printable t -> Forall printable t' -> length t = length t' ->
  (forall i j, 0 <= i < 6 * len t -> 1 <= j < 14 -> text_dark t i j = text_dark t' i j) -> t = t'.
Proof.
  intros F F' L H. apply (nth_ext t t' 32 32 L). intros k Hk. apply glyph_tells_below; [now apply printable_nth|now apply printable_nth|].
  intros i j Hi Hj. rewrite <- !text_dark_char by assumption. apply H; [unfold len; lia|lia].
Qed.
Lemma over_black b : 0 <= b <= 255 -> over_pixel b (opaque black) = opaque black.
Proof.
  assert (X : forallb (fun b => beqb (over_pixel b (opaque black)) (opaque black)) (map Z.of_nat (seq 0 256)) = true) by (vm_compute; reflexivity).
  intros H. rewrite forallb_forall in X. specialize (X b (byte_in b H)). now apply beqb_eq.
Qed.
Lemma below_alone shade a d w o l b q e x y p : l = b ++ q :: e ->
  (forall r, In r b \/ In r e -> (x =? snd r) && (y =? 13) = false /\ in_box (start_of w o r) 13 (text_width w r) (a + d) x y = false) ->
  below_axis shade a d w o l x y p = below_axis shade a d w o [q] x y p.
Proof.
  intros -> N. assert (K : forall l p, (forall r, In r l -> (x =? snd r) && (y =? 13) = false /\ in_box (start_of w o r) 13 (text_width w r) (a + d) x y = false) -> below_axis shade a d w o l x y p = p).
  { clear. unfold below_axis. induction l as [|r l IH]; intros p N; [reflexivity|]. cbn [fold_left]. destruct (N r (or_introl eq_refl)) as [N1 N2]. rewrite N1, N2. apply IH. intros; apply N; now right. }
  unfold below_axis. rewrite fold_left_app. cbn [fold_left]. fold (below_axis shade a d w o b x y p). rewrite (K b) by (intros; apply N; auto). cbn zeta.
  match goal with |- fold_left _ e ?z = _ => fold (below_axis shade a d w o e x y z); generalize z end. intros z. apply K. intros; apply N; auto.
Qed.
Theorem C81_horizontal_labels : forall o, readable 11 3 6 o -> ao_vertical o = false ->
  (ao_dont_bleed o = true -> forall l, In l (ao_labels o) -> 6 * len (l_text l) <= ao_length o) ->
  (forall l, In l (ao_labels o) -> Forall printable (l_text l)) ->
  let m := axis_measure o in
  exists ps drawn, placed o ps /\ spaced (too_left 6 o) None ps drawn /\
  ((forall p0 rest, ps = p0 :: rest -> forall p, In p rest -> 10 <= start_of 6 o p) ->
  forall W H v pix, is_image W H pix -> shows_part W H v -> rgb_size v = (am_width m, am_height m) ->
  (forall x y, i_x v <= x < i_x v + i_width v -> i_y v <= y < i_y v + i_height v -> pixel W pix x y = opaque white) ->
  exists pix', axis_draw iosevka_text m (Some (v, pix)) = Ok (v, pix') /\
  forall q, In q drawn ->
  let left := i_x v + start_of 6 o q in
  let t := l_text (fst q) in
  (forall i j, 0 <= i < text_width 6 q -> 0 <= j < 14 ->
     pixel W pix' (left + i) (i_y v + 13 + j) = if (j =? 0) && (start_of 6 o q + i =? snd q) then opaque black else opaque (grey (255 - text_dark t i j))) /\
  (forall t', Forall printable t' -> length t' = length t ->
     (forall i j, 0 <= i < text_width 6 q -> 1 <= j < 14 -> pixel W pix' (left + i) (i_y v + 13 + j) = opaque (grey (255 - text_dark t' i j))) -> t' = t)).
Proof.
  intros o R V Fit Nu m. destruct (horizontal_at iosevka_shade 11 3 6 iosevka_text o R V C81_draws_cells Fit) as (drawn & S & Dr). fold m in Dr.
  set (ps := map (at_tick o) (ao_labels o)) in *.
  exists ps, drawn. split; [now apply (placed_map 11 3 6)|]. split; [exact S|]. intros Far.
  assert (Tk : forall q, In q ps -> In (fst q) (ao_labels o) /\ 0 <= snd q < ao_length o).
  { intros q Hq. apply in_map_iff in Hq as (l & <- & Hl). cbn [fst snd at_tick]. split; [exact Hl|]. apply (tick_ok (ao_length o) l); [apply (rd_length _ _ _ _ R)|apply (rd_labels _ _ _ _ R l Hl)]. }
  destruct (hmeasure 11 3 6 o (readable_h 11 3 6 o R V Fit)) as (dr2 & S2 & _ & Mw & Mf & _ & Mh). fold m in Mw, Mf, Mh.
  assert (Hst : forall l, start_of 6 o (at_tick o l) = hx 6 o l).
  { intros l. unfold start_of, hx, text_width. cbn [fst snd at_tick]. destruct (ao_dont_bleed o); cbn [andb]; [|reflexivity]. destruct (Z.ltb_spec (ao_length o) (tick_of (ao_length o) l + 6 * len (l_text l))); lia. }
  assert (Ed : drawn = map (at_tick o) dr2).
  { eapply spaced_unique; [exact S|]. change (@None (label * Z)) with (option_map (at_tick o) None). apply (spaced_map (at_tick o) (hclose 6 o)); [|exact S2].
    intros p q. unfold hclose, too_left, end_of, hend, horiz_label_spacing. rewrite !Hst. unfold text_width. cbn [fst at_tick]. lia. }
  assert (Sz : forall q, In q drawn -> 0 <= start_of 6 o q /\ end_of 6 o q <= am_width m /\ start_of 6 o q <= snd q < end_of 6 o q /\ Forall printable (l_text (fst q))).
  { intros q Hq. pose proof (AxisProofs.spaced_in _ _ _ _ S q Hq) as Hp. destruct (Tk q Hp) as [T1 T2].
    assert (Ne : 0 < text_width 6 q). { unfold text_width, len. destruct (rd_labels _ _ _ _ R _ T1) as [_ Ne]. destruct (l_text (fst q)); [now destruct Ne|cbn [length]; lia]. }
    assert (En : end_of 6 o q <= am_width m). { rewrite Ed in Hq. apply in_map_iff in Hq as (l & <- & Hl). unfold end_of, text_width. rewrite Hst. cbn [fst at_tick]. now apply Mf. }
    split; [|split; [exact En|split; [|now apply Nu]]].
    - unfold start_of. destruct (ao_dont_bleed o) eqn:Db; [|lia]. specialize (Fit eq_refl _ T1). unfold text_width. lia.
    - unfold end_of, start_of in *. destruct (ao_dont_bleed o); lia. }
  assert (Hg : drawn = [] \/ am_height m = 29).
  { rewrite Mh, Ed. change text_offset with 13. unfold vert_label_spacing. destruct dr2; [now left|right; lia]. }
  assert (Sep : forall before p between q after, drawn = before ++ p :: between ++ q :: after -> end_of 6 o p + 10 < start_of 6 o q).
  { destruct ps as [|p0 rest] eqn:Eps.
    - inversion S. subst. intros before p between q after Y. destruct before; discriminate.
    - apply (C65_horizontal_partial 6 o p0 rest); [lia|exact (Far p0 rest eq_refl)|exact S]. }
  intros W H v pix Hi Sv Hz Wh. destruct (Dr W H v pix Hi Sv Hz) as (pix' & E & I & P). exists pix'. split; [exact E|].
  unfold rgb_size in Hz. assert (Hw : i_width v = am_width m) by congruence. assert (Hh : i_height v = am_height m) by congruence.
  intros q Hq left t. pose proof Sv as (_ & V1 & V2 & V3 & V4 & V5 & V6). destruct (Sz q Hq) as (Q1 & Q2 & Q3 & Q4). unfold end_of in Q2, Q3.
  destruct Hg as [Hg|Hg]; [rewrite Hg in Hq; destruct Hq|].
  assert (G : forall i j, 0 <= i < text_width 6 q -> 0 <= j < 14 ->
     pixel W pix' (left + i) (i_y v + 13 + j) = if (j =? 0) && (start_of 6 o q + i =? snd q) then opaque black else opaque (grey (255 - text_dark t i j))).
  { intros i j Hi0 Hj. rewrite P by (unfold left; lia). rewrite Wh by (unfold left; lia).
    replace (left + i - i_x v) with (start_of 6 o q + i) by (unfold left; ring). replace (i_y v + 13 + j - i_y v) with (13 + j) by ring.
    unfold horizontal_picture. replace (in_box 0 0 (am_width m) (am_height m) (start_of 6 o q + i) (13 + j)) with true by (unfold in_box; lia).
    replace (13 + j =? 0) with false by lia. replace (13 + j <=? 10) with false by lia. replace (13 + j <=? 12) with false by lia. replace (13 + j <? 13) with false by lia.
    rewrite !andb_false_r. cbn [andb].
    apply in_split in Hq as (bf & af & Eq). rewrite (below_alone iosevka_shade 11 3 6 o drawn bf q af _ _ _ Eq).
    - unfold below_axis. cbn [fold_left]. cbn zeta.
      replace (in_box (start_of 6 o q) 13 (text_width 6 q) (11 + 3) (start_of 6 o q + i) (13 + j)) with true by (unfold in_box; lia).
      replace (start_of 6 o q + i - start_of 6 o q) with i by ring. replace (13 + j - 13) with j by ring. replace (13 + j =? 13) with (j =? 0) by lia. rewrite (andb_comm _ (j =? 0)).
      fold t. destruct ((j =? 0) && (start_of 6 o q + i =? snd q)); [apply over_black; apply text_dark_byte; lia|apply C81_on_white; lia].
    - intros r Hr. assert (Bd : end_of 6 o r + 10 < start_of 6 o q \/ start_of 6 o q + text_width 6 q + 10 < start_of 6 o r).
      { destruct Hr as [Hr|Hr]; apply in_split in Hr as (b1 & b2 & ->).
        - left. apply (Sep b1 r b2 q af). rewrite Eq, <- app_assoc. reflexivity.
        - right. change (end_of 6 o q + 10 < start_of 6 o r). apply (Sep bf q b1 r b2). rewrite Eq. reflexivity. }
      assert (Hrd : In r drawn) by (rewrite Eq; apply in_or_app; destruct Hr as [Hr|Hr]; [now left|right; now right]).
      destruct (Sz r Hrd) as (_ & _ & R3 & _). unfold end_of in *. unfold in_box. split; lia. }
  split; [exact G|]. intros t' N' L' Same. apply text_tells_below; [exact N'|exact Q4|exact L'|].
  intros i j Hi0 Hj. assert (Wi : 0 <= i < text_width 6 q) by (unfold text_width; fold t; unfold len in *; rewrite <- L'; lia).
  specialize (Same i j Wi ltac:(lia)). rewrite (G i j Wi ltac:(lia)) in Same. replace (j =? 0) with false in Same by lia. cbn [andb] in Same.
  apply (f_equal (hd 0)) in Same. cbn [hd opaque grey c_r] in Same. fold t. lia.
Qed.
Print Assumptions C81_horizontal_labels.

(** * what is not so *)
(** Characters without a glyph leave no trace: a text looks like the text without
    them, although it was measured with them. *)
Theorem C81_other_characters : forall t v dx dy pix, draw_string iosevka v dx dy t pix = draw_string iosevka v dx dy (filter in_font t) pix.
Proof.
  induction t as [|c t IH]; intros v dx dy pix; [reflexivity|]. cbn [draw_string filter]. rewrite glyph_num. destruct (in_font c) eqn:Hc; [|apply IH].
  cbn [draw_string]. rewrite glyph_num, Hc. destruct (draw_mask _ _ _ _ _ _); try reflexivity. cbn [bind]. apply IH.
Qed.
Print Assumptions C81_other_characters.
Theorem C81_other_characters_refuted : exists t t', t <> t' /\ r_maxx (fst (bound_string iosevka (Rect 0 0 0 0) 0 t)) <> r_maxx (fst (bound_string iosevka (Rect 0 0 0 0) 0 t')) /\
  forall v dx dy pix, draw_string iosevka v dx dy t pix = draw_string iosevka v dx dy t' pix.
Proof.
  exists [233; 49], [49]. split; [discriminate|]. split; [vm_compute; discriminate|]. intros v dx dy pix. rewrite C81_other_characters. reflexivity.
Qed.
Print Assumptions C81_other_characters_refuted.
(** The lowest label of a chart's left axis ("0.00" at position 1, graph.go:109-120)
    loses the lowest row of its digits, below the measured height. *)
Theorem C81_bottom_row_refuted : forall length, 1 <= length <= 2 ^ 24 ->
  let o := AOpts (mono_face 11 3 6) [Label (f_of_int 1) [48; 46; 48; 48]] true length true false in
  readable 11 3 6 o /\ exists ps q, placed o ps /\ spaced (too_high 11) None (candidates 11 o ps) [q] /\
  exists i j, 0 <= i < text_width 6 q /\ 0 <= j < 14 /\ text_dark (l_text (fst q)) i j <> 0 /\ snd q + j = am_height (axis_measure o).
Proof.
  intros length HL o.
  assert (U : in_unit (f_of_int 1)) by (repeat split; vm_compute; reflexivity).
  assert (R : readable 11 3 6 o). { constructor; [reflexivity|lia|exact HL|]. intros l [<-|[]]. split; [exact U|discriminate]. }
  split; [exact R|]. set (l := Label (f_of_int 1) [48; 46; 48; 48]).
  exists (map (at_tick o) (ao_labels o)), (at_tick o l). split; [now apply (placed_map 11 3 6)|]. split.
  { change (candidates 11 o (map (at_tick o) (ao_labels o))) with [at_tick o l]. apply sd_take; [discriminate|apply sd_nil]. }
  assert (One : SF2R radix2 (f_of_int 1) = 1%R) by (change (f_of_int 1) with (S754_finite false 4503599627370496 (-52)); unfold SF2R, F2R; cbn [Fnum Fexp cond_Zopp]; change (bpow radix2 (-52)) with (/ IZR 4503599627370496)%R; field; apply IZR_neq; lia).
  assert (T : tick_of length l = length - 1).
  { destruct (tick_ok length l HL U) as (_ & _ & X). apply X. cbn [l l_pos]. rewrite One. ring. }
  assert (Hh : am_height (axis_measure o) = length + 10).
  { destruct (vmeasure 11 3 6 o (readable_v 11 3 6 o R eq_refl)) as (_ & _ & _ & A & B). destruct (A l (or_introl eq_refl) eq_refl) as [_ A2].
    cbn [ao_length o] in A2. rewrite T in A2. destruct (B (6 * 4) (length + 10)) as [_ B2]; [lia|cbn [o ao_length]; lia| |lia].
    intros l' [<-|[]] _. cbn [l_text ao_length o]. fold l. rewrite T. change (len [48; 46; 48; 48]) with 4. lia. }
  exists 2, 11. rewrite Hh. cbn [at_tick fst snd l l_text]. change (ao_length o) with length. fold l. rewrite T. split; [unfold text_width; cbn; lia|]. split; [lia|]. split; [vm_compute; discriminate|lia].
Qed.
Print Assumptions C81_bottom_row_refuted.

(** * whole charts *)
(** C66 with the real font: nothing about texts is assumed any more but their characters. *)
Theorem C81_chart : forall o m d, drawable o m d ->
  exists pl shown rank start, chart_shows m d pl shown rank start /\
  forall W H c pix, d_canvas d = Some (c, pix) -> is_image W H pix -> shows_part W H c ->
  g_width o + 2 * g_padding o <= i_width c -> g_height o + 2 * g_padding o <= i_height c ->
  exists pix', graph_draw iosevka_text m d = Ok (c, pix') /\ is_image W H pix' /\
  forall x y, 0 <= x < W -> 0 <= y < H -> pixel W pix' x y = chart_pixel iosevka_shade m d pl shown rank start x y (pixel W pix x y).
Proof. intros o m d DW. exact (C66_picture iosevka_shade iosevka_text o m d C81_draws_cells DW). Qed.
Print Assumptions C81_chart.
Theorem C81_chart_new : forall o m d, drawable o m d ->
  let W := g_width o + 2 * g_padding o in let H := g_height o + 2 * g_padding o in
  (forall c pix, d_canvas d = Some (c, pix) -> i_width c < W \/ i_height c < H) ->
  exists pl shown rank start, chart_shows m d pl shown rank start /\
  exists c pix', graph_draw iosevka_text m d = Ok (c, pix') /\ rgb_size c = (W, H) /\ shows_part W H c /\ is_image W H pix' /\
  forall x y, 0 <= x < W -> 0 <= y < H -> pixel W pix' x y = chart_pixel iosevka_shade m d pl shown rank start x y (opaque white).
Proof. intros o m d DW. exact (C66_new_canvas iosevka_shade iosevka_text o m d C81_draws_cells DW). Qed.
Print Assumptions C81_chart_new.

(** * the hypotheses are met *)
(** "0.42" on a white picture of 40 by 20 pixels: a row of the digits, from the right
    side of "0" over "." to "4" *)
Example C81_ex_text :
  match bind (new_rgb 40 20) (fun vp => draw_string Font.iosevka (fst vp) (64 * 3) (64 * 13) [48; 46; 52; 50] (snd vp)) with
  | Ok (d, p') => d = 64 * 27 /\ map (fun x => hd 0 (pixel 40 p' x 11)) [3; 4; 5; 6; 7; 8] = map (fun i => 255 - dark 48 i 9) [0; 1; 2; 3; 4; 5] /\
      map (fun x => hd 0 (pixel 40 p' x 11)) [15; 16; 17; 18; 19; 20] = map (fun i => 255 - dark 52 i 9) [0; 1; 2; 3; 4; 5] /\ hd 0 (pixel 40 p' 19 9) <> 255
  | _ => False
  end.
Proof. vm_compute. repeat split; discriminate. Qed.
(** the axes of C64's example have numeric labels *)
Example C81_ex_axis : readable 11 3 6 (ex_axis true true false) /\ (forall l, In l (ao_labels (ex_axis true true false)) -> Forall numeric (l_text l)) /\
  readable 11 3 6 (ex_axis false false true) /\ (forall l, In l (ao_labels (ex_axis false false true)) -> Forall printable (l_text l)).
Proof.
  split; [apply ex_axis_readable|]. split; [|split; [apply ex_axis_readable|]]; intros l Hl; apply in_map_iff in Hl as (k & <- & Hk); cbn [l_text];
  assert (0 <= k mod 10 < 10) by (apply Z.mod_pos_bound; lia); repeat constructor; unfold numeric, printable; try left; lia.
Qed.
(** and C66's example is a chart *)
Example C81_ex_chart : drawable ex_opts ex_measured ex_dopts.
Proof. exact (proj1 C66_ex). Qed.
