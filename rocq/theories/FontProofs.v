(** Proofs about Font.v. *)
From Coq Require Import ZArith List Bool Lia.
From Verif Require Import Base Merge Draw DrawSpec DrawProofs Axis AxisSpec GraphProofs Font FontSpec.
Import ListNotations.
Open Scope Z_scope.

Lemma over_len ma p : length p = 4%nat -> length (over_pixel ma p) = 4%nat.
Proof. intros H. unfold over_pixel. destruct (ma =? 0); [exact H|]. do 5 (destruct p; try discriminate H). reflexivity. Qed.
Lemma over_0 p : over_pixel 0 p = p.
Proof. reflexivity. Qed.

Lemma put_any W H x y q pix : is_image W H pix -> 0 <= x < W -> 0 <= y < H -> length q = 4%nat ->
  is_image W H (put (4 * (y * W + x)) q pix) /\
  forall x' y', 0 <= x' < W -> 0 <= y' < H ->
  pixel W (put (4 * (y * W + x)) q pix) x' y' = if (x' =? x) && (y' =? y) then q else pixel W pix x' y'.
Proof.
  intros (A & B & L) Hx Hy Hq. pose proof (pixel_range W H x y Hx Hy) as [R1 R2].
  assert (L4 : len q = 4) by (unfold len; lia).
  split; [split; [assumption|split; [assumption|rewrite put_len; lia]]|].
  intros x' y' Hx' Hy'. unfold pixel. destruct (Z.eqb_spec x' x); cbn [andb].
  1: destruct (Z.eqb_spec y' y).
  - subst. rewrite sub_put_same by lia. rewrite Hq. unfold sub. change (Z.to_nat 4) with 4%nat.
    rewrite skipn_firstn_comm. cbn [Nat.sub firstn]. now rewrite app_nil_r.
  - pose proof (pixel_range W H x' y' Hx' Hy') as [Q1 Q2]. apply sub_put_other; try lia.
    rewrite L4. apply pixel_distinct; try lia. congruence.
  - pose proof (pixel_range W H x' y' Hx' Hy') as [Q1 Q2]. apply sub_put_other; try lia.
    rewrite L4. apply pixel_distinct; try lia. congruence.
Qed.
Lemma pixel_len W H pix x y : is_image W H pix -> 0 <= x < W -> 0 <= y < H -> length (pixel W pix x y) = 4%nat.
Proof.
  intros (A & B & L) Hx Hy. pose proof (pixel_range W H x y Hx Hy) as [R1 R2]. unfold pixel, sub. unfold len in L.
  rewrite firstn_length, skipn_length. lia.
Qed.

(** loops *)
Fixpoint pile (n : nat) (a : Z) (g : Z -> Z -> Z -> list Z -> list Z) (x y : Z) (p : list Z) : list Z :=
  match n with O => p | S n' => pile n' (a + 1) g x y (g a x y p) end.
Lemma for_pile W H n : forall a f g pix, is_image W H pix ->
  (forall i p, a <= i < a + Z.of_nat n -> is_image W H p -> exists p', f i p = Ok p' /\ painted W H (g i) p p') ->
  exists p', for_ n a f pix = Ok p' /\ painted W H (pile n a g) pix p'.
Proof.
  induction n as [|n IH]; intros a f g pix Hi Hf; cbn [for_].
  - exists pix. split; [reflexivity|]. split; auto.
  - destruct (Hf a pix) as (p1 & E1 & R1); [lia|assumption|]. rewrite E1. cbn [bind].
    destruct (IH (a + 1) f g p1) as (p2 & E2 & R2); [apply R1|intros; apply Hf; [lia|assumption]|].
    exists p2. split; [exact E2|]. exact (painted_trans _ _ _ _ _ _ _ R1 R2).
Qed.
Lemma pile_none n : forall a g x y p, (forall i p, a <= i < a + Z.of_nat n -> g i x y p = p) -> pile n a g x y p = p.
Proof. induction n as [|n IH]; intros a g x y p Hg; [reflexivity|]. cbn [pile]. rewrite Hg by lia. apply IH. intros; apply Hg; lia. Qed.
Lemma pile_pick n : forall a g x y p k, a <= k < a + Z.of_nat n -> (forall i p, a <= i < a + Z.of_nat n -> i <> k -> g i x y p = p) ->
  pile n a g x y p = g k x y p.
Proof.
  induction n as [|n IH]; intros a g x y p k Hk Hg; [lia|]. cbn [pile]. destruct (Z.eq_dec k a) as [->|N].
  - apply pile_none. intros; apply Hg; lia.
  - rewrite (Hg a) by lia. apply IH; [lia|]. intros; apply Hg; lia.
Qed.

(** the mask *)
Definition mask_at (mi : Z) : Z := nth (Z.to_nat mi) (bf_pix iosevka) 0.
Lemma mask_len : len (bf_pix iosevka) = 8064.
Proof. vm_compute. reflexivity. Qed.

Lemma img_view W H v : shows_part W H v ->
  img_min_x v = - i_x v /\ img_min_y v = - i_y v /\ img_max_x v = i_width v /\ img_max_y v = i_height v /\
  forall x y, img_off v x y = 4 * ((i_y v + y) * W + (i_x v + x)).
Proof.
  intros (S & A & B & C & D & _). unfold img_min_x, img_min_y, img_max_x, img_max_y, img_off, img_min_y, img_min_x.
  rewrite !Z.min_l, !Z.max_r by lia. repeat split. intros x y. rewrite S. ring.
Qed.

Lemma over_at_ok W H v mi x y pix : is_image W H pix -> shows_part W H v -> 0 <= mi < 8064 -> - i_x v <= x < i_width v -> - i_y v <= y < i_height v ->
  exists pix', over_at (bf_pix iosevka) mi (img_off v x y) pix = Ok pix' /\
  painted W H (fun px py p => if (px =? i_x v + x) && (py =? i_y v + y) then over_pixel (mask_at mi) p else p) pix pix'.
Proof.
  intros Hi V Hm Hx Hy. destruct (img_view W H v V) as (_ & _ & _ & _ & ->). destruct V as (_ & V1 & V2 & V3 & V4 & V5 & V6).
  unfold over_at. rewrite mask_len. replace (mi <? 0) with false by lia. replace (8064 <=? mi) with false by lia. cbn [orb]. fold (mask_at mi).
  destruct (Z.eqb_spec (mask_at mi) 0) as [E|E].
  - exists pix. split; [reflexivity|]. split; [exact Hi|]. intros px py _ _. rewrite E, over_0. now destruct (_ && _).
  - pose proof (pixel_range W H (i_x v + x) (i_y v + y) ltac:(lia) ltac:(lia)) as [R1 R2]. destruct Hi as (A & B & L).
    replace (0 <=? 4 * ((i_y v + y) * W + (i_x v + x))) with true by lia.
    replace (4 * ((i_y v + y) * W + (i_x v + x)) + 4 <=? len pix) with true by lia. cbn [andb].
    eexists. split; [reflexivity|].
    fold (pixel W pix (i_x v + x) (i_y v + y)).
    assert (Hi : is_image W H pix) by (split; auto).
    destruct (put_any W H (i_x v + x) (i_y v + y) (over_pixel (mask_at mi) (pixel W pix (i_x v + x) (i_y v + y))) pix Hi ltac:(lia) ltac:(lia)) as (P1 & P2).
    { apply over_len. apply (pixel_len W H); [exact Hi|lia|lia]. }
    split; [exact P1|]. intros px py Hpx Hpy. rewrite P2 by assumption.
    destruct (Z.eqb_spec px (i_x v + x)) as [->|]; cbn [andb]; [|reflexivity]. destruct (Z.eqb_spec py (i_y v + y)) as [->|]; reflexivity.
Qed.

(** the clipped cell *)
Lemma clip_ok W H v x y k : shows_part W H v -> 0 <= k < 96 ->
  let c := clip (IRect (img_min_x v) (img_min_y v) (img_max_x v) (img_max_y v)) (IRect x y (x + 6) (y + 14)) (IRect 0 0 6 (96 * 14)) 0 (14 * k) in
  let x0 := Z.max x (- i_x v) in let y0 := Z.max y (- i_y v) in
  let x1 := Z.min (x + 6) (i_width v) in let y1 := Z.min (y + 14) (i_height v) in
  if (x1 <=? x0) || (y1 <=? y0) then ir_empty c = true else c = IRect x0 y0 x1 y1.
Proof.
  intros V Hk. destruct (img_view W H v V) as (-> & -> & -> & -> & _). cbv zeta. unfold clip. cbn [ir_x0 ir_y0].
  set (x0 := Z.max x (- i_x v)). set (y0 := Z.max y (- i_y v)). set (x1 := Z.min (x + 6) (i_width v)). set (y1 := Z.min (y + 14) (i_height v)).
  assert (I1 : intersect (IRect x y (x + 6) (y + 14)) (IRect (- i_x v) (- i_y v) (i_width v) (i_height v)) = if (x1 <=? x0) || (y1 <=? y0) then IRect 0 0 0 0 else IRect x0 y0 x1 y1) by reflexivity.
  rewrite I1. clear I1.
  destruct ((x1 <=? x0) || (y1 <=? y0)) eqn:E.
  - assert (Z0 : forall s, ir_empty (intersect (IRect 0 0 0 0) s) = true).
    { intros s. unfold intersect. destruct (ir_empty (IRect (Z.max (ir_x0 (IRect 0 0 0 0)) (ir_x0 s)) (Z.max (ir_y0 (IRect 0 0 0 0)) (ir_y0 s))
        (Z.min (ir_x1 (IRect 0 0 0 0)) (ir_x1 s)) (Z.min (ir_y1 (IRect 0 0 0 0)) (ir_y1 s)))) eqn:F; [reflexivity|]. unfold ir_empty in F. cbn in F. lia. }
    unfold intersect at 2.
    match goal with |- context [if ?b then IRect 0 0 0 0 else ?i] => assert (B : b = true) end.
    { unfold ir_empty, ir_add. cbn [ir_x0 ir_y0 ir_x1 ir_y1]. lia. }
    rewrite B. apply Z0.
  - apply orb_false_iff in E as [E1 E2].
    assert (X : intersect (IRect x0 y0 x1 y1) (ir_add (IRect (Z.opp 1000000000) (Z.opp 1000000000) 1000000000 1000000000) x y) = IRect x0 y0 x1 y1).
    { unfold intersect, ir_add. cbn [ir_x0 ir_y0 ir_x1 ir_y1].
      rewrite !Z.max_l, !Z.min_l by lia. unfold ir_empty. cbn [ir_x0 ir_y0 ir_x1 ir_y1]. rewrite E1, E2. reflexivity. }
    rewrite X. unfold intersect, ir_add. cbn [ir_x0 ir_y0 ir_x1 ir_y1].
    rewrite !Z.max_l, !Z.min_l by lia. unfold ir_empty. cbn [ir_x0 ir_y0 ir_x1 ir_y1]. rewrite E1, E2. reflexivity.
Qed.

Lemma mask_ok W H v x y k pix : is_image W H pix -> shows_part W H v -> 0 <= k < 96 ->
  exists pix', draw_mask iosevka v (IRect x y (x + 6) (y + 14)) 0 (14 * k) pix = Ok pix' /\
  painted W H (fun px py p => if in_box (i_x v + x) (i_y v + y) 6 14 px py && (px <? i_x v + i_width v) && (py <? i_y v + i_height v)
     then over_pixel (mask_at (84 * k + 6 * (py - (i_y v + y)) + (px - (i_x v + x)))) p else p) pix pix'.
Proof.
  intros Hi V Hk. unfold draw_mask. change (bf_mask_width iosevka) with 6. change (bf_mask_height iosevka) with (96 * 14). change (bf_stride iosevka) with 6.
  pose proof (clip_ok W H v x y k V Hk) as C. cbv zeta in C. cbn [ir_x0 ir_y0] in *.
  set (c := clip _ _ _ _ _) in *. clearbody c.
  set (x0 := Z.max x (- i_x v)) in *. set (y0 := Z.max y (- i_y v)) in *. set (x1 := Z.min (x + 6) (i_width v)) in *. set (y1 := Z.min (y + 14) (i_height v)) in *.
  destruct ((x1 <=? x0) || (y1 <=? y0)) eqn:E.
  - rewrite C. exists pix. split; [reflexivity|]. split; [exact Hi|]. intros px py Hpx Hpy.
    destruct (in_box _ _ _ _ _ _ && _ && _) eqn:B; [|reflexivity]. unfold in_box in B. lia.
  - subst c. replace (ir_empty (IRect x0 y0 x1 y1)) with false by (symmetry; exact E). cbn [ir_x0 ir_y0 ir_x1 ir_y1]. apply orb_false_iff in E as [E1 E2].
    unfold for_to at 1.
    destruct (for_pile W H (Z.to_nat (y1 - y0)) y0
      (fun r pix => for_to x0 x1 (fun q pix => over_at (bf_pix iosevka) ((14 * k + (y0 - y) + (r - y0)) * 6 + (0 + (x0 - x) + (q - x0))) (img_off v q r) pix) pix)
      (fun r => pile (Z.to_nat (x1 - x0)) x0 (fun q px py p => if (px =? i_x v + q) && (py =? i_y v + r) then over_pixel (mask_at ((14 * k + (y0 - y) + (r - y0)) * 6 + (0 + (x0 - x) + (q - x0)))) p else p))
      pix Hi) as (pix' & E & P).
    { intros r p Hr Hp. apply for_pile; [exact Hp|]. intros q p' Hq Hp'. apply (over_at_ok W H); try assumption; lia. }
    exists pix'. split; [exact E|]. eapply painted_ext; [|exact P]. cbv beta. intros px py p Hpx Hpy.
    pose proof V as (_ & V1 & V2 & V3 & V4 & V5 & V6).
    destruct (in_box _ _ _ _ _ _ && _ && _) eqn:B.
    + unfold in_box in B. rewrite (pile_pick _ _ _ _ _ _ (py - i_y v)); [|lia|].
      * rewrite (pile_pick _ _ _ _ _ _ (px - i_x v)); [|lia|].
        -- replace (px =? i_x v + (px - i_x v)) with true by lia. replace (py =? i_y v + (py - i_y v)) with true by lia. cbn [andb]. f_equal. f_equal. lia.
        -- intros i p' _ N. replace (px =? i_x v + i) with false by lia. reflexivity.
      * intros i p' _ N. apply pile_none. intros q p'' _. replace (py =? i_y v + i) with false by lia. rewrite andb_false_r. reflexivity.
    + unfold in_box in B. apply pile_none. intros r p' Hr. apply pile_none. intros q p'' Hq.
      destruct ((px =? i_x v + q) && (py =? i_y v + r)) eqn:B2; [|reflexivity]. lia.
Qed.

(** glyphs *)
Definition gnum (c : Z) : Z := if c =? 13 then 0 else c - 31.
Lemma glyph_num c : glyph_y iosevka c = if in_font c then Some (14 * gnum c) else None.
Proof.
  unfold glyph_y. change (bf_ranges iosevka) with [(13, 14, 0); (32, 127, 1)]. change (bf_ascent iosevka + bf_descent iosevka) with 14.
  replace (in_ranges [(13, 14, 0); (32, 127, 1)] 0xfffd) with (@None Z) by reflexivity.
  cbn [in_ranges]. unfold in_font, gnum.
  destruct (Z.eqb_spec c 13) as [->|N]; [reflexivity|]. cbn [orb].
  replace ((c <? 13) || (14 <=? c)) with true by lia.
  destruct ((c <? 32) || (127 <=? c)) eqn:E.
  - replace ((32 <=? c) && (c <=? 126)) with false by lia. reflexivity.
  - replace ((32 <=? c) && (c <=? 126)) with true by lia. f_equal. lia.
Qed.
Lemma gnum_range c : in_font c = true -> 0 <= gnum c < 96.
Proof. unfold in_font, gnum. intros H. destruct (c =? 13) eqn:E; lia. Qed.

Definition font_chars : list Z := 13 :: map (fun n => Z.of_nat n) (seq 32 95).
Lemma font_char c : in_font c = true -> In c font_chars.
Proof.
  unfold in_font, font_chars. intros H. destruct (Z.eqb_spec c 13) as [E|N]; [left; congruence|]. right.
  apply in_map_iff. exists (Z.to_nat c). split; [lia|]. apply in_seq. lia.
Qed.
Lemma nats_in n k : 0 <= k < Z.of_nat n -> In (Z.to_nat k) (seq 0 n).
Proof. intros H. apply in_seq. lia. Qed.
Lemma mask_dark c i j : in_font c = true -> 0 <= i < 6 -> 0 <= j < 14 -> mask_at (84 * gnum c + 6 * j + i) = dark c i j.
Proof.
  assert (X : forallb (fun c => forallb (fun j => forallb (fun i => mask_at (84 * gnum c + 6 * Z.of_nat j + Z.of_nat i) =? dark c (Z.of_nat i) (Z.of_nat j)) (seq 0 6)) (seq 0 14)) font_chars = true)
    by (vm_compute; reflexivity).
  intros Hc Hi Hj. rewrite forallb_forall in X. specialize (X c (font_char c Hc)). rewrite forallb_forall in X. specialize (X _ (nats_in 14 j Hj)).
  rewrite forallb_forall in X. specialize (X _ (nats_in 6 i Hi)). rewrite !Z2Nat.id in X by lia. lia.
Qed.

(** strings *)
Lemma text_dark_first c t i j : in_font c = true -> 0 <= i < 6 -> text_dark (c :: t) i j = dark c i j.
Proof.
  intros Hc Hi. unfold text_dark. cbn [filter]. rewrite Hc. rewrite Z.div_small, Z.mod_small by lia. reflexivity.
Qed.
Lemma text_dark_rest c t i j : in_font c = true -> 6 <= i -> text_dark (c :: t) i j = text_dark t (i - 6) j.
Proof.
  intros Hc Hi. unfold text_dark. cbn [filter]. rewrite Hc. replace (i / 6) with ((i - 6) / 6 + 1) by (rewrite <- Z.div_add by lia; f_equal; ring).
  replace (i mod 6) with ((i - 6) mod 6) by (rewrite <- (Z.mod_add (i - 6) 1 6) by lia; f_equal; ring).
  assert (0 <= (i - 6) / 6) by (apply Z.div_pos; lia).
  replace (Z.to_nat ((i - 6) / 6 + 1)) with (S (Z.to_nat ((i - 6) / 6))) by lia. reflexivity.
Qed.
Lemma text_dark_skip c t i j : in_font c = false -> text_dark (c :: t) i j = text_dark t i j.
Proof. intros Hc. unfold text_dark. cbn [filter]. now rewrite Hc. Qed.
Lemma text_dark_after t i j : 6 * len (filter in_font t) <= i -> text_dark t i j = 0.
Proof.
  intros H. unfold text_dark. replace (nth_error (filter in_font t) (Z.to_nat (i / 6))) with (@None Z); [reflexivity|].
  symmetry. apply nth_error_None. unfold len in H. assert (Z.of_nat (length (filter in_font t)) <= i / 6) by (apply Z.div_le_lower_bound; lia). lia.
Qed.
Lemma filter_len {A} (f : A -> bool) t : len (filter f t) <= len t.
Proof. unfold len. induction t as [|c t IH]; cbn [filter length]; [lia|]. destruct (f c); cbn [length]; lia. Qed.

Definition on_cells (v : rgb) (x y : Z) (t : list Z) (px py : Z) (p : list Z) : list Z :=
  if in_box (i_x v + x) (i_y v + y - 11) (6 * len t) 14 px py && (px <? i_x v + i_width v) && (py <? i_y v + i_height v)
  then iosevka_shade t (px - (i_x v + x)) (py - (i_y v + y - 11)) p else p.

Lemma string_ok W H v y : shows_part W H v -> forall t x pix, is_image W H pix ->
  exists pix', draw_string iosevka v (64 * x) (64 * y) t pix = Ok (64 * (x + 6 * len (filter in_font t)), pix') /\
  painted W H (on_cells v x y t) pix pix'.
Proof.
  intros V. induction t as [|c t IH]; intros x pix Hi; cbn [draw_string].
  - exists pix. split; [cbn [filter]; change (len (@nil Z)) with 0; f_equal; f_equal; ring|]. split; [exact Hi|]. intros px py _ _. unfold on_cells.
    destruct (_ && _ && _) eqn:B; [|reflexivity]. unfold in_box in B. change (len (@nil Z)) with 0 in B. lia.
  - rewrite glyph_num. destruct (in_font c) eqn:Hc.
    + change (bf_left iosevka) with 0. change (bf_ascent iosevka) with 11. change (bf_width iosevka) with 6. change (bf_descent iosevka) with 3. change (fix6 (bf_advance iosevka)) with (64 * 6).
      rewrite !Z.shiftr_div_pow2 by lia. change (2 ^ 6) with 64.
      replace ((64 * x + 32) / 64) with x by (rewrite Z.add_comm, (Z.mul_comm 64), Z.div_add by lia; reflexivity).
      replace ((64 * y + 32) / 64) with y by (rewrite Z.add_comm, (Z.mul_comm 64), Z.div_add by lia; reflexivity).
      destruct (mask_ok W H v x (y - 11) (gnum c) pix Hi V (gnum_range c Hc)) as (p1 & E1 & P1).
      replace (x + 0) with x by ring. replace (y + 3) with (y - 11 + 14) by ring. rewrite E1. cbn [bind].
      replace (64 * x + 64 * 6) with (64 * (x + 6)) by ring.
      destruct (IH (x + 6) p1) as (p2 & E2 & P2); [apply P1|]. exists p2. split.
      * rewrite E2. f_equal. f_equal. cbn [filter]. rewrite Hc. unfold len. cbn [length]. lia.
      * eapply painted_ext; [|exact (painted_trans _ _ _ _ _ _ _ P1 P2)]. cbv beta. intros px py p Hpx Hpy. unfold on_cells.
        assert (L : 6 * len (c :: t) = 6 + 6 * len t) by (unfold len; cbn [length]; lia). rewrite L. assert (0 <= len t) by (unfold len; lia).
        destruct (in_box (i_x v + x) (i_y v + y - 11) (6 + 6 * len t) 14 px py && (px <? i_x v + i_width v) && (py <? i_y v + i_height v)) eqn:B.
        -- unfold in_box in B. destruct (Z_lt_le_dec px (i_x v + x + 6)) as [F|F].
           ++ replace (in_box (i_x v + (x + 6)) (i_y v + y - 11) (6 * len t) 14 px py) with false by (unfold in_box; lia). cbn [andb].
              match goal with |- context [if ?b then _ else _] => replace b with true by (unfold in_box; lia) end.
              unfold iosevka_shade. rewrite text_dark_first by (assumption || lia). f_equal.
              rewrite <- mask_dark by (assumption || lia). f_equal. lia.
           ++ match goal with |- context [if ?b then over_pixel (mask_at _) _ else _] => replace b with false by (unfold in_box; lia) end.
              replace (in_box (i_x v + (x + 6)) (i_y v + y - 11) (6 * len t) 14 px py && (px <? i_x v + i_width v) && (py <? i_y v + i_height v)) with true by (unfold in_box; lia).
              unfold iosevka_shade. rewrite (text_dark_rest c) by (assumption || lia). f_equal. f_equal. lia.
        -- unfold in_box in B. match goal with |- context [if ?b then over_pixel (mask_at _) _ else _] => replace b with false by (unfold in_box; lia) end.
           replace (in_box (i_x v + (x + 6)) (i_y v + y - 11) (6 * len t) 14 px py && (px <? i_x v + i_width v) && (py <? i_y v + i_height v)) with false by (unfold in_box; lia).
           reflexivity.
    + destruct (IH x pix Hi) as (p2 & E2 & P2). exists p2. split; [rewrite E2; cbn [filter]; now rewrite Hc|].
      eapply painted_ext; [|exact P2]. intros px py p Hpx Hpy. unfold on_cells.
      assert (L : 6 * len (c :: t) = 6 + 6 * len t) by (unfold len; cbn [length]; lia). rewrite L. assert (0 <= len t) by (unfold len; lia).
      unfold iosevka_shade. rewrite text_dark_skip by exact Hc.
      destruct (in_box (i_x v + x) (i_y v + y - 11) (6 + 6 * len t) 14 px py && (px <? i_x v + i_width v) && (py <? i_y v + i_height v)) eqn:B.
      * destruct (in_box (i_x v + x) (i_y v + y - 11) (6 * len t) 14 px py && (px <? i_x v + i_width v) && (py <? i_y v + i_height v)) eqn:B2; [reflexivity|].
        unfold in_box in *. rewrite text_dark_after; [reflexivity|]. pose proof (filter_len in_font t). lia.
      * destruct (in_box (i_x v + x) (i_y v + y - 11) (6 * len t) 14 px py && (px <? i_x v + i_width v) && (py <? i_y v + i_height v)) eqn:B2; [|reflexivity].
        unfold in_box in *. lia.
Qed.

(** colours *)
Lemma dark_byte c i j : 0 <= i < 6 -> 0 <= j < 14 -> 0 <= dark c i j <= 255.
Proof.
  intros Hi Hj. destruct (in_font c) eqn:Hc.
  - assert (X : forallb (fun c => forallb (fun j => forallb (fun i => (0 <=? dark c (Z.of_nat i) (Z.of_nat j)) && (dark c (Z.of_nat i) (Z.of_nat j) <=? 255)) (seq 0 6)) (seq 0 14)) font_chars = true)
      by (vm_compute; reflexivity).
    rewrite forallb_forall in X. specialize (X c (font_char c Hc)). rewrite forallb_forall in X. specialize (X _ (nats_in 14 j Hj)).
    rewrite forallb_forall in X. specialize (X _ (nats_in 6 i Hi)). rewrite !Z2Nat.id in X by lia. lia.
  - unfold dark. destruct (find (fun g => fst g =? c) iosevka_glyphs) as [g|] eqn:F; [|lia].
    apply find_some in F as [F1 F2]. apply (in_map fst) in F1.
    assert (K : forallb in_font (map fst iosevka_glyphs) = true) by (vm_compute; reflexivity). rewrite forallb_forall in K. specialize (K _ F1).
    apply Z.eqb_eq in F2. rewrite F2 in K. congruence.
Qed.
Lemma text_dark_byte t i j : 0 <= i -> 0 <= j < 14 -> 0 <= text_dark t i j <= 255.
Proof.
  intros Hi Hj. unfold text_dark. destruct (nth_error _ _); [|lia]. apply dark_byte; [apply Z.mod_pos_bound; lia|exact Hj].
Qed.
Lemma byte_in b : 0 <= b <= 255 -> In b (map Z.of_nat (seq 0 256)).
Proof. intros H. apply in_map_iff. exists (Z.to_nat b). split; [lia|]. apply in_seq. lia. Qed.
Lemma over_white b : 0 <= b <= 255 -> over_pixel b (opaque white) = opaque (grey (255 - b)).
Proof.
  assert (X : forallb (fun b => beqb (over_pixel b (opaque white)) (opaque (grey (255 - b)))) (map Z.of_nat (seq 0 256)) = true) by (vm_compute; reflexivity).
  intros H. rewrite forallb_forall in X. specialize (X b (byte_in b H)). now apply beqb_eq.
Qed.
