(** Properties C45 (canvas), C55 (heat map), C56 (key) and C57 (rate bar). *)
From Coq Require Import ZArith List Bool Lia.
From Coq Require Import Floats.SpecFloat.
From Verif Require Import Base Merge Draw DrawSpec DrawProofs DrawFloat.
Import ListNotations.
Open Scope Z_scope.

(** * C45 *)
Theorem C45_new :
  forall W H, 0 <= W -> 0 <= H ->
  exists m pix, new_rgb W H = Ok (m, pix) /\ rgb_size m = (W, H) /\ is_image W H pix /\ shows_part W H m /\
  i_x m = 0 /\ i_y m = 0 /\ forall x y, 0 <= x < W -> 0 <= y < H -> pixel W pix x y = opaque white.
Proof.
  intros W H HW HH. destruct (new_rgb W H) as [[m pix]| | |] eqn:E.
  2-4: exfalso; unfold new_rgb in E; destruct (Z.ltb_spec (4 * W * H) 0); [nia|discriminate].
  exists m, pix. destruct (new_image W H m pix HW HH E) as (A & -> & C). unfold shows_part. cbn [i_stride i_x i_y i_width i_height rgb_size].
  split; [exact E || reflexivity|]. split; [reflexivity|]. split; [exact A|]. split; [repeat split; lia|]. auto.
Qed.
(** A view of a rectangle inside the image shows that rectangle. *)
Theorem C45_view :
  forall W H m x y w h, shows_part W H m -> 0 <= x -> 0 <= y -> 0 <= w -> 0 <= h -> x + w <= W -> y + h <= H ->
  shows_part W H (view m x y w h) /\ i_x (view m x y w h) = x /\ i_y (view m x y w h) = y /\ rgb_size (view m x y w h) = (w, h).
Proof. intros W H m x y w h (S & _) Hx Hy Hw Hh Hxw Hyh. split; [repeat split; cbn; try assumption|repeat split]. Qed.
(** Set changes exactly one pixel: the one at the view's offset, to that colour. *)
Theorem C45_set :
  forall W H v x y c pix, is_image W H pix -> shows_part W H v -> 0 <= x < i_width v -> 0 <= y < i_height v ->
  exists pix', set_px v x y c pix = Ok pix' /\
  repainted W H (fun x' y' => if (x' =? i_x v + x) && (y' =? i_y v + y) then Some c else None) pix pix'.
Proof.
  intros W H v x y c pix Hi V Hx Hy. eexists. split; [apply (set_px_ok W H); eassumption|].
  destruct V as (_ & V1 & V2 & V3 & V4 & V5 & V6). apply put_pixel; try assumption; lia.
Qed.
(** Raw gives exactly that pixel's four bytes. *)
Theorem C45_raw :
  forall W H v x y pix, is_image W H pix -> shows_part W H v -> 0 <= x < i_width v -> 0 <= y < i_height v ->
  raw_px v x y pix = Ok (pixel W pix (i_x v + x) (i_y v + y)).
Proof.
  intros W H v x y pix (A & B & L) V Hx Hy. unfold raw_px. rewrite (px_off_view W H) by assumption. destruct V as (_ & V1 & V2 & V3 & V4 & V5 & V6).
  pose proof (pixel_range W H (i_x v + x) (i_y v + y) ltac:(lia) ltac:(lia)) as [R1 R2].
  destruct (Z.leb_spec 0 (4 * ((i_y v + y) * W + (i_x v + x)))); [|lia].
  destruct (Z.leb_spec (4 * ((i_y v + y) * W + (i_x v + x)) + 4) (len pix)); [reflexivity|lia].
Qed.
(** After any drawing every pixel has the colour last given to it (white if
    none), fully opaque: pixels never alias. *)
Theorem C45_drawing :
  forall W H l pix, 0 <= W -> 0 <= H -> drawing W H l pix ->
  is_image W H pix /\ forall x y, 0 <= x < W -> 0 <= y < H -> pixel W pix x y = opaque (last_color l x y).
Proof.
  intros W H l pix HW HH D. induction D as [m pix E|l pix v x y c pix' D IH V Hx Hy E].
  - destruct (new_image W H m pix HW HH E) as (A & _ & C). split; [exact A|exact C].
  - destruct IH as [I P]. destruct (C45_set W H v x y c pix I V Hx Hy) as (p & E' & (I' & R)). rewrite E in E'. injection E' as ->.
    split; [exact I'|]. intros x' y' Hx' Hy'. rewrite R by assumption. unfold last_color. rewrite fold_left_app. cbn [fold_left fst snd].
    rewrite (Z.eqb_sym (i_x v + x)), (Z.eqb_sym (i_y v + y)). destruct ((x' =? i_x v + x) && (y' =? i_y v + y)); [reflexivity|]. now apply P.
Qed.
(** The image.RGBA of a view addresses the same pixels, and only pixels of the
    image are in its bounds. *)
Theorem C45_image :
  forall W H v, shows_part W H v ->
  (forall x y, img_off v x y = px_off v x y) /\
  (forall x y, img_min_x v <= x < img_max_x v -> img_min_y v <= y < img_max_y v -> 0 <= i_x v + x < W /\ 0 <= i_y v + y < H).
Proof.
  intros W H v (S & V1 & V2 & V3 & V4 & V5 & V6). unfold img_off, px_off, img_min_x, img_min_y, img_max_x, img_max_y. split; intros x y.
  - rewrite !Z.min_l by lia. ring.
  - lia.
Qed.
(** A view of a view does not show a part of that view: its coordinates are those
    of the whole image. *)
Theorem C45_nested_view_refuted :
  exists W H m v v', shows_part W H m /\ i_x m = 0 /\ i_y m = 0 /\ v = view m 2 3 4 5 /\ v' = view v 1 1 2 2 /\
  px_off v' 0 0 <> px_off v 1 1.
Proof.
  exists 10, 10, (RGB 40 10 10 0 0). do 2 eexists. split; [repeat split; cbn; lia|]. repeat (split; [reflexivity|]). vm_compute. discriminate.
Qed.
Example C45_example :
  exists pix, drawing 3 2 [(1, 1, Color 1 2 3); (2, 1, Color 4 5 6)] pix /\
  pixel 3 pix 1 1 = [1; 2; 3; 255] /\ pixel 3 pix 2 1 = [4; 5; 6; 255] /\ pixel 3 pix 0 1 = [255; 255; 255; 255].
Proof.
  assert (D0 : exists p, drawing 3 2 [] p /\ p = repeat 255 24) by (eexists; split; [eapply dr_new; vm_compute; reflexivity|reflexivity]).
  destruct D0 as (p0 & D0 & E0).
  destruct (set_px (RGB 12 2 1 1 1) 0 0 (Color 1 2 3) p0) as [p1| | |] eqn:E1; [|exfalso; revert E1; rewrite E0; vm_compute; discriminate..].
  pose proof (dr_set 3 2 [] p0 (RGB 12 2 1 1 1) 0 0 _ p1 D0 ltac:(repeat split; cbn; lia) ltac:(cbn; lia) ltac:(cbn; lia) E1) as D1.
  destruct (set_px (RGB 12 2 1 1 1) 1 0 (Color 4 5 6) p1) as [p2| | |] eqn:E2; [|exfalso; revert E2; rewrite E0 in E1; vm_compute in E1; injection E1 as <-; vm_compute; discriminate..].
  pose proof (dr_set 3 2 _ p1 (RGB 12 2 1 1 1) 1 0 _ p2 D1 ltac:(repeat split; cbn; lia) ltac:(cbn; lia) ltac:(cbn; lia) E2) as D2.
  exists p2. split; [exact D2|]. rewrite E0 in E1. vm_compute in E1. injection E1 as <-. vm_compute in E2. injection E2 as <-. vm_compute. auto.
Qed.

(** * C55 *)
Lemma shown_row n h y : 1 <= n <= 2 ^ 24 -> 2 <= h <= 2 ^ 24 -> 0 <= y < h -> nearest_below n h y (row_index n h y).
Proof.
  intros Hn Hh Hy. pose proof (scaled_index n h y Hn Hh ltac:(lia)) as S. cbn zeta in S. destruct S as (A & B & C).
  unfold nearest_below, row_index, index_scale. split; [|auto]. split; [exact A|].
  set (i := f_int _) in *. assert (i * (h - 1) <= (h - 1) * (n - 1)) by nia. nia.
Qed.
Lemma idx_ok {A} (d : A) i l : 0 <= i < len l -> idx i l = Ok (nth (Z.to_nat i) l d).
Proof.
  intros Hi. unfold idx. replace ((0 <=? i) && (i <? len l)) with true by (symmetry; apply andb_true_iff; lia).
  rewrite (nth_error_nth' l d) by (unfold len in Hi; lia). reflexivity.
Qed.
Lemma heat_rows W H h X Wd data n : forall a li lc pix,
  is_image W H pix -> shows_part W H (h_canvas h) -> 0 <= X -> 0 <= Wd -> X + Wd <= i_width (h_canvas h) ->
  1 <= len data <= 2 ^ 24 -> 2 <= i_height (h_canvas h) <= 2 ^ 24 -> 1 <= len (h_colors h) <= 2 ^ 24 ->
  (forall v, In v data -> in_unit (h_map h v)) ->
  let col := fun i => nth (Z.to_nat (f_int (f_mul (h_map h (nth (Z.to_nat i) data 0)) (color_scale h)))) (h_colors h) white in
  (li = -1 \/ lc = col li) -> 0 <= a -> a + Z.of_nat n <= i_height (h_canvas h) ->
  exists li' lc' pix', for_ n a (heat_row h X Wd data) (li, lc, pix) = Ok (li', lc', pix') /\
  repainted W H (layers n a (fun r x y => if in_box (i_x (h_canvas h) + X) (i_y (h_canvas h) + (i_height (h_canvas h) - 1 - r)) Wd 1 x y
    then Some (col (row_index (len data) (i_height (h_canvas h)) r)) else None)) pix pix'.
Proof.
  induction n as [|n IH]; intros a li lc pix Hi V HX HW HXW Hd Hh Hc Hm col Hl Ha Hn.
  - exists li, lc, pix. split; [reflexivity|]. cbn [layers]. now apply repainted_refl.
  - cbn [for_ layers]. unfold heat_row at 1. destruct (shown_row (len data) (i_height (h_canvas h)) a Hd Hh ltac:(lia)) as [Hr _].
    set (index := row_index (len data) (i_height (h_canvas h)) a) in *.
    assert (E : (if index =? li then Ok lc else do v <- idx index data; point_color h v) = Ok (col index)).
    { destruct (Z.eqb_spec index li) as [->|N].
      - destruct Hl as [Hl|Hl]; [lia|now rewrite Hl].
      - rewrite (idx_ok 0) by assumption. cbn [bind]. unfold point_color, col.
        assert (I : In (nth (Z.to_nat index) data 0) data) by (apply nth_In; unfold len in Hr; lia).
        pose proof (unit_index_ _ (len (h_colors h) - 1) ltac:(lia) (Hm _ I)) as U. apply idx_ok. unfold color_scale. lia. }
    rewrite E. cbn [bind].
    replace ((i_height (h_canvas h) - 1 - a + i_y (h_canvas h)) * i_stride (h_canvas h) + 4 * (X + i_x (h_canvas h)))
      with (4 * ((i_y (h_canvas h) + (i_height (h_canvas h) - 1 - a)) * W + (i_x (h_canvas h) + X))) by (destruct V as (S & _); rewrite S; ring).
    pose proof V as (_ & V1 & V2 & V3 & V4 & V5 & V6).
    destruct (fill_run W H (i_y (h_canvas h) + (i_height (h_canvas h) - 1 - a)) (col index) (i_x (h_canvas h) + X) Wd pix Hi) as (p1 & E1 & R1); try lia.
    rewrite E1. cbn [bind].
    destruct (IH (a + 1) index (col index) p1) as (li' & lc' & p2 & E2 & R2); try assumption; try lia; [eapply repainted_image; eauto|now right|].
    exists li', lc', p2. split; [exact E2|]. exact (repainted_trans _ _ _ _ _ _ _ R1 R2).
Qed.
(** Drawing a column paints exactly the column's pixels: row [r] from the bottom
    gets the colour of the data point [shown r], which is the one for that
    height. *)
Theorem C55_column_partial :
  forall W H h X Wd data pix,
  is_image W H pix -> shows_part W H (h_canvas h) -> 0 <= X -> 0 <= Wd -> X + Wd <= i_width (h_canvas h) ->
  1 <= len data <= 2 ^ 24 -> 2 <= i_height (h_canvas h) <= 2 ^ 24 -> 1 <= len (h_colors h) <= 2 ^ 24 ->
  (forall v, In v data -> in_unit (h_map h v)) ->
  let v := h_canvas h in
  exists pix' shown rank, heat_draw h X Wd data pix = Ok pix' /\
  (forall r, 0 <= r < i_height v -> nearest_below (len data) (i_height v) r (shown r)) /\
  (forall d, In d data -> 0 <= rank d < len (h_colors h)) /\
  (forall d k, 0 <= k <= 128 -> h_map h d = k128 k -> rank d = k * (len (h_colors h) - 1) / 128) /\
  repainted W H (fun x y => if in_box (i_x v + X) (i_y v) Wd (i_height v) x y
     then Some (nth (Z.to_nat (rank (nth (Z.to_nat (shown (i_height v - 1 - (y - i_y v)))) data 0))) (h_colors h) white) else None) pix pix'.
Proof.
  intros W H h X Wd data pix Hi V HX HW HXW Hd Hh Hc Hm v. unfold heat_draw.
  rewrite (idx_ok white 0 (h_colors h)) by lia. cbn [bind].
  destruct (heat_rows W H h X Wd data (Z.to_nat (i_height v - 0)) 0 (-1) (nth (Z.to_nat 0) (h_colors h) white) pix) as (li & lc & p & E & R); try assumption; try (unfold v in *; lia).
  unfold for_to. fold v. rewrite E. cbn [bind snd].
  exists p, (row_index (len data) (i_height v)), (fun d => f_int (f_mul (h_map h d) (color_scale h))). split; [reflexivity|].
  split; [intros r Hr; now apply shown_row|]. split; [|split].
  - intros d Hin. unfold color_scale. pose proof (unit_index_ _ (len (h_colors h) - 1) ltac:(lia) (Hm d Hin)). lia.
  - intros d k Hk Ek. unfold color_scale. rewrite Ek. apply k128_index; lia.
  - fold v in R. rewrite Z.sub_0_r in R. eapply repainted_ext; [|exact R]. intros x y _ _. cbv beta.
    assert (Eh : Z.of_nat (Z.to_nat (i_height v)) = i_height v) by (rewrite Z2Nat.id; [reflexivity|destruct V as (_ & ? & ? & ? & ? & _); assumption]).
    pose proof (rows_box_up (i_x v + X) (i_y v) Wd (Z.to_nat (i_height v)) (fun r => nth (Z.to_nat (f_int (f_mul (h_map h (nth (Z.to_nat (row_index (len data) (i_height v) r)) data 0)) (color_scale h)))) (h_colors h) white) x y) as K.
    rewrite Eh in K. exact K.
Qed.

(** The data points shown are in order from the bottom up, and the bottom row
    shows the first one. *)
Theorem C55_order :
  forall n h r r' i i', 2 <= h -> 1 <= n -> 0 <= r <= r' -> r' < h -> nearest_below n h r i -> nearest_below n h r' i' ->
  (r < r' -> i <= i') /\ (r = 0 -> i = 0).
Proof. intros n h r r' i i' Hh Hn Hr Hr' (A & B & C) (A' & B' & C'). split; [intros L|intros ->]; nia. Qed.
(** The top row need not show the last data point: with two points on 50 rows
    the whole column shows the first one. *)
Theorem C55_top_row_refuted :
  row_index 2 50 49 = 0 /\ forall r, 0 <= r < 50 -> row_index 2 50 r = 0.
Proof.
  split; [vm_compute; reflexivity|]. intros r Hr. pose proof (shown_row 2 50 r ltac:(lia) ltac:(lia) Hr) as (A & B & C).
  destruct (Z.eq_dec r 49) as [->|]; [vm_compute; reflexivity|]. nia.
Qed.
(** On a canvas one pixel high drawing panics. *)
Theorem C55_one_row_refuted :
  forall h X Wd data pix, i_height (h_canvas h) = 1 -> 1 <= len data <= 2 ^ 24 -> 1 <= len (h_colors h) -> heat_draw h X Wd data pix = Panic.
Proof.
  intros h X Wd data pix Hh Hd Hc. unfold heat_draw. rewrite (idx_ok white 0 (h_colors h)) by lia. cbn [bind]. rewrite Hh.
  unfold for_to. change (Z.to_nat (1 - 0)) with 1%nat. cbn [for_]. unfold heat_row. rewrite Hh.
  assert (E : row_index (len data) 1 0 = - 2 ^ 63).
  { unfold row_index, index_scale, f_mul, f_div. change (f_of_int (1 - 1)) with (S754_zero false). change (f_of_int 0) with (S754_zero false).
    destruct (f_of_int (len data - 1)); reflexivity. }
  rewrite E. reflexivity.
Qed.

(** However wide a column is, drawing it does not panic and does not leave the
    image's memory ... *)
Lemma paint_len c n : forall low high pix, 0 <= low -> high <= len pix -> len (paint n low high c pix) = len pix.
Proof.
  induction n as [|n IH]; intros low high pix Hl Hh; cbn [paint]; [reflexivity|]. destruct (Z.leb_spec 4 (high - low)) as [E|E]; [|reflexivity].
  assert (P : len (put low [c_r c; c_g c; c_b c; 255] pix) = len pix) by (apply put_len; [exact Hl|change (len [c_r c; c_g c; c_b c; 255]) with 4; lia]).
  rewrite IH; lia.
Qed.
Theorem C55_wide_column :
  forall W H h X Wd data pix,
  is_image W H pix -> shows_part W H (h_canvas h) -> 0 <= X -> 0 <= Wd -> i_x (h_canvas h) + X <= W ->
  1 <= len data <= 2 ^ 24 -> 2 <= i_height (h_canvas h) <= 2 ^ 24 -> 1 <= len (h_colors h) <= 2 ^ 24 ->
  (forall v, In v data -> in_unit (h_map h v)) ->
  exists pix', heat_draw h X Wd data pix = Ok pix' /\ len pix' = len pix.
Proof.
  intros W H h X Wd data pix Hi V HX HW HXW Hd Hh Hc Hm. unfold heat_draw. rewrite (idx_ok white 0 (h_colors h)) by lia. cbn [bind]. unfold for_to.
  assert (K : forall n a li lc pix, is_image W H pix -> 0 <= a -> a + Z.of_nat n <= i_height (h_canvas h) ->
    exists li' lc' pix', for_ n a (heat_row h X Wd data) (li, lc, pix) = Ok (li', lc', pix') /\ len pix' = len pix).
  { clear pix Hi. induction n as [|n IH]; intros a li lc pix Hi Ha Hn; [now exists li, lc, pix|]. cbn [for_]. unfold heat_row at 1.
    destruct (shown_row (len data) (i_height (h_canvas h)) a Hd Hh ltac:(lia)) as [Hr _]. set (index := row_index (len data) (i_height (h_canvas h)) a) in *.
    assert (E : exists c, (if index =? li then Ok lc else do v <- idx index data; point_color h v) = Ok c).
    { destruct (index =? li); [eauto|]. rewrite (idx_ok 0) by assumption. cbn [bind]. unfold point_color.
      assert (I : In (nth (Z.to_nat index) data 0) data) by (apply nth_In; unfold len in Hr; lia).
      pose proof (unit_index_ _ (len (h_colors h) - 1) ltac:(lia) (Hm _ I)) as U. rewrite (idx_ok white); [eauto|]. unfold color_scale. lia. }
    destruct E as [c E]. rewrite E. cbn [bind].
    pose proof V as (VS & V1 & V2 & V3 & V4 & V5 & V6). rewrite VS.
    set (low := (i_height (h_canvas h) - 1 - a + i_y (h_canvas h)) * (4 * W) + 4 * (X + i_x (h_canvas h))) in *. pose proof Hi as (I1 & I2 & I3).
    assert (L : 0 <= low <= len pix).
    { rewrite I3. unfold low. set (r := i_height (h_canvas h) - 1 - a + i_y (h_canvas h)). assert (0 <= r <= H - 1) by (unfold r; lia). nia. }
    unfold fill. set (hi := if len pix <? low + 4 * Wd then len pix else low + 4 * Wd).
    assert (Hhi : low <= hi <= len pix) by (unfold hi; destruct (Z.ltb_spec (len pix) (low + 4 * Wd)); lia).
    replace ((0 <=? low) && (low <=? hi) && (hi <=? len pix)) with true by (symmetry; rewrite !andb_true_iff, !Z.leb_le; lia). cbn [bind].
    pose proof (paint_len c (Z.to_nat (hi - low)) low hi pix ltac:(lia) ltac:(lia)) as PL.
    destruct (IH (a + 1) index c (paint (Z.to_nat (hi - low)) low hi c pix)) as (li' & lc' & pix' & E' & L'); try lia.
    { split; [assumption|]. split; [assumption|]. rewrite PL. exact I3. }
    exists li', lc', pix'. split; [exact E'|]. rewrite L'. exact PL. }
  destruct (K (Z.to_nat (i_height (h_canvas h) - 0)) 0 (-1) (nth (Z.to_nat 0) (h_colors h) white) pix Hi) as (li & lc & p & E & L); try lia.
  rewrite E. cbn [bind snd]. eauto.
Qed.
(** ... but it paints over the start of the next rows: a column two pixels wide at
    the last pixel of an image three pixels wide. *)
Theorem C55_wide_column_refuted :
  exists h pix', shows_part 3 2 (h_canvas h) /\ heat_draw h 2 2 [0] (repeat 255 24) = Ok pix' /\
  pixel 3 pix' 0 1 = opaque (Color 0 0 0).
Proof.
  exists (Heatmap [Color 0 0 0] (RGB 12 3 2 0 0) (fun _ => k128 0)). eexists. split; [repeat split; cbn; lia|]. split; [vm_compute; reflexivity|]. vm_compute. reflexivity.
Qed.
(** On a canvas that is not an RGB exactly the pixels of the column that the
    canvas has are set, but row [y] from the top gets the data point for height
    [y]: the picture is upside down. *)
Lemma row_sets n (y : Z) (c : color) : forall a (sets : list (Z * Z * color)), exists new,
  for_ n a (fun x l => Ok (l ++ [(x, y, c)])) sets = Ok (sets ++ new) /\
  (forall p, In p new <-> exists x, a <= x < a + Z.of_nat n /\ p = (x, y, c)).
Proof.
  induction n as [|n IH]; intros a sets; cbn [for_].
  - exists []. rewrite app_nil_r. split; [reflexivity|]. intros p. split; [intros []|intros (x & Hx & _); lia].
  - cbn [bind]. destruct (IH (a + 1) (sets ++ [(a, y, c)])) as (new & E & I). exists ((a, y, c) :: new). rewrite <- app_assoc in E. split; [exact E|].
    intros p. cbn [In]. rewrite I. split.
    + intros [<-|(x & Hx & ->)]; [exists a|exists x]; split; try reflexivity; lia.
    + intros (x & Hx & ->). destruct (Z.eq_dec x a) as [->|]; [now left|right]. exists x. split; [lia|reflexivity].
Qed.
Theorem C55_other_canvas_partial :
  forall h width height X Wd data,
  0 <= X -> 0 <= Wd -> 1 <= len data <= 2 ^ 24 -> 2 <= height <= 2 ^ 24 -> 1 <= len (h_colors h) <= 2 ^ 24 ->
  (forall v, In v data -> in_unit (h_map h v)) ->
  exists sets shown rank, heat_sets h width height X Wd data = Ok sets /\
  (forall r, 0 <= r < height -> nearest_below (len data) height r (shown r)) /\
  (forall d, In d data -> 0 <= rank d < len (h_colors h)) /\
  (forall d k, 0 <= k <= 128 -> h_map h d = k128 k -> rank d = k * (len (h_colors h) - 1) / 128) /\
  forall x y c, In (x, y, c) sets <->
    X <= x < X + Wd /\ x < width /\ 0 <= y < height /\ c = nth (Z.to_nat (rank (nth (Z.to_nat (shown y)) data 0))) (h_colors h) white.
Proof.
  intros h width height X Wd data HX HW Hd Hh Hc Hm. unfold heat_sets. rewrite (idx_ok white 0 (h_colors h)) by lia. cbn [bind]. unfold for_to.
  set (rank := fun d => f_int (f_mul (h_map h d) (color_scale h))). set (shown := row_index (len data) height).
  set (col := fun i => nth (Z.to_nat (rank (nth (Z.to_nat i) data 0))) (h_colors h) white).
  assert (K : forall n a li lc sets, (li = -1 \/ lc = col li) -> 0 <= a -> a + Z.of_nat n <= height ->
    exists li' lc' new, for_ n a (heat_row_sets h width height X Wd data) (li, lc, sets) = Ok (li', lc', sets ++ new) /\
    forall x y c, In (x, y, c) new <-> X <= x < X + Wd /\ x < width /\ a <= y < a + Z.of_nat n /\ c = col (shown y)).
  { induction n as [|n IH]; intros a li lc sets Hl Ha Hn.
    - exists li, lc, []. rewrite app_nil_r. split; [reflexivity|]. intros x y c. split; [intros []|lia].
    - cbn [for_]. unfold heat_row_sets at 1. destruct (shown_row (len data) height a Hd Hh ltac:(lia)) as [Hr _].
      change (row_index (len data) height a) with (shown a) in *.
      assert (E : (if shown a =? li then Ok lc else do v <- idx (shown a) data; point_color h v) = Ok (col (shown a))).
      { destruct (Z.eqb_spec (shown a) li) as [Q|N].
        - rewrite Q. destruct Hl as [Hl|Hl]; [exfalso; rewrite Hl in Q; rewrite Q in Hr; lia|now rewrite Hl].
        - rewrite (idx_ok 0) by assumption. cbn [bind]. unfold point_color, col, rank.
          assert (I : In (nth (Z.to_nat (shown a)) data 0) data) by (apply nth_In; unfold len in Hr; lia).
          pose proof (unit_index_ _ (len (h_colors h) - 1) ltac:(lia) (Hm _ I)) as U. apply idx_ok. unfold color_scale. lia. }
      rewrite E. cbn [bind]. unfold for_to. destruct (row_sets (Z.to_nat (Z.min (X + Wd) width - X)) a (col (shown a)) X sets) as (new & E1 & I1).
      rewrite E1. cbn [bind]. destruct (IH (a + 1) (shown a) (col (shown a)) (sets ++ new) ltac:(now right) ltac:(lia) ltac:(lia)) as (li' & lc' & new' & E2 & I2).
      exists li', lc', (new ++ new'). rewrite app_assoc. split; [exact E2|]. intros x y c. rewrite in_app_iff, I1, I2. split.
      + intros [(x' & Hx' & Q)|Q]; [injection Q as -> -> ->; repeat split; try reflexivity; lia|]. repeat split; try lia. apply Q.
      + intros (A & B & C & D). destruct (Z.eq_dec y a) as [->|]; [left|right].
        * exists x. subst c. split; [lia|reflexivity].
        * repeat split; try lia. exact D. }
  destruct (K (Z.to_nat (height - 0)) 0 (-1) (nth (Z.to_nat 0) (h_colors h) white) [] ltac:(now left) ltac:(lia) ltac:(lia)) as (li & lc & new & E & I).
  rewrite E. cbn [bind snd app]. exists new, shown, rank. split; [reflexivity|]. split; [intros r Hr; now apply shown_row|]. split.
  { intros d Hin. unfold rank, color_scale. pose proof (unit_index_ _ (len (h_colors h) - 1) ltac:(lia) (Hm d Hin)). lia. }
  split; [intros d k Hk Ek; unfold rank, color_scale; rewrite Ek; apply k128_index; lia|].
  intros x y c. rewrite I. replace (0 + Z.of_nat (Z.to_nat (height - 0))) with height by lia. unfold col. reflexivity.
Qed.
(** The same column on an RGB and on another canvas: the first data point is at
    the bottom of the one and at the top of the other. *)
Theorem C55_other_canvas_refuted :
  exists h data pix' sets, shows_part 1 2 (h_canvas h) /\
  heat_draw h 0 1 data (repeat 255 8) = Ok pix' /\ heat_sets h 1 2 0 1 data = Ok sets /\
  pixel 1 pix' 0 0 = opaque (Color 2 2 2) /\ pixel 1 pix' 0 1 = opaque (Color 1 1 1) /\
  In (0, 0, Color 1 1 1) sets /\ In (0, 1, Color 2 2 2) sets.
Proof.
  exists (Heatmap [Color 1 1 1; Color 2 2 2] (RGB 4 1 2 0 0) (fun d => k128 d)), [0; 128]. eexists. eexists.
  split; [repeat split; cbn; lia|]. split; [vm_compute; reflexivity|]. split; [vm_compute; reflexivity|]. vm_compute. auto 8.
Qed.

Definition ex_colors : list color := [Color 0 0 0; Color 10 10 10; Color 20 20 20].
Definition ex_heat : heatmap := Heatmap ex_colors (RGB 12 2 2 1 0) (fun d => k128 d).
Lemma k128_unit k : 0 <= k <= 128 -> in_unit (k128 k).
Proof.
  intros Hk. assert (A : forallb (fun k => let f := k128 k in valid_binary 53 1024 f && SFleb (S754_zero false) f && SFleb f (f_of_int 1)) (map Z.of_nat (seq 0 129)) = true) by (vm_compute; reflexivity).
  rewrite forallb_forall in A. specialize (A k ltac:(apply in_map_iff; exists (Z.to_nat k); split; [lia|apply in_seq; lia])). cbn zeta in A.
  apply andb_true_iff in A. destruct A as [A C]. apply andb_true_iff in A. destruct A as [A B]. split; auto.
Qed.
Example C55_example :
  is_image 3 2 (repeat 255 24) /\ shows_part 3 2 (h_canvas ex_heat) /\ (forall v, In v [10; 70; 128] -> in_unit (h_map ex_heat v)) /\
  heat_draw ex_heat 1 1 [10; 70; 128] (repeat 255 24) =
    Ok (repeat 255 8 ++ [20; 20; 20; 255] ++ repeat 255 8 ++ [0; 0; 0; 255]).
Proof.
  split; [repeat split; reflexivity || (cbn; lia)|]. split; [repeat split; cbn; lia|]. split; [|vm_compute; reflexivity].
  intros v Hv. apply k128_unit. cbn in Hv. lia.
Qed.

(** * C56 *)
(** The key shows the colours from the first at the bottom upwards. *)
Theorem C56_key_partial :
  forall W H v colors w h pix, is_image W H pix -> shows_part W H v -> 0 <= w <= i_width v -> 2 <= h <= i_height v -> h <= 2 ^ 24 ->
  1 <= len colors <= 2 ^ 24 ->
  exists pix' shown, key_draw v colors w h pix = Ok pix' /\
  (forall r, 0 <= r < h -> nearest_below (len colors) h r (shown r)) /\
  repainted W H (fun x y => if in_box (i_x v) (i_y v) w h x y then Some (nth (Z.to_nat (shown (h - 1 - (y - i_y v)))) colors white) else None) pix pix'.
Proof.
  intros W H v colors w h pix Hi V Hw Hh Hh' Hc. unfold key_draw, for_to. rewrite Z.sub_0_r.
  assert (I : forall r, 0 <= r < h -> 0 <= key_index (len colors) h r < len colors).
  { intros r Hr. destruct (shown_row (len colors) h (h - 1 - r) Hc ltac:(lia) ltac:(lia)) as [A _]. exact A. }
  edestruct (box_set W H v 0 0 w h (fun r => nth (Z.to_nat (key_index (len colors) h r)) colors white)) as (p' & E & R); try eassumption; try lia.
  2: { exists p', (row_index (len colors) h). split; [exact E|]. split; [intros r Hr; apply shown_row; lia|].
       rewrite !Z.add_0_r in R. exact R. }
  intros r p Hr. cbv beta. rewrite (idx_ok white _ colors (I r Hr)). cbn [bind]. now rewrite Z.sub_0_r.
Qed.
(** A key 26 pixels high does not show the last of 256 colours at all. *)
Theorem C56_top_row_refuted : forall r, 0 <= r < 26 -> key_index 256 26 r < 255.
Proof.
  intros r Hr. assert (A : forallb (fun r => key_index 256 26 r <? 255) (map Z.of_nat (seq 0 26)) = true) by (vm_compute; reflexivity).
  rewrite forallb_forall in A. specialize (A r ltac:(apply in_map_iff; exists (Z.to_nat r); split; [lia|apply in_seq; lia])). cbv beta in A. lia.
Qed.
Theorem C56_one_row_refuted : forall v colors w pix, 1 <= len colors <= 2 ^ 24 -> key_draw v colors w 1 pix = Panic.
Proof.
  intros v colors w pix Hc. unfold key_draw, for_to. change (Z.to_nat (1 - 0)) with 1%nat. cbn [for_].
  assert (E : key_index (len colors) 1 0 = - 2 ^ 63).
  { unfold key_index, f_mul, f_div. change (f_of_int (1 - 1)) with (S754_zero false). change (f_of_int (1 - 1 - 0)) with (S754_zero false).
    destruct (f_of_int (len colors - 1)); reflexivity. }
  rewrite E. reflexivity.
Qed.
Example C56_example :
  key_draw (RGB 8 1 3 1 0) ex_colors 1 3 (repeat 255 24) = Ok (repeat 255 4 ++ [20; 20; 20; 255] ++ repeat 255 4 ++ [10; 10; 10; 255] ++ repeat 255 4 ++ [0; 0; 0; 255]).
Proof. vm_compute. reflexivity. Qed.

(** * C57 *)
Lemma obs_max_spec cols : (forall c, In c cols -> is_rate (col_rate c)) ->
  is_rate (obs_max cols) /\ (forall c, In c cols -> SFleb (col_rate c) (obs_max cols) = true).
Proof.
  unfold obs_max. intros Hr.
  assert (G : forall l m, is_rate m -> (forall c, In c l -> is_rate (col_rate c)) ->
    let r := fold_left (fun m c => if SFltb m (col_rate c) then col_rate c else m) l m in
    is_rate r /\ SFleb m r = true /\ forall c, In c l -> SFleb (col_rate c) r = true).
  { induction l as [|c l IH]; intros m Hm Hl; cbn [fold_left].
    - split; [exact Hm|]. split; [now apply SFleb_refl_rate|intros c []].
    - assert (Hc : is_rate (col_rate c)) by (apply Hl; now left).
      destruct (IH (if SFltb m (col_rate c) then col_rate c else m)) as (A & B & C); [now destruct (SFltb m (col_rate c))|intros; apply Hl; now right|].
      cbn zeta. split; [exact A|]. rewrite (SFltb_total_rate m _ Hm Hc) in *. destruct (SFleb (col_rate c) m) eqn:E; cbn [negb] in *.
      + split; [exact B|]. intros c' [<-|Hc']; [eapply SFleb_trans_rate; [| | |exact E|exact B]; assumption|now apply C].
      + split; [|intros c' [<-|Hc']; [exact B|now apply C]].
        assert (L : SFleb m (col_rate c) = true). { pose proof (SFltb_total_rate (col_rate c) m Hc Hm) as T. destruct (SFleb m (col_rate c)); [reflexivity|]. cbn [negb] in T.
          exfalso. unfold SFltb, SFleb in *. destruct (SFcompare (col_rate c) m) as [[]|]; discriminate. }
        eapply SFleb_trans_rate; [| | |exact L|exact B]; assumption. }
  destruct (G cols (S754_zero false)) as (A & _ & C); [repeat split; reflexivity|exact Hr|]. auto.
Qed.
(** Every column's part of the bar is painted in one grey, later columns over
    earlier ones; the columns with the highest rate are black and a column with a
    higher rate is never lighter. *)
Theorem C57_bar :
  forall W H v height top cols pix, is_image W H pix -> shows_part W H v -> 0 <= top -> 0 <= height -> top + height <= i_height v ->
  (forall c, In c cols -> 0 <= col_x c /\ 0 <= col_w c /\ col_x c + col_w c <= i_width v) ->
  exists pix', obs_bar v height top cols pix = Ok pix' /\
  repainted W H (fun x y => fold_left (fun old c => if in_box (i_x v + col_x c) (i_y v + top) (col_w c) height x y
     then Some (obs_grey (obs_max cols) c) else old) cols None) pix pix'.
Proof.
  intros W H v height top cols pix Hi V Ht Hh Hth Hc. unfold obs_bar. set (max := obs_max cols). clearbody max.
  assert (G : forall l f p, is_image W H p -> repainted W H f pix p -> (forall c, In c l -> 0 <= col_x c /\ 0 <= col_w c /\ col_x c + col_w c <= i_width v) ->
    exists p', fold_left (fun r col => do pix <- r; for_to 0 height (fun y pix => for_to 0 (col_w col) (fun x pix => set_px v (x + col_x col) (y + top) (obs_grey max col) pix) pix) pix) l (Ok p) = Ok p' /\
    repainted W H (fun x y => fold_left (fun old c => if in_box (i_x v + col_x c) (i_y v + top) (col_w c) height x y then Some (obs_grey max c) else old) l (f x y)) pix p').
  { induction l as [|c l IH]; intros f p Hp Hf Hl; cbn [fold_left]; [eauto|].
    destruct (Hl c (or_introl eq_refl)) as (C1 & C2 & C3). cbn [bind]. unfold for_to. rewrite !Z.sub_0_r.
    edestruct (box_set W H v (col_x c) top (col_w c) height (fun _ => obs_grey max c)) as (p1 & E1 & R1); try eassumption.
    2: { rewrite E1. destruct (IH (fun x y => if in_box (i_x v + col_x c) (i_y v + top) (col_w c) height x y then Some (obs_grey max c) else f x y) p1) as (p2 & E2 & R2).
         - eapply repainted_image; eauto.
         - eapply repainted_ext; [|exact (repainted_trans _ _ _ _ _ _ _ Hf R1)]. intros x y _ _. cbv beta. destruct (in_box _ _ _ _ x y); reflexivity.
         - intros; apply Hl; now right.
         - exists p2. unfold for_to in E2. rewrite !Z.sub_0_r in E2. split; [exact E2|exact R2]. }
    intros r q Hr. cbv beta. rewrite (for_shift (Z.to_nat (col_w c)) 0 (col_x c) (fun x pix => set_px v x (r + top) (obs_grey max c) pix) q).
    rewrite Z.add_0_l, (Z.add_comm r top). reflexivity. }
  apply (G cols (fun _ _ => None) pix Hi); [now apply repainted_refl|exact Hc].
Qed.
Theorem C57_grey :
  forall cols, (forall c, In c cols -> is_rate (col_rate c)) -> SFltb (S754_zero false) (obs_max cols) = true ->
  exists g, (forall c, In c cols -> 0 <= g c <= 255 /\ obs_grey (obs_max cols) c = grey (g c)) /\
  (forall c, In c cols -> (forall c', In c' cols -> SFleb (col_rate c') (col_rate c) = true) -> g c = 0) /\
  (forall c c', In c cols -> In c' cols -> SFleb (col_rate c) (col_rate c') = true -> g c' <= g c).
Proof.
  intros cols Hr Hm. destruct (obs_max_spec cols Hr) as [R L]. exists (fun c => 255 - ratio (col_rate c) (obs_max cols)).
  assert (B : forall c, In c cols -> 0 <= ratio (col_rate c) (obs_max cols) <= 255) by (intros c Hc; apply ratio_range; auto).
  split; [|split].
  - intros c Hc. specialize (B c Hc). split; [lia|]. unfold obs_grey, f_byte, grey. fold (ratio (col_rate c) (obs_max cols)).
    rewrite (Z.mod_small (ratio _ _)) by lia. rewrite Z.mod_small by lia. reflexivity.
  - intros c Hc Hx. enough (255 <= ratio (col_rate c) (obs_max cols)) by (specialize (B c Hc); lia).
    assert (M : SFleb (obs_max cols) (col_rate c) = true).
    { clear - Hr Hm Hx Hc. unfold obs_max in *.
      assert (G : forall l m, SFltb (S754_zero false) (fold_left (fun m c => if SFltb m (col_rate c) then col_rate c else m) l m) = true ->
        fold_left (fun m c => if SFltb m (col_rate c) then col_rate c else m) l m = m \/ In (fold_left (fun m c => if SFltb m (col_rate c) then col_rate c else m) l m) (map col_rate l)).
      { induction l as [|c0 l IH]; intros m Hp; cbn [fold_left map] in *; [now left|]. destruct (IH _ Hp) as [E|E]; [|right; now right].
        rewrite E. destruct (SFltb m (col_rate c0)); [right; now left|now left]. }
      destruct (G cols (S754_zero false) Hm) as [E|E]; [rewrite E in Hm; discriminate|]. apply in_map_iff in E. destruct E as (c0 & E & H0). rewrite <- E. now apply Hx. }
    rewrite <- (ratio_full_sf (obs_max cols) R Hm). apply ratio_mono_sf; auto using SFleb_refl_rate.
  - intros c c' Hc Hc' Hx. enough (ratio (col_rate c) (obs_max cols) <= ratio (col_rate c') (obs_max cols)) by lia. apply ratio_mono_sf; auto.
Qed.
Definition ex_cols : list column := [Col 0 1 [] (f_of_int 3); Col 1 1 [] (f_of_int 12); Col 2 1 [] (f_of_int 6)].
Example C57_example :
  (forall c, In c ex_cols -> is_rate (col_rate c)) /\ SFltb (S754_zero false) (obs_max ex_cols) = true /\
  map (obs_grey (obs_max ex_cols)) ex_cols = [grey 192; grey 0; grey 128] /\
  exists p, obs_bar (RGB 12 3 2 0 0) 1 1 ex_cols (repeat 255 24) = Ok p.
Proof.
  split; [|split; [reflexivity|split; [reflexivity|eexists; vm_compute; reflexivity]]].
  intros c [<-|[<-|[<-|[]]]]; repeat split; reflexivity.
Qed.

Print Assumptions C45_new.
Print Assumptions C45_view.
Print Assumptions C45_set.
Print Assumptions C45_raw.
Print Assumptions C45_drawing.
Print Assumptions C45_image.
Print Assumptions C45_nested_view_refuted.
Print Assumptions C55_column_partial.
Print Assumptions C55_order.
Print Assumptions C55_top_row_refuted.
Print Assumptions C55_one_row_refuted.
Print Assumptions C55_wide_column.
Print Assumptions C55_wide_column_refuted.
Print Assumptions C55_other_canvas_partial.
Print Assumptions C55_other_canvas_refuted.
Print Assumptions C56_key_partial.
Print Assumptions C56_top_row_refuted.
Print Assumptions C56_one_row_refuted.
Print Assumptions C57_bar.
Print Assumptions C57_grey.
