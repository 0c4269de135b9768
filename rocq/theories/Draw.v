(** Model of draw/common.go, draw/heatmap/heatmap.go, draw/key/key.go and the
    bar of draw/observations/obs.go.

    Simplifications: Go ints do not overflow here (4*w*h is the size of a byte
    slice that exists in memory, so its index arithmetic cannot wrap); a pixel
    slice has its capacity equal to its length (bytes.Repeat allocates exactly).
    Text (font.Drawer) is not modelled.  Floats are [spec_float] with IEEE 754
    double arithmetic (Coq.Floats.SpecFloat). *)
From Coq Require Import ZArith List Bool.
From Coq Require Import Floats.SpecFloat.
From Verif Require Import Base Merge.
Import ListNotations.
Open Scope Z_scope.

(** common.go:26-28 Color *)
Record color := Color { c_r : Z; c_g : Z; c_b : Z }.
(** common.go:32-38 RGB without Pix: the views of an image share its Pix, which
    is passed separately *)
Record rgb := RGB { i_stride : Z; i_width : Z; i_height : Z; i_x : Z; i_y : Z }.

(** common.go:41-48 NewRGB: the image and its Pix (bytes.Repeat panics on a
    negative count) *)
Definition new_rgb (w h : Z) : res (rgb * list Z) :=
  if 4 * w * h <? 0 then Panic
  else Ok (RGB (4 * w) w h 0 0, repeat 255 (Z.to_nat (4 * w * h))).
(** common.go:51-53 Size *)
Definition rgb_size (m : rgb) : Z * Z := (i_width m, i_height m).
(** common.go:58, 69 the offset of a pixel *)
Definition px_off (m : rgb) (x y : Z) : Z := (y + i_y m) * i_stride m + (x + i_x m) * 4.
(** common.go:57-64 Set *)
Definition set_px (m : rgb) (x y : Z) (c : color) (pix : list Z) : res (list Z) :=
  let i := px_off m x y in
  if (0 <=? i) && (i + 4 <=? len pix) then Ok (put i [c_r c; c_g c; c_b c; 255] pix) else Panic.
(** common.go:68-71 Raw: the bytes of the slice it returns *)
Definition raw_px (m : rgb) (x y : Z) (pix : list Z) : res (list Z) :=
  let i := px_off m x y in
  if (0 <=? i) && (i + 4 <=? len pix) then Ok (sub i 4 pix) else Panic.
(** common.go:74-80 View *)
Definition view (m : rgb) (x y w h : Z) : rgb := RGB (i_stride m) w h x y.
(** common.go:82-90 AsImage and image.RGBA's PixOffset on the result:
    (y-Rect.Min.Y)*Stride + (x-Rect.Min.X)*4, and its bounds (image.Rect swaps
    the coordinates that are the wrong way round) *)
Definition img_min_x (m : rgb) : Z := Z.min (- i_x m) (i_width m).
Definition img_min_y (m : rgb) : Z := Z.min (- i_y m) (i_height m).
Definition img_max_x (m : rgb) : Z := Z.max (- i_x m) (i_width m).
Definition img_max_y (m : rgb) : Z := Z.max (- i_y m) (i_height m).
Definition img_off (m : rgb) (x y : Z) : Z := (y - img_min_y m) * i_stride m + (x - img_min_x m) * 4.

(** for x := a; x < a+n; x++ *)
Fixpoint for_ {S : Type} (n : nat) (a : Z) (f : Z -> S -> res S) (s : S) : res S :=
  match n with
  | O => Ok s
  | Datatypes.S n' => do s' <- f a s; for_ n' (a + 1) f s'
  end.
Definition for_to {S : Type} (lo hi : Z) (f : Z -> S -> res S) (s : S) : res S := for_ (Z.to_nat (hi - lo)) lo f s.

(** float64 operations and the conversion int(f) of a float (towards zero; NaN,
    infinities and values out of range give the amd64 result, -2^63) *)
Definition f_mul := SFmul 53 1024.
Definition f_int (f : spec_float) : Z :=
  match f with
  | S754_finite s m e =>
      let a := if 0 <=? e then Zpos m * 2 ^ e else Zpos m / 2 ^ (- e) in
      if a <? 2 ^ 63 then (if s then - a else a) else - 2 ^ 63
  | S754_zero _ => 0
  | _ => - 2 ^ 63
  end.

(** l[i], panicking out of range *)
Definition idx {A} (i : Z) (l : list A) : res A :=
  if (0 <=? i) && (i <? len l) then match nth_error l (Z.to_nat i) with Some a => Ok a | None => Panic end else Panic.

(** heatmap.go:78-98 the pixels [low:high] of Pix are painted (gc branch) *)
Fixpoint paint (n : nat) (low high : Z) (c : color) (pix : list Z) : list Z :=
  match n with
  | O => pix
  | S n' => if 4 <=? high - low then paint n' (low + 4) high c (put low [c_r c; c_g c; c_b c; 255] pix) else pix
  end.
Definition fill (low high : Z) (c : color) (pix : list Z) : res (list Z) :=
  let high := if len pix <? high then len pix else high in
  if (0 <=? low) && (low <=? high) && (high <=? len pix) then Ok (paint (Z.to_nat (high - low)) low high c pix) else Panic.

(** heatmap.go:13-24 Options with an RGB canvas; [h_map] is Map *)
Record heatmap := Heatmap { h_colors : list color; h_canvas : rgb; h_map : Z -> spec_float }.
(** heatmap.go:43 color_scale *)
Definition color_scale (h : heatmap) : spec_float := f_of_int (len (h_colors h) - 1).
(** heatmap.go:54 index_scale *)
Definition index_scale (n height : Z) : spec_float := f_div (f_of_int (n - 1)) (f_of_int (height - 1)).
(** heatmap.go:61 index *)
Definition row_index (n height y : Z) : Z := f_int (f_mul (f_of_int y) (index_scale n height)).
(** heatmap.go:65-66 the colour of a data point *)
Definition point_color (h : heatmap) (v : Z) : res color := idx (f_int (f_mul (h_map h v) (color_scale h))) (h_colors h).
(** heatmap.go:57-105 one row; the state is last_index, last_color and Pix *)
Definition heat_row (h : heatmap) (X W : Z) (data : list Z) (y : Z) (st : Z * color * list Z) : res (Z * color * list Z) :=
  let '(last_index, last_color, pix) := st in
  let m := h_canvas h in
  let index := row_index (len data) (i_height m) y in
  do c <- (if index =? last_index then Ok last_color
           else do v <- idx index data; point_color h v);
  let row := (i_height m - 1 - y + i_y m) * i_stride m in
  let low := row + 4 * (X + i_x m) in
  do pix' <- fill low (low + 4 * W) c pix;
  Ok (index, c, pix').
(** heatmap.go:51-107 Draw *)
Definition heat_draw (h : heatmap) (X W : Z) (data : list Z) (pix : list Z) : res (list Z) :=
  do c0 <- idx 0 (h_colors h);
  do st <- for_to 0 (i_height (h_canvas h)) (heat_row h X W data) (-1, c0, pix);
  Ok (snd st).

(** heatmap.go:51-107 Draw on a canvas that is not an RGB (heatmap.go:99-104):
    the calls of Set in order, [width] by [height] being the canvas's Size *)
Definition heat_row_sets (h : heatmap) (width height X W : Z) (data : list Z) (y : Z) (st : Z * color * list (Z * Z * color)) : res (Z * color * list (Z * Z * color)) :=
  let '(last_index, last_color, sets) := st in
  let index := row_index (len data) height y in
  do c <- (if index =? last_index then Ok last_color
           else do v <- idx index data; point_color h v);
  do sets' <- for_to X (Z.min (X + W) width) (fun x l => Ok (l ++ [(x, y, c)])) sets;
  Ok (index, c, sets').
Definition heat_sets (h : heatmap) (width height X W : Z) (data : list Z) : res (list (Z * Z * color)) :=
  do c0 <- idx 0 (h_colors h);
  do st <- for_to 0 height (heat_row_sets h width height X W data) (-1, c0, []);
  Ok (snd st).

(** key.go:24-43 Draw on a canvas that is large enough (otherwise NewRGB makes
    one that is) *)
Definition key_index (ncolors height y : Z) : Z :=
  f_int (f_mul (f_of_int (height - 1 - y)) (f_div (f_of_int (ncolors - 1)) (f_of_int (height - 1)))).
Definition key_draw (m : rgb) (colors : list color) (w h : Z) (pix : list Z) : res (list Z) :=
  for_to 0 h (fun y pix =>
    do c <- idx (key_index (len colors) h y) colors;
    for_to 0 w (fun x pix => set_px m x y c pix) pix) pix.

(** obs.go:88-95 the largest rate (0 if none is larger) *)
Definition obs_max (cols : list column) : spec_float :=
  fold_left (fun m c => if SFltb m (col_rate c) then col_rate c else m) cols (S754_zero false).
(** byte(f) *)
Definition f_byte (f : spec_float) : Z := f_int f mod 256.
(** obs.go:102-103 the grey of a column *)
Definition obs_grey (max : spec_float) (c : column) : color :=
  let sat := (255 - f_byte (f_mul (f_div (col_rate c) max) (f_of_int 255))) mod 256 in Color sat sat sat.
(** obs.go:101-110 the bar, [top] = padding+label_height pixels below the top of
    the canvas and [height] = opts.Height pixels high *)
Definition obs_bar (m : rgb) (height top : Z) (cols : list column) (pix : list Z) : res (list Z) :=
  let max := obs_max cols in
  fold_left (fun r col =>
    do pix <- r;
    for_to 0 height (fun y pix => for_to 0 (col_w col) (fun x pix => set_px m (x + col_x col) (y + top) (obs_grey max col) pix) pix) pix) cols (Ok pix).
