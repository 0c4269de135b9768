(** Images as a user sees them: rows of pixels of four bytes (red, green, blue,
    alpha), the layout of image.RGBA. *)
From Coq Require Import ZArith List Bool.
From Coq Require Import Floats.SpecFloat.
From Verif Require Import Base Merge Draw.
Import ListNotations.
Open Scope Z_scope.

(** the four bytes of the pixel in column [x] of row [y] of an image [W] wide *)
Definition pixel (W : Z) (pix : list Z) (x y : Z) : list Z := sub (4 * (y * W + x)) 4 pix.
Definition opaque (c : color) : list Z := [c_r c; c_g c; c_b c; 255].
Definition white : color := Color 255 255 255.
(** [pix] is the memory of an image of [W] by [H] pixels *)
Definition is_image (W H : Z) (pix : list Z) : Prop := 0 <= W /\ 0 <= H /\ len pix = 4 * W * H.
(** [v] shows the [i_width] by [i_height] pixels of that image whose top left
    corner is ([i_x], [i_y]) *)
Definition shows_part (W H : Z) (v : rgb) : Prop :=
  i_stride v = 4 * W /\ 0 <= i_x v /\ 0 <= i_y v /\ 0 <= i_width v /\ 0 <= i_height v /\
  i_x v + i_width v <= W /\ i_y v + i_height v <= H.
(** from [pix] to [pix'] exactly the pixels where [f] gives a colour changed, to
    that colour *)
Definition repainted (W H : Z) (f : Z -> Z -> option color) (pix pix' : list Z) : Prop :=
  is_image W H pix' /\
  forall x y, 0 <= x < W -> 0 <= y < H ->
  pixel W pix' x y = match f x y with Some c => opaque c | None => pixel W pix x y end.
(** a drawing: the pixels set, in order *)
Inductive drawing (W H : Z) : list (Z * Z * color) -> list Z -> Prop :=
| dr_new m pix : new_rgb W H = Ok (m, pix) -> drawing W H [] pix
| dr_set l pix v x y c pix' : drawing W H l pix -> shows_part W H v -> 0 <= x < i_width v -> 0 <= y < i_height v ->
    set_px v x y c pix = Ok pix' -> drawing W H (l ++ [(i_x v + x, i_y v + y, c)]) pix'.
(** the colour last given to a pixel *)
Definition last_color (l : list (Z * Z * color)) (x y : Z) : color :=
  fold_left (fun c s => if (fst (fst s) =? x) && (snd (fst s) =? y) then snd s else c) l white.
(** of [n] things spread evenly over [h] rows, number [i] is the one for row
    [y]: i <= y (n-1)/(h-1) <= i+1 *)
Definition nearest_below (n h y i : Z) : Prop := 0 <= i < n /\ i * (h - 1) <= y * (n - 1) <= (i + 1) * (h - 1).
(** the double k/128 *)
Definition k128 (k : Z) : spec_float := f_div (f_of_int k) (f_of_int 128).
(** a double between 0 and 1 *)
Definition in_unit (f : spec_float) : Prop :=
  valid_binary 53 1024 f = true /\ SFleb (S754_zero false) f = true /\ SFleb f (f_of_int 1) = true.
(** a finite double that is not negative *)
Definition is_rate (f : spec_float) : Prop :=
  valid_binary 53 1024 f = true /\ SFleb (S754_zero false) f = true /\ SFltb f (S754_infinity false) = true.
Definition grey (g : Z) : color := Color g g g.
(** ([x], [y]) is in the rectangle of [w] by [h] pixels whose corner is ([x0], [y0]) *)
Definition in_box (x0 y0 w h x y : Z) : bool := (x0 <=? x) && (x <? x0 + w) && (y0 <=? y) && (y <? y0 + h).
