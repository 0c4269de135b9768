(** What a user expects of an axis.  Coordinates are those of the axis's own
    picture, (0, 0) at the top left. *)
From Coq Require Import ZArith Reals List Bool.
From Coq Require Import Floats.SpecFloat.
From Flocq Require Import Core.Core IEEE754.BinarySingleNaN.
From Verif Require Import Base Merge Draw DrawSpec Axis.
Import ListNotations.
Open Scope Z_scope.

(** [y] is the pixel, of [length] ones, at the fraction [pos] of the way from the
    first to the last: rounded down, up to the precision of a double, and
    exactly where the product is an integer *)
Definition tick_at (length : Z) (pos : spec_float) (y : Z) : Prop :=
  0 <= y < length /\
  (IZR y - / 2 ^ 20 <= IZR (length - 1) * SF2R radix2 pos < IZR y + 1 + / 2 ^ 20)%R /\
  (forall k, (IZR (length - 1) * SF2R radix2 pos = IZR k)%R -> y = k).

(** a function that draws strings with character cells [w] wide, [a] above and
    [d] below the dot: the pixel in column [i] and row [j] of the cells of the
    text [t] is shaded by [shade t i j]; a view cuts the text off at its right
    and lower edges *)
Definition draws_cells (shade : list Z -> Z -> Z -> list Z -> list Z) (a d w : Z) (txt : rgb -> Z -> Z -> list Z -> list Z -> list Z) : Prop :=
  forall W H v x y t pix, is_image W H pix -> shows_part W H v ->
  is_image W H (txt v (64 * x) (64 * y) t pix) /\
  forall px py, 0 <= px < W -> 0 <= py < H ->
  pixel W (txt v (64 * x) (64 * y) t pix) px py =
  if in_box (i_x v + x) (i_y v + y - a) (w * len t) (a + d) px py && (px <? i_x v + i_width v) && (py <? i_y v + i_height v)
  then shade t (px - (i_x v + x)) (py - (i_y v + y - a)) (pixel W pix px py) else pixel W pix px py.

(** the colour of the pixel ([x], [y]), first [p], after drawing texts, each given
    by the top left corner of its cells *)
Definition lettered (shade : list Z -> Z -> Z -> list Z -> list Z) (a d w : Z) (texts : list (Z * Z * list Z)) (x y : Z) (p : list Z) : list Z :=
  fold_left (fun p c => let '(cx, cy, t) := c in if in_box cx cy (w * len t) (a + d) x y then shade t (x - cx) (y - cy) p else p) texts p.

(** things are taken one by one, leaving out those that are too close to the last
    one taken *)
Inductive spaced {A} (close : A -> A -> Prop) : option A -> list A -> list A -> Prop :=
| sd_nil last : spaced close last [] []
| sd_take last l ls ds : (forall p, last = Some p -> ~ close p l) -> spaced close (Some l) ls ds -> spaced close last (l :: ls) (l :: ds)
| sd_skip p l ls ds : close p l -> spaced close (Some p) ls ds -> spaced close (Some p) (l :: ls) ds.

(** options that make sense: characters in cells of [w] by [a]+[d] pixels, a length
    of at least one, labels with a position between 0 and 1 and a text *)
Record readable (a d w : Z) (o : aopts) : Prop := {
  rd_face : ao_face o = mono_face a d w;
  rd_cell : 1 <= a /\ 0 <= d /\ 1 <= w;
  rd_length : 1 <= ao_length o <= 2 ^ 24;
  rd_labels : forall l, In l (ao_labels o) -> in_unit (l_pos l) /\ l_text l <> []
}.
(** the labels with the pixel along the axis at which each is *)
Definition placed (o : aopts) (ps : list (label * Z)) : Prop :=
  map fst ps = ao_labels o /\ Forall (fun p => tick_at (ao_length o) (l_pos (fst p)) (snd p)) ps.
(** the width of a label's text *)
Definition text_width (w : Z) (p : label * Z) : Z := w * len (l_text (fst p)).

(** * vertical axes *)
(** the part of a label's text above the base line is within the axis *)
Definition within (a length : Z) (p : label * Z) : bool := snd p + a <=? length.
(** the labels that are considered at all *)
Definition candidates (a : Z) (o : aopts) (ps : list (label * Z)) : list (label * Z) :=
  if ao_dont_bleed o then filter (within a (ao_length o)) ps else ps.
(** a label begins less than two pixels below the base line of the one before *)
Definition too_high (a : Z) (p q : label * Z) : Prop := snd q < snd p + a + 2.

(** * horizontal axes *)
(** where a label's text starts and ends: at the label's pixel, but moved so that
    it ends with the axis if it must not go past it *)
Definition start_of (w : Z) (o : aopts) (p : label * Z) : Z :=
  if ao_dont_bleed o then Z.min (snd p) (ao_length o - text_width w p) else snd p.
Definition end_of (w : Z) (o : aopts) (p : label * Z) : Z := start_of w o p + text_width w p.
(** a label's text starts neither in the first ten pixels nor more than ten pixels
    after the end of the one before *)
Definition too_left (w : Z) (o : aopts) (p q : label * Z) : Prop := 10 <= start_of w o q <= end_of w o p + 10.
(** the colour of the pixel ([x], [y]), first [p], after drawing texts below a
    horizontal axis: each at its start in row 13, and its tick's pixel in row 13
    before it *)
Definition below_axis (shade : list Z -> Z -> Z -> list Z -> list Z) (a d w : Z) (o : aopts) (drawn : list (label * Z)) (x y : Z) (p : list Z) : list Z :=
  fold_left (fun p q =>
    let p := if (x =? snd q) && (y =? 13) then opaque black else p in
    if in_box (start_of w o q) 13 (text_width w q) (a + d) x y then shade (l_text (fst q)) (x - start_of w o q) (y - 13) p else p) drawn p.

(** * the pictures: the colour of the pixel in column [x] and row [y] of an axis's
    picture, before it [p] *)
(** a vertical axis: the line, ten pixels of tick at every label and beside them
    the texts drawn; with Flip everything is mirrored (but texts still read from
    left to right) *)
Definition vertical_picture (shade : list Z -> Z -> Z -> list Z -> list Z) (a d w : Z) (o : aopts) (width height : Z) (ps drawn : list (label * Z)) (x y : Z) (p : list Z) : list Z :=
  let away := if ao_flip o then width - 1 - x else x in
  if in_box 0 0 width height x y then
    if (away =? 0) && (y <? ao_length o) then opaque black
    else if (1 <=? away) && (away <=? 10) && existsb (Z.eqb y) (map snd ps) then opaque black
    else if away <? 13 then p
    else lettered shade a d w (map (fun q => (if ao_flip o then width - 13 - text_width w q else 13, snd q, l_text (fst q))) drawn) x y p
  else p.
(** a horizontal axis: the line, ten pixels of tick at every label, two more at the
    labels drawn, and below them the texts drawn *)
Definition horizontal_picture (shade : list Z -> Z -> Z -> list Z -> list Z) (a d w : Z) (o : aopts) (width height : Z) (ps drawn : list (label * Z)) (x y : Z) (p : list Z) : list Z :=
  if in_box 0 0 width height x y then
    if (y =? 0) && (x <? ao_length o) then opaque black
    else if (1 <=? y) && (y <=? 10) && existsb (Z.eqb x) (map snd ps) then opaque black
    else if (11 <=? y) && (y <=? 12) && existsb (Z.eqb x) (map snd drawn) then opaque black
    else if y <? 13 then p
    else below_axis shade a d w o drawn x y p
  else p.
