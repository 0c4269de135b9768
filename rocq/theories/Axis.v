(** Model of draw/axis/axis.go: measuring and drawing an axis with labels.

    A text is its list of characters.  The font (golang.org/x/image/font) is a
    parameter: [fc_bounds] is font.BoundString's rectangle, [fc_advance] its
    advance, both in 1/64 pixel (fixed.Int26_6); drawing a string is the
    parameter [txt] of [run_inks].  Go ints do not overflow here (sizes of
    pictures).  The unused field maxHeight and the copy of the options are
    omitted; [bounds] holds the bounds of the labels' texts, which are computed
    again here. *)
From Coq Require Import ZArith List Bool.
From Coq Require Import Floats.SpecFloat.
From Verif Require Import Base Merge Draw.
Import ListNotations.
Open Scope Z_scope.

(** fixed.Rectangle26_6 *)
Record rect := Rect { r_minx : Z; r_miny : Z; r_maxx : Z; r_maxy : Z }.
Record face := Face { fc_bounds : list Z -> rect; fc_advance : list Z -> Z }.
(** fixed.Int26_6.Ceil and fixed.I *)
Definition ceil6 (v : Z) : Z := (v + 63) / 64.
Definition fix6 (v : Z) : Z := 64 * v.

(** a basicfont.Face (golang.org/x/image/font/basicfont, as draw/iosevka/font.go:17-23
    uses it): every character has a cell of the same size; the bounds of no
    characters are empty *)
Definition mono_face (ascent descent width : Z) : face :=
  Face (fun t => match t with [] => Rect 0 0 0 0 | _ => Rect 0 (- fix6 ascent) (fix6 (width * len t)) (fix6 descent) end)
       (fun t => fix6 (width * len t)).

(** axis.go:14-22 *)
Definition tick_size : Z := 10.
Definition axis_width : Z := 1.
Definition tick_padding : Z := 2.
Definition horiz_label_spacing : Z := 10.
Definition vert_label_spacing : Z := 2.
Definition text_offset : Z := axis_width + tick_size + tick_padding.

(** axis.go:43-49 Label *)
Record label := Label { l_pos : spec_float; l_text : list Z }.
(** axis.go:52-71 Options *)
Record aopts := AOpts { ao_face : face; ao_labels : list label; ao_vertical : bool; ao_length : Z; ao_flip : bool; ao_dont_bleed : bool }.
(** axis.go:24-35 Measured *)
Record ameasured := AMeasured { am_width : Z; am_height : Z; am_opts : aopts }.

(** axis.go:120, 187, 234, 305 the pixel of a label's tick *)
Definition tick_of (length : Z) (l : label) : Z := f_int (f_mul (f_of_int (length - 1)) (l_pos l)).

(** axis.go:116-140 the loop of measureVertical; the state is max_width,
    max_height (occupied is computed by the code but has no effect) *)
Definition mv_step (o : aopts) (st : Z * Z) (l : label) : Z * Z :=
  let '(max_width, max_height) := st in
  let b := fc_bounds (ao_face o) (l_text l) in
  let y := tick_of (ao_length o) l in
  let height := y - ceil6 (r_miny b) in
  if ao_dont_bleed o && (ao_length o <? height) then st
  else
    let max_height := if max_height <? height then height else max_height in
    let label_width := ceil6 (r_maxx b) in
    (if max_width <? label_width then label_width else max_width, max_height).
(** axis.go:106-149 measureVertical *)
Definition measure_vertical (o : aopts) : ameasured :=
  let '(max_width, max_height) := fold_left (mv_step o) (ao_labels o) (0, ao_length o) in
  AMeasured (text_offset + max_width) max_height o.

(** axis.go:224-228, 296-300 fits *)
Definition fits (occupied x : Z) : bool :=
  (occupied =? 0) || (x <? horiz_label_spacing) || (occupied + horiz_label_spacing <? x).
(** axis.go:231-242, 303-319 where the text of a label begins and ends *)
Definition text_span (o : aopts) (l : label) : Z * Z :=
  let b := fc_bounds (ao_face o) (l_text l) in
  let w := ceil6 (r_maxx b - r_minx b) in
  let x := tick_of (ao_length o) l in
  let label_end := x + w in
  if ao_dont_bleed o && (ao_length o <? label_end) then (ao_length o - w, ao_length o) else (x, label_end).
(** axis.go:230-257 the loop of measureHorizontal; the state is max_width,
    max_height, occupied *)
Definition mh_step (o : aopts) (st : Z * Z * Z) (l : label) : Z * Z * Z :=
  let '(max_width, max_height, occupied) := st in
  let b := fc_bounds (ao_face o) (l_text l) in
  let '(x, label_end) := text_span o l in
  if negb (fits occupied x) then st
  else
    let max_width := if max_width <? label_end then label_end else max_width in
    let label_height := ceil6 (r_maxy b - r_miny b) + vert_label_spacing in
    let max_height := if max_height <? label_height then label_height else max_height in
    (max_width, max_height, label_end).
(** axis.go:219-267 measureHorizontal *)
Definition measure_horizontal (o : aopts) : ameasured :=
  let '(max_width, max_height, _) := fold_left (mh_step o) (ao_labels o) (ao_length o, 0, 0) in
  AMeasured max_width (text_offset + max_height) o.
(** axis.go:89-94 Measure *)
Definition axis_measure (o : aopts) : ameasured := if ao_vertical o then measure_vertical o else measure_horizontal o.

(** what drawing does, in order: one black pixel (Canvas.Set), or a string with
    its dot (in 1/64 pixel) *)
Inductive ink := Px (x y : Z) | Txt (dx dy : Z) (t : list Z).
Definition zrange (n : Z) : list Z := map Z.of_nat (seq 0 (Z.to_nat n)).

(** axis.go:169-174 maybeFlip *)
Definition maybe_flip (m : ameasured) (x : Z) : Z := if ao_flip (am_opts m) then am_width m - 1 - x else x.
(** axis.go:183-214 the ticks and labels of drawVertical, from [occupied] *)
Fixpoint dv_labels (m : ameasured) (occupied : Z) (ls : list label) : list ink :=
  match ls with
  | [] => []
  | l :: ls =>
    let o := am_opts m in
    let b := fc_bounds (ao_face o) (l_text l) in
    let y := tick_of (ao_length o) l in
    let height := y - ceil6 (r_miny b) in
    let ticks := map (fun x => Px (maybe_flip m (axis_width + x)) y) (zrange tick_size) in
    if ao_dont_bleed o && (ao_length o <? height) then ticks ++ dv_labels m occupied ls
    else if (0 <? occupied) && (y <? occupied + vert_label_spacing) then ticks ++ dv_labels m occupied ls
    else
      let dy := fix6 (y - ceil6 (r_miny b)) in
      let dx := if ao_flip o then fix6 (am_width m - text_offset - ceil6 (r_maxx b - r_minx b)) else fix6 text_offset in
      ticks ++ Txt dx dy (l_text l) :: dv_labels m (ceil6 dy) ls
  end.
(** axis.go:176-216 drawVertical after the canvas is chosen *)
Definition draw_vertical (m : ameasured) : list ink :=
  flat_map (fun y => map (fun x => Px (maybe_flip m x) y) (zrange axis_width)) (zrange (ao_length (am_opts m)))
  ++ dv_labels m 0 (ao_labels (am_opts m)).
(** axis.go:302-334 the ticks and labels of drawHorizontal *)
Fixpoint dh_labels (m : ameasured) (occupied : Z) (ls : list label) : list ink :=
  match ls with
  | [] => []
  | l :: ls =>
    let o := am_opts m in
    let b := fc_bounds (ao_face o) (l_text l) in
    let tick_x := tick_of (ao_length o) l in
    let ticks := map (fun y => Px tick_x (axis_width + y)) (zrange tick_size) in
    let '(x, label_end) := text_span o l in
    if negb (fits occupied x) then ticks ++ dh_labels m occupied ls
    else
      let dx := fix6 x in
      ticks ++ map (fun y => Px tick_x (axis_width + tick_size + y)) (zrange 3)
      ++ Txt dx (fix6 (text_offset - ceil6 (r_miny b))) (l_text l)
      :: dh_labels m (ceil6 (dx + fc_advance (ao_face o) (l_text l))) ls
  end.
(** axis.go:287-336 drawHorizontal after the canvas is chosen *)
Definition draw_horizontal (m : ameasured) : list ink :=
  flat_map (fun x => map (fun y => Px x y) (zrange axis_width)) (zrange (ao_length (am_opts m)))
  ++ dh_labels m 0 (ao_labels (am_opts m)).
(** axis.go:99-104 Draw *)
Definition axis_inks (m : ameasured) : list ink := if ao_vertical (am_opts m) then draw_vertical m else draw_horizontal m.

Definition black : color := Color 0 0 0.
(** drawing on the canvas [m]: Canvas.Set, and font.Drawer.DrawString on
    Canvas.AsImage() *)
Fixpoint run_inks (txt : rgb -> Z -> Z -> list Z -> list Z -> list Z) (m : rgb) (l : list ink) (pix : list Z) : res (list Z) :=
  match l with
  | [] => Ok pix
  | Px x y :: l => do pix <- set_px m x y black pix; run_inks txt m l pix
  | Txt dx dy t :: l => run_inks txt m l (txt m dx dy t pix)
  end.
(** axis.go:154-160, 272-278 with 99-104: Draw on a given canvas (None is nil);
    the result is the canvas drawn on *)
Definition axis_draw (txt : rgb -> Z -> Z -> list Z -> list Z -> list Z) (m : ameasured) (canvas : option (rgb * list Z)) : res (rgb * list Z) :=
  let '(w, h) := match canvas with Some (c, _) => rgb_size c | None => (0, 0) end in
  do cp <- (if (w <? am_width m) || (h <? am_height m) then new_rgb (am_width m) (am_height m)
            else match canvas with Some cp => Ok cp | None => Panic end);
  do pix <- run_inks txt (fst cp) (axis_inks m) (snd cp);
  Ok (fst cp, pix).
