(** Model of draw/graph/graph.go and of the label of draw/observations/obs.go:
    measuring and drawing a whole chart.

    Parameters: the font and its string drawing (as in Axis.v, with the font's
    cell sizes of draw/iosevka), the texts of numbers and times (fmt.Sprintf,
    time.Format), the distribution's Query and CDF, and the rounding to float16
    of the numbers on the right axis (it is part of the number's text).  Go ints
    and int64 do not overflow here: times and durations are within int64. *)
From Coq Require Import ZArith List Bool.
From Coq Require Import Floats.SpecFloat.
From Verif Require Import Base Merge Draw Axis.
Import ListNotations.
Open Scope Z_scope.

(** draw/iosevka/font.go:17-23 the face *)
Definition iosevka : face := mono_face 11 3 6.

(** graph.go:20-25 *)
Definition label_gap : Z := 30.
Definition key_width : Z := 10.
Definition key_padding : Z := 5.
Definition obs_height : Z := 5.
(** obs.go:14-16 *)
Definition obs_padding : Z := 2.
(** graph/common.go:7-21 naturalUnits *)
Definition hour : Z := 3600 * 1000000000.
Definition natural_units : list Z := map (Z.mul hour) [1; 2; 4; 6; 8; 10; 12; 14; 16; 18; 20; 22; 24].

Definition f_one : spec_float := f_of_int 1.
Definition f_sub := SFsub 53 1024.

(** graph.go:52-71 MeasureOptions with the parameters; [q_earliest] is
    Earliest.Query followed by the text of the result (fmt.Sprintf("%#.3g") of
    the value rounded to float16), None is a nil Earliest *)
Record gopts := GOpts {
  g_query : option (spec_float -> list Z);
  g_now : Z; g_duration : Z; g_width : Z; g_height : Z; g_padding : Z;
  g_fmt2 : spec_float -> list Z;        (* fmt.Sprintf("%0.2f", x) *)
  g_time : Z -> list Z                  (* time.Unix(0, x).Format("1/2 @ 15:04") *)
}.
(** "0.00" *)
Definition s_zero : list Z := [48; 46; 48; 48].

(** obs.go:55-66 Measure: Width and Height *)
Definition s_obs_sec : list Z := [111; 98; 115; 47; 115; 101; 99; 58; 32; 48; 46; 48; 48; 101; 45; 48; 48].  (* "obs/sec: 0.00e-00" *)
Definition obs_bounds : rect := fc_bounds iosevka s_obs_sec.
Definition obs_label_height : Z := ceil6 (r_maxy obs_bounds - r_miny obs_bounds).
Definition obs_label_width : Z := ceil6 (r_maxx obs_bounds - r_minx obs_bounds).
Definition obs_measure_height (height : Z) : Z := height + obs_padding + obs_label_height.

(** graph.go:28-50 Measured *)
Record gmeasured := GMeasured {
  gm_bottom : ameasured; gm_obs_width : Z; gm_obs_height : Z; gm_right : ameasured; gm_left : ameasured;
  gm_width : Z; gm_height : Z; gm_x : Z; gm_y : Z; gm_opts : gopts
}.

(** graph.go:102, 127: y = 0, 30, ... up to height-30 *)
Definition label_rows (height : Z) : list Z :=
  map (Z.mul label_gap) (zrange (if height <? label_gap then 0 else (height - label_gap) / label_gap + 1)).
Definition row_pos (height y : Z) : spec_float := f_div (f_of_int y) (f_of_int height).
(** graph.go:101-112 *)
Definition left_labels (o : gopts) (height : Z) : list label :=
  map (fun y => Label (row_pos height y) (g_fmt2 o (f_sub f_one (row_pos height y)))) (label_rows height) ++ [Label f_one s_zero].
(** graph.go:126-145 *)
Definition right_labels (q : spec_float -> list Z) (height : Z) : list label :=
  map (fun y => Label (row_pos height y) (q (f_sub f_one (row_pos height y)))) (label_rows height) ++ [Label f_one (q (f_of_int 0))].

(** graph.go:173-180 the natural unit: the last of the units that are smaller than
    the chunk *)
Fixpoint natural_unit (chunk natural : Z) (units : list Z) : Z :=
  match units with
  | [] => natural
  | u :: units => if u <? chunk then natural_unit chunk u units else natural
  end.
(** graph.go:185-191 the loop over x, newest first; the fuel is the number of
    steps there can be *)
Fixpoint time_labels (n : nat) (o : gopts) (natural x stop_before : Z) : list label :=
  match n with
  | O => []
  | S n =>
    if stop_before <? x then
      Label (f_sub f_one (f_div (f_of_int (g_now o - x)) (f_of_int (g_duration o)))) (g_time o x)
      :: time_labels n o natural (x - natural) stop_before
    else []
  end.
(** graph.go:167-197 the labels of the bottom axis (time.Duration.Truncate is
    d - d%m with Go's remainder); Panic is the division by zero of 172 *)
Definition bottom_labels (o : gopts) : res (list label) :=
  let k := Z.quot (g_width o) 100 in
  if k =? 0 then Panic
  else
    let chunk := Z.quot (g_duration o) k in
    let natural := match natural_units with [] => 0 | u :: us => natural_unit chunk u us end in
    let x := g_now o - Z.rem (g_now o) natural in
    let stop_before := g_now o - g_duration o in
    Ok (rev (time_labels (Z.to_nat ((x - stop_before) / natural + 1)) o natural x stop_before)).

(** graph.go:88-221 tryMeasure; None is false *)
Definition try_measure (o : gopts) (vert_guess : Z) : res (option gmeasured) :=
  let height := g_height o - vert_guess in
  if height <? 0 then Ok None
  else
    let left := axis_measure (AOpts iosevka (left_labels o height) true height true false) in
    let right := match g_query o with
                 | Some q => axis_measure (AOpts iosevka (right_labels q height) true height false false)
                 | None => AMeasured 0 0 (AOpts iosevka [] false 0 false false)
                 end in
    let heatmap_width := g_width o - (am_width left + key_padding + key_width + am_width right) in
    let oh := obs_measure_height obs_height in
    do labels <- bottom_labels o;
    let bottom := axis_measure (AOpts iosevka labels false (heatmap_width + 2) false true) in
    Ok (Some (GMeasured bottom heatmap_width oh right left heatmap_width height
                        (g_padding o + am_width left) (g_padding o + oh) o)).
(** graph.go:73-86 Measure *)
Definition graph_measure (o : gopts) : res (option gmeasured) :=
  do m <- try_measure o 50;
  match m with
  | None => Ok None
  | Some m1 =>
    let vert := am_height (gm_bottom m1) + gm_obs_height m1 in
    if vert =? 50 then Ok m else try_measure o vert
  end.

(** axis.Measured.Draw on a view of an image; the image's new memory *)
Definition axis_on (txt : rgb -> Z -> Z -> list Z -> list Z -> list Z) (m : ameasured) (v : rgb) (pix : list Z) : res (list Z) :=
  do cp <- axis_draw txt m (Some (v, pix));
  Ok (if (i_width v <? am_width m) || (i_height v <? am_height m) then pix else snd cp).

(** obs.go:88-96 the column of the largest rate: its X (0 if no rate is positive) *)
Definition obs_max_x (cols : list column) : Z :=
  snd (fold_left (fun (s : spec_float * Z) c => if SFltb (fst s) (col_rate c) then (col_rate c, col_x c) else s) cols (S754_zero false, 0)).
(** obs.go:71-128 Draw on a view that is large enough; [text] is the text of the
    label *)
Definition obs_draw (txt : rgb -> Z -> Z -> list Z -> list Z -> list Z) (text : spec_float -> list Z) (width : Z) (v : rgb) (cols : list column) (pix : list Z) : res (list Z) :=
  do pix <- obs_bar v obs_height (obs_padding + obs_label_height) cols pix;
  let x := obs_max_x cols in
  let x := if width <? x + obs_label_width then width - obs_label_width else x in
  Ok (txt v (fix6 x) (- r_miny obs_bounds) (text (obs_max cols)) pix).

(** graph.go:224-234 DrawOptions and the parameters: [d_map] is Earliest.CDF,
    [d_obs_text] the text of the largest rate *)
Record dopts := DOpts { d_canvas : option (rgb * list Z); d_columns : list column; d_colors : list color; d_map : Z -> spec_float; d_obs_text : spec_float -> list Z }.

(** graph.go:270-272 all the columns *)
Definition heat_columns (h : heatmap) (cols : list column) (pix : list Z) : res (list Z) :=
  fold_left (fun r col => do pix <- r; heat_draw h (col_x col) (col_w col) (col_data col) pix) cols (Ok pix).

(** graph.go:260-293 the parts that need a distribution *)
Definition dist_draw (txt : rgb -> Z -> Z -> list Z -> list Z -> list Z) (m : gmeasured) (d : dopts) (c : rgb) (pix : list Z) : res (list Z) :=
  let P := g_padding (gm_opts m) in
  let L := am_width (gm_left m) in
  let hv := view c (P + L) (P + gm_obs_height m) (gm_width m) (gm_height m) in
  do pix <- heat_columns (Heatmap (d_colors d) hv (d_map d)) (d_columns d) pix;
  do pix <- key_draw (view c (P + L + gm_width m + key_padding) (P + gm_obs_height m) key_width (gm_height m)) (d_colors d) key_width (gm_height m) pix;
  axis_on txt (gm_right m) (view c (P + L + gm_width m + key_padding + key_width) (P + gm_obs_height m) (am_width (gm_right m)) (am_height (gm_right m))) pix.
(** graph.go:235-303 Draw *)
Definition graph_draw (txt : rgb -> Z -> Z -> list Z -> list Z -> list Z) (m : gmeasured) (d : dopts) : res (rgb * list Z) :=
  let o := gm_opts m in
  let P := g_padding o in
  let cw := g_width o + 2 * P in
  let ch := g_height o + 2 * P in
  let '(w, h) := match d_canvas d with Some (c, _) => rgb_size c | None => (0, 0) end in
  do cp <- (if (w <? cw) || (h <? ch) then new_rgb cw ch
            else match d_canvas d with Some cp => Ok cp | None => Panic end);
  let c := fst cp in
  let L := am_width (gm_left m) in
  do pix <- obs_draw txt (d_obs_text d) (gm_obs_width m) (view c (P + L) P (gm_obs_width m) (gm_obs_height m)) (d_columns d) (snd cp);
  do pix <- axis_on txt (gm_left m) (view c P (P + gm_obs_height m) L (am_height (gm_left m))) pix;
  do pix <- match g_query o with None => Ok pix | Some _ => dist_draw txt m d c pix end;
  do pix <- axis_on txt (gm_bottom m) (view c (L - 1 + P) (gm_height m + gm_obs_height m + P) (am_width (gm_bottom m)) (am_height (gm_bottom m))) pix;
  Ok (c, pix).
