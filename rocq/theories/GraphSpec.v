(** What a user expects of a chart's time axis. *)
From Coq Require Import ZArith Reals List Bool Sorted.
From Coq Require Import Floats.SpecFloat.
From Flocq Require Import Core.Core IEEE754.BinarySingleNaN.
From Verif Require Import Base Merge Draw DrawSpec Axis AxisSpec Graph.
Import ListNotations.
Open Scope Z_scope.

Definition hours (n : Z) : Z := n * 3600 * 1000000000.
Definition is_unit (u : Z) : Prop := u = hours 1 \/ exists k, 1 <= k <= 12 /\ u = hours (2 * k).
(** [u] is the largest unit smaller than [chunk], or an hour if none is *)
Definition step_for (chunk u : Z) : Prop :=
  is_unit u /\ (u = hours 1 \/ u < chunk) /\ forall u', is_unit u' -> u < u' -> chunk <= u'.
(** the label of the time [t]: its text, and its place on an axis from
    [now]-[duration] to [now] *)
Definition time_label (text : Z -> list Z) (now duration t : Z) (l : label) : Prop :=
  l_text l = text t /\ in_unit (l_pos l) /\
  (Rabs (SF2R radix2 (l_pos l) - IZR (t - (now - duration)) / IZR duration) <= / 2 ^ 48)%R.

(** * the chart's picture.  [shown n r] is the one of [n] things that row [r] (from
    the bottom) shows, [rank v] the number of the colour of a value *)
(** the heat map: the columns in order, each over the ones before *)
Definition heat_picture (shown : Z -> Z -> Z) (rank : Z -> Z) (colors : list color) (height : Z) (cols : list column) (x y : Z) (p : list Z) : list Z :=
  fold_left (fun p c => if in_box (col_x c) 0 (col_w c) height x y
    then opaque (nth (Z.to_nat (rank (nth (Z.to_nat (shown (len (col_data c)) (height - 1 - y))) (col_data c) 0))) colors white) else p) cols p.
(** the colour key *)
Definition key_picture (shown : Z -> Z -> Z) (colors : list color) (height : Z) (x y : Z) (p : list Z) : list Z :=
  if in_box 0 0 10 height x y then opaque (nth (Z.to_nat (shown (len colors) (height - 1 - y))) colors white) else p.
(** the bar of rates, and above it the text of the largest rate over its column,
    moved to the left as far as 17 characters need and cut off at the right *)
Definition rates_picture (shade : list Z -> Z -> Z -> list Z -> list Z) (width : Z) (cols : list column) (text : list Z) (start : Z) (x y : Z) (p : list Z) : list Z :=
  let p := fold_left (fun p c => if in_box (col_x c) 16 (col_w c) 5 x y then opaque (obs_grey (obs_max cols) c) else p) cols p in
  if (x <? width) && in_box (Z.min start (width - 102)) 0 (6 * len text) 14 x y then shade text (x - Z.min start (width - 102)) y p else p.
(** the column of the largest rate: the first of those, or 0 if all are 0 *)
Definition largest_at (cols : list column) (start : Z) : Prop :=
  (obs_max cols = S754_zero false /\ start = 0) \/
  (exists before c after, cols = before ++ c :: after /\ start = col_x c /\ col_rate c = obs_max cols /\ forall c', In c' before -> SFltb (col_rate c') (col_rate c) = true).

(** where the labels of the three axes are, and which are drawn *)
Record places := Places { pl_left : list (label * Z); pl_left_drawn : list (label * Z); pl_right : list (label * Z); pl_right_drawn : list (label * Z); pl_bottom : list (label * Z); pl_bottom_drawn : list (label * Z) }.
Definition axis_places (a : ameasured) (ps drawn : list (label * Z)) : Prop :=
  placed (am_opts a) ps /\
  if ao_vertical (am_opts a) then spaced (too_high 11) None (candidates 11 (am_opts a) ps) drawn else spaced (too_left 6 (am_opts a)) None ps drawn.
Definition chart_places (m : gmeasured) (pl : places) : Prop :=
  axis_places (gm_left m) (pl_left pl) (pl_left_drawn pl) /\ axis_places (gm_bottom m) (pl_bottom pl) (pl_bottom_drawn pl) /\
  (g_query (gm_opts m) <> None -> axis_places (gm_right m) (pl_right pl) (pl_right_drawn pl)).

(** [shown] spreads [n] things evenly over the rows of the heat map, [rank] the
    values over the colours, and [start] is the column of the largest rate *)
Definition chart_shows (m : gmeasured) (d : dopts) (pl : places) (shown : Z -> Z -> Z) (rank : Z -> Z) (start : Z) : Prop :=
  chart_places m pl /\
  (forall n r, 1 <= n <= 2 ^ 24 -> 0 <= r < gm_height m -> nearest_below n (gm_height m) r (shown n r)) /\
  (forall v, in_unit (d_map d v) -> 1 <= len (d_colors d) <= 2 ^ 24 -> 0 <= rank v < len (d_colors d) /\
     forall k, 0 <= k <= 128 -> d_map d v = k128 k -> rank v = k * (len (d_colors d) - 1) / 128) /\
  (start = 0 \/ exists c, In c (d_columns d) /\ start = col_x c) /\
  ((forall c, In c (d_columns d) -> is_rate (col_rate c)) -> largest_at (d_columns d) start).

(** the label of a vertical axis of [height] rows at [y]/[height] of the way down:
    the text is that of the quantile there, 1 - [y]/[height] *)
Definition quantile_label (text : spec_float -> list Z) (height y : Z) (l : label) : Prop :=
  in_unit (l_pos l) /\ (Rabs (SF2R radix2 (l_pos l) - IZR y / IZR height) <= / 2 ^ 48)%R /\
  exists f, l_text l = text f /\ in_unit f /\ (Rabs (SF2R radix2 f - (1 - IZR y / IZR height)) <= / 2 ^ 48)%R.
(** the texts of the quantiles, from 0 to 1, take up to [n] characters; there is a text
    for every float64 *)
Definition short_text (n : Z) (text : spec_float -> list Z) : Prop :=
  (forall f, text f <> []) /\ (forall f, in_unit f -> f <> S754_zero true -> len (text f) <= n).
(** the labels of the quantiles: one every 30 rows from the top as long as there are
    30 rows left, and one of quantile 0 at the very end *)
Definition quantile_labels (text : spec_float -> list Z) (zero : list Z) (height : Z) (ls : list label) : Prop :=
  exists ys above last, ls = above ++ [last] /\ StronglySorted Z.lt ys /\ (forall y, In y ys <-> 0 <= y <= height - 30 /\ (30 | y)) /\
  Forall2 (quantile_label text height) ys above /\ l_text last = zero /\ SF2R radix2 (l_pos last) = 1%R.

(** the parts of the chart, each at its place *)
Section Parts.
  Context (shade : list Z -> Z -> Z -> list Z -> list Z) (m : gmeasured) (d : dopts) (pl : places) (shown : Z -> Z -> Z) (rank : Z -> Z) (start x y : Z).
  Definition rates_part : list Z -> list Z := rates_picture shade (gm_width m) (d_columns d) (d_obs_text d (obs_max (d_columns d))) start (x - gm_x m) (y - g_padding (gm_opts m)).
  Definition left_part : list Z -> list Z :=
    vertical_picture shade 11 3 6 (am_opts (gm_left m)) (am_width (gm_left m)) (am_height (gm_left m)) (pl_left pl) (pl_left_drawn pl) (x - g_padding (gm_opts m)) (y - gm_y m).
  Definition heat_part : list Z -> list Z := heat_picture shown rank (d_colors d) (gm_height m) (d_columns d) (x - gm_x m) (y - gm_y m).
  Definition key_part : list Z -> list Z := key_picture shown (d_colors d) (gm_height m) (x - (gm_x m + gm_width m + 5)) (y - gm_y m).
  Definition right_part : list Z -> list Z :=
    vertical_picture shade 11 3 6 (am_opts (gm_right m)) (am_width (gm_right m)) (am_height (gm_right m)) (pl_right pl) (pl_right_drawn pl) (x - (gm_x m + gm_width m + 15)) (y - gm_y m).
  Definition bottom_part : list Z -> list Z :=
    horizontal_picture shade 11 3 6 (am_opts (gm_bottom m)) (am_width (gm_bottom m)) (am_height (gm_bottom m)) (pl_bottom pl) (pl_bottom_drawn pl) (x - (gm_x m - 1)) (y - (gm_y m + gm_height m)).
  Definition chart_pixel (p : list Z) : list Z :=
    let p := left_part (rates_part p) in
    bottom_part (if g_query (gm_opts m) then right_part (key_part (heat_part p)) else p).
End Parts.

(** a chart that can be drawn: not too small or large, and with sensible data *)
Record drawable (o : gopts) (m : gmeasured) (d : dopts) : Prop := {
  dw_measured : graph_measure o = Ok (Some m);
  dw_padding : 0 <= g_padding o;
  dw_now : 0 <= g_now o; dw_duration : 0 < g_duration o < 2 ^ 63;
  dw_height : 2 <= gm_height m <= 2 ^ 24; dw_width : 0 <= gm_width m <= 2 ^ 24 - 2;
  dw_texts : (forall f, g_fmt2 o f <> []) /\ (forall q f, g_query o = Some q -> q f <> []);
  dw_times : forall t, g_time o t <> [] /\ 6 * len (g_time o t) <= gm_width m + 2;
  dw_columns : forall c, In c (d_columns d) -> 0 <= col_x c /\ 0 <= col_w c /\ col_x c + col_w c <= gm_width m;
  dw_data : g_query o <> None -> forall c, In c (d_columns d) -> 1 <= len (col_data c) <= 2 ^ 24 /\ forall v, In v (col_data c) -> in_unit (d_map d v);
  dw_colors : g_query o <> None -> 1 <= len (d_colors d) <= 2 ^ 24
}.
