(** Proofs about Graph.v: measuring and drawing charts. *)
From Coq Require Import ZArith Reals List Bool Lia Lra.
From Coq Require Import Floats.SpecFloat.
From Flocq Require Import Core.Core IEEE754.BinarySingleNaN.
From Verif Require Import Base Merge Draw DrawSpec DrawProofs DrawFloat Axis AxisSpec AxisFloat AxisProofs Props_Draw Props_Axis Graph GraphSpec GraphFloat.
Import ListNotations.
Open Scope Z_scope.

(** the height of a horizontal axis *)
Lemma hheight a d w o : ao_face o = mono_face a d w -> 0 <= a + d -> (forall l, In l (ao_labels o) -> l_text l <> []) ->
  am_height (measure_horizontal o) = 13 + (if ao_labels o then 0 else a + d + 2) /\ am_opts (measure_horizontal o) = o.
Proof.
  intros F Had T. unfold measure_horizontal.
  assert (K : forall ls mw mh occ, (forall l, In l ls -> l_text l <> []) -> (mh = a + d + 2 \/ (mh = 0 /\ occ = 0)) ->
    let '(_, mh', _) := fold_left (mh_step o) ls (mw, mh, occ) in mh' = if ls then mh else a + d + 2).
  { induction ls as [|l ls IH]; intros mw mh occ Ht Hm; cbn [fold_left]; [reflexivity|].
    assert (Ht' : forall l, In l ls -> l_text l <> []) by (intros; apply Ht; now right).
    unfold mh_step at 2. rewrite F, mono_height by (apply Ht; now left). destruct (text_span o l) as [x e]. destruct (fits occ x) eqn:Ef; cbn [negb].
    - replace (if mh <? a + d + vert_label_spacing then a + d + vert_label_spacing else mh) with (a + d + 2) by (unfold vert_label_spacing; destruct (Z.ltb_spec mh (a + d + 2)); lia).
      specialize (IH (if mw <? e then e else mw) (a + d + 2) e Ht' (or_introl eq_refl)). destruct (fold_left (mh_step o) ls _) as [[? ?] ?]. destruct ls; exact IH.
    - destruct Hm as [->|[-> ->]]; [|discriminate Ef].
      specialize (IH mw (a + d + 2) occ Ht' (or_introl eq_refl)). destruct (fold_left (mh_step o) ls _) as [[? ?] ?]. destruct ls; exact IH. }
  specialize (K (ao_labels o) (ao_length o) 0 0 T (or_intror (conj eq_refl eq_refl))).
  destruct (fold_left (mh_step o) (ao_labels o) (ao_length o, 0, 0)) as [[mw mh] occ]. cbn [am_height am_opts]. split; [|reflexivity]. rewrite K. reflexivity.
Qed.
Lemma vopts o : am_opts (measure_vertical o) = o.
Proof. unfold measure_vertical. destruct (fold_left _ _ _). reflexivity. Qed.

Definition left_opts (o : gopts) (h : Z) : aopts := AOpts iosevka (left_labels o h) true h true false.
Definition right_opts (q : spec_float -> list Z) (h : Z) : aopts := AOpts iosevka (right_labels q h) true h false false.
Definition bottom_opts (labels : list label) (w : Z) : aopts := AOpts iosevka labels false (w + 2) false true.
(** what a measured chart looks like *)
Record measured (o : gopts) (m : gmeasured) (labels : list label) : Prop := {
  ms_labels : bottom_labels o = Ok labels;
  ms_left : gm_left m = measure_vertical (left_opts o (gm_height m));
  ms_right : gm_right m = match g_query o with Some q => measure_vertical (right_opts q (gm_height m)) | None => AMeasured 0 0 (AOpts iosevka [] false 0 false false) end;
  ms_bottom : gm_bottom m = measure_horizontal (bottom_opts labels (gm_width m));
  ms_width : am_width (gm_left m) + gm_width m + 15 + am_width (gm_right m) = g_width o;
  ms_height : 21 + gm_height m + am_height (gm_bottom m) = g_height o;
  ms_bheight : am_height (gm_bottom m) = if labels then 13 else 29;
  ms_obs : gm_obs_height m = 21 /\ gm_obs_width m = gm_width m;
  ms_pos : gm_x m = g_padding o + am_width (gm_left m) /\ gm_y m = g_padding o + 21;
  ms_opts : gm_opts m = o
}.
Lemma time_labels_text n o nat0 : forall x stop l, In l (time_labels n o nat0 x stop) -> exists t, l_text l = g_time o t.
Proof.
  induction n as [|n IH]; intros x stop l Hl; cbn [time_labels] in Hl; [destruct Hl|]. destruct (stop <? x); [|destruct Hl]. destruct Hl as [<-|Hl]; [eexists; reflexivity|]. eapply IH, Hl.
Qed.
Lemma bottom_text o labels : bottom_labels o = Ok labels -> forall l, In l labels -> exists t, l_text l = g_time o t.
Proof.
  unfold bottom_labels. destruct (_ =? 0); [discriminate|]. intros E. injection E as <-. intros l Hl. apply in_rev in Hl. eapply time_labels_text, Hl.
Qed.
Lemma bottom_ok o : Z.quot (g_width o) 100 <> 0 -> exists labels, bottom_labels o = Ok labels.
Proof. intros H. unfold bottom_labels. destruct (Z.eqb_spec (Z.quot (g_width o) 100) 0) as [E|_]; [lia|]. eauto. Qed.
Lemma try_ok o g labels : (forall t, g_time o t <> []) -> bottom_labels o = Ok labels -> 0 <= g_height o - g -> (am_height (measure_horizontal (bottom_opts labels 0)) + 21 = g) ->
  exists m, try_measure o g = Ok (Some m) /\ measured o m labels.
Proof.
  intros T B G E. unfold try_measure. destruct (Z.ltb_spec (g_height o - g) 0) as [C|_]; [lia|]. rewrite B. cbn [bind]. eexists. split; [reflexivity|].
  assert (BH : forall wd, am_height (measure_horizontal (bottom_opts labels wd)) = if labels then 13 else 29).
  { intros wd. destruct (hheight 11 3 6 (bottom_opts labels wd) eq_refl ltac:(lia)) as [A _].
    - intros l Hl. destruct (bottom_text o labels B l Hl) as (t & ->). apply T.
    - rewrite A. cbn [bottom_opts ao_labels]. destruct labels; reflexivity. }
  rewrite BH in E.
  constructor; cbn [gm_left gm_right gm_bottom gm_width gm_height gm_obs_height gm_obs_width gm_x gm_y gm_opts].
  - exact B.
  - reflexivity.
  - destruct (g_query o); reflexivity.
  - reflexivity.
  - change key_padding with 5. change key_width with 10. lia.
  - change (axis_measure ?x) with (measure_horizontal x). unfold bottom_opts in BH. rewrite BH. lia.
  - unfold bottom_opts in BH. apply BH.
  - split; reflexivity.
  - split; reflexivity.
  - reflexivity.
Qed.
Lemma measure_ok o : (forall t, g_time o t <> []) -> 50 <= g_height o -> Z.quot (g_width o) 100 <> 0 ->
  exists m labels, graph_measure o = Ok (Some m) /\ measured o m labels.
Proof.
  intros T Hh Hw. destruct (bottom_ok o Hw) as (labels & B). unfold graph_measure.
  assert (BH : forall wd, am_height (measure_horizontal (bottom_opts labels wd)) = if labels then 13 else 29).
  { intros wd. destruct (hheight 11 3 6 (bottom_opts labels wd) eq_refl ltac:(lia)) as [A _].
    - intros l Hl. destruct (bottom_text o labels B l Hl) as (t & ->). apply T.
    - rewrite A. cbn [bottom_opts ao_labels]. destruct labels; reflexivity. }
  destruct labels as [|l0 ls].
  - destruct (try_ok o 34 [] T B ltac:(lia) ltac:(rewrite BH; reflexivity)) as (m & E & M). exists m, []. split; [|exact M].
    unfold try_measure at 1. destruct (Z.ltb_spec (g_height o - 50) 0) as [C|_]; [lia|]. rewrite B. cbn [bind gm_bottom gm_obs_height].
    specialize (BH (g_width o - (am_width (axis_measure (AOpts iosevka (left_labels o (g_height o - 50)) true (g_height o - 50) true false)) + key_padding + key_width + am_width match g_query o with
                 | Some q => axis_measure (AOpts iosevka (right_labels q (g_height o - 50)) true (g_height o - 50) false false)
                 | None => AMeasured 0 0 (AOpts iosevka [] false 0 false false) end))).
    unfold bottom_opts in BH. change (measure_horizontal ?x) with (axis_measure x) in BH. rewrite BH. exact E.
  - destruct (try_ok o 50 (l0 :: ls) T B ltac:(lia) ltac:(rewrite BH; reflexivity)) as (m & E & M). exists m, (l0 :: ls). split; [|exact M].
    rewrite E. cbn [bind]. rewrite (ms_bheight _ _ _ M). destruct (ms_obs _ _ _ M) as [-> _]. reflexivity.
Qed.
Lemma measure_inv o : (g_height o < 50 -> graph_measure o = Ok None) /\ (50 <= g_height o -> Z.quot (g_width o) 100 = 0 -> graph_measure o = Panic).
Proof.
  unfold graph_measure, try_measure at 1. split; intros H.
  - destruct (Z.ltb_spec (g_height o - 50) 0); [reflexivity|lia].
  - intros E. unfold try_measure at 1. destruct (Z.ltb_spec (g_height o - 50) 0); [lia|]. assert (B : bottom_labels o = Panic) by (unfold bottom_labels; rewrite E; reflexivity). rewrite B. reflexivity.
Qed.
Lemma measured_of o m : (forall t, g_time o t <> []) -> graph_measure o = Ok (Some m) -> exists labels, measured o m labels.
Proof.
  intros T E. destruct (measure_inv o) as [A B]. assert (50 <= g_height o) by (destruct (Z_lt_le_dec (g_height o) 50) as [C|C]; [rewrite (A C) in E; discriminate|exact C]).
  assert (Z.quot (g_width o) 100 <> 0) by (intros C; rewrite (B H C) in E; discriminate).
  destruct (measure_ok o T H H0) as (m' & labels & E' & M). rewrite E in E'. injection E' as <-. eauto.
Qed.

(** * drawing *)
(** from [pix] to [pix'] every pixel changed by [f] *)
Definition painted (W H : Z) (f : Z -> Z -> list Z -> list Z) (pix pix' : list Z) : Prop :=
  is_image W H pix' /\ forall x y, 0 <= x < W -> 0 <= y < H -> pixel W pix' x y = f x y (pixel W pix x y).
Lemma painted_of W H f pix pix' : repainted W H f pix pix' -> painted W H (fun x y p => match f x y with Some c => opaque c | None => p end) pix pix'.
Proof. intros [I R]. split; assumption. Qed.
Lemma painted_trans W H f g p0 p1 p2 : painted W H f p0 p1 -> painted W H g p1 p2 -> painted W H (fun x y p => g x y (f x y p)) p0 p2.
Proof. intros [I1 R1] [I2 R2]. split; [exact I2|]. intros x y Hx Hy. rewrite R2, R1 by assumption. reflexivity. Qed.
Lemma painted_ext W H f g p0 p1 : (forall x y p, 0 <= x < W -> 0 <= y < H -> f x y p = g x y p) -> painted W H f p0 p1 -> painted W H g p0 p1.
Proof. intros E [I R]. split; [exact I|]. intros x y Hx Hy. rewrite R by assumption. now apply E. Qed.

Definition rank_of (h : heatmap) (d : Z) : Z := f_int (f_mul (h_map h d) (color_scale h)).
Lemma heat_draw_ok W H h X Wd data pix :
  is_image W H pix -> shows_part W H (h_canvas h) -> 0 <= X -> 0 <= Wd -> X + Wd <= i_width (h_canvas h) ->
  1 <= len data <= 2 ^ 24 -> 2 <= i_height (h_canvas h) <= 2 ^ 24 -> 1 <= len (h_colors h) <= 2 ^ 24 ->
  (forall v, In v data -> in_unit (h_map h v)) ->
  let v := h_canvas h in
  exists pix', heat_draw h X Wd data pix = Ok pix' /\
  repainted W H (fun x y => if in_box (i_x v + X) (i_y v) Wd (i_height v) x y
     then Some (nth (Z.to_nat (rank_of h (nth (Z.to_nat (row_index (len data) (i_height v) (i_height v - 1 - (y - i_y v)))) data 0))) (h_colors h) white) else None) pix pix'.
Proof.
  intros Hi V HX HW HXW Hd Hh Hc Hm v. unfold heat_draw.
  rewrite (idx_ok white 0 (h_colors h)) by lia. cbn [bind].
  destruct (heat_rows W H h X Wd data (Z.to_nat (i_height v - 0)) 0 (-1) (nth (Z.to_nat 0) (h_colors h) white) pix) as (li & lc & p & E & R); try assumption; try (unfold v in *; lia).
  unfold for_to. fold v. rewrite E. cbn [bind snd]. exists p. split; [reflexivity|].
  fold v in R. rewrite Z.sub_0_r in R. eapply repainted_ext; [|exact R]. intros x y _ _. cbv beta.
  assert (Eh : Z.of_nat (Z.to_nat (i_height v)) = i_height v) by (rewrite Z2Nat.id; [reflexivity|destruct V as (_ & ? & ? & ? & ? & _); assumption]).
  pose proof (rows_box_up (i_x v + X) (i_y v) Wd (Z.to_nat (i_height v)) (fun r => nth (Z.to_nat (f_int (f_mul (h_map h (nth (Z.to_nat (row_index (len data) (i_height v) r)) data 0)) (color_scale h)))) (h_colors h) white) x y) as K.
  rewrite Eh in K. exact K.
Qed.
Lemma heat_columns_ok W H h cols : shows_part W H (h_canvas h) -> 2 <= i_height (h_canvas h) <= 2 ^ 24 -> 1 <= len (h_colors h) <= 2 ^ 24 ->
  (forall c, In c cols -> 0 <= col_x c /\ 0 <= col_w c /\ col_x c + col_w c <= i_width (h_canvas h)) ->
  (forall c, In c cols -> 1 <= len (col_data c) <= 2 ^ 24 /\ forall v, In v (col_data c) -> in_unit (h_map h v)) ->
  let v := h_canvas h in
  forall pix, is_image W H pix ->
  exists pix', heat_columns h cols pix = Ok pix' /\
  painted W H (fun x y => heat_picture (fun n r => row_index n (i_height v) r) (rank_of h) (h_colors h) (i_height v) cols (x - i_x v) (y - i_y v)) pix pix'.
Proof.
  intros V Hh Hc HC HD v. unfold heat_columns, heat_picture. induction cols as [|c cols IH]; intros pix Hi; cbn [fold_left].
  - exists pix. split; [reflexivity|]. split; [exact Hi|reflexivity].
  - destruct (HC c (or_introl eq_refl)) as (C1 & C2 & C3). destruct (HD c (or_introl eq_refl)) as (D1 & D2).
    destruct (heat_draw_ok W H h (col_x c) (col_w c) (col_data c) pix Hi V C1 C2 C3 D1 Hh Hc D2) as (p1 & E1 & R1). cbn [bind]. rewrite E1.
    destruct (IH (fun c Hc' => HC c (or_intror Hc')) (fun c Hc' => HD c (or_intror Hc')) p1 (repainted_image _ _ _ _ _ R1)) as (p2 & E2 & R2).
    exists p2. split; [exact E2|]. eapply painted_ext; [|exact (painted_trans _ _ _ _ _ _ _ (painted_of _ _ _ _ _ R1) R2)].
    intros x y p _ _. cbv beta. f_equal. fold v.
    replace (in_box (i_x v + col_x c) (i_y v) (col_w c) (i_height v) x y) with (in_box (col_x c) 0 (col_w c) (i_height v) (x - i_x v) (y - i_y v)) by (unfold in_box; apply eq_true_iff_eq; lia).
    destruct (in_box (col_x c) 0 (col_w c) (i_height v) (x - i_x v) (y - i_y v)); reflexivity.
Qed.
Lemma key_ok W H v colors h pix : is_image W H pix -> shows_part W H v -> 10 <= i_width v -> 2 <= h <= i_height v -> h <= 2 ^ 24 -> 1 <= len colors <= 2 ^ 24 ->
  exists pix', key_draw v colors 10 h pix = Ok pix' /\
  painted W H (fun x y => key_picture (fun n r => row_index n h r) colors h (x - i_x v) (y - i_y v)) pix pix'.
Proof.
  intros Hi V Hw Hh Hh' Hc. unfold key_draw, for_to. rewrite Z.sub_0_r.
  assert (I : forall r, 0 <= r < h -> 0 <= key_index (len colors) h r < len colors).
  { intros r Hr. destruct (shown_row (len colors) h (h - 1 - r) Hc ltac:(lia) ltac:(lia)) as [A _]. exact A. }
  edestruct (box_set W H v 0 0 10 h (fun r => nth (Z.to_nat (key_index (len colors) h r)) colors white)) as (p' & E & R); try eassumption; try lia.
  2: { exists p'. split; [exact E|]. eapply painted_ext; [|exact (painted_of _ _ _ _ _ R)].
       intros x y p _ _. cbv beta. rewrite !Z.add_0_r. unfold key_picture.
       replace (in_box (i_x v) (i_y v) 10 h x y) with (in_box 0 0 10 h (x - i_x v) (y - i_y v)) by (unfold in_box; apply eq_true_iff_eq; lia).
       destruct (in_box 0 0 10 h (x - i_x v) (y - i_y v)); reflexivity. }
  intros r p Hr. cbv beta. rewrite (idx_ok white _ colors (I r Hr)). cbn [bind]. now rewrite Z.sub_0_r.
Qed.
Lemma fold_opt {A} (f : A -> bool) (g : A -> color) l p : forall o, 
  match fold_left (fun old c => if f c then Some (g c) else old) l o with Some c => opaque c | None => p end
  = fold_left (fun p c => if f c then opaque (g c) else p) l (match o with Some c => opaque c | None => p end).
Proof. induction l as [|c l IH]; intros o; cbn [fold_left]; [reflexivity|]. rewrite IH. f_equal. destruct (f c); reflexivity. Qed.
Lemma SFltb_le_trans a b c : is_rate a -> is_rate b -> is_rate c -> SFltb b a = false -> SFltb b c = true -> SFltb a c = true.
Proof.
  intros Ha Hb Hc. destruct (is_rate_real a Ha) as (x & <- & Fx & _). destruct (is_rate_real b Hb) as (y & <- & Fy & _). destruct (is_rate_real c Hc) as (z & <- & Fz & _).
  rewrite !SFltb_real by assumption. intros A B. revert A B. case Rlt_bool_spec; [discriminate|]. intros L _. case Rlt_bool_spec; [|discriminate]. intros L2 _. apply Rlt_bool_true. lra.
Qed.
Lemma rate_zero : is_rate (S754_zero false).
Proof. repeat split; reflexivity. Qed.
Lemma SFltb_irrefl a : SFltb a a = false.
Proof.
  destruct a as [[]|[]| |[] m e]; try reflexivity; unfold SFltb; cbn; rewrite Z.compare_refl; unfold Pos.compare; rewrite Pos.compare_cont_refl; reflexivity.
Qed.
Lemma max_x_spec cols : (forall c, In c cols -> is_rate (col_rate c)) -> largest_at cols (obs_max_x cols).
Proof.
  intros HR. unfold largest_at.
  assert (K : let s := fold_left (fun (s : spec_float * Z) c => if SFltb (fst s) (col_rate c) then (col_rate c, col_x c) else s) cols (S754_zero false, 0) in
    fst s = obs_max cols /\ is_rate (fst s) /\ (forall c, In c cols -> SFltb (fst s) (col_rate c) = false) /\
    ((fst s = S754_zero false /\ snd s = 0) \/
     (exists before c after, cols = before ++ c :: after /\ snd s = col_x c /\ col_rate c = fst s /\ forall c', In c' before -> SFltb (col_rate c') (col_rate c) = true))).
  { revert HR. induction cols as [|c cols IH] using rev_ind; intros HR; cbn zeta.
    - split; [reflexivity|]. split; [apply rate_zero|]. split; [intros ? []|]. left. auto.
    - destruct IH as (A & R & L & D); [intros; apply HR; apply in_or_app; now left|]. assert (Rc : is_rate (col_rate c)) by (apply HR, in_or_app; right; now left).
      unfold obs_max in *. rewrite !fold_left_app. cbn [fold_left]. rewrite <- A. set (s := fold_left _ cols (S754_zero false, 0)) in *.
      destruct (SFltb (fst s) (col_rate c)) eqn:E; cbn [fst snd].
      + split; [reflexivity|]. split; [exact Rc|].
        assert (Lt : forall c', In c' cols -> SFltb (col_rate c') (col_rate c) = true).
        { intros c' Hc'. apply (SFltb_le_trans _ (fst s)); auto. apply HR, in_or_app. now left. }
        split.
        * intros c' Hc'. apply in_app_or in Hc' as [Hc'|[<-|[]]]; [|apply SFltb_irrefl]. specialize (Lt c' Hc').
          destruct (SFltb (col_rate c) (col_rate c')) eqn:Q; [|reflexivity]. exfalso.
          destruct (is_rate_real _ Rc) as (x & Ex & Fx & _). destruct (is_rate_real (col_rate c')) as (y & Ey & Fy & _); [apply HR, in_or_app; now left|].
          rewrite <- Ex, <- Ey, SFltb_real in Lt, Q by assumption. revert Lt Q. case Rlt_bool_spec; [|discriminate]. case Rlt_bool_spec; [|discriminate]. lra.
        * right. exists cols, c, []. auto.
      + split; [reflexivity|]. split; [exact R|]. split; [intros c' Hc'; apply in_app_or in Hc' as [Hc'|[<-|[]]]; [now apply L|exact E]|].
        destruct D as [D|(b & c0 & aft & -> & X & Rt & B)]; [now left|]. right. exists b, c0, (aft ++ [c]). split; [now rewrite <- app_assoc|]. auto. }
  cbn zeta in K. destruct K as (A & _ & _ & D). unfold obs_max_x. rewrite <- A. exact D.
Qed.
Lemma max_x_in cols : obs_max_x cols = 0 \/ exists c, In c cols /\ obs_max_x cols = col_x c.
Proof.
  unfold obs_max_x. induction cols as [|c cols IH] using rev_ind; [now left|]. rewrite fold_left_app. cbn [fold_left]. set (s := fold_left _ cols _) in *.
  destruct (SFltb (fst s) (col_rate c)); cbn [snd]; [right; exists c; split; [apply in_or_app; right; now left|reflexivity]|].
  destruct IH as [IH|(c0 & H & E)]; [now left|]. right. exists c0. split; [apply in_or_app; now left|exact E].
Qed.
Lemma fold_same {A B} (f g : A -> B -> A) l : (forall a b, f a b = g a b) -> forall a, fold_left f l a = fold_left g l a.
Proof. intros E. induction l as [|b l IH]; intros a; cbn [fold_left]; [reflexivity|]. rewrite E. apply IH. Qed.
Lemma obs_ok shade txt text W H v cols pix : draws_cells shade 11 3 6 txt -> is_image W H pix -> shows_part W H v -> i_height v = 21 ->
  (forall c, In c cols -> 0 <= col_x c /\ 0 <= col_w c /\ col_x c + col_w c <= i_width v) ->
  exists pix', obs_draw txt text (i_width v) v cols pix = Ok pix' /\
  painted W H (fun x y => rates_picture shade (i_width v) cols (text (obs_max cols)) (obs_max_x cols) (x - i_x v) (y - i_y v)) pix pix'.
Proof.
  intros D Hi V Hh HC. unfold obs_draw. change (obs_padding + obs_label_height) with 16. change obs_height with 5. change obs_label_width with 102. change (- r_miny obs_bounds) with (64 * 11).
  destruct (C57_bar W H v 5 16 cols pix Hi V ltac:(lia) ltac:(lia) ltac:(lia) HC) as (p1 & E1 & R1). rewrite E1. cbn [bind]. cbv zeta.
  set (st := if i_width v <? obs_max_x cols + 102 then i_width v - 102 else obs_max_x cols).
  assert (Es : st = Z.min (obs_max_x cols) (i_width v - 102)) by (unfold st; destruct (Z.ltb_spec (i_width v) (obs_max_x cols + 102)); lia).
  eexists. split; [reflexivity|]. unfold fix6. destruct (D W H v st 11 (text (obs_max cols)) p1 (repainted_image _ _ _ _ _ R1) V) as [I P].
  split; [exact I|]. intros x y Hx Hy. rewrite P by assumption. destruct R1 as [_ R1]. rewrite R1 by assumption.
  unfold rates_picture. rewrite <- Es. cbv zeta. rewrite fold_opt.
  rewrite (fold_same _ (fun p c => if in_box (col_x c) 16 (col_w c) 5 (x - i_x v) (y - i_y v) then opaque (obs_grey (obs_max cols) c) else p)).
  2: { intros q c. replace (in_box (i_x v + col_x c) (i_y v + 16) (col_w c) 5 x y) with (in_box (col_x c) 16 (col_w c) 5 (x - i_x v) (y - i_y v)) by (unfold in_box; apply eq_true_iff_eq; lia). reflexivity. }
  set (p2 := fold_left _ cols _). set (t := text (obs_max cols)).
  replace (in_box (i_x v + st) (i_y v + 11 - 11) (6 * len t) (11 + 3) x y && (x <? i_x v + i_width v) && (y <? i_y v + i_height v)) with ((x - i_x v <? i_width v) && in_box st 0 (6 * len t) 14 (x - i_x v) (y - i_y v)) by (unfold in_box; apply eq_true_iff_eq; lia).
  replace (x - (i_x v + st)) with (x - i_x v - st) by ring. replace (y - (i_y v + 11 - 11)) with (y - i_y v) by ring. reflexivity.
Qed.

(** the axes of charts are readable *)
Lemma rows_in h y : 1 <= h -> In y (label_rows h) -> 0 <= y < h.
Proof.
  intros Hh Hy. unfold label_rows in Hy. apply in_map_iff in Hy as (k & <- & Hk). apply in_zrange in Hk. change label_gap with 30 in *.
  destruct (Z.ltb_spec h 30) as [C|C]; [lia|]. assert (k <= (h - 30) / 30) by lia. pose proof (Z.mul_div_le (h - 30) 30 ltac:(lia)). lia.
Qed.
Lemma unit_one : in_unit f_one.
Proof. repeat split; vm_compute; reflexivity. Qed.
Lemma left_readable o h : 1 <= h <= 2 ^ 24 -> (forall f, g_fmt2 o f <> []) -> readable 11 3 6 (left_opts o h).
Proof.
  intros Hh T. constructor; [reflexivity|lia|exact Hh|]. intros l Hl. cbn [left_opts ao_labels] in Hl. unfold left_labels in Hl. apply in_app_or in Hl as [Hl|[<-|[]]].
  - apply in_map_iff in Hl as (y & <- & Hy). cbn [l_pos l_text]. split; [|apply T]. pose proof (rows_in h y ltac:(lia) Hy). apply quot_in_unit; lia.
  - split; [apply unit_one|discriminate].
Qed.
Lemma right_readable q h : 1 <= h <= 2 ^ 24 -> (forall f, q f <> []) -> readable 11 3 6 (right_opts q h).
Proof.
  intros Hh T. constructor; [reflexivity|lia|exact Hh|]. intros l Hl. cbn [right_opts ao_labels] in Hl. unfold right_labels in Hl. apply in_app_or in Hl as [Hl|[<-|[]]].
  - apply in_map_iff in Hl as (y & <- & Hy). cbn [l_pos l_text]. split; [|apply T]. pose proof (rows_in h y ltac:(lia) Hy). apply quot_in_unit; lia.
  - split; [apply unit_one|apply T].
Qed.
