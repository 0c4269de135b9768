(** Properties C64 (the picture of an axis) and C65 (which labels are drawn). *)
From Coq Require Import ZArith Reals List Bool Lia Lra.
From Coq Require Import Floats.SpecFloat.
From Flocq Require Import Core.Core IEEE754.BinarySingleNaN.
From Verif Require Import Base Merge Draw DrawSpec DrawProofs Axis AxisSpec AxisFloat AxisProofs Props_Draw.
Import ListNotations.
Open Scope Z_scope.

Definition at_tick (o : aopts) (l : label) : label * Z := (l, tick_of (ao_length o) l).
Lemma placed_map a d w o : readable a d w o -> placed o (map (at_tick o) (ao_labels o)).
Proof.
  intros R. split; [rewrite map_map; apply map_id|]. apply Forall_forall. intros p Hp. apply in_map_iff in Hp as (l & <- & Hl). cbn [fst snd at_tick].
  apply tick_ok; [apply (rd_length _ _ _ _ R)|apply (rd_labels _ _ _ _ R l Hl)].
Qed.
Lemma readable_v a d w o : readable a d w o -> ao_vertical o = true -> vaxis a d w o.
Proof.
  intros R V. pose proof (rd_cell _ _ _ _ R). pose proof (rd_length _ _ _ _ R). constructor; try lia; [exact V|apply (rd_face _ _ _ _ R)| |].
  - intros l Hl. apply (tick_ok (ao_length o) l); [lia|apply (rd_labels _ _ _ _ R l Hl)].
  - intros l Hl. apply (rd_labels _ _ _ _ R l Hl).
Qed.
Lemma readable_h a d w o : readable a d w o -> ao_vertical o = false -> (ao_dont_bleed o = true -> forall l, In l (ao_labels o) -> w * len (l_text l) <= ao_length o) -> haxis a d w o.
Proof.
  intros R V F. pose proof (rd_cell _ _ _ _ R). pose proof (rd_length _ _ _ _ R). constructor; try lia; [exact V|apply (rd_face _ _ _ _ R)| | |exact F].
  - intros l Hl. apply (tick_ok (ao_length o) l); [lia|apply (rd_labels _ _ _ _ R l Hl)].
  - intros l Hl. apply (rd_labels _ _ _ _ R l Hl).
Qed.
Lemma spaced_map {A B} (f : A -> B) (ca : A -> A -> Prop) (cb : B -> B -> Prop) last ls ds : (forall x y, ca x y <-> cb (f x) (f y)) ->
  spaced ca last ls ds -> spaced cb (option_map f last) (map f ls) (map f ds).
Proof.
  intros C. induction 1 as [last|last l ls ds N S IH|p l ls ds K S IH]; cbn [map].
  - apply sd_nil.
  - apply sd_take; [|exact IH]. intros q Q. destruct last as [p|]; [|discriminate]. injection Q as <-. rewrite <- C. now apply N.
  - cbn [option_map]. apply sd_skip; [now apply C|exact IH].
Qed.
Lemma cand_map a o : map (at_tick o) (filter (considered a o) (ao_labels o)) = candidates a o (map (at_tick o) (ao_labels o)).
Proof.
  unfold candidates. induction (ao_labels o) as [|l ls IH]; cbn [map filter]; [destruct (ao_dont_bleed o); reflexivity|].
  unfold considered at 1. destruct (ao_dont_bleed o); cbn [andb negb].
  - unfold within at 1. cbn [snd at_tick]. rewrite Z.leb_antisym. destruct (ao_length o <? tick_of (ao_length o) l + a); cbn [negb map]; now rewrite IH.
  - cbn [map]. now rewrite IH.
Qed.
Lemma existsb_tick o k ls : existsb (fun l => k =? tick_of (ao_length o) l) ls = existsb (Z.eqb k) (map snd (map (at_tick o) ls)).
Proof. induction ls as [|l ls IH]; [reflexivity|]. cbn [map existsb snd at_tick]. now rewrite IH. Qed.

Lemma lettered_shift {A} shade a d w v (f : A -> Z * Z * list Z) dr x y p :
  lettered shade a d w (map (fun l => shift v (f l)) dr) x y p = lettered shade a d w (map f dr) (x - i_x v) (y - i_y v) p.
Proof.
  unfold lettered. revert p. induction dr as [|l dr IH]; intros p; [reflexivity|]. cbn [map fold_left]. rewrite IH. f_equal.
  unfold shift. destruct (f l) as [[cx cy] t].
  replace (in_box (i_x v + cx) (i_y v + cy) (w * len t) (a + d) x y) with (in_box cx cy (w * len t) (a + d) (x - i_x v) (y - i_y v)) by (unfold in_box; apply eq_true_iff_eq; lia).
  replace (x - (i_x v + cx)) with (x - i_x v - cx) by ring. replace (y - (i_y v + cy)) with (y - i_y v - cy) by ring. reflexivity.
Qed.

(** * C64 *)
(** with the pixels of the labels *)
Lemma vertical_at :
  forall shade a d w txt o, readable a d w o -> ao_vertical o = true -> draws_cells shade a d w txt ->
  let m := axis_measure o in
  exists drawn, let ps := map (at_tick o) (ao_labels o) in spaced (too_high a) None (candidates a o ps) drawn /\
  forall W H v pix, is_image W H pix -> shows_part W H v -> rgb_size v = (am_width m, am_height m) ->
  exists pix', axis_draw txt m (Some (v, pix)) = Ok (v, pix') /\ is_image W H pix' /\
  forall x y, 0 <= x < W -> 0 <= y < H ->
  pixel W pix' x y = vertical_picture shade a d w o (am_width m) (am_height m) ps drawn (x - i_x v) (y - i_y v) (pixel W pix x y).
Proof.
  intros shade a d w txt o R V D m. pose proof (readable_v a d w o R V) as VA.
  assert (exists drawn, spaced (vclose a o) None (filter (considered a o) (ao_labels o)) drawn) as [drawn S].
  { destruct (vmeasure a d w o VA) as (Em & _). fold m in Em. assert (VA' : vaxis a d w (am_opts m)) by (rewrite Em; exact VA).
    destruct (dv_spec a d w m VA' (ao_labels (am_opts m)) None (fun l Hl => Hl) ltac:(discriminate)) as (drawn & S & _). cbn zeta in S. rewrite Em in S. eauto. }
  exists (map (at_tick o) drawn). cbv zeta. split.
  { rewrite <- cand_map. change (@None (label * Z)) with (option_map (at_tick o) None). apply (spaced_map (at_tick o) (vclose a o)); [|exact S].
    intros p q. unfold vclose, too_high, vert_label_spacing. cbn [snd at_tick]. lia. }
  intros W H v pix Hi Sv Sz. unfold rgb_size in Sz. assert (Hw : i_width v = am_width m) by congruence. assert (Hh : i_height v = am_height m) by congruence. clear Sz.
  destruct (vaxis_run shade a d w txt W H v o pix VA D Hi Sv Hw Hh) as (pix' & drawn' & E & I & S' & P). fold m in E, P.
  assert (drawn' = drawn) by (eapply spaced_unique; eassumption). subst drawn'. clear S'.
  destruct (vmeasure a d w o VA) as (Em & Mw & _). fold m in Em, Mw.
  exists pix'. split; [|split; [exact I|]].
  { unfold axis_draw. cbn [rgb_size]. rewrite Hw, Hh, !Z.ltb_irrefl. cbn [orb bind fst snd]. now rewrite E. }
  intros x y Hx Hy. rewrite P by assumption. clear P E. unfold vertical_picture. set (lx := x - i_x v). set (ly := y - i_y v). set (mirror := fun k => if ao_flip o then am_width m - 1 - k else k).
  change (if ao_flip o then am_width m - 1 - lx else lx) with (mirror lx). cbv zeta.
  replace (in_box (i_x v) (i_y v) (am_width m) (am_height m) x y) with (in_box 0 0 (am_width m) (am_height m) lx ly) by (unfold in_box, lx, ly; apply eq_true_iff_eq; lia).
  destruct (in_box 0 0 (am_width m) (am_height m) lx ly) eqn:IB; [|reflexivity].
  cbn zeta. unfold across. rewrite Em. fold lx ly. change (if ao_flip o then am_width m - 1 - lx else lx) with (mirror lx). rewrite existsb_tick.
  change text_offset with 13. change tick_size with 10.
  destruct (Z.ltb_spec (mirror lx) 13) as [C|C].
  - destruct ((mirror lx =? 0) && (ly <? ao_length o)); cbn [orb]; [reflexivity|]. destruct ((1 <=? mirror lx) && (mirror lx <=? 10) && _); reflexivity.
  - replace (mirror lx =? 0) with false by lia. replace (mirror lx <=? 10) with false by lia. rewrite andb_false_r. cbn [andb].
    rewrite lettered_shift. f_equal. rewrite map_map. apply map_ext. intros l. unfold vcell, vdx, text_width. rewrite Em. change text_offset with 13. reflexivity.
Qed.
(** Drawing a vertical axis on a picture (a part of it) changes it to exactly the
    axis's picture there, and nothing elsewhere. *)
Theorem C64_vertical :
  forall shade a d w txt o, readable a d w o -> ao_vertical o = true -> draws_cells shade a d w txt ->
  let m := axis_measure o in
  exists ps drawn, placed o ps /\ spaced (too_high a) None (candidates a o ps) drawn /\
  forall W H v pix, is_image W H pix -> shows_part W H v -> rgb_size v = (am_width m, am_height m) ->
  exists pix', axis_draw txt m (Some (v, pix)) = Ok (v, pix') /\ is_image W H pix' /\
  forall x y, 0 <= x < W -> 0 <= y < H ->
  pixel W pix' x y = vertical_picture shade a d w o (am_width m) (am_height m) ps drawn (x - i_x v) (y - i_y v) (pixel W pix x y).
Proof.
  intros shade a d w txt o R V D m. destruct (vertical_at shade a d w txt o R V D) as (drawn & X). exists (map (at_tick o) (ao_labels o)), drawn. split; [now apply (placed_map a d w)|exact X].
Qed.
(** with the pixels of the labels *)
Lemma horizontal_at :
  forall shade a d w txt o, readable a d w o -> ao_vertical o = false -> draws_cells shade a d w txt ->
  (ao_dont_bleed o = true -> forall l, In l (ao_labels o) -> w * len (l_text l) <= ao_length o) ->
  let m := axis_measure o in
  exists drawn, let ps := map (at_tick o) (ao_labels o) in spaced (too_left w o) None ps drawn /\
  forall W H v pix, is_image W H pix -> shows_part W H v -> rgb_size v = (am_width m, am_height m) ->
  exists pix', axis_draw txt m (Some (v, pix)) = Ok (v, pix') /\ is_image W H pix' /\
  forall x y, 0 <= x < W -> 0 <= y < H ->
  pixel W pix' x y = horizontal_picture shade a d w o (am_width m) (am_height m) ps drawn (x - i_x v) (y - i_y v) (pixel W pix x y).
Proof.
  intros shade a d w txt o R V D F m. pose proof (readable_h a d w o R V F) as HA.
  destruct (hmeasure a d w o HA) as (drawn & S & Em & Mw & _). fold m in Em, Mw.
  assert (Hst : forall l, start_of w o (at_tick o l) = hx w o l).
  { intros l. unfold start_of, hx, text_width. cbn [fst snd at_tick]. destruct (ao_dont_bleed o); cbn [andb]; [|reflexivity]. destruct (Z.ltb_spec (ao_length o) (tick_of (ao_length o) l + w * len (l_text l))); lia. }
  exists (map (at_tick o) drawn). cbv zeta. split.
  { change (@None (label * Z)) with (option_map (at_tick o) None). apply (spaced_map (at_tick o) (hclose w o)); [|exact S].
    intros p q. unfold hclose, too_left, end_of, hend, horiz_label_spacing. rewrite !Hst. unfold text_width. cbn [fst at_tick]. lia. }
  intros W H v pix Hi Sv Sz. unfold rgb_size in Sz. assert (Hw : i_width v = am_width m) by congruence. assert (Hh : i_height v = am_height m) by congruence. clear Sz.
  destruct (haxis_run shade a d w txt W H v o pix HA D Hi Sv Hw Hh) as (pix' & drawn' & E & I & S' & P). fold m in E, P.
  assert (drawn' = drawn) by (eapply spaced_unique; eassumption). subst drawn'. clear S'.
  exists pix'. split; [|split; [exact I|]].
  { unfold axis_draw. cbn [rgb_size]. rewrite Hw, Hh, !Z.ltb_irrefl. cbn [orb bind fst snd]. now rewrite E. }
  intros x y Hx Hy. specialize (P x y Hx Hy). cbv zeta in P. unfold horizontal_picture. set (lx := x - i_x v) in *. set (ly := y - i_y v) in *.
  replace (in_box (i_x v) (i_y v) (am_width m) (am_height m) x y) with (in_box 0 0 (am_width m) (am_height m) lx ly) in P by (unfold in_box, lx, ly; apply eq_true_iff_eq; lia).
  destruct (in_box 0 0 (am_width m) (am_height m) lx ly) eqn:IB; [|exact P]. rewrite !existsb_tick in P.
  change text_offset with 13 in P. change tick_size with 10 in P.
  destruct (Z.ltb_spec ly 13) as [C|C]; rewrite P.
  - destruct ((ly =? 0) && (lx <? ao_length o)); cbn [orb]; [reflexivity|]. destruct ((1 <=? ly) && (ly <=? 10) && _); cbn [orb]; [reflexivity|].
    replace ((11 <=? ly) && (ly <=? 12)) with (10 <? ly) by (apply eq_true_iff_eq; lia). destruct ((10 <? ly) && _); reflexivity.
  - replace (ly =? 0) with false by lia. replace (ly <=? 10) with false by lia. replace (ly <=? 12) with false by lia. rewrite !andb_false_r. cbn [andb].
    unfold below_axis. clear - Hst. generalize (pixel W pix x y). induction drawn as [|l dr IH]; intros p; [reflexivity|]. cbn [map fold_left]. rewrite IH. f_equal.
    unfold hstep. rewrite Hst. unfold text_width. cbn [fst snd at_tick]. reflexivity.
Qed.
(** The same for a horizontal axis. *)
Theorem C64_horizontal :
  forall shade a d w txt o, readable a d w o -> ao_vertical o = false -> draws_cells shade a d w txt ->
  (ao_dont_bleed o = true -> forall l, In l (ao_labels o) -> w * len (l_text l) <= ao_length o) ->
  let m := axis_measure o in
  exists ps drawn, placed o ps /\ spaced (too_left w o) None ps drawn /\
  forall W H v pix, is_image W H pix -> shows_part W H v -> rgb_size v = (am_width m, am_height m) ->
  exists pix', axis_draw txt m (Some (v, pix)) = Ok (v, pix') /\ is_image W H pix' /\
  forall x y, 0 <= x < W -> 0 <= y < H ->
  pixel W pix' x y = horizontal_picture shade a d w o (am_width m) (am_height m) ps drawn (x - i_x v) (y - i_y v) (pixel W pix x y).
Proof.
  intros shade a d w txt o R V D F m. destruct (horizontal_at shade a d w txt o R V D F) as (drawn & X). exists (map (at_tick o) (ao_labels o)), drawn. split; [now apply (placed_map a d w)|exact X].
Qed.
(** Without a canvas, or with one that is too small, the axis is drawn on a new
    white picture of the measured size. *)
Theorem C64_new_picture :
  forall a d w txt o, readable a d w o -> (ao_vertical o = false -> ao_dont_bleed o = true -> forall l, In l (ao_labels o) -> w * len (l_text l) <= ao_length o) ->
  let m := axis_measure o in
  exists v pix, new_rgb (am_width m) (am_height m) = Ok (v, pix) /\ rgb_size v = (am_width m, am_height m) /\
  is_image (am_width m) (am_height m) pix /\ shows_part (am_width m) (am_height m) v /\
  (forall x y, 0 <= x < am_width m -> 0 <= y < am_height m -> pixel (am_width m) pix x y = opaque white) /\
  axis_draw txt m None = axis_draw txt m (Some (v, pix)) /\
  (forall c p, fst (rgb_size c) < am_width m \/ snd (rgb_size c) < am_height m -> axis_draw txt m (Some (c, p)) = axis_draw txt m (Some (v, pix))).
Proof.
  intros a d w txt o R F m.
  assert (Sz : 1 <= am_width m /\ 1 <= am_height m).
  { pose proof (rd_length _ _ _ _ R). destruct (ao_vertical o) eqn:V.
    - destruct (vmeasure a d w o (readable_v a d w o R V)) as (_ & A & B & _). fold m in A, B. change text_offset with 13 in A. lia.
    - destruct (hmeasure a d w o (readable_h a d w o R V (F eq_refl))) as (dr & _ & _ & A & _ & _ & B). fold m in A, B. change text_offset with 13 in B.
      pose proof (rd_cell _ _ _ _ R). unfold vert_label_spacing in B. destruct dr; lia. }
  destruct (C45_new (am_width m) (am_height m) ltac:(lia) ltac:(lia)) as (v & pix & E & S & I & P & _ & _ & Wh).
  exists v, pix. split; [exact E|]. split; [exact S|]. split; [exact I|]. split; [exact P|]. split; [exact Wh|].
  assert (X : axis_draw txt m (Some (v, pix)) = do px <- run_inks txt v (axis_inks m) pix; Ok (v, px)).
  { unfold axis_draw. unfold rgb_size in *. assert (i_width v = am_width m) by congruence. assert (i_height v = am_height m) by congruence. rewrite H, H0, !Z.ltb_irrefl. reflexivity. }
  rewrite X. split.
  - unfold axis_draw. replace (0 <? am_width m) with true by lia. cbn [orb]. rewrite E. reflexivity.
  - intros c p C. unfold axis_draw. destruct (rgb_size c) as [cw ch]. cbn [fst snd] in C.
    replace ((cw <? am_width m) || (ch <? am_height m)) with true by (symmetry; apply orb_true_iff; lia). rewrite E. reflexivity.
Qed.
(** The measured size of a vertical axis is the least that has room for the line,
    the ticks, the widest text that is considered and the base line of the last
    one. *)
Theorem C64_vertical_size :
  forall a d w o, readable a d w o -> ao_vertical o = true ->
  let m := axis_measure o in
  exists ps, placed o ps /\
  (forall p, In p (candidates a o ps) -> 13 + text_width w p <= am_width m /\ snd p + a <= am_height m) /\ 13 <= am_width m /\ ao_length o <= am_height m /\
  (am_width m = 13 \/ exists p, In p (candidates a o ps) /\ am_width m = 13 + text_width w p) /\
  (am_height m = ao_length o \/ exists p, In p (candidates a o ps) /\ am_height m = snd p + a).
Proof.
  intros a d w o R V m. pose proof (readable_v a d w o R V) as VA. destruct (vmeasure a d w o VA) as (Em & A & B & C & L). fold m in Em, A, B, C, L. change text_offset with 13 in *.
  exists (map (at_tick o) (ao_labels o)). split; [now apply (placed_map a d w)|]. rewrite <- cand_map. split; [|split; [exact A|split; [exact B|]]].
  { intros p Hp. apply in_map_iff in Hp as (l & <- & Hl). apply filter_In in Hl as [Hl Hc]. unfold text_width. cbn [fst snd at_tick]. now apply C. }
  assert (K : forall (f : label -> Z) (lo hi : Z) (ls : list label), (forall l, In l ls -> f l <= hi) -> lo <= hi -> (forall b, lo <= b -> (forall l, In l ls -> f l <= b) -> hi <= b) ->
    hi = lo \/ exists l, In l ls /\ hi = f l).
  { intros f lo hi ls. induction ls as [|l ls IH] using rev_ind; intros U Lo Least.
    - left. pose proof (Least lo ltac:(lia) ltac:(intros ? [])). lia.
    - destruct (Z.eq_dec (f l) hi) as [Q|Q]; [right; exists l; split; [apply in_or_app; right; now left|lia]|].
      destruct IH as [Q'|(x & Hx & Q')].
      + intros x Hx. apply U. apply in_or_app. now left.
      + exact Lo.
      + intros b Hb T. destruct (Z_le_gt_dec (f l) b) as [G|G].
        * apply Least; [exact Hb|]. intros x Hx. apply in_app_or in Hx as [Hx|[<-|[]]]; [now apply T|exact G].
        * pose proof (U l ltac:(apply in_or_app; right; now left)). pose proof (Least (f l) ltac:(lia)) as G2. assert (hi <= f l) by (apply G2; intros x Hx; apply in_app_or in Hx as [Hx|[<-|[]]]; [specialize (T x Hx); lia|lia]). lia.
      + now left.
      + right. exists x. split; [apply in_or_app; now left|exact Q']. }
  split.
  - destruct (K (fun l => 13 + w * len (l_text l)) 13 (am_width m) (filter (considered a o) (ao_labels o))) as [Q|(l & Hl & Q)].
    + intros l Hl. apply filter_In in Hl as [Hl Hc]. now apply C.
    + exact A.
    + intros b Hb T. destruct (L (b - 13) (am_height m)) as [G _]; [lia|exact B| |lia]. intros l Hl Hc. split; [specialize (T l ltac:(apply filter_In; auto)); lia|now apply C].
    + now left.
    + right. exists (at_tick o l). split; [now apply in_map|exact Q].
  - destruct (K (fun l => tick_of (ao_length o) l + a) (ao_length o) (am_height m) (filter (considered a o) (ao_labels o))) as [Q|(l & Hl & Q)].
    + intros l Hl. apply filter_In in Hl as [Hl Hc]. now apply C.
    + exact B.
    + intros b Hb T. destruct (L (am_width m - 13) b) as [_ G]; [lia|exact Hb| |lia]. intros l Hl Hc. split; [destruct (C l Hl Hc); lia|apply T, filter_In; auto].
    + now left.
    + right. exists (at_tick o l). split; [now apply in_map|exact Q].
Qed.
(** A horizontal axis is as wide as its line and the texts drawn, and high enough
    for one line of text with two pixels to spare. *)
Theorem C64_horizontal_size :
  forall a d w o, readable a d w o -> ao_vertical o = false ->
  (ao_dont_bleed o = true -> forall l, In l (ao_labels o) -> w * len (l_text l) <= ao_length o) ->
  let m := axis_measure o in
  exists ps drawn, placed o ps /\ spaced (too_left w o) None ps drawn /\
  ao_length o <= am_width m /\ (forall p, In p drawn -> end_of w o p <= am_width m) /\
  (am_width m = ao_length o \/ exists p, In p drawn /\ am_width m = end_of w o p) /\
  (ao_dont_bleed o = true -> am_width m = ao_length o) /\
  am_height m = match ao_labels o with [] => 13 | _ => 13 + (a + d) + 2 end.
Proof.
  intros a d w o R V F m. pose proof (readable_h a d w o R V F) as HA. destruct (hmeasure a d w o HA) as (drawn & S & Em & Mw & Mf & Ml & Mh). fold m in Em, Mw, Mf, Ml, Mh.
  assert (Hst : forall l, start_of w o (at_tick o l) = hx w o l).
  { intros l. unfold start_of, hx, text_width. cbn [fst snd at_tick]. destruct (ao_dont_bleed o); cbn [andb]; [|reflexivity]. destruct (Z.ltb_spec (ao_length o) (tick_of (ao_length o) l + w * len (l_text l))); lia. }
  assert (Hen : forall l, end_of w o (at_tick o l) = hend w o l) by (intros l; unfold end_of, hend; now rewrite Hst).
  exists (map (at_tick o) (ao_labels o)), (map (at_tick o) drawn). split; [now apply (placed_map a d w)|]. split.
  { change (@None (label * Z)) with (option_map (at_tick o) None). apply (spaced_map (at_tick o) (hclose w o)); [|exact S].
    intros p q. unfold hclose, too_left, horiz_label_spacing. rewrite Hst, Hen. lia. }
  split; [exact Mw|]. split; [intros p Hp; apply in_map_iff in Hp as (l & <- & Hl); rewrite Hen; now apply Mf|].
  assert (Ml' : am_width m = ao_length o \/ exists l, In l drawn /\ am_width m = hend w o l) by exact Ml.
  split; [destruct Ml as [Q|(l & Hl & Q)]; [now left|right; exists (at_tick o l); rewrite Hen; split; [now apply in_map|exact Q]]|]. split.
  - intros B. destruct Ml' as [Q|(l & Hl & Q)]; [exact Q|]. destruct (hspan a d w o l HA (spaced_in _ _ _ _ S _ Hl)) as (_ & _ & _ & G). specialize (G B). lia.
  - rewrite Mh. change text_offset with 13. unfold vert_label_spacing. clear - S. generalize dependent (ao_labels o). intros ls S. inversion S; subst; lia.
Qed.

(** * C65 *)
(** The first label that is considered is drawn. *)
Theorem C65_first :
  forall (close : label * Z -> label * Z -> Prop) p ps drawn, spaced close None (p :: ps) drawn -> exists rest, drawn = p :: rest.
Proof. intros close p ps drawn S. inversion S; subst. eauto. Qed.
(** A label is left out only because it is too close to the last one drawn before
    it. *)
Theorem C65_left_out :
  forall (close : label * Z -> label * Z -> Prop) ps drawn, spaced close None ps drawn ->
  forall before p after, ps = before ++ p :: after ->
  exists db da, drawn = db ++ da /\ spaced close None before db /\
  ((exists da', da = p :: da') \/ (exists q db', db = db' ++ [q] /\ close q p)).
Proof.
  intros close ps drawn S before p after ->.
  assert (K : forall before last drawn, spaced close last (before ++ p :: after) drawn ->
    exists db da, drawn = db ++ da /\ spaced close last before db /\
    ((exists da', da = p :: da') \/ (exists q db', db = db' ++ [q] /\ close q p) \/ (db = [] /\ exists q, last = Some q /\ close q p))).
  { clear. induction before as [|b before IH]; intros last drawn S; cbn [app] in S.
    - inversion S as [|? ? ? ds N S'|q ? ? ds C S']; subst.
      + exists [], (p :: ds). split; [reflexivity|]. split; [apply sd_nil|]. left. eauto.
      + exists [], drawn. split; [reflexivity|]. split; [apply sd_nil|]. right. right. eauto.
    - inversion S as [|? ? ? ds N S'|q ? ? ds C S']; subst.
      + destruct (IH (Some b) ds S') as (db & da & -> & Sb & [Q|[(q & db' & -> & Q)|(-> & q & Eq & Q)]]).
        * exists (b :: db), da. split; [reflexivity|]. split; [now apply sd_take|]. now left.
        * exists (b :: db' ++ [q]), da. split; [reflexivity|]. split; [now apply sd_take|]. right. left. exists q, (b :: db'). auto.
        * injection Eq as <-. exists [b], da. split; [reflexivity|]. split; [now apply sd_take|]. right. left. exists b, []. auto.
      + destruct (IH (Some q) drawn S') as (db & da & -> & Sb & Q). exists db, da. split; [reflexivity|]. split; [now apply sd_skip|exact Q]. }
  destruct (K before None drawn S) as (db & da & E & Sb & [Q|[Q|(_ & q & Eq & _)]]); [| |discriminate]; exists db, da; auto.
Qed.
(** On a vertical axis a text drawn later starts at least two pixels below the base
    line of every one drawn before, however the labels are ordered. *)
Theorem C65_vertical :
  forall a ps drawn, 1 <= a -> spaced (too_high a) None ps drawn ->
  forall before p between q after, drawn = before ++ p :: between ++ q :: after -> snd p + a + 2 <= snd q.
Proof.
  intros a ps drawn Ha S.
  assert (K : forall last ps drawn, spaced (too_high a) last ps drawn -> forall between q after, drawn = between ++ q :: after ->
    match last with None => True | Some p => snd p + a + 2 <= snd q end).
  { clear - Ha. induction 1 as [last|last l ls ds N S IH|p l ls ds C S IH]; intros between q after E.
    - destruct between; discriminate.
    - destruct last as [p|]; [|exact I]. specialize (N p eq_refl). unfold too_high in N. destruct between as [|b between]; injection E as <- E; [lia|].
      specialize (IH between q after E). cbn match in IH. lia.
    - exact (IH between q after E). }
  intros before. revert ps drawn S. induction before as [|b before IH]; intros ps drawn S p between q after E.
  - subst drawn. cbn [app] in S. inversion S as [|? ? ? ds N S'|]; subst. exact (K _ _ _ S' between q after eq_refl).
  - subst drawn. cbn [app] in S. inversion S as [|? ? ? ds N S'|]; subst.
    assert (G : forall last ps, spaced (too_high a) last ps (before ++ p :: between ++ q :: after) -> exists ps', spaced (too_high a) None ps' (before ++ p :: between ++ q :: after)).
    { clear. intros last ps S. remember (before ++ p :: between ++ q :: after) as dr. revert Heqdr. induction S as [last|last l ls ds N S IH|r l ls ds C S IH]; intros E.
      - destruct before; discriminate.
      - exists (l :: ls). apply sd_take; [discriminate|exact S].
      - now apply IH. }
    destruct (G _ _ S') as (ps' & S2). exact (IH ps' _ S2 p between q after eq_refl).
Qed.
(** On a horizontal axis, if no label but the first starts in the first ten pixels,
    a text drawn later starts more than ten pixels after the end of every one drawn
    before.  Missing for the full property: labels that start in the first ten
    pixels, for which it is false (below). *)
Theorem C65_horizontal_partial :
  forall w o p0 ps drawn, 1 <= w -> (forall p, In p ps -> 10 <= start_of w o p) -> spaced (too_left w o) None (p0 :: ps) drawn ->
  forall before p between q after, drawn = before ++ p :: between ++ q :: after -> end_of w o p + 10 < start_of w o q.
Proof.
  intros w o p0 ps drawn Hw Far S. inversion S as [|? ? ? ds N S'|]; subst. clear S N.
  assert (Wd : forall p, start_of w o p <= end_of w o p) by (intros p; unfold end_of, text_width, len; nia).
  assert (K : forall last ps drawn, spaced (too_left w o) (Some last) ps drawn -> (forall p, In p ps -> 10 <= start_of w o p) -> forall q, In q drawn -> end_of w o last + 10 < start_of w o q).
  { clear - Wd. intros last ps drawn S. remember (Some last) as sl. revert last Heqsl. induction S as [sl|sl l ls ds N S IH|p l ls ds C S IH]; intros last Es Far q Hq.
    - destruct Hq.
    - subst sl. specialize (N last eq_refl). unfold too_left in N. pose proof (Far l (or_introl eq_refl)). destruct Hq as [<-|Hq]; [lia|].
      specialize (IH l eq_refl (fun p Hp => Far p (or_intror Hp)) q Hq). specialize (Wd l). lia.
    - apply (IH last Es (fun p Hp => Far p (or_intror Hp)) q Hq). }
  intros before. revert p0 ps ds S' Far. induction before as [|b before IH]; intros p0 ps ds S' Far p between q after E; cbn [app] in E.
  - injection E as <- E. apply (K _ _ _ S' Far). rewrite E. apply in_or_app. right. now left.
  - injection E as <- E.
    assert (G : forall last ps dr, spaced (too_left w o) (Some last) ps dr -> (forall p, In p ps -> 10 <= start_of w o p) -> forall x dr', dr = x :: dr' -> exists ps', spaced (too_left w o) (Some x) ps' dr' /\ (forall p, In p ps' -> 10 <= start_of w o p)).
    { clear. intros last ps dr S. remember (Some last) as sl. revert last Heqsl. induction S as [sl|sl l ls ds N S IH|p l ls ds C S IH]; intros last Es Far x dr' E; [discriminate| |].
      - injection E as -> ->. exists ls. split; [exact S|]. intros; apply Far; now right.
      - apply (IH last Es); [intros; apply Far; now right|exact E]. }
    destruct ds as [|x ds]; [destruct before; discriminate|]. destruct (G _ _ _ S' Far x ds eq_refl) as (ps' & S2 & F2).
    exact (IH x ps' ds S2 F2 p between q after E).
Qed.
(** Two labels that start in the first ten pixels of a horizontal axis are both
    drawn, one over the other. *)
Definition ex_overlap : aopts := AOpts (mono_face 11 3 6) [Label (k128 0) [49; 50]; Label (k128 4) [51; 52]] false 101 false false.
Theorem C65_horizontal_refuted :
  exists o ps, readable 11 3 6 o /\ ao_vertical o = false /\ placed o ps /\ spaced (too_left 6 o) None ps ps /\
  exists p q, ps = [p; q] /\ start_of 6 o p < start_of 6 o q < end_of 6 o p.
Proof.
  exists ex_overlap, (map (at_tick ex_overlap) (ao_labels ex_overlap)).
  assert (R : readable 11 3 6 ex_overlap).
  { constructor; [reflexivity|lia|cbn; lia|]. intros l [<-|[<-|[]]]; (split; [apply k128_unit; lia|discriminate]). }
  assert (T1 : tick_of 101 (Label (k128 0) [49; 50]) = 0) by (vm_compute; reflexivity). assert (T2 : tick_of 101 (Label (k128 4) [51; 52]) = 3) by (vm_compute; reflexivity).
  split; [exact R|]. split; [reflexivity|]. split; [exact (placed_map 11 3 6 ex_overlap R)|].
  change (map (at_tick ex_overlap) (ao_labels ex_overlap)) with
    [(Label (k128 0) [49; 50], tick_of 101 (Label (k128 0) [49; 50])); (Label (k128 4) [51; 52], tick_of 101 (Label (k128 4) [51; 52]))]. rewrite T1, T2. split.
  - apply sd_take; [discriminate|]. apply sd_take; [|apply sd_nil]. intros p E. injection E as <-. unfold too_left. cbn. lia.
  - eexists _, _. split; [reflexivity|]. cbn. lia.
Qed.
(** The cells of two texts on a vertical axis may share rows: below the base line
    there are only two pixels between them, but a text may go further down. *)
Theorem C65_vertical_refuted :
  exists o ps, readable 11 3 6 o /\ ao_vertical o = true /\ placed o ps /\ spaced (too_high 11) None (candidates 11 o ps) ps /\
  exists p q, ps = [p; q] /\ snd p <= snd q < snd p + 11 + 3.
Proof.
  set (o := AOpts (mono_face 11 3 6) [Label (k128 0) [49; 50]; Label (k128 13) [51; 52]] true 129 false false).
  exists o, (map (at_tick o) (ao_labels o)).
  assert (R : readable 11 3 6 o).
  { constructor; [reflexivity|lia|cbn; lia|]. intros l [<-|[<-|[]]]; (split; [apply k128_unit; lia|discriminate]). }
  assert (T1 : tick_of 129 (Label (k128 0) [49; 50]) = 0) by (vm_compute; reflexivity). assert (T2 : tick_of 129 (Label (k128 13) [51; 52]) = 13) by (vm_compute; reflexivity).
  split; [exact R|]. split; [reflexivity|]. split; [exact (placed_map 11 3 6 o R)|].
  change (candidates 11 o (map (at_tick o) (ao_labels o))) with (map (at_tick o) (ao_labels o)).
  change (map (at_tick o) (ao_labels o)) with
    [(Label (k128 0) [49; 50], tick_of 129 (Label (k128 0) [49; 50])); (Label (k128 13) [51; 52], tick_of 129 (Label (k128 13) [51; 52]))]. rewrite T1, T2. split.
  - apply sd_take; [discriminate|]. apply sd_take; [|apply sd_nil]. intros p E. injection E as <-. unfold too_high. cbn. lia.
  - eexists _, _. split; [reflexivity|]. cbn. lia.
Qed.

(** the hypotheses are met: a painter of cells, and options with several labels,
    of which some are left out *)
Definition ex_shade (t : list Z) (i j : Z) (p : list Z) : list Z := if (i + j) mod 2 =? 0 then opaque black else p.
Definition ex_txt (v : rgb) (dx dy : Z) (t pix : list Z) : list Z :=
  let W := i_stride v / 4 in
  flat_map (fun i => let x := Z.of_nat i mod W in let y := Z.of_nat i / W in
    let X := i_x v + dx / 64 in let Y := i_y v + dy / 64 - 11 in
    if in_box X Y (6 * len t) 14 x y && (x <? i_x v + i_width v) && (y <? i_y v + i_height v)
    then ex_shade t (x - X) (y - Y) (pixel W pix x y) else pixel W pix x y) (seq 0 (Z.to_nat (len pix / 4))).
Lemma flat_sub (f : nat -> list Z) n : (forall i, (i < n)%nat -> length (f i) = 4%nat) ->
  len (flat_map f (seq 0 n)) = 4 * Z.of_nat n /\ forall k, 0 <= k < Z.of_nat n -> sub (4 * k) 4 (flat_map f (seq 0 n)) = f (Z.to_nat k).
Proof.
  intros F. induction n as [|n IH].
  - split; [reflexivity|lia].
  - destruct IH as [L S]; [intros; apply F; lia|]. rewrite seq_S, flat_map_app. cbn [plus flat_map]. rewrite app_nil_r. pose proof (F n ltac:(lia)) as Fn.
    unfold len in *. rewrite app_length, Fn. split; [lia|]. intros k Hk. unfold sub in *. change (Z.to_nat 4) with 4%nat in *.
    destruct (Z.eq_dec k (Z.of_nat n)) as [->|Ne].
    + rewrite skipn_app, skipn_all2 by lia. cbn [app]. replace (Z.to_nat (4 * Z.of_nat n) - length (flat_map f (seq 0 n)))%nat with 0%nat by lia. rewrite Nat2Z.id. cbn [skipn]. apply firstn_all2. lia.
    + specialize (S k ltac:(lia)). rewrite skipn_app, firstn_app. rewrite skipn_length.
      replace (4 - (length (flat_map f (seq 0 n)) - Z.to_nat (4 * k)))%nat with 0%nat by lia. cbn [firstn]. rewrite app_nil_r. exact S.
Qed.
Example ex_txt_draws : draws_cells ex_shade 11 3 6 ex_txt.
Proof.
  intros W H v x y t pix (HW & HH & L) (St & V1 & V2 & V3 & V4 & V5 & V6). unfold ex_txt. rewrite St.
  replace (4 * W / 4) with W by (rewrite Z.mul_comm, Z.div_mul by lia; reflexivity). rewrite L.
  replace (4 * W * H / 4) with (W * H) by (replace (4 * W * H) with (W * H * 4) by ring; rewrite Z.div_mul by lia; reflexivity).
  replace (64 * x / 64) with x by (rewrite Z.mul_comm, Z.div_mul by lia; reflexivity). replace (64 * y / 64) with y by (rewrite Z.mul_comm, Z.div_mul by lia; reflexivity).
  set (f := fun i : nat => _).
  assert (P4 : forall px py, 0 <= px < W -> 0 <= py < H -> length (pixel W pix px py) = 4%nat).
  { intros px py Hx Hy. unfold pixel. rewrite sub_length; [reflexivity|..]; pose proof (pixel_range W H px py Hx Hy); lia. }
  assert (F : forall i, (i < Z.to_nat (W * H))%nat -> length (f i) = 4%nat).
  { intros i Hi. assert (0 < W) by nia. assert (0 <= Z.of_nat i mod W < W) by (apply Z.mod_pos_bound; lia). assert (0 <= Z.of_nat i / W < H) by (split; [apply Z.div_pos; lia|apply Z.div_lt_upper_bound; lia]).
    unfold f, ex_shade. cbv zeta. destruct (_ && _ && _); [|now apply P4]. destruct (_ =? 0); [reflexivity|now apply P4]. }
  destruct (flat_sub f _ F) as [Lf Sf]. split; [split; [exact HW|split; [exact HH|rewrite Lf; lia]]|].
  intros px py Hx Hy. unfold pixel at 1. rewrite Sf by nia. unfold f. rewrite Z2Nat.id by nia.
  assert (Mx : (py * W + px) mod W = px) by (rewrite Z.add_comm, Z.mod_add by lia; apply Z.mod_small; lia).
  assert (My : (py * W + px) / W = py) by (rewrite Z.add_comm, Z.div_add by lia; rewrite Z.div_small by lia; lia).
  rewrite Mx, My. reflexivity.
Qed.
Definition ex_axis (vertical flip bleed : bool) : aopts :=
  AOpts (mono_face 11 3 6) (map (fun k => Label (k128 k) [48; 48 + k mod 10]) [0; 5; 40; 64; 70; 128]) vertical 200 flip bleed.
Example ex_axis_readable vertical flip bleed : readable 11 3 6 (ex_axis vertical flip bleed).
Proof.
  constructor; [reflexivity|lia|cbn; lia|]. intros l Hl. apply in_map_iff in Hl as (k & <- & Hk). split; [|discriminate].
  apply k128_unit. cbn [In] in Hk. intuition subst; lia.
Qed.
Example ex_axis_vertical :
  (am_width (axis_measure (ex_axis true true false)), am_height (axis_measure (ex_axis true true false))) = (25, 210) /\
  filter is_txt (axis_inks (axis_measure (ex_axis true true false))) = [Txt 0 (64 * 11) [48; 48]; Txt 0 (64 * 73) [48; 48]; Txt 0 (64 * 110) [48; 52]; Txt 0 (64 * 210) [48; 56]].
Proof. split; vm_compute; reflexivity. Qed.
Example ex_axis_horizontal :
  (am_width (axis_measure (ex_axis false false true)), am_height (axis_measure (ex_axis false false true))) = (200, 29) /\
  filter is_txt (axis_inks (axis_measure (ex_axis false false true))) =
    [Txt 0 (64 * 24) [48; 48]; Txt (64 * 7) (64 * 24) [48; 53]; Txt (64 * 62) (64 * 24) [48; 48]; Txt (64 * 99) (64 * 24) [48; 52]; Txt (64 * 188) (64 * 24) [48; 56]].
Proof. split; vm_compute; reflexivity. Qed.
Print Assumptions C64_vertical.
Print Assumptions C65_vertical.
