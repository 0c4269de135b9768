(** Proofs about Axis.v. *)
From Coq Require Import ZArith List Bool Lia.
From Coq Require Import Floats.SpecFloat.
From Verif Require Import Base Merge Draw DrawSpec DrawProofs Axis AxisSpec.
Import ListNotations.
Open Scope Z_scope.

Lemma ceil6_fix z : ceil6 (64 * z) = z.
Proof. unfold ceil6. replace (64 * z + 63) with (63 + z * 64) by ring. rewrite Z.div_add by lia. reflexivity. Qed.
Lemma mono_miny a d w t : t <> [] -> ceil6 (r_miny (fc_bounds (mono_face a d w) t)) = - a.
Proof. intros H. destruct t as [|c t]; [congruence|]. cbn [mono_face fc_bounds r_miny]. unfold fix6. replace (- (64 * a)) with (64 * - a) by ring. apply ceil6_fix. Qed.
Lemma mono_width a d w t : ceil6 (r_maxx (fc_bounds (mono_face a d w) t) - r_minx (fc_bounds (mono_face a d w) t)) = w * len t.
Proof.
  destruct t as [|c t]; cbn [mono_face fc_bounds r_maxx r_minx]; [change (len (@nil Z)) with 0; rewrite Z.mul_0_r; reflexivity|].
  unfold fix6. rewrite Z.sub_0_r. apply ceil6_fix.
Qed.
Lemma mono_maxx a d w t : ceil6 (r_maxx (fc_bounds (mono_face a d w) t)) = w * len t.
Proof.
  destruct t as [|c t]; cbn [mono_face fc_bounds r_maxx]; [change (len (@nil Z)) with 0; rewrite Z.mul_0_r; reflexivity|].
  unfold fix6. apply ceil6_fix.
Qed.
Lemma mono_height a d w t : t <> [] -> ceil6 (r_maxy (fc_bounds (mono_face a d w) t) - r_miny (fc_bounds (mono_face a d w) t)) = a + d.
Proof.
  intros H. destruct t as [|c t]; [congruence|]. cbn [mono_face fc_bounds r_maxy r_miny]. unfold fix6. replace (64 * d - - (64 * a)) with (64 * (a + d)) by ring. apply ceil6_fix.
Qed.
Lemma mono_advance a d w t : fc_advance (mono_face a d w) t = 64 * (w * len t).
Proof. reflexivity. Qed.
Lemma in_zrange n x : In x (zrange n) <-> 0 <= x < n.
Proof.
  unfold zrange. rewrite in_map_iff. split.
  - intros (k & <- & Hk). apply in_seq in Hk. lia.
  - intros H. exists (Z.to_nat x). split; [lia|]. apply in_seq. lia.
Qed.

Section Inks.
  Context (shade : list Z -> Z -> Z -> list Z -> list Z) (a d w : Z).
  Definition ink1 (v : rgb) (x y : Z) (p : list Z) (i : ink) : list Z :=
    match i with
    | Px px py => if (x =? i_x v + px) && (y =? i_y v + py) then opaque black else p
    | Txt dx dy t =>
      if in_box (i_x v + dx / 64) (i_y v + dy / 64 - a) (w * len t) (a + d) x y && (x <? i_x v + i_width v) && (y <? i_y v + i_height v)
      then shade t (x - (i_x v + dx / 64)) (y - (i_y v + dy / 64 - a)) p else p
    end.
  Definition ink_ok (v : rgb) (i : ink) : Prop :=
    match i with Px x y => 0 <= x < i_width v /\ 0 <= y < i_height v | Txt dx dy t => (exists x, dx = 64 * x) /\ (exists y, dy = 64 * y) end.
  Lemma run_inks_ok txt W H v : draws_cells shade a d w txt -> shows_part W H v ->
    forall inks pix, is_image W H pix -> Forall (ink_ok v) inks ->
    exists pix', run_inks txt v inks pix = Ok pix' /\ is_image W H pix' /\
    forall x y, 0 <= x < W -> 0 <= y < H -> pixel W pix' x y = fold_left (ink1 v x y) inks (pixel W pix x y).
  Proof.
    intros D V. induction inks as [|i inks IH]; intros pix Hi F; cbn [run_inks fold_left].
    - exists pix. auto.
    - inversion F as [|? ? F1 F2]; subst. destruct i as [px py|dx dy t].
      + cbn [ink_ok] in F1. pose proof (set_px_ok W H v px py black pix Hi V ltac:(lia) ltac:(lia)) as E. rewrite E. cbn [bind].
        pose proof V as (_ & V1 & V2 & V3 & V4 & V5 & V6). pose proof (put_pixel W H (i_x v + px) (i_y v + py) black pix Hi ltac:(lia) ltac:(lia)) as R.
        set (p1 := put _ _ _) in *. destruct (IH p1 (repainted_image _ _ _ _ _ R) F2) as (p2 & E2 & I2 & R2). exists p2. split; [exact E2|]. split; [exact I2|].
        intros x y Hx Hy. rewrite R2 by assumption. f_equal. destruct R as [_ R]. rewrite R by assumption. cbn [ink1].
        destruct ((x =? i_x v + px) && (y =? i_y v + py)); reflexivity.
      + cbn [ink_ok] in F1. destruct F1 as [[x0 ->] [y0 ->]]. destruct (D W H v x0 y0 t pix Hi V) as [I1 R1].
        destruct (IH _ I1 F2) as (p2 & E2 & I2 & R2). exists p2. split; [exact E2|]. split; [exact I2|].
        intros x y Hx Hy. rewrite R2 by assumption. f_equal. rewrite R1 by assumption. cbn [ink1].
        replace (64 * x0 / 64) with x0 by (rewrite Z.mul_comm, Z.div_mul by lia; reflexivity).
        replace (64 * y0 / 64) with y0 by (rewrite Z.mul_comm, Z.div_mul by lia; reflexivity). reflexivity.
  Qed.
  (** pixels that texts do not reach *)
  Lemma fold_px v x y inks : forall p, (forall dx dy t, In (Txt dx dy t) inks -> ink1 v x y p (Txt dx dy t) = p /\ ink1 v x y (opaque black) (Txt dx dy t) = opaque black) ->
    fold_left (ink1 v x y) inks p = if existsb (fun i => match i with Px px py => (x =? i_x v + px) && (y =? i_y v + py) | _ => false end) inks then opaque black else p.
  Proof.
    induction inks as [|i inks IH]; intros p T; cbn [fold_left existsb]; [reflexivity|].
    destruct i as [px py|dx dy t].
    - cbn [ink1]. destruct ((x =? i_x v + px) && (y =? i_y v + py)) eqn:E; cbn [orb].
      + rewrite IH; [destruct (existsb _ inks); reflexivity|]. intros dx dy t Ht. destruct (T dx dy t (or_intror Ht)) as [_ B]. split; exact B.
      + apply IH. intros dx dy t Ht. apply T. now right.
    - destruct (T dx dy t (or_introl eq_refl)) as [A _]. rewrite A. cbn [orb]. apply IH. intros dx' dy' t' Ht. apply T. now right.
  Qed.
  Lemma fold_none v x y inks p : (forall i, In i inks -> forall q, ink1 v x y q i = q) -> fold_left (ink1 v x y) inks p = p.
  Proof.
    revert p. induction inks as [|i inks IH]; intros p T; cbn [fold_left]; [reflexivity|]. rewrite (T i (or_introl eq_refl)). apply IH. intros j Hj. apply T. now right.
  Qed.
End Inks.

(** * vertical axes *)
Record vaxis (a d w : Z) (o : aopts) : Prop := {
  va_vertical : ao_vertical o = true;
  va_face : ao_face o = mono_face a d w;
  va_a : 1 <= a; va_d : 0 <= d; va_w : 1 <= w;
  va_length : 1 <= ao_length o;
  va_ticks : forall l, In l (ao_labels o) -> 0 <= tick_of (ao_length o) l < ao_length o;
  va_text : forall l, In l (ao_labels o) -> l_text l <> []
}.
Definition considered (a : Z) (o : aopts) (l : label) : bool := negb (ao_dont_bleed o && (ao_length o <? tick_of (ao_length o) l + a)).
Lemma vmeasure a d w o : vaxis a d w o ->
  let m := axis_measure o in
  am_opts m = o /\ text_offset <= am_width m /\ ao_length o <= am_height m /\
  (forall l, In l (ao_labels o) -> considered a o l = true -> text_offset + w * len (l_text l) <= am_width m /\ tick_of (ao_length o) l + a <= am_height m) /\
  (forall bw bh, 0 <= bw -> ao_length o <= bh -> (forall l, In l (ao_labels o) -> considered a o l = true -> w * len (l_text l) <= bw /\ tick_of (ao_length o) l + a <= bh) ->
     am_width m <= text_offset + bw /\ am_height m <= bh).
Proof.
  intros V. cbn zeta. unfold axis_measure. rewrite (va_vertical _ _ _ _ V). unfold measure_vertical.
  assert (K : forall ls mw mh, (forall l, In l ls -> In l (ao_labels o)) ->
    let '(mw', mh') := fold_left (mv_step o) ls (mw, mh) in
    mw <= mw' /\ mh <= mh' /\ (forall l, In l ls -> considered a o l = true -> w * len (l_text l) <= mw' /\ tick_of (ao_length o) l + a <= mh') /\
    (forall bw bh, mw <= bw -> mh <= bh -> (forall l, In l ls -> considered a o l = true -> w * len (l_text l) <= bw /\ tick_of (ao_length o) l + a <= bh) -> mw' <= bw /\ mh' <= bh)).
  { induction ls as [|l ls IH]; intros mw mh Hs; cbn [fold_left].
    - split; [lia|]. split; [lia|]. split; [intros ? []|]. auto.
    - assert (E : mv_step o (mw, mh) l = if considered a o l then (Z.max mw (w * len (l_text l)), Z.max mh (tick_of (ao_length o) l + a)) else (mw, mh)).
      { unfold mv_step, considered. rewrite (va_face _ _ _ _ V). rewrite mono_miny by (apply (va_text _ _ _ _ V), Hs; now left). rewrite mono_maxx.
        replace (tick_of (ao_length o) l - - a) with (tick_of (ao_length o) l + a) by ring.
        destruct (ao_dont_bleed o && (ao_length o <? tick_of (ao_length o) l + a)); cbn [negb]; [reflexivity|].
        f_equal; [destruct (Z.ltb_spec mw (w * len (l_text l)))|destruct (Z.ltb_spec mh (tick_of (ao_length o) l + a))]; lia. }
      rewrite E. destruct (considered a o l) eqn:C.
      + specialize (IH (Z.max mw (w * len (l_text l))) (Z.max mh (tick_of (ao_length o) l + a)) (fun x Hx => Hs x (or_intror Hx))).
        destruct (fold_left (mv_step o) ls _) as [mw' mh']. destruct IH as (A & B & I & L). split; [lia|]. split; [lia|]. split.
        * intros x [<-|Hx] Cx; [lia|now apply I].
        * intros bw bh Hw Hh T. destruct (T l (or_introl eq_refl) C). apply L; try lia. intros x Hx. apply T. now right.
      + specialize (IH mw mh (fun x Hx => Hs x (or_intror Hx))). destruct (fold_left (mv_step o) ls _) as [mw' mh']. destruct IH as (A & B & I & L). split; [lia|]. split; [lia|]. split.
        * intros x [<-|Hx] Cx; [congruence|now apply I].
        * intros bw bh Hw Hh T. apply L; try lia. intros x Hx. apply T. now right. }
  specialize (K (ao_labels o) 0 (ao_length o) (fun l Hl => Hl)). destruct (fold_left (mv_step o) (ao_labels o) (0, ao_length o)) as [mw mh]. cbn [am_opts am_width am_height].
  destruct K as (A & B & I & L). split; [reflexivity|]. split; [lia|]. split; [exact B|]. split.
  - intros l Hl C. destruct (I l Hl C). lia.
  - intros bw bh Hw Hh T. destruct (L bw bh Hw Hh T). lia.
Qed.
(** the labels drawn by a vertical axis *)
Definition vclose (a : Z) (o : aopts) (p l : label) : Prop := tick_of (ao_length o) l < tick_of (ao_length o) p + a + vert_label_spacing.
Definition vdx (w : Z) (m : ameasured) (l : label) : Z := if ao_flip (am_opts m) then am_width m - text_offset - w * len (l_text l) else text_offset.
Definition is_txt (i : ink) : bool := match i with Txt _ _ _ => true | _ => false end.
Definition vtick_inks (m : ameasured) (l : label) : list ink := map (fun x => Px (maybe_flip m (axis_width + x)) (tick_of (ao_length (am_opts m)) l)) (zrange tick_size).
Lemma dv_spec a d w m : vaxis a d w (am_opts m) -> forall ls last, (forall l, In l ls -> In l (ao_labels (am_opts m))) -> (forall p, last = Some p -> In p (ao_labels (am_opts m))) ->
  let o := am_opts m in
  let occ := match last with None => 0 | Some p => tick_of (ao_length o) p + a end in
  exists drawn, spaced (vclose a o) last (filter (considered a o) ls) drawn /\
  filter is_txt (dv_labels m occ ls) = map (fun l => Txt (64 * vdx w m l) (64 * (tick_of (ao_length o) l + a)) (l_text l)) drawn /\
  (forall i, In i (dv_labels m occ ls) -> is_txt i = false -> exists l, In l ls /\ In i (vtick_inks m l)) /\
  (forall l i, In l ls -> In i (vtick_inks m l) -> In i (dv_labels m occ ls)).
Proof.
  intros V. induction ls as [|l ls IH]; intros last Hs Hp; cbn zeta.
  - exists []. split; [apply sd_nil|]. split; [reflexivity|]. split; [intros ? []|intros ? ? []].
  - cbn [dv_labels filter]. rewrite (va_face _ _ _ _ V). assert (Hl : In l (ao_labels (am_opts m))) by (apply Hs; now left).
    rewrite mono_miny by (now apply (va_text _ _ _ _ V)). rewrite mono_width.
    set (o := am_opts m) in *. set (y := tick_of (ao_length o) l) in *. replace (y - - a) with (y + a) by ring.
    change (map (fun x : Z => Px (maybe_flip m (axis_width + x)) y) (zrange tick_size)) with (vtick_inks m l).
    assert (NT : forall l, filter is_txt (vtick_inks m l) = []).
    { intros l'. unfold vtick_inks. induction (zrange tick_size) as [|x r IHr]; [reflexivity|]. cbn [map filter is_txt]. exact IHr. }
    assert (G : forall (last' : option label) drawn', 
      let occ' := match last' with None => 0 | Some p => tick_of (ao_length o) p + a end in
      forall mid, filter is_txt mid = mid -> forall tail, tail = dv_labels m occ' ls ->
      (forall i, In i (dv_labels m occ' ls) -> is_txt i = false -> exists l, In l ls /\ In i (vtick_inks m l)) ->
      (forall l i, In l ls -> In i (vtick_inks m l) -> In i (dv_labels m occ' ls)) ->
      filter is_txt (dv_labels m occ' ls) = map (fun l => Txt (64 * vdx w m l) (64 * (tick_of (ao_length o) l + a)) (l_text l)) drawn' ->
      filter is_txt (vtick_inks m l ++ mid ++ tail) = mid ++ map (fun l => Txt (64 * vdx w m l) (64 * (tick_of (ao_length o) l + a)) (l_text l)) drawn' /\
      (forall i, In i (vtick_inks m l ++ mid ++ tail) -> is_txt i = false -> exists l', In l' (l :: ls) /\ In i (vtick_inks m l')) /\
      (forall l' i, In l' (l :: ls) -> In i (vtick_inks m l') -> In i (vtick_inks m l ++ mid ++ tail))).
    { intros last' drawn' occ' mid Hmid tail -> P1 P2 P3. rewrite !filter_app, NT, Hmid, P3. split; [reflexivity|]. split.
      - intros i Hi Ti. apply in_app_or in Hi as [Hi|Hi]; [exists l; split; [now left|exact Hi]|]. apply in_app_or in Hi as [Hi|Hi].
        + rewrite <- Hmid in Hi. apply filter_In in Hi. destruct Hi. congruence.
        + destruct (P1 i Hi Ti) as (l' & Hl' & Hi'). exists l'. split; [now right|exact Hi'].
      - intros l' i [<-|Hl'] Hi; [apply in_or_app; now left|]. apply in_or_app; right. apply in_or_app; right. now apply (P2 l'). }
    assert (Hs' : forall x, In x ls -> In x (ao_labels o)) by (intros x Hx; apply Hs; now right).
    unfold considered at 1. fold y.
    destruct (ao_dont_bleed o && (ao_length o <? y + a)) eqn:Cb; cbn [negb].
    + destruct (IH last Hs' Hp) as (drawn & S & F & P1 & P2). exists drawn. split; [exact S|].
      exact (G last drawn [] eq_refl _ eq_refl P1 P2 F).
    + set (occ := match last with None => 0 | Some p => tick_of (ao_length o) p + a end).
      destruct ((0 <? occ) && (y <? occ + vert_label_spacing)) eqn:Cc.
      * apply andb_true_iff in Cc as [C1 C2]. destruct last as [p|]; [|discriminate C1].
        destruct (IH (Some p) Hs' Hp) as (drawn & S & F & P1 & P2). exists drawn. split.
        { apply sd_skip; [unfold vclose; fold y; unfold occ in C2; apply Z.ltb_lt in C2; lia|exact S]. }
        exact (G (Some p) drawn [] eq_refl _ eq_refl P1 P2 F).
      * destruct (IH (Some l) Hs') as (drawn & S & F & P1 & P2); [intros p Q; injection Q as <-; exact Hl|].
        unfold fix6. rewrite ceil6_fix. exists (l :: drawn). split.
        { apply sd_take; [|exact S]. intros p Q. subst last. unfold vclose. fold y. unfold occ in Cc.
          pose proof (va_ticks _ _ _ _ V p (Hp p eq_refl)) as Tp. pose proof (va_a _ _ _ _ V). fold o in Tp.
          apply andb_false_iff in Cc as [Cc|Cc]; [apply Z.ltb_ge in Cc; lia|apply Z.ltb_ge in Cc; lia]. }
        cbn [map]. fold y.
        replace (if ao_flip o then 64 * (am_width m - text_offset - w * len (l_text l)) else 64 * text_offset) with (64 * vdx w m l) by (unfold vdx; fold o; destruct (ao_flip o); reflexivity).
        exact (G (Some l) drawn [Txt (64 * vdx w m l) (64 * (y + a)) (l_text l)] eq_refl _ eq_refl P1 P2 F).
Qed.
Lemma fold_txt shade a d w v x y inks : forall p, (forall px py, In (Px px py) inks -> (x =? i_x v + px) && (y =? i_y v + py) = false) ->
  fold_left (ink1 shade a d w v x y) inks p = fold_left (ink1 shade a d w v x y) (filter is_txt inks) p.
Proof.
  induction inks as [|i inks IH]; intros p T; cbn [fold_left filter]; [reflexivity|].
  destruct i as [px py|dx dy t]; cbn [is_txt].
  - cbn [ink1]. rewrite (T px py (or_introl eq_refl)). apply IH. intros; apply T; now right.
  - cbn [fold_left]. apply IH. intros; apply T; now right.
Qed.
Lemma fold_lettered shade a d w v x y (cells : list (Z * Z * list Z)) : x < i_x v + i_width v -> y < i_y v + i_height v -> forall p,
  fold_left (ink1 shade a d w v x y) (map (fun c : Z * Z * list Z => let '(cx, cy, t) := c in Txt (64 * cx) (64 * (cy + a)) t) cells) p
  = lettered shade a d w (map (fun c : Z * Z * list Z => let '(cx, cy, t) := c in (i_x v + cx, i_y v + cy, t)) cells) x y p.
Proof.
  intros Hx Hy. induction cells as [|[[cx cy] t] cells IH]; intros p; [reflexivity|]. unfold lettered in *. cbn [map fold_left]. rewrite IH. f_equal. cbn [ink1].
  replace (64 * cx / 64) with cx by (rewrite Z.mul_comm, Z.div_mul by lia; reflexivity).
  replace (64 * (cy + a) / 64) with (cy + a) by (rewrite Z.mul_comm, Z.div_mul by lia; reflexivity).
  replace (x <? i_x v + i_width v) with true by lia. replace (y <? i_y v + i_height v) with true by lia. rewrite !andb_true_r.
  replace (i_y v + (cy + a) - a) with (i_y v + cy) by ring. reflexivity.
Qed.
Lemma filter_all {A} (f : A -> bool) l : (forall x, In x l -> f x = false) -> filter f l = [].
Proof. induction l as [|x l IH]; intros H; [reflexivity|]. cbn [filter]. rewrite (H x (or_introl eq_refl)). apply IH. intros; apply H; now right. Qed.

(** how far a column of an axis's picture is from the axis *)
Definition across (m : ameasured) (x : Z) : Z := if ao_flip (am_opts m) then am_width m - 1 - x else x.
Definition vcell (w : Z) (m : ameasured) (l : label) : Z * Z * list Z := (vdx w m l, tick_of (ao_length (am_opts m)) l, l_text l).
Definition shift (v : rgb) (c : Z * Z * list Z) : Z * Z * list Z := let '(cx, cy, t) := c in (i_x v + cx, i_y v + cy, t).
Lemma spaced_in {A} (close : A -> A -> Prop) last ls ds : spaced close last ls ds -> forall x, In x ds -> In x ls.
Proof. induction 1; intros x Hx; [destruct Hx|destruct Hx as [<-|Hx]; [now left|right; auto]|right; auto]. Qed.

Lemma vaxis_run shade a d w txt W H v o pix : vaxis a d w o -> draws_cells shade a d w txt -> is_image W H pix -> shows_part W H v ->
  let m := axis_measure o in
  i_width v = am_width m -> i_height v = am_height m ->
  exists pix' drawn, run_inks txt v (axis_inks m) pix = Ok pix' /\ is_image W H pix' /\
  spaced (vclose a o) None (filter (considered a o) (ao_labels o)) drawn /\
  forall x y, 0 <= x < W -> 0 <= y < H ->
  pixel W pix' x y =
    if in_box (i_x v) (i_y v) (am_width m) (am_height m) x y then
      let lx := across m (x - i_x v) in let ly := y - i_y v in
      if lx <? text_offset then
        (if ((lx =? 0) && (ly <? ao_length o)) || ((1 <=? lx) && (lx <=? tick_size) && existsb (fun l => ly =? tick_of (ao_length o) l) (ao_labels o))
         then opaque black else pixel W pix x y)
      else lettered shade a d w (map (fun l => shift v (vcell w m l)) drawn) x y (pixel W pix x y)
    else pixel W pix x y.
Proof.
  intros VA D Hi V m Hw Hh. destruct (vmeasure a d w o VA) as (Em & Mw & Mh & Mf & _). fold m in Em, Mw, Mh, Mf.
  assert (VA' : vaxis a d w (am_opts m)) by (rewrite Em; exact VA).
  destruct (dv_spec a d w m VA' (ao_labels (am_opts m)) None (fun l Hl => Hl) ltac:(discriminate)) as (drawn & S & Ft & P1 & P2). cbn zeta in *.
  unfold axis_inks. rewrite Em. rewrite (va_vertical _ _ _ _ VA). unfold draw_vertical. rewrite Em in *.
  set (line := flat_map (fun y => map (fun x => Px (maybe_flip m x) y) (zrange axis_width)) (zrange (ao_length o))).
  set (rest := dv_labels m 0 (ao_labels o)) in *.
  change text_offset with 13 in *. change tick_size with 10 in *.
  assert (Lin : forall i, In i line <-> exists y, 0 <= y < ao_length o /\ i = Px (maybe_flip m 0) y).
  { intros i. unfold line. rewrite in_flat_map. split.
    - intros (y & Hy & Hi'). apply in_zrange in Hy. change (zrange axis_width) with [0] in Hi'. destruct Hi' as [<-|[]]. eauto.
    - intros (y & Hy & ->). exists y. rewrite in_zrange. split; [exact Hy|]. now left. }
  assert (Tin : forall l i, In i (vtick_inks m l) <-> exists k, 1 <= k <= 10 /\ i = Px (maybe_flip m k) (tick_of (ao_length o) l)).
  { intros l i. unfold vtick_inks. rewrite Em, in_map_iff. split.
    - intros (k & <- & Hk). apply in_zrange in Hk. change tick_size with 10 in Hk. exists (1 + k). split; [lia|reflexivity].
    - intros (k & Hk & ->). exists (k - 1). rewrite in_zrange. change tick_size with 10. change axis_width with 1. split; [do 2 f_equal; lia|lia]. }
  assert (Fl : forall k, 0 <= k <= 12 -> 0 <= maybe_flip m k < am_width m) by (intros k Hk; unfold maybe_flip; destruct (ao_flip (am_opts m)); lia).
  assert (Pin : forall px py, In (Px px py) (line ++ rest) <-> (px = maybe_flip m 0 /\ 0 <= py < ao_length o) \/ (exists k l, 1 <= k <= 10 /\ In l (ao_labels o) /\ px = maybe_flip m k /\ py = tick_of (ao_length o) l)).
  { intros px py. rewrite in_app_iff, Lin. split.
    - intros [(y & Hy & Q)|Hr]; [left; injection Q as -> ->; auto|right]. destruct (P1 _ Hr eq_refl) as (l & Hl & Hk). apply Tin in Hk as (k & Hk & Q). injection Q as -> ->. exists k, l. auto.
    - intros [[-> Hy]|(k & l & Hk & Hl & -> & ->)]; [left; eauto|right]. apply (P2 l); [exact Hl|]. apply Tin. eauto. }
  assert (Fline : filter is_txt line = []) by (apply filter_all; intros i Hi'; apply Lin in Hi' as (y & _ & ->); reflexivity).
  assert (Txin : forall dx dy t, In (Txt dx dy t) (line ++ rest) -> exists l, In l drawn /\ dx = 64 * vdx w m l /\ dy = 64 * (tick_of (ao_length o) l + a) /\ t = l_text l).
  { intros dx dy t Ht. assert (Q : In (Txt dx dy t) (filter is_txt (line ++ rest))) by (apply filter_In; auto). rewrite filter_app, Fline, Ft in Q. cbn [app] in Q.
    apply in_map_iff in Q as (l & Q & Hl). injection Q as <- <- <-. eauto. }
  assert (Dr : forall l, In l drawn -> In l (ao_labels o) /\ considered a o l = true) by (intros l Hl; apply (spaced_in _ _ _ _ S) in Hl; now apply filter_In in Hl).
  assert (OK : Forall (ink_ok v) (line ++ rest)).
  { apply Forall_forall. intros [px py|dx dy t] Hin; cbn [ink_ok].
    - rewrite Hw, Hh. apply Pin in Hin as [[-> Hy]|(k & l & Hk & Hl & -> & ->)]; (split; [apply Fl; lia|]); [lia|]. pose proof (va_ticks _ _ _ _ VA l Hl). lia.
    - apply Txin in Hin as (l & _ & -> & -> & _). eauto. }
  destruct (run_inks_ok shade a d w txt W H v D V (line ++ rest) pix Hi OK) as (pix' & E & I & R).
  exists pix', drawn. split; [exact E|]. split; [exact I|]. split; [exact S|].
  intros x y Hx Hy. rewrite R by assumption. clear R E.
  assert (Vdx : forall l, In l drawn -> 0 <= vdx w m l /\ (ao_flip (am_opts m) = false -> vdx w m l = 13) /\ (ao_flip (am_opts m) = true -> vdx w m l + w * len (l_text l) = am_width m - 13)).
  { intros l Hl. destruct (Dr l Hl) as [Hl1 Hl2]. destruct (Mf l Hl1 Hl2). unfold vdx. change text_offset with 13. destruct (ao_flip (am_opts m)); repeat split; intros; try discriminate; lia. }
  assert (TT : forall dx dy t q, In (Txt dx dy t) (line ++ rest) -> (in_box (i_x v) (i_y v) (am_width m) (am_height m) x y = false \/ across m (x - i_x v) < 13) -> ink1 shade a d w v x y q (Txt dx dy t) = q).
  { intros dx dy t q Hin C. apply Txin in Hin as (l & Hl & -> & -> & ->). cbn [ink1].
    replace (64 * vdx w m l / 64) with (vdx w m l) by (rewrite Z.mul_comm, Z.div_mul by lia; reflexivity).
    replace (64 * (tick_of (ao_length o) l + a) / 64) with (tick_of (ao_length o) l + a) by (rewrite Z.mul_comm, Z.div_mul by lia; reflexivity).
    rewrite Hw, Hh. destruct (Vdx l Hl) as (B0 & B1 & B2). destruct (Dr l Hl) as [Hl1 _]. pose proof (va_ticks _ _ _ _ VA l Hl1) as Tk.
    match goal with |- (if ?b then _ else _) = _ => destruct b eqn:B; [exfalso|reflexivity] end.
    unfold in_box in B, C. rewrite !andb_true_iff, !Z.leb_le, !Z.ltb_lt in B. destruct C as [C|C].
    - rewrite !andb_false_iff, !Z.leb_gt, !Z.ltb_ge in C. lia.
    - unfold across in C. destruct (ao_flip (am_opts m)); [specialize (B2 eq_refl)|specialize (B1 eq_refl)]; lia. }
  destruct (in_box (i_x v) (i_y v) (am_width m) (am_height m) x y) eqn:IB.
  - pose proof IB as IB'. unfold in_box in IB'. rewrite !andb_true_iff, !Z.leb_le, !Z.ltb_lt in IB'. cbn zeta.
    destruct (Z.ltb_spec (across m (x - i_x v)) 13) as [C|C].
    + rewrite fold_px by (intros dx dy t Hin; split; apply TT; auto).
      match goal with |- (if ?b then _ else _) = (if ?c then _ else _) => assert (Q : b = c); [|now rewrite Q] end.
      apply eq_true_iff_eq. rewrite existsb_exists, orb_true_iff, !andb_true_iff, existsb_exists. split.
      * intros ([px py|] & Hin & Q); [|discriminate]. apply andb_true_iff in Q as [Q1 Q2]. apply Z.eqb_eq in Q1, Q2.
        apply Pin in Hin as [[-> Hpy]|(k & l & Hk & Hl & -> & ->)].
        -- left. unfold across, maybe_flip in *. destruct (ao_flip (am_opts m)); lia.
        -- right. split; [unfold across, maybe_flip in *; destruct (ao_flip (am_opts m)); lia|]. exists l. split; [exact Hl|lia].
      * intros [[A B]|[[A B] (l & Hl & Q)]].
        -- exists (Px (maybe_flip m 0) (y - i_y v)). split; [apply Pin; left; split; [reflexivity|lia]|]. unfold across, maybe_flip in *. destruct (ao_flip (am_opts m)); lia.
        -- exists (Px (maybe_flip m (across m (x - i_x v))) (tick_of (ao_length o) l)). split; [apply Pin; right; exists (across m (x - i_x v)), l; repeat split; auto; lia|].
           unfold across, maybe_flip in *. destruct (ao_flip (am_opts m)); lia.
    + rewrite fold_txt.
      * rewrite filter_app, Fline, Ft. cbn [app].
        pose proof (fold_lettered shade a d w v x y (map (vcell w m) drawn) ltac:(lia) ltac:(lia) (pixel W pix x y)) as K. rewrite !map_map in K. unfold vcell in K at 1. rewrite Em in K. exact K.
      * intros px py Hin. apply andb_false_iff. apply Pin in Hin as [[-> Hpy]|(k & l & Hk & Hl & -> & ->)]; left; unfold across, maybe_flip in *; destruct (ao_flip (am_opts m)); lia.
  - rewrite fold_none; [reflexivity|]. intros [px py|dx dy t] Hin q; [|apply TT; auto]. cbn [ink1].
    rewrite Forall_forall in OK. pose proof (OK _ Hin) as Q. cbn [ink_ok] in Q.
    destruct ((x =? i_x v + px) && (y =? i_y v + py)) eqn:E; [exfalso|reflexivity].
    unfold in_box in IB. rewrite !andb_false_iff, !Z.leb_gt, !Z.ltb_ge in IB. lia.
Qed.

(** * horizontal axes *)
Record haxis (a d w : Z) (o : aopts) : Prop := {
  ha_vertical : ao_vertical o = false;
  ha_face : ao_face o = mono_face a d w;
  ha_a : 1 <= a; ha_d : 0 <= d; ha_w : 1 <= w;
  ha_length : 1 <= ao_length o;
  ha_ticks : forall l, In l (ao_labels o) -> 0 <= tick_of (ao_length o) l < ao_length o;
  ha_text : forall l, In l (ao_labels o) -> l_text l <> [];
  ha_fit : ao_dont_bleed o = true -> forall l, In l (ao_labels o) -> w * len (l_text l) <= ao_length o
}.
(** where a label's text begins and ends *)
Definition hx (w : Z) (o : aopts) (l : label) : Z :=
  let x := tick_of (ao_length o) l in
  if ao_dont_bleed o && (ao_length o <? x + w * len (l_text l)) then ao_length o - w * len (l_text l) else x.
Definition hend (w : Z) (o : aopts) (l : label) : Z := hx w o l + w * len (l_text l).
Definition hclose (w : Z) (o : aopts) (p l : label) : Prop := horiz_label_spacing <= hx w o l <= hend w o p + horiz_label_spacing.
Lemma text_pos w (t : list Z) : 1 <= w -> t <> [] -> 1 <= w * len t.
Proof. intros Hw Ht. destruct t; [congruence|]. unfold len. cbn [length]. nia. Qed.
Lemma hspan a d w o l : haxis a d w o -> In l (ao_labels o) ->
  text_span o l = (hx w o l, hend w o l) /\ 0 <= hx w o l /\ 1 <= hend w o l /\ (ao_dont_bleed o = true -> hend w o l <= ao_length o).
Proof.
  intros V Hl. unfold text_span, hend, hx. rewrite (ha_face _ _ _ _ V), mono_width. pose proof (ha_ticks _ _ _ _ V l Hl) as T.
  pose proof (text_pos w _ (ha_w _ _ _ _ V) (ha_text _ _ _ _ V l Hl)). pose proof (ha_fit _ _ _ _ V) as F.
  destruct (ao_dont_bleed o) eqn:B; cbn [andb].
  - specialize (F eq_refl l Hl). destruct (Z.ltb_spec (ao_length o) (tick_of (ao_length o) l + w * len (l_text l))); (split; [f_equal; lia|]); repeat split; intros; lia.
  - split; [reflexivity|]. repeat split; intros; try discriminate; lia.
Qed.
Lemma fits_spec a d w o last l : haxis a d w o -> (forall p, last = Some p -> In p (ao_labels o)) -> In l (ao_labels o) ->
  fits (match last with None => 0 | Some p => hend w o p end) (hx w o l) = true <-> (forall p, last = Some p -> ~ hclose w o p l).
Proof.
  intros V Hp Hl. unfold fits, hclose. destruct last as [p|].
  - destruct (hspan a d w o p V (Hp p eq_refl)) as (_ & _ & E & _). rewrite !orb_true_iff, Z.eqb_eq, !Z.ltb_lt. split.
    + intros C q Q. injection Q as <-. lia.
    + intros C. specialize (C p eq_refl). lia.
  - split; [intros _ p; discriminate|reflexivity].
Qed.
Lemma spaced_unique {A} (close : A -> A -> Prop) last ls ds : spaced close last ls ds -> forall ds', spaced close last ls ds' -> ds = ds'.
Proof.
  induction 1 as [last|last l ls ds N S IH|p l ls ds C S IH]; intros ds' S'.
  - now inversion S'.
  - inversion S' as [|? ? ? ds2 N2 S2|p ? ? ds2 C2 S2]; subst.
    + f_equal. now apply IH.
    + exfalso. exact (N p eq_refl C2).
  - inversion S' as [|? ? ? ds2 N2 S2|? ? ? ds2 C2 S2]; subst; [|now apply IH]. exfalso. exact (N2 p eq_refl C).
Qed.
Lemma hmeasure a d w o : haxis a d w o ->
  let m := axis_measure o in
  exists drawn, spaced (hclose w o) None (ao_labels o) drawn /\ am_opts m = o /\
  ao_length o <= am_width m /\ (forall l, In l drawn -> hend w o l <= am_width m) /\
  (am_width m = ao_length o \/ exists l, In l drawn /\ am_width m = hend w o l) /\
  am_height m = text_offset + (if drawn then 0 else a + d + vert_label_spacing).
Proof.
  intros V. cbn zeta. unfold axis_measure. rewrite (ha_vertical _ _ _ _ V). unfold measure_horizontal.
  assert (K : forall ls last mw mh, (forall l, In l ls -> In l (ao_labels o)) -> (forall p, last = Some p -> In p (ao_labels o)) -> (mh = 0 \/ mh = a + d + vert_label_spacing) ->
    let '(mw', mh', _) := fold_left (mh_step o) ls (mw, mh, match last with None => 0 | Some p => hend w o p end) in
    exists drawn, spaced (hclose w o) last ls drawn /\ mw <= mw' /\ (forall l, In l drawn -> hend w o l <= mw') /\ (mw' = mw \/ exists l, In l drawn /\ mw' = hend w o l) /\
    mh' = if drawn then mh else a + d + vert_label_spacing).
  { induction ls as [|l ls IH]; intros last mw mh Hs Hp Hm; cbn [fold_left].
    - exists []. split; [apply sd_nil|]. split; [lia|]. split; [intros ? []|]. auto.
    - assert (Hl : In l (ao_labels o)) by (apply Hs; now left). assert (Hs' : forall x, In x ls -> In x (ao_labels o)) by (intros x Hx; apply Hs; now right).
      unfold mh_step at 2. destruct (hspan a d w o l V Hl) as (Es & X0 & X1 & _). rewrite Es.
      pose proof (fits_spec a d w o last l V Hp Hl) as Fs. destruct (fits _ (hx w o l)) eqn:Ef; cbn [negb].
      + rewrite (ha_face _ _ _ _ V), mono_height by (now apply (ha_text _ _ _ _ V)).
        pose proof (ha_a _ _ _ _ V). pose proof (ha_d _ _ _ _ V).
        replace (if mh <? a + d + vert_label_spacing then a + d + vert_label_spacing else mh) with (a + d + vert_label_spacing) by (unfold vert_label_spacing in *; destruct (Z.ltb_spec mh (a + d + 2)); lia).
        replace (if mw <? hend w o l then hend w o l else mw) with (Z.max mw (hend w o l)) by (destruct (Z.ltb_spec mw (hend w o l)); lia).
        specialize (IH (Some l) (Z.max mw (hend w o l)) (a + d + vert_label_spacing) Hs' ltac:(intros p Q; injection Q as <-; exact Hl) ltac:(now right)).
        cbn match in IH. destruct (fold_left (mh_step o) ls _) as [[mw' mh'] occ']. destruct IH as (drawn & S & A & B & C & D).
        exists (l :: drawn). split; [apply sd_take; [now apply Fs|exact S]|]. split; [lia|]. split; [intros x [<-|Hx]; [lia|now apply B]|]. split.
        * destruct C as [C|(x & Hx & C)]; [|right; exists x; split; [now right|exact C]].
          destruct (Z.max_spec mw (hend w o l)) as [[_ Q]|[_ Q]]; rewrite Q in C; [right; exists l; split; [now left|exact C]|now left].
        * destruct drawn; exact D.
      + specialize (IH last mw mh Hs' Hp Hm). destruct (fold_left (mh_step o) ls _) as [[mw' mh'] occ']. destruct IH as (drawn & S & A & B & C & D).
        exists drawn. split; [|split; [exact A|split; [exact B|split; [exact C|exact D]]]].
        destruct last as [p|]; [|discriminate Ef]. apply sd_skip; [|exact S].
        assert (N : ~ (forall q, Some p = Some q -> ~ hclose w o q l)) by (intros Q; apply Fs in Q; congruence).
        unfold hclose in *. unfold fits in Ef. rewrite !orb_false_iff, !Z.ltb_ge in Ef. lia. }
  specialize (K (ao_labels o) None (ao_length o) 0 (fun l Hl => Hl) ltac:(discriminate) ltac:(now left)). cbn match in K.
  destruct (fold_left (mh_step o) (ao_labels o) (ao_length o, 0, 0)) as [[mw mh] occ]. cbn [am_opts am_width am_height]. destruct K as (drawn & S & A & B & C & D).
  exists drawn. split; [exact S|]. split; [reflexivity|]. split; [exact A|]. split; [exact B|]. split; [exact C|]. now rewrite D.
Qed.
Definition htick_inks (o : aopts) (n : Z) (l : label) : list ink := map (fun y => Px (tick_of (ao_length o) l) (axis_width + y)) (zrange n).
Lemma dh_spec a d w m : haxis a d w (am_opts m) -> let o := am_opts m in forall ls last, (forall l, In l ls -> In l (ao_labels o)) -> (forall p, last = Some p -> In p (ao_labels o)) ->
  let occ := match last with None => 0 | Some p => hend w o p end in
  exists drawn, spaced (hclose w o) last ls drawn /\
  filter is_txt (dh_labels m occ ls) = map (fun l => Txt (64 * hx w o l) (64 * (text_offset + a)) (l_text l)) drawn /\
  (forall px py, In (Px px py) (dh_labels m occ ls) <->
     (exists l, In l ls /\ px = tick_of (ao_length o) l /\ 1 <= py <= 10) \/ (exists l, In l drawn /\ px = tick_of (ao_length o) l /\ 11 <= py <= 13)).
Proof.
  intros V o. induction ls as [|l ls IH]; intros last Hs Hp; cbn zeta.
  - exists []. split; [apply sd_nil|]. split; [reflexivity|]. intros px py. split; [intros []|intros [(? & [] & _)|(? & [] & _)]].
  - cbn [dh_labels]. fold o. assert (Hl : In l (ao_labels o)) by (apply Hs; now left). assert (Hs' : forall x, In x ls -> In x (ao_labels o)) by (intros x Hx; apply Hs; now right).
    destruct (hspan a d w o l V Hl) as (Es & X0 & X1 & _). rewrite Es.
    assert (NT : forall (g : Z -> ink) n, (forall y, is_txt (g y) = false) -> filter is_txt (map g (zrange n)) = []).
    { intros g n Hg. apply filter_all. intros i Hi. apply in_map_iff in Hi as (y & <- & _). apply Hg. }
    assert (T1 : forall px py, In (Px px py) (map (fun y => Px (tick_of (ao_length o) l) (axis_width + y)) (zrange tick_size)) <-> px = tick_of (ao_length o) l /\ 1 <= py <= 10).
    { intros px py. rewrite in_map_iff. split.
      - intros (y & Q & Hy). apply in_zrange in Hy. change tick_size with 10 in Hy. assert (Q1 := f_equal (fun i => match i with Px a _ => a | _ => 0 end) Q). assert (Q2 := f_equal (fun i => match i with Px _ b => b | _ => 0 end) Q). cbv beta match in Q1, Q2. change axis_width with 1 in Q2. lia.
      - intros [-> Hy]. exists (py - 1). rewrite in_zrange. change tick_size with 10. change axis_width with 1. split; [f_equal; lia|lia]. }
    assert (T2 : forall px py, In (Px px py) (map (fun y => Px (tick_of (ao_length o) l) (axis_width + tick_size + y)) (zrange 3)) <-> px = tick_of (ao_length o) l /\ 11 <= py <= 13).
    { intros px py. rewrite in_map_iff. split.
      - intros (y & Q & Hy). apply in_zrange in Hy. assert (Q1 := f_equal (fun i => match i with Px a _ => a | _ => 0 end) Q). assert (Q2 := f_equal (fun i => match i with Px _ b => b | _ => 0 end) Q). cbv beta match in Q1, Q2. change (axis_width + tick_size) with 11 in Q2. lia.
      - intros [-> Hy]. exists (py - 11). rewrite in_zrange. change (axis_width + tick_size) with 11. split; [f_equal; lia|lia]. }
    pose proof (fits_spec a d w o last l V Hp Hl) as Fs. destruct (fits _ (hx w o l)) eqn:Ef; cbn [negb].
    + destruct (IH (Some l) Hs' ltac:(intros p Q; injection Q as <-; exact Hl)) as (drawn & S & F & P). cbn match in *.
      pose proof (ha_face _ _ _ _ V) as Hf. fold o in Hf. rewrite Hf. rewrite mono_miny by (now apply (ha_text _ _ _ _ V)). rewrite mono_advance.
      unfold fix6. replace (64 * hx w o l + 64 * (w * len (l_text l))) with (64 * hend w o l) by (unfold hend; ring). rewrite ceil6_fix.
      replace (text_offset - - a) with (text_offset + a) by ring.
      exists (l :: drawn). split; [apply sd_take; [now apply Fs|exact S]|]. split.
      * rewrite !filter_app. rewrite !NT by reflexivity. cbn [app filter is_txt map]. now rewrite F.
      * intros px py. rewrite !in_app_iff, T1, T2. cbn [In]. rewrite P. split.
        -- intros [Q|[Q|[Q|[(x & Hx & Q)|(x & Hx & Q)]]]]; [left; exists l; tauto|right; exists l; tauto|discriminate Q|left; exists x; tauto|right; exists x; tauto].
        -- intros [(x & [<-|Hx] & Q)|(x & [<-|Hx] & Q)]; [now left|right; right; right; left; eauto|right; now left|right; right; right; right; eauto].
    + destruct (IH last Hs' Hp) as (drawn & S & F & P). exists drawn. split.
      { destruct last as [p|]; [|discriminate Ef]. apply sd_skip; [|exact S]. unfold hclose. unfold fits in Ef. rewrite !orb_false_iff, !Z.ltb_ge in Ef. lia. }
      split; [rewrite filter_app, NT by reflexivity; exact F|]. intros px py. rewrite in_app_iff, T1, P. split.
      * intros [Q|[(x & Hx & Q)|(x & Hx & Q)]]; [left; exists l; split; [now left|exact Q]|left; exists x; split; [now right|exact Q]|right; eauto].
      * intros [(x & [<-|Hx] & Q)|(x & Hx & Q)]; [now left|right; left; eauto|right; right; eauto].
Qed.
Definition hstep (shade : list Z -> Z -> Z -> list Z -> list Z) (a d w : Z) (o : aopts) (x y : Z) (p : list Z) (l : label) : list Z :=
  let p := if (x =? tick_of (ao_length o) l) && (y =? text_offset) then opaque black else p in
  if in_box (hx w o l) text_offset (w * len (l_text l)) (a + d) x y then shade (l_text l) (x - hx w o l) (y - text_offset) p else p.
Lemma fold_ticks shade a d w v x y tx (g : Z -> Z) n : forall p, (forall k, In k (zrange n) -> y <> i_y v + g k) ->
  fold_left (ink1 shade a d w v x y) (map (fun k => Px tx (g k)) (zrange n)) p = p.
Proof.
  intros p T. apply fold_none. intros i Hi q. apply in_map_iff in Hi as (k & <- & Hk). specialize (T k Hk). cbn [ink1]. destruct ((x =? i_x v + tx) && (y =? i_y v + g k)) eqn:E; [lia|reflexivity].
Qed.
Lemma dh_fold shade a d w m v x y : haxis a d w (am_opts m) -> x < i_x v + i_width v -> y < i_y v + i_height v -> text_offset <= y - i_y v ->
  let o := am_opts m in forall ls last, (forall l, In l ls -> In l (ao_labels o)) -> (forall p, last = Some p -> In p (ao_labels o)) ->
  let occ := match last with None => 0 | Some p => hend w o p end in
  exists drawn, spaced (hclose w o) last ls drawn /\
  forall p, fold_left (ink1 shade a d w v x y) (dh_labels m occ ls) p = fold_left (hstep shade a d w o (x - i_x v) (y - i_y v)) drawn p.
Proof.
  intros V Bx By Hy o. change text_offset with 13 in Hy. induction ls as [|l ls IH]; intros last Hs Hp; cbn zeta.
  - exists []. split; [apply sd_nil|reflexivity].
  - cbn [dh_labels]. fold o. assert (Hl : In l (ao_labels o)) by (apply Hs; now left). assert (Hs' : forall x, In x ls -> In x (ao_labels o)) by (intros z Hz; apply Hs; now right).
    destruct (hspan a d w o l V Hl) as (Es & X0 & X1 & _). rewrite Es.
    assert (T1 : forall p, fold_left (ink1 shade a d w v x y) (map (fun k => Px (tick_of (ao_length o) l) (axis_width + k)) (zrange tick_size)) p = p).
    { intros p. apply fold_ticks. intros k Hk. apply in_zrange in Hk. change tick_size with 10 in Hk. change axis_width with 1. lia. }
    pose proof (fits_spec a d w o last l V Hp Hl) as Fs. destruct (fits _ (hx w o l)) eqn:Ef; cbn [negb].
    + destruct (IH (Some l) Hs' ltac:(intros p Q; injection Q as <-; exact Hl)) as (drawn & S & F). cbn match in *.
      pose proof (ha_face _ _ _ _ V) as Hf. fold o in Hf. rewrite Hf. rewrite mono_miny by (now apply (ha_text _ _ _ _ V)). rewrite mono_advance.
      unfold fix6. replace (64 * hx w o l + 64 * (w * len (l_text l))) with (64 * hend w o l) by (unfold hend; ring). rewrite ceil6_fix.
      replace (text_offset - - a) with (text_offset + a) by ring.
      exists (l :: drawn). split; [apply sd_take; [now apply Fs|exact S]|]. intros p. rewrite !fold_left_app, T1.
      change (zrange 3) with [0; 1; 2]. cbn [map fold_left]. rewrite F. f_equal. cbn [ink1]. change (axis_width + tick_size) with 11.
      assert (N0 : y =? i_y v + (11 + 0) = false) by lia. assert (N1 : y =? i_y v + (11 + 1) = false) by lia. rewrite N0, N1, !andb_false_r.
      replace (64 * hx w o l / 64) with (hx w o l) by (rewrite Z.mul_comm, Z.div_mul by lia; reflexivity).
      replace (64 * (text_offset + a) / 64) with (text_offset + a) by (rewrite Z.mul_comm, Z.div_mul by lia; reflexivity).
      replace (x <? i_x v + i_width v) with true by lia. replace (y <? i_y v + i_height v) with true by lia. rewrite !andb_true_r.
      unfold hstep. change text_offset with 13.
      replace ((x =? i_x v + tick_of (ao_length o) l) && (y =? i_y v + (11 + 2))) with ((x - i_x v =? tick_of (ao_length o) l) && (y - i_y v =? 13)) by (apply eq_true_iff_eq; lia).
      replace (in_box (i_x v + hx w o l) (i_y v + (13 + a) - a) (w * len (l_text l)) (a + d) x y) with (in_box (hx w o l) 13 (w * len (l_text l)) (a + d) (x - i_x v) (y - i_y v)) by (unfold in_box; apply eq_true_iff_eq; lia).
      replace (x - (i_x v + hx w o l)) with (x - i_x v - hx w o l) by ring. replace (y - (i_y v + (13 + a) - a)) with (y - i_y v - 13) by ring. reflexivity.
    + destruct (IH last Hs' Hp) as (drawn & S & F). exists drawn. split.
      { destruct last as [p|]; [|discriminate Ef]. apply sd_skip; [|exact S]. unfold hclose. unfold fits in Ef. rewrite !orb_false_iff, !Z.ltb_ge in Ef. lia. }
      intros p. rewrite fold_left_app, T1. apply F.
Qed.
Lemma haxis_run shade a d w txt W H v o pix : haxis a d w o -> draws_cells shade a d w txt -> is_image W H pix -> shows_part W H v ->
  let m := axis_measure o in
  i_width v = am_width m -> i_height v = am_height m ->
  exists pix' drawn, run_inks txt v (axis_inks m) pix = Ok pix' /\ is_image W H pix' /\
  spaced (hclose w o) None (ao_labels o) drawn /\
  forall x y, 0 <= x < W -> 0 <= y < H ->
  let lx := x - i_x v in let ly := y - i_y v in
  if in_box (i_x v) (i_y v) (am_width m) (am_height m) x y then
    if ly <? text_offset then
      pixel W pix' x y =
        (if ((ly =? 0) && (lx <? ao_length o)) || ((1 <=? ly) && (ly <=? tick_size) && existsb (fun l => lx =? tick_of (ao_length o) l) (ao_labels o))
            || ((tick_size <? ly) && existsb (fun l => lx =? tick_of (ao_length o) l) drawn)
         then opaque black else pixel W pix x y)
    else pixel W pix' x y = fold_left (hstep shade a d w o lx ly) drawn (pixel W pix x y)
  else pixel W pix' x y = pixel W pix x y.
Proof.
  intros VA D Hi V m Hw Hh. destruct (hmeasure a d w o VA) as (drawn & S & Em & Mw & Mf & _ & Mh). fold m in Em, Mw, Mh, Mf.
  assert (VA' : haxis a d w (am_opts m)) by (rewrite Em; exact VA).
  pose proof (dh_spec a d w m VA' (ao_labels o) None) as DS. cbn zeta in DS. rewrite Em in DS. destruct (DS (fun l Hl => Hl) ltac:(discriminate)) as (drawn' & S' & Ft & P). clear DS.
  assert (drawn' = drawn) by (eapply spaced_unique; eassumption). subst drawn'. clear S'.
  unfold axis_inks. rewrite Em. rewrite (ha_vertical _ _ _ _ VA). unfold draw_horizontal. rewrite Em in *.
  set (line := flat_map (fun x => map (fun y => Px x y) (zrange axis_width)) (zrange (ao_length o))).
  set (rest := dh_labels m 0 (ao_labels o)) in *.
  change text_offset with 13 in *. change tick_size with 10 in *. change vert_label_spacing with 2 in *.
  assert (Lin : forall i, In i line <-> exists x, 0 <= x < ao_length o /\ i = Px x 0).
  { intros i. unfold line. rewrite in_flat_map. split.
    - intros (y & Hy & Hi'). apply in_zrange in Hy. change (zrange axis_width) with [0] in Hi'. destruct Hi' as [<-|[]]. eauto.
    - intros (y & Hy & ->). exists y. rewrite in_zrange. split; [exact Hy|]. now left. }
  assert (Pin : forall px py, In (Px px py) (line ++ rest) <-> (py = 0 /\ 0 <= px < ao_length o) \/ (exists l, In l (ao_labels o) /\ px = tick_of (ao_length o) l /\ 1 <= py <= 10) \/ (exists l, In l drawn /\ px = tick_of (ao_length o) l /\ 11 <= py <= 13)).
  { intros px py. rewrite in_app_iff, Lin, P. split.
    - intros [(y & Hy & Q)|Hr]; [left; injection Q as -> ->; auto|right; exact Hr].
    - intros [[-> Hy]|Hr]; [left; eauto|right; exact Hr]. }
  assert (Fline : filter is_txt line = []) by (apply filter_all; intros i Hi'; apply Lin in Hi' as (y & _ & ->); reflexivity).
  assert (Txin : forall dx dy t, In (Txt dx dy t) (line ++ rest) -> exists l, In l drawn /\ dx = 64 * hx w o l /\ dy = 64 * (13 + a) /\ t = l_text l).
  { intros dx dy t Ht. assert (Q : In (Txt dx dy t) (filter is_txt (line ++ rest))) by (apply filter_In; auto). rewrite filter_app, Fline, Ft in Q. cbn [app] in Q.
    apply in_map_iff in Q as (l & Q & Hl). injection Q as <- <- <-. eauto. }
  assert (Dr : forall l, In l drawn -> In l (ao_labels o)) by (intros l Hl; exact (spaced_in _ _ _ _ S _ Hl)).
  pose proof (ha_a _ _ _ _ VA) as Ha. pose proof (ha_d _ _ _ _ VA) as Hd. pose proof (ha_length _ _ _ _ VA) as Hlen.
  assert (OK : Forall (ink_ok v) (line ++ rest)).
  { apply Forall_forall. intros [px py|dx dy t] Hin; cbn [ink_ok].
    - rewrite Hw, Hh. apply Pin in Hin as [[-> Hx]|[(l & Hl & -> & Hk)|(l & Hl & -> & Hk)]].
      + split; [lia|]. rewrite Mh. destruct drawn; lia.
      + pose proof (ha_ticks _ _ _ _ VA l Hl). split; [lia|]. rewrite Mh. destruct drawn; lia.
      + pose proof (ha_ticks _ _ _ _ VA l (Dr l Hl)). split; [lia|]. rewrite Mh. destruct drawn; [destruct Hl|]. lia.
    - apply Txin in Hin as (l & _ & -> & -> & _). eauto. }
  destruct (run_inks_ok shade a d w txt W H v D V (line ++ rest) pix Hi OK) as (pix' & E & I & R).
  exists pix', drawn. split; [exact E|]. split; [exact I|]. split; [exact S|].
  intros x y Hx Hy. cbv zeta. set (lx := x - i_x v) in *. set (ly := y - i_y v) in *. rewrite (R x y Hx Hy). clear R E.
  assert (TT : forall dx dy t q, In (Txt dx dy t) (line ++ rest) -> (in_box (i_x v) (i_y v) (am_width m) (am_height m) x y = false \/ ly < 13) -> ink1 shade a d w v x y q (Txt dx dy t) = q).
  { intros dx dy t q Hin C. apply Txin in Hin as (l & Hl & -> & -> & ->). cbn [ink1].
    replace (64 * hx w o l / 64) with (hx w o l) by (rewrite Z.mul_comm, Z.div_mul by lia; reflexivity).
    replace (64 * (13 + a) / 64) with (13 + a) by (rewrite Z.mul_comm, Z.div_mul by lia; reflexivity).
    rewrite Hw, Hh. destruct (hspan a d w o l VA (Dr l Hl)) as (_ & X0 & _).
    match goal with |- (if ?b then _ else _) = _ => destruct b eqn:B; [exfalso|reflexivity] end.
    unfold in_box in B, C. rewrite !andb_true_iff, !Z.leb_le, !Z.ltb_lt in B. destruct C as [C|C].
    - rewrite !andb_false_iff, !Z.leb_gt, !Z.ltb_ge in C. lia.
    - unfold ly in C. lia. }
  destruct (in_box (i_x v) (i_y v) (am_width m) (am_height m) x y) eqn:IB.
  - pose proof IB as IB'. unfold in_box in IB'. rewrite !andb_true_iff, !Z.leb_le, !Z.ltb_lt in IB'.
    destruct (Z.ltb_spec ly 13) as [C|C].
    + rewrite fold_px by (intros dx dy t Hin; split; apply TT; auto).
      match goal with |- (if ?b then _ else _) = (if ?c then _ else _) => assert (Q : b = c); [|now rewrite Q] end.
      apply eq_true_iff_eq. rewrite existsb_exists, !orb_true_iff, !andb_true_iff, !existsb_exists. split.
      * intros ([px py|] & Hin & Q); [|discriminate]. apply andb_true_iff in Q as [Q1 Q2]. apply Z.eqb_eq in Q1, Q2.
        apply Pin in Hin as [[-> Hx']|[(l & Hl & -> & Hk)|(l & Hl & -> & Hk)]].
        -- left. left. unfold ly, lx. lia.
        -- left. right. split; [unfold ly; lia|]. exists l. split; [exact Hl|unfold lx; lia].
        -- right. split; [unfold ly; lia|]. exists l. split; [exact Hl|unfold lx; lia].
      * unfold lx, ly in *. intros [[[A B]|[[A B] (l & Hl & Q)]]|[A (l & Hl & Q)]].
        -- exists (Px (x - i_x v) 0). split; [apply Pin; left; lia|lia].
        -- exists (Px (x - i_x v) (y - i_y v)). split; [apply Pin; right; left; exists l; split; [exact Hl|lia]|lia].
        -- exists (Px (x - i_x v) (y - i_y v)). split; [apply Pin; right; right; exists l; split; [exact Hl|lia]|lia].
    + rewrite fold_left_app. rewrite (fold_none shade a d w v x y line).
      * destruct (dh_fold shade a d w m v x y ltac:(rewrite Em; exact VA) ltac:(lia) ltac:(lia) ltac:(exact C) (ao_labels (am_opts m)) None (fun l Hl => Hl) ltac:(discriminate)) as (dr & Sd & F).
        cbn match in F. rewrite Em in Sd, F. assert (dr = drawn) by (eapply spaced_unique; eassumption). subst dr. apply F.
      * intros i Hi' q. apply Lin in Hi' as (px & Hpx & ->). cbn [ink1]. unfold ly in C. destruct ((x =? i_x v + px) && (y =? i_y v + 0)) eqn:E; [lia|reflexivity].
  - rewrite fold_none; [reflexivity|]. intros [px py|dx dy t] Hin q; [|apply TT; auto]. cbn [ink1].
    rewrite Forall_forall in OK. pose proof (OK _ Hin) as Q. cbn [ink_ok] in Q.
    destruct ((x =? i_x v + px) && (y =? i_y v + py)) eqn:E; [exfalso|reflexivity].
    unfold in_box in IB. rewrite !andb_false_iff, !Z.leb_gt, !Z.ltb_ge in IB. lia.
Qed.
