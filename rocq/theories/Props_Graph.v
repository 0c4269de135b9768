(** Properties C66 (chart layout) and C67 (time axis). *)
From Coq Require Import ZArith Reals List Bool Lia Lra Sorted.
From Coq Require Import Floats.SpecFloat.
From Flocq Require Import Core.Core IEEE754.BinarySingleNaN.
From Verif Require Import Base Merge Draw DrawSpec DrawProofs DrawFloat Axis AxisSpec AxisFloat AxisProofs Props_Draw Props_Axis Graph GraphSpec GraphFloat GraphProofs.
Import ListNotations.
Open Scope Z_scope.

(** * C67 *)
Definition steps (natural x stop : Z) : nat := Z.to_nat (if stop <? x then (x - stop - 1) / natural + 1 else 0).
Lemma time_labels_map o natural stop : 0 < natural -> forall n x, (steps natural x stop <= n)%nat ->
  time_labels n o natural x stop =
  map (fun t => Label (f_sub f_one (f_div (f_of_int (g_now o - t)) (f_of_int (g_duration o)))) (g_time o t))
      (map (fun i => x - Z.of_nat i * natural) (seq 0 (steps natural x stop))).
Proof.
  intros Hn. induction n as [|n IH]; intros x Hs; cbn [time_labels].
  - replace (steps natural x stop) with 0%nat by lia. reflexivity.
  - unfold steps in Hs |- *. destruct (Z.ltb_spec stop x) as [C|C]; [|reflexivity].
    assert (E : Z.to_nat ((x - stop - 1) / natural + 1) = S (steps natural (x - natural) stop)).
    { unfold steps. assert (0 <= (x - stop - 1) / natural) by (apply Z.div_pos; lia). destruct (Z.ltb_spec stop (x - natural)) as [C2|C2].
      - replace (x - stop - 1) with (x - natural - stop - 1 + 1 * natural) by ring. rewrite Z.div_add by lia.
        assert (0 <= (x - natural - stop - 1) / natural) by (apply Z.div_pos; lia). lia.
      - rewrite (Z.div_small (x - stop - 1)) by lia. reflexivity. }
    rewrite E in *. cbn [seq map]. rewrite Z.mul_0_l, Z.sub_0_r. f_equal. rewrite IH by lia. rewrite <- seq_shift, !map_map. apply map_ext. intros i.
    replace (x - natural - Z.of_nat i * natural) with (x - Z.of_nat (S i) * natural) by lia. reflexivity.
Qed.
Lemma unit_in u : In u natural_units <-> is_unit u.
Proof.
  unfold natural_units, is_unit, hours, hour. cbn [map In]. split.
  - intros H. repeat destruct H as [H|H]; try (left; lia); try (right; first [exists 1; lia|exists 2; lia|exists 3; lia|exists 4; lia|exists 5; lia|exists 6; lia|exists 7; lia|exists 8; lia|exists 9; lia|exists 10; lia|exists 11; lia|exists 12; lia]).
  - intros [->|(k & Hk & ->)]; [now left|]. right.
    assert (k = 1 \/ k = 2 \/ k = 3 \/ k = 4 \/ k = 5 \/ k = 6 \/ k = 7 \/ k = 8 \/ k = 9 \/ k = 10 \/ k = 11 \/ k = 12) as D by lia.
    repeat destruct D as [D|D]; subst k; cbn; tauto.
Qed.
Lemma natural_unit_spec chunk : forall us u, StronglySorted Z.lt (u :: us) ->
  let r := natural_unit chunk u us in In r (u :: us) /\ (r = u \/ r < chunk) /\ (forall u', In u' (u :: us) -> r < u' -> chunk <= u').
Proof.
  induction us as [|v us IH]; intros u S; cbn zeta; cbn [natural_unit].
  - split; [now left|]. split; [now left|]. intros u' [<-|[]] H; lia.
  - inversion S as [|? ? S' F]; subst. destruct (Z.ltb_spec v chunk) as [C|C].
    + destruct (IH v S') as (A & B & D). split; [now right|]. split; [right; destruct B as [->|B]; assumption|].
      intros u' [<-|Hu] H; [|now apply D]. exfalso. inversion F as [|? ? Fv Fr]; subst.
      assert (u < natural_unit chunk v us); [|lia]. rewrite Forall_forall in F. apply F. exact A.
    + split; [now left|]. split; [now left|]. intros u' [<-|Hu] H; [lia|]. destruct Hu as [<-|Hu]; [exact C|].
      inversion S' as [|? ? _ Fv]; subst. rewrite Forall_forall in Fv. specialize (Fv u' Hu). lia.
Qed.
Lemma sorted_rev_seq (f : nat -> Z) n : (forall i j, (i < j)%nat -> f j < f i) -> forall a, StronglySorted Z.lt (rev (map f (seq a n))).
Proof.
  intros F. induction n as [|n IH]; intros a; [constructor|].
  rewrite seq_S, map_app, rev_app_distr. cbn [map rev app]. constructor; [apply IH|]. apply Forall_forall. intros x Hx. apply in_rev in Hx. apply in_map_iff in Hx as (i & <- & Hi).
  apply in_seq in Hi. apply F. lia.
Qed.
(** The labels of the time axis are exactly the multiples of the step in the
    window, in order, each at its place. *)
Theorem C67_times :
  forall o, 0 <= g_now o -> 0 < g_duration o < 2 ^ 63 -> 100 <= g_width o ->
  exists u ts labels, step_for (g_duration o / (g_width o / 100)) u /\ StronglySorted Z.lt ts /\
  (forall t, In t ts <-> g_now o - g_duration o < t <= g_now o /\ (u | t)) /\
  bottom_labels o = Ok labels /\ Forall2 (time_label (g_time o) (g_now o) (g_duration o)) ts labels.
Proof.
  intros o Hn Hd Hw. unfold bottom_labels. rewrite !Z.quot_div_nonneg by lia.
  assert (K : 1 <= g_width o / 100) by (apply Z.div_le_lower_bound; lia).
  rewrite (Z.quot_div_nonneg (g_duration o)) by lia. destruct (Z.eqb_spec (g_width o / 100) 0) as [E|_]; [lia|].
  set (chunk := g_duration o / (g_width o / 100)).
  assert (Su : StronglySorted Z.lt natural_units) by (unfold natural_units, hour; cbn [map]; repeat (constructor; [|repeat constructor; lia]); constructor).
  change natural_units with (hour * 1 :: map (Z.mul hour) [2; 4; 6; 8; 10; 12; 14; 16; 18; 20; 22; 24]) in Su |- *. cbv iota.
  destruct (natural_unit_spec chunk _ _ Su) as (A & B & C). set (u := natural_unit chunk (hour * 1) _) in *.
  change (hour * 1 :: map (Z.mul hour) [2; 4; 6; 8; 10; 12; 14; 16; 18; 20; 22; 24]) with natural_units in A, C.
  assert (Hu : 0 < u) by (apply unit_in in A; unfold is_unit, hours in A; destruct A as [->|(k & Hk & ->)]; lia).
  rewrite Z.rem_mod_nonneg by lia. set (x := g_now o - g_now o mod u). set (stop := g_now o - g_duration o).
  pose proof (Z.mod_pos_bound (g_now o) u Hu) as M.
  assert (Dx : (u | x)) by (exists (g_now o / u); unfold x; pose proof (Z.div_mod (g_now o) u); lia).
  exists u, (rev (map (fun i => x - Z.of_nat i * u) (seq 0 (steps u x stop)))).
  eexists. split; [|split; [|split; [|split; [reflexivity|]]]].
  - split; [now apply unit_in|]. split; [destruct B as [B|B]; [left; rewrite B; unfold hour, hours; lia|now right]|]. intros u' Hu' L. apply C; [now apply unit_in|exact L].
  - apply sorted_rev_seq. intros i j L. nia.
  - intros t. rewrite <- in_rev, in_map_iff. split.
    + intros (i & <- & Hi). apply in_seq in Hi. unfold steps in Hi. destruct (Z.ltb_spec stop x) as [L|L]; [|lia].
      assert (Q : Z.of_nat i <= (x - stop - 1) / u) by lia. assert (Z.of_nat i * u <= x - stop - 1) by (pose proof (Z.mul_div_le (x - stop - 1) u Hu); nia).
      split; [unfold x, stop in *; nia|]. apply Z.divide_sub_r; [exact Dx|]. exists (Z.of_nat i). reflexivity.
    + intros [[T1 T2] [k Tk]]. destruct Dx as [kx Ekx]. assert (k <= kx).
      { destruct (Z_le_gt_dec k kx) as [L|L]; [exact L|exfalso]. assert (x + u <= t) by nia. unfold x in *. lia. }
      exists (Z.to_nat (kx - k)). rewrite Z2Nat.id by lia. split; [nia|]. apply in_seq. unfold steps. fold stop in T1.
      destruct (Z.ltb_spec stop x) as [L|L]; [|nia]. assert (kx - k <= (x - stop - 1) / u) by (apply Z.div_le_lower_bound; nia). lia.
  - assert (Fuel : (steps u x stop <= Z.to_nat ((x - stop) / u + 1))%nat).
    { unfold steps. destruct (Z.ltb_spec stop x); [|lia]. assert ((x - stop - 1) / u <= (x - stop) / u) by (apply Z.div_le_mono; lia). lia. }
    rewrite (time_labels_map o u stop Hu _ x Fuel).
    set (l0 := map (fun i : nat => x - Z.of_nat i * u) (seq 0 (steps u x stop))). rewrite <- map_rev. set (ts := rev l0).
    assert (In_ts : forall t, In t ts -> stop < t <= g_now o).
    { intros t Ht. unfold ts, l0 in Ht. rewrite <- in_rev, in_map_iff in Ht. destruct Ht as (i & <- & Hi). apply in_seq in Hi. unfold steps in Hi. destruct (Z.ltb_spec stop x) as [L|L]; [|lia].
      assert (Q : Z.of_nat i <= (x - stop - 1) / u) by lia. assert (Z.of_nat i * u <= x - stop - 1) by (pose proof (Z.mul_div_le (x - stop - 1) u Hu); nia). unfold x in *. nia. }
    clearbody ts. induction ts as [|t ts IH]; cbn [map]; constructor; [|apply IH; intros; apply In_ts; now right].
    specialize (In_ts t (or_introl eq_refl)). unfold stop in In_ts. split; [reflexivity|]. cbn [l_pos].
    destruct (time_pos (g_now o - t) (g_duration o)) as [U R]; [lia|lia|]. split; [exact U|].
    replace (IZR (t - (g_now o - g_duration o)) / IZR (g_duration o))%R with (1 - IZR (g_now o - t) / IZR (g_duration o))%R; [exact R|].
    rewrite !minus_IZR. field. apply not_0_IZR. lia.
Qed.
(** Where the tick of a time is: rounded down to a pixel of the axis. *)
Theorem C67_pixels :
  forall text now duration t l length y, 0 < duration -> time_label text now duration t l -> 1 <= length <= 2 ^ 24 -> tick_at length (l_pos l) y ->
  0 <= y < length /\
  (IZR y - / 2 ^ 19 <= IZR (length - 1) * (IZR (t - (now - duration)) / IZR duration) < IZR y + 1 + / 2 ^ 19)%R.
Proof.
  intros text now duration t l length y Hd (_ & _ & R) Hl (Y & T & _). split; [exact Y|].
  apply Rabs_le_inv in R. set (e := (IZR (t - (now - duration)) / IZR duration)%R) in *. set (f := SF2R radix2 (l_pos l)) in *.
  assert (L0 : (0 <= IZR (length - 1))%R) by (apply IZR_le; lia). assert (L1 : (IZR (length - 1) <= 2 ^ 24)%R) by (replace (2 ^ 24)%R with (IZR (2 ^ 24)) by (rewrite (pow_IZR 2 24); reflexivity); apply IZR_le; lia).
  assert (D : (Rabs (IZR (length - 1) * f - IZR (length - 1) * e) <= / 2 ^ 24)%R).
  { replace (IZR (length - 1) * f - IZR (length - 1) * e)%R with (IZR (length - 1) * (f - e))%R by ring. rewrite Rabs_mult, (Rabs_pos_eq (IZR _)) by exact L0.
    apply Rle_trans with (2 ^ 24 * / 2 ^ 48)%R; [apply Rmult_le_compat; [exact L0|apply Rabs_pos|exact L1|apply Rabs_le; lra]|].
    right. replace 48%nat with (24 + 24)%nat by reflexivity. rewrite pow_add. field. }
  apply Rabs_le_inv in D.
  assert (E1 : (/ 2 ^ 19 = 2 * / 2 ^ 20)%R) by (replace 20%nat with (19 + 1)%nat by reflexivity; rewrite pow_add; field).
  assert (E2 : (/ 2 ^ 24 < / 2 ^ 20)%R) by (apply Rinv_lt_contravar; [apply Rmult_lt_0_compat; apply pow_lt; lra|apply Rlt_pow; [lra|lia]]).
  lra.
Qed.
(** Before 1970 the newest label is past the end of the axis. *)
Theorem C67_before_1970_refuted :
  exists o l, g_now o < 0 /\ 0 < g_duration o < 2 ^ 63 /\ 100 <= g_width o /\ bottom_labels o = Ok [l] /\ SFltb f_one (l_pos l) = true.
Proof.
  exists (GOpts None (- hours 1 / 2) (hours 1 / 4) 1000 300 0 (fun _ => [48]) (fun _ => [48])).
  eexists. cbn [g_now g_duration g_width]. split; [vm_compute; reflexivity|]. split; [split; vm_compute; reflexivity|]. split; [lia|]. split; vm_compute; reflexivity.
Qed.
Definition ex_opts : gopts := GOpts (Some (fun _ => [49; 46; 48; 48])) (hours (24 * 365 * 48) + 12345) (hours 24) 1000 300 5 (fun _ => [48; 46; 53; 48]) (fun _ => [49; 47; 50; 32; 64; 32; 48; 48; 58; 48; 48]).
(** the hypotheses are met: a day on a chart of 1000 pixels has a label every two
    hours *)
Example C67_ex : 0 <= g_now ex_opts /\ 0 < g_duration ex_opts < 2 ^ 63 /\ 100 <= g_width ex_opts /\ step_for (g_duration ex_opts / (g_width ex_opts / 100)) (hours 2) /\
  match bottom_labels ex_opts with Ok ls => len ls = 12 | _ => False end.
Proof.
  split; [vm_compute; discriminate|]. split; [split; vm_compute; reflexivity|]. split; [vm_compute; discriminate|]. split; [|vm_compute; reflexivity].
  split; [right; exists 1; split; [lia|reflexivity]|]. change (g_duration ex_opts / (g_width ex_opts / 100)) with (hours 24 / 10). unfold hours. split; [right; reflexivity|].
  intros u' [->|(k & Hk & ->)] L; unfold hours in *; [lia|]. assert (2 <= k) by lia. change (24 * 3600 * 1000000000 / 10) with 8640000000000. lia.
Qed.

(** * C66 *)
(** Measuring: a chart less than 50 pixels high is refused; otherwise the parts of
    the chart make up exactly its width and height, and the heat map's corner is
    where the left axis and the rates leave off. *)
Theorem C66_measure :
  forall o, (forall t, g_time o t <> []) ->
  (g_height o < 50 -> graph_measure o = Ok None) /\
  (50 <= g_height o -> 100 <= g_width o ->
   exists m, graph_measure o = Ok (Some m) /\ gm_opts m = o /\
   am_width (gm_left m) + gm_width m + 5 + 10 + am_width (gm_right m) = g_width o /\
   gm_obs_height m + gm_height m + am_height (gm_bottom m) = g_height o /\
   gm_x m = g_padding o + am_width (gm_left m) /\ gm_y m = g_padding o + gm_obs_height m /\
   gm_obs_width m = gm_width m /\ gm_obs_height m = 21 /\ (am_height (gm_bottom m) = 29 \/ am_height (gm_bottom m) = 13 /\ ao_labels (am_opts (gm_bottom m)) = [])).
Proof.
  intros o T. split; [apply measure_inv|]. intros Hh Hw. destruct (measure_ok o T Hh) as (m & labels & E & M).
  { rewrite Z.quot_div_nonneg by lia. assert (1 <= g_width o / 100) by (apply Z.div_le_lower_bound; lia). lia. }
  exists m. split; [exact E|]. split; [apply M|]. pose proof (ms_width _ _ _ M). pose proof (ms_height _ _ _ M). pose proof (ms_bheight _ _ _ M) as BH. destruct (ms_obs _ _ _ M) as [O1 O2]. destruct (ms_pos _ _ _ M) as [P1 P2].
  rewrite O1. repeat split; try lia; try assumption. destruct labels as [|l0 ls]; [right|now left]. split; [exact BH|]. rewrite (ms_bottom _ _ _ M).
  unfold measure_horizontal. destruct (fold_left _ _ _) as [[? ?] ?]. reflexivity.
Qed.
(** A chart less than 100 pixels wide is not refused: measuring it panics. *)
Theorem C66_narrow_refuted :
  forall o, 50 <= g_height o -> 0 <= g_width o < 100 -> graph_measure o = Panic.
Proof. intros o Hh Hw. apply measure_inv; [exact Hh|]. rewrite Z.quot_div_nonneg by lia. apply Z.div_small. lia. Qed.

Lemma bottom_readable o m labels : measured o m labels -> 0 <= g_now o -> 0 < g_duration o < 2 ^ 63 -> 100 <= g_width o -> 0 <= gm_width m <= 2 ^ 24 - 2 ->
  (forall t, g_time o t <> []) -> readable 11 3 6 (bottom_opts labels (gm_width m)).
Proof.
  intros M Hn Hd Hw Hg T. constructor; [reflexivity|lia|cbn [bottom_opts ao_length]; lia|]. cbn [bottom_opts ao_labels]. intros l Hl.
  destruct (C67_times o Hn Hd Hw) as (u & ts & ls & _ & _ & _ & E & F). rewrite (ms_labels _ _ _ M) in E. injection E as <-.
  assert (G : exists t, time_label (g_time o) (g_now o) (g_duration o) t l).
  { clear - F Hl. induction F as [|t l0 ts ls TL F IH]; [destruct Hl|]. destruct Hl as [<-|Hl]; [eauto|now apply IH]. }
  destruct G as (t & Tt & U & _). split; [exact U|]. rewrite Tt. apply T.
Qed.
Lemma axis_on_v shade txt o W H v pix : draws_cells shade 11 3 6 txt -> readable 11 3 6 o -> ao_vertical o = true ->
  let m := measure_vertical o in
  exists ps drawn, axis_places m ps drawn /\
  (is_image W H pix -> shows_part W H v -> rgb_size v = (am_width m, am_height m) ->
   exists pix', axis_on txt m v pix = Ok pix' /\
   painted W H (fun x y => vertical_picture shade 11 3 6 (am_opts m) (am_width m) (am_height m) ps drawn (x - i_x v) (y - i_y v)) pix pix').
Proof.
  intros D R V m. destruct (C64_vertical shade 11 3 6 txt o R V D) as (ps & drawn & P & S & Dr). unfold axis_measure in Dr. rewrite V in Dr. fold m in Dr.
  assert (Em : am_opts m = o) by apply vopts. exists ps, drawn. split; [unfold axis_places; rewrite Em, V; split; assumption|].
  intros Hi Sv Sz. destruct (Dr W H v pix Hi Sv Sz) as (pix' & E & I & Px). exists pix'. split.
  - unfold axis_on. rewrite E. cbn [bind snd]. unfold rgb_size in Sz. assert (Sw : i_width v = am_width m) by congruence. assert (Sh : i_height v = am_height m) by congruence. rewrite Sw, Sh, !Z.ltb_irrefl. reflexivity.
  - rewrite Em. split; [exact I|exact Px].
Qed.
(** Drawing: the whole picture is that of the parts, each at its place; nothing
    panics. *)
Theorem C66_picture :
  forall shade txt o m d, draws_cells shade 11 3 6 txt -> drawable o m d ->
  exists pl shown rank start, chart_shows m d pl shown rank start /\
  forall W H c pix, d_canvas d = Some (c, pix) -> is_image W H pix -> shows_part W H c ->
  g_width o + 2 * g_padding o <= i_width c -> g_height o + 2 * g_padding o <= i_height c ->
  exists pix', graph_draw txt m d = Ok (c, pix') /\ is_image W H pix' /\
  forall x y, 0 <= x < W -> 0 <= y < H -> pixel W pix' x y = chart_pixel shade m d pl shown rank start x y (pixel W pix x y).
Proof.
  intros shade txt o m d D DW. destruct DW as [Me HP Hn Hd Hh Hw [Tf Tq] Tt HC HD Hcol].
  assert (T : forall t, g_time o t <> []) by (intros t; apply Tt). destruct (measured_of o m T Me) as (labels & M).
  pose proof (ms_width _ _ _ M) as MW. pose proof (ms_height _ _ _ M) as MH. pose proof (ms_bheight _ _ _ M) as BH. destruct (ms_obs _ _ _ M) as [O1 O2]. destruct (ms_pos _ _ _ M) as [P1 P2]. pose proof (ms_opts _ _ _ M) as MO.
  pose proof (left_readable o (gm_height m) ltac:(lia) Tf) as RL.
  assert (SzL : 13 <= am_width (gm_left m) /\ gm_height m <= am_height (gm_left m) <= gm_height m + 10).
  { rewrite (ms_left _ _ _ M). destruct (C64_vertical_size 11 3 6 _ RL eq_refl) as (ps & [Pl1 Pl2] & _ & A & B & _ & C). change (axis_measure (left_opts o (gm_height m))) with (measure_vertical (left_opts o (gm_height m))) in *.
    cbn [left_opts ao_length] in B, C, Pl2 |- *. split; [exact A|]. split; [exact B|]. destruct C as [->|(p & Hp & ->)]; [lia|]. change (candidates 11 (left_opts o (gm_height m)) ps) with ps in Hp. rewrite Forall_forall in Pl2. destruct (Pl2 p Hp) as [K _]. lia. }
  assert (SzR : 0 <= am_width (gm_right m) /\ forall q, g_query o = Some q -> gm_height m <= am_height (gm_right m) <= gm_height m + 10).
  { rewrite (ms_right _ _ _ M). destruct (g_query o) as [q|] eqn:Q; [|split; [cbn; lia|discriminate]].
    pose proof (right_readable q (gm_height m) ltac:(lia) (fun f => Tq q f eq_refl)) as RR. destruct (C64_vertical_size 11 3 6 _ RR eq_refl) as (ps & [Pl1 Pl2] & _ & A & B & _ & C).
    change (axis_measure (right_opts q (gm_height m))) with (measure_vertical (right_opts q (gm_height m))) in *. cbn [right_opts ao_length] in B, C, Pl2 |- *. split; [lia|]. intros _ _. split; [exact B|].
    destruct C as [->|(p & Hp & ->)]; [lia|]. change (candidates 11 (right_opts q (gm_height m)) ps) with ps in Hp. rewrite Forall_forall in Pl2. destruct (Pl2 p Hp) as [K _]. lia. }
  destruct (measure_inv o) as [Inv1 Inv2].
  assert (Hgw : 100 <= g_width o).
  { destruct (Z_lt_le_dec (g_width o) 100) as [C|C]; [|exact C]. exfalso. destruct (Z_lt_le_dec (g_height o) 50) as [C'|C']; [rewrite (Inv1 C') in Me; discriminate|].
    rewrite (Inv2 C') in Me; [discriminate|]. rewrite Z.quot_div_nonneg by lia. apply Z.div_small. lia. }
  pose proof (bottom_readable o m labels M Hn Hd Hgw Hw T) as RB.
  assert (Fit : ao_dont_bleed (bottom_opts labels (gm_width m)) = true -> forall l, In l (ao_labels (bottom_opts labels (gm_width m))) -> 6 * len (l_text l) <= ao_length (bottom_opts labels (gm_width m))).
  { intros _ l Hl. cbn [bottom_opts ao_labels ao_length] in Hl |- *. destruct (bottom_text o labels (ms_labels _ _ _ M) l Hl) as (t & ->). apply Tt. }
  destruct (C64_horizontal shade 11 3 6 txt _ RB eq_refl D Fit) as (bps & bdrawn & PlB & SpB & DrB).
  destruct (C64_horizontal_size 11 3 6 _ RB eq_refl Fit) as (_ & _ & _ & _ & _ & _ & _ & BW & _). specialize (BW eq_refl).
  change (axis_measure (bottom_opts labels (gm_width m))) with (measure_horizontal (bottom_opts labels (gm_width m))) in *. rewrite <- (ms_bottom _ _ _ M) in DrB, BW. cbn [bottom_opts ao_length] in BW.
  assert (EB : am_opts (gm_bottom m) = bottom_opts labels (gm_width m)).
  { rewrite (ms_bottom _ _ _ M). unfold measure_horizontal. destruct (fold_left _ _ _) as [[? ?] ?]. reflexivity. }
  destruct (C64_vertical shade 11 3 6 txt _ RL eq_refl D) as (lps & ldrawn & PlL & SpL & DrL).
  change (axis_measure (left_opts o (gm_height m))) with (measure_vertical (left_opts o (gm_height m))) in *. rewrite <- (ms_left _ _ _ M) in DrL.
  assert (EL : am_opts (gm_left m) = left_opts o (gm_height m)) by (rewrite (ms_left _ _ _ M); apply vopts).
  assert (RIGHT : exists rps rdrawn, (g_query o <> None -> axis_places (gm_right m) rps rdrawn) /\
    forall W H v pix, g_query o <> None -> is_image W H pix -> shows_part W H v -> rgb_size v = (am_width (gm_right m), am_height (gm_right m)) ->
    exists pix', axis_draw txt (gm_right m) (Some (v, pix)) = Ok (v, pix') /\ is_image W H pix' /\
    forall x y, 0 <= x < W -> 0 <= y < H -> pixel W pix' x y = vertical_picture shade 11 3 6 (am_opts (gm_right m)) (am_width (gm_right m)) (am_height (gm_right m)) rps rdrawn (x - i_x v) (y - i_y v) (pixel W pix x y)).
  { rewrite (ms_right _ _ _ M). destruct (g_query o) as [q|] eqn:Q; [|exists [], []; split; congruence].
    pose proof (right_readable q (gm_height m) ltac:(lia) (fun f => Tq q f eq_refl)) as RR. destruct (C64_vertical shade 11 3 6 txt _ RR eq_refl D) as (rps & rdrawn & PlR & SpR & DrR).
    change (axis_measure (right_opts q (gm_height m))) with (measure_vertical (right_opts q (gm_height m))) in DrR. exists rps, rdrawn. rewrite vopts. split.
    - intros _. unfold axis_places. rewrite vopts. split; assumption.
    - intros W H v pix _. apply DrR. }
  destruct RIGHT as (rps & rdrawn & PlR & DrR).
  assert (ON : forall a (W H : Z) v pix pix', rgb_size v = (am_width a, am_height a) -> axis_draw txt a (Some (v, pix)) = Ok (v, pix') -> axis_on txt a v pix = Ok pix').
  { intros a W H v pix pix' Sz E. unfold axis_on. rewrite E. cbn [bind snd]. unfold rgb_size in Sz. assert (Sw : i_width v = am_width a) by congruence. assert (Sh : i_height v = am_height a) by congruence. rewrite Sw, Sh, !Z.ltb_irrefl. reflexivity. }
  exists (Places lps ldrawn rps rdrawn bps bdrawn), (fun n r => row_index n (gm_height m) r), (fun v => f_int (f_mul (d_map d v) (f_of_int (len (d_colors d) - 1)))), (obs_max_x (d_columns d)).
  split; [split; [|split; [|split; [|split]]]|].
  - unfold chart_places. cbn [pl_left pl_left_drawn pl_right pl_right_drawn pl_bottom pl_bottom_drawn]. rewrite MO. unfold axis_places at 1 2. rewrite EL, EB. repeat split; try assumption; try apply PlL; try apply PlB; apply PlR; assumption.
  - intros n r Hnr Hr. apply shown_row; lia.
  - intros v U Hc. split; [pose proof (unit_index_ _ (len (d_colors d) - 1) ltac:(lia) U); lia|]. intros k Hk Ek. rewrite Ek. apply k128_index; lia.
  - apply max_x_in.
  - intros HR. now apply max_x_spec.
  - intros W H c pix Cv Hi Sc Cw Ch. unfold graph_draw. rewrite Cv. cbn [rgb_size]. rewrite MO.
    destruct (Z.ltb_spec (i_width c) (g_width o + 2 * g_padding o)) as [C|_]; [lia|]. destruct (Z.ltb_spec (i_height c) (g_height o + 2 * g_padding o)) as [C|_]; [lia|]. cbn [orb bind fst snd].
    assert (CW : i_width c <= W /\ i_height c <= H) by (destruct Sc as (_ & ? & ? & ? & ? & ? & ?); lia). destruct CW as [CW CH].
    set (P := g_padding o) in *. set (L := am_width (gm_left m)) in *. rewrite O1, O2.
    assert (BHs : 13 <= am_height (gm_bottom m)) by (rewrite BH; destruct labels; lia).
    (* rates *)
    set (vo := view c (P + L) P (gm_width m) 21). destruct (C45_view W H c (P + L) P (gm_width m) 21 Sc) as (So & _); try lia. fold vo in So.
    destruct (obs_ok shade txt (d_obs_text d) W H vo (d_columns d) pix D Hi So eq_refl HC) as (p1 & E1 & R1). change (i_width vo) with (gm_width m) in E1. rewrite E1. cbn [bind].
    (* left axis *)
    set (vl := view c P (P + 21) L (am_height (gm_left m))). destruct (C45_view W H c P (P + 21) L (am_height (gm_left m)) Sc) as (Sl & _); try lia. fold vl in Sl.
    destruct (DrL W H vl p1 (proj1 R1) Sl eq_refl) as (p2 & E2 & I2 & R2'). rewrite (ON _ W H vl p1 p2 eq_refl E2). cbn [bind].
    assert (R2 : painted W H (fun x y => left_part shade m (Places lps ldrawn rps rdrawn bps bdrawn) x y) p1 p2).
    { split; [exact I2|]. intros x y Hx Hy. rewrite R2' by assumption. unfold left_part. rewrite EL, MO, P2. reflexivity. }
    clear R2' E2 DrL.
    assert (R1' : painted W H (fun x y => rates_part shade m d (obs_max_x (d_columns d)) x y) pix p1).
    { eapply painted_ext; [|exact R1]. intros x y p _ _. unfold rates_part. rewrite P1, MO. reflexivity. }
    (* heat map, key and right axis *)
    assert (MID : exists p3, match g_query o with None => Ok p2 | Some _ => dist_draw txt m d c p2 end = Ok p3 /\
      painted W H (fun x y p => if g_query o then right_part shade m (Places lps ldrawn rps rdrawn bps bdrawn) x y (key_part m d (fun n r => row_index n (gm_height m) r) x y
        (heat_part m d (fun n r => row_index n (gm_height m) r) (fun v => f_int (f_mul (d_map d v) (f_of_int (len (d_colors d) - 1)))) x y p)) else p) p2 p3).
    { destruct (g_query o) as [q|] eqn:Q; [|exists p2; split; [reflexivity|split; [exact I2|reflexivity]]].
      specialize (Hcol ltac:(discriminate)). specialize (HD ltac:(discriminate)). destruct SzR as [SzR1 SzR2]. specialize (SzR2 q eq_refl).
      unfold dist_draw. rewrite MO, O1. fold P L. change key_padding with 5. change key_width with 10.
      set (vh := view c (P + L) (P + 21) (gm_width m) (gm_height m)). destruct (C45_view W H c (P + L) (P + 21) (gm_width m) (gm_height m) Sc) as (Sh & _); try lia. fold vh in Sh.
      destruct (heat_columns_ok W H (Heatmap (d_colors d) vh (d_map d)) (d_columns d) Sh Hh Hcol HC HD p2 I2) as (p3 & E3 & R3). rewrite E3. cbn [bind].
      set (vk := view c (P + L + gm_width m + 5) (P + 21) 10 (gm_height m)). destruct (C45_view W H c (P + L + gm_width m + 5) (P + 21) 10 (gm_height m) Sc) as (Sk & _); try lia. fold vk in Sk.
      destruct (key_ok W H vk (d_colors d) (gm_height m) p3 (proj1 R3) Sk ltac:(cbn; lia) ltac:(cbn; lia) ltac:(lia) Hcol) as (p4 & E4 & R4). rewrite E4. cbn [bind].
      set (vr := view c (P + L + gm_width m + 5 + 10) (P + 21) (am_width (gm_right m)) (am_height (gm_right m))).
      destruct (C45_view W H c (P + L + gm_width m + 5 + 10) (P + 21) (am_width (gm_right m)) (am_height (gm_right m)) Sc) as (Sr & _); try lia. fold vr in Sr.
      destruct (DrR W H vr p4 ltac:(discriminate) (proj1 R4) Sr eq_refl) as (p5 & E5 & I5 & R5). rewrite (ON _ W H vr p4 p5 eq_refl E5). exists p5. split; [reflexivity|].
      assert (R5' : painted W H (fun x y => right_part shade m (Places lps ldrawn rps rdrawn bps bdrawn) x y) p4 p5).
      { split; [exact I5|]. intros x y Hx Hy. rewrite R5 by assumption. unfold right_part. cbn [pl_right pl_right_drawn]. rewrite P1, P2. fold L P. cbn [vr view i_x i_y].
        replace (x - (P + L + gm_width m + 5 + 10)) with (x - (P + L + gm_width m + 15)) by ring. reflexivity. }
      eapply painted_ext; [|exact (painted_trans _ _ _ _ _ _ _ (painted_trans _ _ _ _ _ _ _ R3 R4) R5')].
      intros x y p _ _. cbv beta. unfold key_part, heat_part. rewrite P1, P2. fold L P. reflexivity. }
    destruct MID as (p3 & E3 & R3). rewrite E3. cbn [bind].
    (* bottom axis *)
    set (vb := view c (L - 1 + P) (gm_height m + 21 + P) (am_width (gm_bottom m)) (am_height (gm_bottom m))).
    destruct (C45_view W H c (L - 1 + P) (gm_height m + 21 + P) (am_width (gm_bottom m)) (am_height (gm_bottom m)) Sc) as (Sb & _); try lia. fold vb in Sb.
    destruct (DrB W H vb p3 (proj1 R3) Sb eq_refl) as (p6 & E6 & I6 & R6). rewrite (ON _ W H vb p3 p6 eq_refl E6). cbn [bind]. exists p6. split; [reflexivity|]. split; [exact I6|].
    intros x y Hx Hy. rewrite R6 by assumption. destruct R3 as [_ R3]. rewrite R3 by assumption. destruct R2 as [_ R2]. rewrite R2 by assumption. destruct R1' as [_ R1']. rewrite R1' by assumption.
    unfold chart_pixel. cbv zeta. unfold bottom_part. cbn [pl_bottom pl_bottom_drawn]. rewrite EB, MO, P1, P2. fold L P. cbn [vb view i_x i_y].
    replace (x - (P + L - 1)) with (x - (L - 1 + P)) by ring. replace (y - (P + 21 + gm_height m)) with (y - (gm_height m + 21 + P)) by ring. reflexivity.
Qed.
(** Without a canvas, or with one that is too small, the chart is drawn on a new white
    image of its size. *)
Theorem C66_new_canvas :
  forall shade txt o m d, draws_cells shade 11 3 6 txt -> drawable o m d ->
  let W := g_width o + 2 * g_padding o in
  let H := g_height o + 2 * g_padding o in
  (forall c pix, d_canvas d = Some (c, pix) -> i_width c < W \/ i_height c < H) ->
  exists pl shown rank start, chart_shows m d pl shown rank start /\
  exists c pix', graph_draw txt m d = Ok (c, pix') /\ rgb_size c = (W, H) /\ shows_part W H c /\ is_image W H pix' /\
  forall x y, 0 <= x < W -> 0 <= y < H -> pixel W pix' x y = chart_pixel shade m d pl shown rank start x y (opaque white).
Proof.
  intros shade txt o m d D DW W H Sm. pose proof (dw_measured _ _ _ DW) as Me. pose proof (dw_padding _ _ _ DW) as HP.
  assert (T : forall t, g_time o t <> []) by (intros t; apply (dw_times _ _ _ DW)). destruct (measured_of o m T Me) as (labels & M). pose proof (ms_opts _ _ _ M) as MO.
  destruct (measure_inv o) as [Inv1 Inv2].
  assert (Hgw : 50 <= g_height o /\ 100 <= g_width o).
  { assert (50 <= g_height o) by (destruct (Z_lt_le_dec (g_height o) 50) as [C'|C']; [rewrite (Inv1 C') in Me; discriminate|exact C']). split; [assumption|].
    destruct (Z_lt_le_dec (g_width o) 100) as [C|C]; [|exact C]. exfalso. pose proof (ms_width _ _ _ M). pose proof (dw_width _ _ _ DW).
    assert (0 <= g_width o).
    { assert (13 <= am_width (gm_left m)).
      { rewrite (ms_left _ _ _ M). destruct (C64_vertical_size 11 3 6 _ (left_readable o (gm_height m) ltac:(pose proof (dw_height _ _ _ DW); lia) (proj1 (dw_texts _ _ _ DW))) eq_refl) as (_ & _ & _ & A & _). exact A. }
      assert (0 <= am_width (gm_right m)); [|lia]. rewrite (ms_right _ _ _ M). destruct (g_query o) as [q|] eqn:Q; [|cbn; lia].
      destruct (C64_vertical_size 11 3 6 _ (right_readable q (gm_height m) ltac:(pose proof (dw_height _ _ _ DW); lia) (fun f => proj2 (dw_texts _ _ _ DW) q f Q)) eq_refl) as (_ & _ & _ & A & _). change (axis_measure ?x) with (measure_vertical x) in A. lia. }
    rewrite (Inv2 H0) in Me; [discriminate|]. rewrite Z.quot_div_nonneg by lia. apply Z.div_small. lia. }
  destruct (C45_new W H ltac:(unfold W; lia) ltac:(unfold H; lia)) as (c & pix & E & S & I & P & _ & _ & Wh).
  set (d' := DOpts (Some (c, pix)) (d_columns d) (d_colors d) (d_map d) (d_obs_text d)).
  assert (DW' : drawable o m d') by (destruct DW; constructor; assumption).
  destruct (C66_picture shade txt o m d' D DW') as (pl & shown & rank & start & Sh & Pic). exists pl, shown, rank, start. split; [exact Sh|].
  assert (Sw : i_width c = W) by (unfold rgb_size in S; congruence). assert (Shh : i_height c = H) by (unfold rgb_size in S; congruence).
  destruct (Pic W H c pix eq_refl I P ltac:(unfold W in *; lia) ltac:(unfold H in *; lia)) as (pix' & Dr & I' & Px).
  exists c, pix'. split; [|split; [exact S|split; [exact P|split; [exact I'|]]]].
  - rewrite <- Dr. unfold graph_draw. rewrite MO. cbn [d' d_canvas]. fold W H. rewrite S, !Z.ltb_irrefl. cbn [orb].
    assert (N : (match d_canvas d with Some (c0, _) => rgb_size c0 | None => (0, 0) end) = (0, 0) /\ d_canvas d = None \/
                exists c0 p0, d_canvas d = Some (c0, p0) /\ (match d_canvas d with Some (c0, _) => rgb_size c0 | None => (0, 0) end) = (i_width c0, i_height c0)).
    { destruct (d_canvas d) as [[c0 p0]|]; [right; exists c0, p0; split; reflexivity|left; auto]. }
    destruct N as [[N _]|(c0 & p0 & Ec & N)]; rewrite N.
    + assert (X : (0 <? W) = true) by (apply Z.ltb_lt; unfold W; lia). rewrite X. cbn [orb]. rewrite E. reflexivity.
    + assert (X : (i_width c0 <? W) || (i_height c0 <? H) = true) by (apply orb_true_iff; destruct (Sm c0 p0 Ec); [left|right]; now apply Z.ltb_lt). rewrite X, E. reflexivity.
  - intros x y Hx Hy. rewrite Px, Wh by assumption. reflexivity.
Qed.
Lemma sizes o m d : drawable o m d ->
  exists labels, measured o m labels /\ 13 <= am_width (gm_left m) /\ am_height (gm_left m) <= gm_height m + 10 /\
  0 <= am_width (gm_right m) /\ (g_query o <> None -> am_height (gm_right m) <= gm_height m + 10) /\
  am_width (gm_bottom m) = gm_width m + 2 /\ 13 <= am_height (gm_bottom m).
Proof.
  intros DW. assert (T : forall t, g_time o t <> []) by (intros t; apply (dw_times _ _ _ DW)). pose proof (dw_height _ _ _ DW) as Hh. pose proof (dw_width _ _ _ DW) as Hw.
  destruct (measured_of o m T (dw_measured _ _ _ DW)) as (labels & M). exists labels. split; [exact M|].
  assert (TOP : forall ao, readable 11 3 6 ao -> ao_vertical ao = true -> ao_dont_bleed ao = false -> 13 <= am_width (measure_vertical ao) /\ am_height (measure_vertical ao) <= ao_length ao + 10).
  { intros ao R V B. destruct (C64_vertical_size 11 3 6 _ R V) as (ps & [Pl1 Pl2] & _ & A & _ & _ & C). unfold axis_measure in *. rewrite V in *. split; [exact A|].
    destruct C as [->|(p & Hp & ->)]; [lia|]. unfold candidates in Hp. rewrite B in Hp. rewrite Forall_forall in Pl2. destruct (Pl2 p Hp) as [K _]. lia. }
  destruct (TOP (left_opts o (gm_height m)) (left_readable o (gm_height m) ltac:(lia) (proj1 (dw_texts _ _ _ DW))) eq_refl eq_refl) as [L1 L2]. rewrite <- (ms_left _ _ _ M) in L1, L2. cbn [left_opts ao_length] in L2.
  split; [exact L1|]. split; [exact L2|].
  assert (RR : 0 <= am_width (gm_right m) /\ (g_query o <> None -> am_height (gm_right m) <= gm_height m + 10)).
  { rewrite (ms_right _ _ _ M). destruct (g_query o) as [q|] eqn:Q; [|split; [cbn; lia|congruence]].
    destruct (TOP (right_opts q (gm_height m)) (right_readable q (gm_height m) ltac:(lia) (fun f => proj2 (dw_texts _ _ _ DW) q f Q)) eq_refl eq_refl) as [R1 R2]. cbn [right_opts ao_length] in R2. split; [lia|]. intros _. exact R2. }
  split; [apply RR|]. split; [apply RR|]. split; [|rewrite (ms_bheight _ _ _ M); destruct labels; lia].
  destruct (measure_inv o) as [Inv1 Inv2]. pose proof (dw_measured _ _ _ DW) as Me. pose proof (ms_width _ _ _ M).
  assert (Hgw : 100 <= g_width o).
  { destruct (Z_lt_le_dec (g_width o) 100) as [C|C]; [|exact C]. exfalso. destruct (Z_lt_le_dec (g_height o) 50) as [C'|C']; [rewrite (Inv1 C') in Me; discriminate|].
    rewrite (Inv2 C') in Me; [discriminate|]. rewrite Z.quot_div_nonneg by lia. apply Z.div_small. lia. }
  pose proof (bottom_readable o m labels M (dw_now _ _ _ DW) (dw_duration _ _ _ DW) Hgw Hw T) as RB.
  destruct (C64_horizontal_size 11 3 6 _ RB eq_refl) as (_ & _ & _ & _ & _ & _ & _ & BW & _).
  - intros _ l Hl. cbn [bottom_opts ao_labels ao_length] in Hl |- *. destruct (bottom_text o labels (ms_labels _ _ _ M) l Hl) as (t & ->). apply (dw_times _ _ _ DW).
  - specialize (BW eq_refl). rewrite (ms_bottom _ _ _ M). exact BW.
Qed.
Lemma heat_outside shown rank colors height cols x y p : (forall c, In c cols -> in_box (col_x c) 0 (col_w c) height x y = false) -> heat_picture shown rank colors height cols x y p = p.
Proof. unfold heat_picture. revert p. induction cols as [|c cols IH]; intros p Hc; cbn [fold_left]; [reflexivity|]. rewrite (Hc c (or_introl eq_refl)). apply IH. intros; apply Hc; now right. Qed.
Lemma rates_outside shade width cols text start x y p : (forall c, In c cols -> 0 <= col_x c /\ 0 <= col_w c /\ col_x c + col_w c <= width) -> 102 <= width -> 0 <= start ->
  ~ (0 <= x < width /\ 0 <= y < 21) -> rates_picture shade width cols text start x y p = p.
Proof.
  intros HC Hw Hs Out. unfold rates_picture. cbv zeta. assert (E : (x <? width) && in_box (Z.min start (width - 102)) 0 (6 * len text) 14 x y = false) by (unfold in_box; lia). rewrite E.
  revert p. induction cols as [|c cols IH]; intros p; cbn [fold_left]; [reflexivity|]. destruct (HC c (or_introl eq_refl)) as (A & B & C).
  (* the grey of the others does not matter *)
  set (g := obs_max (c :: cols)). clearbody g. replace (in_box (col_x c) 16 (col_w c) 5 x y) with false by (unfold in_box; lia).
  assert (HC' : forall c, In c cols -> 0 <= col_x c /\ 0 <= col_w c /\ col_x c + col_w c <= width) by (intros; apply HC; now right). clear - HC' Out.
  revert p. induction cols as [|c cols IH]; intros p; cbn [fold_left]; [reflexivity|]. destruct (HC' c (or_introl eq_refl)) as (A & B & C). replace (in_box (col_x c) 16 (col_w c) 5 x y) with false by (unfold in_box; lia). apply IH. intros; apply HC'; now right.
Qed.
Lemma v_outside shade a d w o width height ps drawn x y p : in_box 0 0 width height x y = false -> vertical_picture shade a d w o width height ps drawn x y p = p.
Proof. unfold vertical_picture. intros ->. reflexivity. Qed.
Lemma h_outside shade a d w o width height ps drawn x y p : in_box 0 0 width height x y = false -> horizontal_picture shade a d w o width height ps drawn x y p = p.
Proof. unfold horizontal_picture. intros ->. reflexivity. Qed.
(** Every part of the chart has its own place: no part is drawn over another, and
    nothing is drawn into the padding or outside. *)
Theorem C66_regions :
  forall shade o m d pl shown rank start x y p, drawable o m d -> 102 <= gm_width m -> 0 <= start ->
  let P := g_padding o in
  let pixel' := chart_pixel shade m d pl shown rank start x y p in
  (~ (P <= x < P + g_width o /\ P <= y < P + g_height o) -> pixel' = p) /\
  (gm_x m <= x < gm_x m + gm_width m -> gm_y m <= y < gm_y m + gm_height m ->
   pixel' = if g_query o then heat_picture shown rank (d_colors d) (gm_height m) (d_columns d) (x - gm_x m) (y - gm_y m) p else p) /\
  (gm_x m + gm_width m + 5 <= x < gm_x m + gm_width m + 15 -> gm_y m <= y < gm_y m + gm_height m ->
   pixel' = if g_query o then opaque (nth (Z.to_nat (shown (len (d_colors d)) (gm_height m - 1 - (y - gm_y m)))) (d_colors d) white) else p) /\
  (gm_x m <= x < gm_x m + gm_width m -> P <= y < gm_y m ->
   pixel' = rates_picture shade (gm_width m) (d_columns d) (d_obs_text d (obs_max (d_columns d))) start (x - gm_x m) (y - P) p) /\
  (P <= x < gm_x m -> gm_y m <= y -> (x < gm_x m - 1 \/ y < gm_y m + gm_height m) -> pixel' = left_part shade m pl x y p) /\
  (gm_x m - 1 <= x < gm_x m + gm_width m + 1 -> gm_y m + gm_height m <= y -> pixel' = bottom_part shade m pl x y p) /\
  (gm_x m + gm_width m + 15 <= x -> gm_y m <= y -> pixel' = if g_query o then right_part shade m pl x y p else p).
Proof.
  intros shade o m d pl shown rank start x y p DW HW Hs P pixel'. destruct (sizes o m d DW) as (labels & M & L1 & L2 & R1 & R2 & B1 & B2).
  pose proof (ms_width _ _ _ M) as MW. pose proof (ms_height _ _ _ M) as MH. destruct (ms_pos _ _ _ M) as [P1 P2]. pose proof (ms_opts _ _ _ M) as MO.
  pose proof (dw_columns _ _ _ DW) as HC. pose proof (dw_height _ _ _ DW) as Hh. fold P in P1, P2.
  assert (Rt : ~ (0 <= x - gm_x m < gm_width m /\ 0 <= y - P < 21) -> rates_part shade m d start x y p = p).
  { intros Out. unfold rates_part. rewrite MO. fold P. now apply rates_outside. }
  assert (Lf : forall q, in_box 0 0 (am_width (gm_left m)) (am_height (gm_left m)) (x - P) (y - gm_y m) = false -> left_part shade m pl x y q = q).
  { intros q E. unfold left_part. rewrite MO. fold P. now apply v_outside. }
  assert (Rg : forall q, in_box 0 0 (am_width (gm_right m)) (am_height (gm_right m)) (x - (gm_x m + gm_width m + 15)) (y - gm_y m) = false -> right_part shade m pl x y q = q).
  { intros q E. unfold right_part. now apply v_outside. }
  assert (Bt : forall q, in_box 0 0 (am_width (gm_bottom m)) (am_height (gm_bottom m)) (x - (gm_x m - 1)) (y - (gm_y m + gm_height m)) = false -> bottom_part shade m pl x y q = q).
  { intros q E. unfold bottom_part. now apply h_outside. }
  assert (Kp : forall q, ~ (gm_x m + gm_width m + 5 <= x < gm_x m + gm_width m + 15 /\ gm_y m <= y < gm_y m + gm_height m) -> key_part m d shown x y q = q).
  { intros q E. unfold key_part, key_picture. replace (in_box 0 0 10 (gm_height m) (x - (gm_x m + gm_width m + 5)) (y - gm_y m)) with false by (unfold in_box; lia). reflexivity. }
  assert (Hp : forall q, ~ (gm_x m <= x < gm_x m + gm_width m /\ gm_y m <= y < gm_y m + gm_height m) -> heat_part m d shown rank x y q = q).
  { intros q E. unfold heat_part. apply heat_outside. intros c Hc. destruct (HC c Hc) as (A & B & C). unfold in_box. lia. }
  unfold pixel', chart_pixel. cbv zeta. rewrite MO. unfold in_box in *.
  split; [|split; [|split; [|split; [|split; [|split]]]]].
  - intros Out. rewrite Rt by lia. rewrite Lf by lia. destruct (g_query o) as [q|] eqn:Q.
    + specialize (R2 ltac:(discriminate)). rewrite Hp, Kp, Rg, Bt by lia. reflexivity.
    + rewrite Bt by lia. reflexivity.
  - intros Hx Hy. rewrite Rt by lia. rewrite Lf by lia. destruct (g_query o) as [q|] eqn:Q.
    + rewrite Kp, Rg, Bt by lia. reflexivity.
    + rewrite Bt by lia. reflexivity.
  - intros Hx Hy. rewrite Rt by lia. rewrite Lf by lia. destruct (g_query o) as [q|] eqn:Q.
    + rewrite Hp, Rg, Bt by lia. unfold key_part, key_picture. replace (in_box 0 0 10 (gm_height m) (x - (gm_x m + gm_width m + 5)) (y - gm_y m)) with true by (unfold in_box; lia). reflexivity.
    + rewrite Bt by lia. reflexivity.
  - intros Hx Hy. rewrite Lf by lia. assert (E : rates_part shade m d start x y p = rates_picture shade (gm_width m) (d_columns d) (d_obs_text d (obs_max (d_columns d))) start (x - gm_x m) (y - P) p) by (unfold rates_part; rewrite MO; reflexivity).
    destruct (g_query o) as [q|] eqn:Q.
    + rewrite Hp, Kp, Rg, Bt by lia. exact E.
    + rewrite Bt by lia. exact E.
  - intros Hx Hy Hc. rewrite Rt by lia. destruct (g_query o) as [q|] eqn:Q.
    + rewrite Hp, Kp, Rg, Bt by lia. reflexivity.
    + rewrite Bt by lia. reflexivity.
  - intros Hx Hy. rewrite Rt by lia.
    assert (Lf' : left_part shade m pl x y p = p).
    { destruct (Z_lt_le_dec x (gm_x m)) as [C|C]; [|apply Lf; lia]. unfold left_part. rewrite MO. fold P. unfold vertical_picture. rewrite (ms_left _ _ _ M), vopts. cbn [left_opts ao_flip ao_length]. rewrite <- (ms_left _ _ _ M).
      destruct (in_box _ _ _ _ _ _); [|reflexivity]. replace (am_width (gm_left m) - 1 - (x - P)) with 0 by lia. replace (y - gm_y m <? gm_height m) with false by lia. reflexivity. }
    rewrite Lf'. destruct (g_query o) as [q|] eqn:Q; [|reflexivity]. rewrite Hp, Kp, Rg by lia. reflexivity.
  - intros Hx Hy. rewrite Rt, Lf by lia. destruct (g_query o) as [q|] eqn:Q.
    + rewrite Hp, Kp, Bt by lia. reflexivity.
    + rewrite Bt by lia. reflexivity.
Qed.

(** The labels of the quantiles. *)
Lemma f_one_real : SF2R radix2 f_one = 1%R.
Proof. vm_compute. field. Qed.
Lemma sub_pos (p q : Z) : 0 <= p <= q -> 0 < q < 2 ^ 63 -> forall text, quantile_label text q p (Label (row_pos q p) (text (f_sub f_one (row_pos q p)))).
Proof.
  intros Hp Hq text. unfold row_pos. destruct (time_pos p q Hp Hq) as [U R]. destruct (quot_unit p q Hp Hq) as (b & E & F & Rb & D).
  split; [cbn [l_pos]; now apply quot_in_unit|]. cbn [l_pos l_text]. split.
  - rewrite E. rewrite SF2R_B2SF. eapply Rle_trans; [exact D|]. apply Rinv_le_contravar; [apply pow_lt; lra|apply Rle_pow; [lra|lia]].
  - eexists. split; [reflexivity|]. split; assumption.
Qed.
Lemma rows_labels text zero h : 1 <= h <= 2 ^ 24 ->
  quantile_labels text zero h (map (fun y => Label (row_pos h y) (text (f_sub f_one (row_pos h y)))) (label_rows h) ++ [Label f_one zero]).
Proof.
  intros Hh. exists (label_rows h), (map (fun y => Label (row_pos h y) (text (f_sub f_one (row_pos h y)))) (label_rows h)), (Label f_one zero).
  split; [reflexivity|]. split; [|split; [|split; [|split; [reflexivity|apply f_one_real]]]].
  - unfold label_rows. change label_gap with 30. unfold zrange. rewrite map_map. set (n := Z.to_nat _). clearbody n. generalize 0%nat. induction n as [|n IH]; intros k; cbn [seq map]; constructor; [apply IH|].
    apply Forall_forall. intros y Hy. apply in_map_iff in Hy as (i & <- & Hi). apply in_seq in Hi. lia.
  - intros y. unfold label_rows. rewrite in_map_iff. change label_gap with 30. split.
    + intros (k & <- & Hk). apply in_zrange in Hk. destruct (Z.ltb_spec h 30) as [C|C]; [lia|]. assert (k <= (h - 30) / 30) by lia. pose proof (Z.mul_div_le (h - 30) 30 ltac:(lia)). split; [lia|]. exists k. ring.
    + intros [Hy [k ->]]. exists k. split; [ring|]. apply in_zrange. destruct (Z.ltb_spec h 30) as [C|C]; [lia|]. assert (k <= (h - 30) / 30) by (apply Z.div_le_lower_bound; lia). lia.
  - assert (K : forall y, In y (label_rows h) -> 0 <= y <= h) by (intros y Hy; pose proof (rows_in h y ltac:(lia) Hy); lia).
    induction (label_rows h) as [|y ys IH]; cbn [map]; constructor; [|apply IH; intros; apply K; now right]. apply sub_pos; [apply K; now left|]. lia.
Qed.
Theorem C66_quantiles :
  forall o m d, drawable o m d ->
  quantile_labels (g_fmt2 o) [48; 46; 48; 48] (gm_height m) (ao_labels (am_opts (gm_left m))) /\
  (forall q, g_query o = Some q -> quantile_labels q (q (S754_zero false)) (gm_height m) (ao_labels (am_opts (gm_right m)))).
Proof.
  intros o m d DW. destruct (sizes o m d DW) as (labels & M & _). pose proof (dw_height _ _ _ DW) as Hh. split.
  - rewrite (ms_left _ _ _ M), vopts. cbn [left_opts ao_labels]. apply rows_labels. lia.
  - intros q Q. rewrite (ms_right _ _ _ M), Q, vopts. cbn [right_opts ao_labels]. apply (rows_labels q (q (S754_zero false))). lia.
Qed.
(** The row beside a label shows that quantile of the data, up to a row of the heat
    map and one of the [n] values of a column. *)
Theorem C66_quantile_row :
  forall text height y l row n i, 2 <= height <= 2 ^ 24 -> 2 <= n <= 2 ^ 24 -> 0 <= y <= height ->
  quantile_label text height y l -> tick_at height (l_pos l) row -> nearest_below n height (height - 1 - row) i ->
  exists f, l_text l = text f /\ (Rabs (IZR i / IZR (n - 1) - SF2R radix2 f) <= / IZR (height - 1) + / IZR (n - 1) + / 2 ^ 19)%R.
Proof.
  intros text height y l row n i Hh Hn Hy (U & Pp & f & Ef & _ & Pf) (Rr & (T1 & T2) & _) (Ii & N1 & N2). exists f. split; [exact Ef|].
  set (pos := SF2R radix2 (l_pos l)) in *. set (q := SF2R radix2 f) in *. set (e := (IZR y / IZR height)%R) in *.
  apply Rabs_le_inv in Pp. apply Rabs_le_inv in Pf.
  assert (H1 : (1 <= IZR (height - 1))%R) by (apply IZR_le; lia). assert (M1 : (1 <= IZR (n - 1))%R) by (apply IZR_le; lia).
  apply IZR_le in N1, N2. rewrite !mult_IZR in N1, N2. rewrite plus_IZR in N2. replace (height - 1 - row) with ((height - 1) - row) in N1, N2 by ring. rewrite (minus_IZR (height - 1) row) in N1, N2.
  set (h := IZR (height - 1)) in *. set (k := IZR (n - 1)) in *. set (r := IZR row) in *. set (j := IZR i) in *.
  assert (ih : (0 < / h)%R) by (apply Rinv_0_lt_compat; lra). assert (ik : (0 < / k)%R) by (apply Rinv_0_lt_compat; lra).
  assert (ih1 : (/ h <= 1)%R) by (rewrite <- Rinv_1; apply Rinv_le_contravar; lra).
  assert (A : (j / k <= 1 - r / h)%R).
  { apply Rmult_le_reg_r with (h * k)%R; [nra|]. replace (j / k * (h * k))%R with (j * h)%R by (field; lra). replace ((1 - r / h) * (h * k))%R with ((h - r) * k)%R by (field; lra). exact N1. }
  assert (B : (1 - r / h <= j / k + / k)%R).
  { apply Rmult_le_reg_r with (h * k)%R; [nra|]. replace ((j / k + / k) * (h * k))%R with ((j + 1) * h)%R by (field; lra). replace ((1 - r / h) * (h * k))%R with ((h - r) * k)%R by (field; lra). exact N2. }
  set (u := (/ 2 ^ 20)%R) in *.
  assert (C : (r / h - u <= pos)%R).
  { apply Rmult_le_reg_r with h; [lra|]. replace ((r / h - u) * h)%R with (r - u * h)%R by (field; lra). assert (0 < u)%R by (apply Rinv_0_lt_compat, pow_lt; lra). nra. }
  assert (D : (pos <= r / h + / h + u)%R).
  { apply Rmult_le_reg_r with h; [lra|]. replace ((r / h + / h + u) * h)%R with (r + 1 + u * h)%R by (field; lra). assert (0 < u)%R by (apply Rinv_0_lt_compat, pow_lt; lra). nra. }
  assert (E1 : (/ 2 ^ 19 = 2 * u)%R) by (unfold u; replace 20%nat with (19 + 1)%nat by reflexivity; rewrite pow_add; field).
  assert (E2 : (2 * / 2 ^ 48 <= u)%R).
  { unfold u. replace 48%nat with (28 + 20)%nat by reflexivity. rewrite pow_add. rewrite Rinv_mult. assert (0 < / 2 ^ 20)%R by (apply Rinv_0_lt_compat, pow_lt; lra). assert (/ 2 ^ 28 <= / 2)%R by (apply Rinv_le_contravar; [lra|]; assert (2 ^ 1 <= 2 ^ 28)%R by (apply Rle_pow; [lra|lia]); lra). nra. }
  rewrite E1. apply Rabs_le. lra.
Qed.
(** Charts of at least 221 by 52 pixels can be drawn, if numbers take up to nine, times
    up to 13 and quantiles up to four characters. *)
Lemma row_quantile h y : 1 <= h <= 2 ^ 24 -> In y (label_rows h) -> in_unit (f_sub f_one (row_pos h y)) /\ f_sub f_one (row_pos h y) <> S754_zero true.
Proof.
  intros Hh Hy. assert (30 <= h /\ 0 <= y <= h - 30) as [H1 H2].
  { unfold label_rows in Hy. apply in_map_iff in Hy as (k & <- & Hk). apply in_zrange in Hk. change label_gap with 30 in *. destruct (Z.ltb_spec h 30) as [C|C]; [lia|]. assert (k <= (h - 30) / 30) by lia. pose proof (Z.mul_div_le (h - 30) 30 ltac:(lia)). lia. }
  destruct (time_pos y h ltac:(lia) ltac:(lia)) as [U R]. split; [exact U|]. intros E. unfold row_pos in E. rewrite E in R. cbn [SF2R] in R. apply Rabs_le_inv in R.
  assert (B : (IZR h <= 2 ^ 24)%R) by (replace (2 ^ 24)%R with (IZR (2 ^ 24)) by (rewrite pow_IZR; reflexivity); apply IZR_le; lia). assert (A : (30 <= IZR h)%R) by (apply IZR_le; lia). assert (Y : (IZR y <= IZR h - 30)%R) by (rewrite <- minus_IZR; apply IZR_le; lia).
  assert (Q : (/ 2 ^ 48 < 1 - IZR y / IZR h)%R); [|lra]. apply Rmult_lt_reg_r with (IZR h); [lra|]. replace ((1 - IZR y / IZR h) * IZR h)%R with (IZR h - IZR y)%R by (field; lra).
  apply Rle_lt_trans with 1%R; [|lra]. apply Rmult_le_reg_l with (2 ^ 48)%R; [apply pow_lt; lra|]. rewrite <- Rmult_assoc, Rinv_r by (apply pow_nonzero; lra). assert (2 ^ 24 <= 2 ^ 48)%R by (apply Rle_pow; [lra|lia]). lra.
Qed.
Theorem C66_drawable :
  forall o, 0 <= g_padding o -> 0 <= g_now o -> 0 < g_duration o < 2 ^ 63 -> 52 <= g_height o <= 2 ^ 24 -> 221 <= g_width o <= 2 ^ 24 ->
  short_text 4 (g_fmt2 o) -> (forall q, g_query o = Some q -> short_text 9 q) -> (forall t, 1 <= len (g_time o t) <= 13) ->
  exists m, graph_measure o = Ok (Some m) /\ 102 <= gm_width m /\ g_width o - 119 <= gm_width m <= g_width o /\
  forall d, (forall c, In c (d_columns d) -> 0 <= col_x c /\ 0 <= col_w c /\ col_x c + col_w c <= gm_width m) ->
  (g_query o <> None -> forall c, In c (d_columns d) -> 1 <= len (col_data c) <= 2 ^ 24 /\ forall v, In v (col_data c) -> in_unit (d_map d v)) ->
  (g_query o <> None -> 1 <= len (d_colors d) <= 2 ^ 24) -> drawable o m d.
Proof.
  intros o HP Hn Hd Hh Hw [T2n T2] TQ TT.
  assert (NE : forall t : list Z, 1 <= len t -> t <> []) by (intros t Ht E; rewrite E in Ht; cbn in Ht; lia).
  assert (T : forall t, g_time o t <> []) by (intros t; apply NE, TT).
  destruct (measure_ok o T ltac:(lia)) as (m & labels & E & M).
  { rewrite Z.quot_div_nonneg by lia. assert (1 <= g_width o / 100) by (apply Z.div_le_lower_bound; lia). lia. }
  exists m. split; [exact E|]. pose proof (ms_width _ _ _ M) as MW. pose proof (ms_height _ _ _ M) as MH. pose proof (ms_bheight _ _ _ M) as BH.
  assert (Hm : 2 <= gm_height m <= 2 ^ 24) by (destruct labels; lia).
  assert (WD : forall ao n, readable 11 3 6 ao -> ao_vertical ao = true -> ao_dont_bleed ao = false -> 0 <= n -> (forall l, In l (ao_labels ao) -> len (l_text l) <= n) -> 13 <= am_width (measure_vertical ao) <= 13 + 6 * n).
  { intros ao n R V B Hn0 Tx. destruct (C64_vertical_size 11 3 6 _ R V) as (ps & [Pl1 Pl2] & _ & A & _ & C & _). unfold axis_measure in *. rewrite V in *. split; [exact A|].
    destruct C as [->|(p & Hp & ->)]; [lia|]. unfold candidates in Hp. rewrite B in Hp. unfold text_width. assert (K : In (fst p) (ao_labels ao)) by (rewrite <- Pl1; now apply in_map). specialize (Tx _ K). lia. }
  assert (LW : 13 <= am_width (gm_left m) <= 37).
  { rewrite (ms_left _ _ _ M). apply (WD _ 4); try reflexivity; [apply left_readable; [lia|exact T2n]|lia|].
    intros l Hl. cbn [left_opts ao_labels] in Hl. unfold left_labels in Hl. apply in_app_or in Hl as [Hl|[<-|[]]]; [|cbn; lia]. apply in_map_iff in Hl as (y & <- & Hy). cbn [l_text]. apply T2; apply (row_quantile (gm_height m)); auto; lia. }
  assert (RW : 0 <= am_width (gm_right m) <= 67).
  { rewrite (ms_right _ _ _ M). destruct (g_query o) as [q|] eqn:Q; [|cbn; lia]. destruct (TQ q eq_refl) as [TQn TQl].
    assert (13 <= am_width (measure_vertical (right_opts q (gm_height m))) <= 13 + 6 * 9); [|lia]. apply WD; try reflexivity; [apply right_readable; [lia|exact TQn]|lia|].
    intros l Hl. cbn [right_opts ao_labels] in Hl. unfold right_labels in Hl. apply in_app_or in Hl as [Hl|[<-|[]]]; [|apply (TQl (f_of_int 0)); [split; [|split]; reflexivity|discriminate]]. apply in_map_iff in Hl as (y & <- & Hy). cbn [l_text]. apply TQl; apply (row_quantile (gm_height m)); auto; lia. }
  split; [lia|]. split; [lia|]. intros d C1 C2 C3. constructor; try assumption; try lia.
  - split; [exact T2n|intros q f Q; apply (proj1 (TQ q Q))].
  - intros t. split; [apply T|]. specialize (TT t). lia.
Qed.
(** the hypotheses are met: a day on a chart of 1000 by 300 pixels, with two columns *)
Definition ex_measured : gmeasured := match graph_measure ex_opts with Ok (Some m) => m | _ => GMeasured (AMeasured 0 0 (AOpts iosevka [] false 0 false false)) 0 0 (AMeasured 0 0 (AOpts iosevka [] false 0 false false)) (AMeasured 0 0 (AOpts iosevka [] false 0 false false)) 0 0 0 0 ex_opts end.
Definition ex_dopts : dopts := DOpts None [Col 0 400 [10; 20; 30] (f_of_int 3); Col 500 300 [40; 128] (f_of_int 7)] [Color 0 0 0; Color 9 9 9; Color 80 0 0] k128 (fun _ => [55]).
Example C66_ex :
  drawable ex_opts ex_measured ex_dopts /\ (gm_x ex_measured, gm_y ex_measured, gm_width ex_measured, gm_height ex_measured) = (42, 26, 911, 250) /\ 102 <= gm_width ex_measured /\
  len (ao_labels (am_opts (gm_left ex_measured))) = 9 /\ len (ao_labels (am_opts (gm_bottom ex_measured))) = 12 /\ obs_max_x (d_columns ex_dopts) = 500.
Proof.
  split; [|vm_compute; repeat split; discriminate].
  assert (gm_height ex_measured = 250 /\ gm_width ex_measured = 911) as [EH EW] by (vm_compute; auto).
  constructor; rewrite ?EH, ?EW.
  - vm_compute. reflexivity.
  - vm_compute. discriminate.
  - vm_compute. discriminate.
  - split; vm_compute; reflexivity.
  - lia.
  - lia.
  - split; [discriminate|]. intros q f E. injection E as <-. discriminate.
  - intros t. split; [discriminate|]. cbn. lia.
  - intros c [<-|[<-|[]]]; cbn; lia.
  - intros _ c [<-|[<-|[]]]; (split; [cbn; lia|]); intros v Hv; apply k128_unit; cbn in Hv; intuition subst; lia.
  - cbn. lia.
Qed.
Print Assumptions C67_times.
Print Assumptions C66_picture.
