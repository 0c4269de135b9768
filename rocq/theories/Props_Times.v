(** Property C83: the times on a chart. *)
From Coq Require Import ZArith Reals List Bool Lia Sorted.
From Coq Require Import Floats.SpecFloat.
From Flocq Require Import Core.Core IEEE754.BinarySingleNaN.
From Verif Require Import Base Pb PbRecord Merge Draw DrawSpec Axis AxisSpec Graph GraphSpec GraphProofs Props_Draw Props_Graph Server Render Props_Render.
From Verif Require Import Font FontSpec FontProofs Props_Font Format FormatSpec Props_Format Times TimesSpec TimesProofs.
Import ListNotations.
Open Scope Z_scope.

(** The calendar: every day has exactly one date. *)
Theorem C83_calendar : (forall k, exists t, on_day k t) /\ (forall k t t', on_day k t -> on_day k t' -> t = t') /\
  (forall k k' t, on_day k t -> on_day k' t -> k = k') /\ (forall k t, on_day k t -> real_date t) /\ (forall t, real_date t -> exists k, on_day k t).
Proof.
  split; [|split; [|split; [|split]]].
  - intros k. set (abs := (k + days_to_1970) * 86400). destruct (Z_le_gt_dec 0 (k + days_to_1970)) as [C|C].
    + destruct (abs_date_ok abs ltac:(unfold abs; lia)) as (y & H). destruct (abs_date abs) as [m d]. destruct H as [H _]. exists (y, m, d). replace k with (abs / 86400 - days_to_1970); [exact H|]. unfold abs. rewrite Z.div_mul by lia. ring.
    + assert (D : forall n : nat, exists t', on_day (- Z.of_nat n) t').
      { induction n as [|n [t' IH]]; [exists (1970, 1, 1); constructor|]. destruct (on_day_number _ _ IH) as [R' _]. destruct (prev_ok t' R') as (p & Rp & Np). exists p. apply on_previous; [exact Rp|]. rewrite Np. replace (- Z.of_nat (S n) + 1) with (- Z.of_nat n) by lia. exact IH. }
      destruct (D (Z.to_nat (- k))) as [t H]. exists t. unfold days_to_1970 in C. rewrite Z2Nat.id in H by lia. now rewrite Z.opp_involutive in H.
  - intros k t t' H H'. destruct (on_day_number _ _ H), (on_day_number _ _ H'). apply day_number_inj; congruence.
  - intros k k' t H H'. destruct (on_day_number _ _ H), (on_day_number _ _ H'). congruence.
  - intros k t H. apply (on_day_number _ _ H).
  - intros t R. exists (day_number t). now apply day_number_on.
Qed.
Print Assumptions C83_calendar.
(** The text of a time, in nanoseconds since 1970, says month, day, hour and minute on
    the clocks of the zone. *)
Theorem C83_text : forall zone x, is_zone zone -> is_i64 x ->
  let s := x / 1000000000 in clock_text (s + zone s) (time_text zone x).
Proof.
  intros zone x Hz Hx s. unfold time_text. rewrite unix_floor. fold s. assert (Hs : - 2 ^ 34 < s < 2 ^ 34).
  { unfold is_i64 in Hx. unfold s. split; [apply Z.lt_le_trans with (- 2 ^ 63 / 1000000000); [reflexivity|apply Z.div_le_mono; lia]|apply Z.div_lt_upper_bound; lia]. }
  specialize (Hz s). unfold absolute, seconds_per_day. rewrite Z.mod_small by (unfold days_to_1970; lia).
  pose proof (format_ok (s + zone s + days_to_1970 * 86400) ltac:(unfold days_to_1970; lia)) as F. now replace (s + zone s + days_to_1970 * 86400 - days_to_1970 * 86400) with (s + zone s) in F by ring.
Qed.
Print Assumptions C83_text.

Lemma clock_ranges local : 0 <= local mod 86400 / 3600 < 24 /\ 0 <= local mod 3600 / 60 < 60.
Proof.
  pose proof (Z.mod_pos_bound local 86400 ltac:(lia)). pose proof (Z.mod_pos_bound local 3600 ltac:(lia)).
  split; (split; [apply Z.div_pos; lia|apply Z.div_lt_upper_bound; lia]).
Qed.
Lemma two_ranges n : 0 <= n < 100 -> 0 <= n / 10 < 10 /\ 0 <= n mod 10 < 10 /\ n = 10 * (n / 10) + n mod 10.
Proof. intros H. split; [split; [apply Z.div_pos; lia|apply Z.div_lt_upper_bound; lia]|]. split; [apply Z.mod_pos_bound; lia|apply Z.div_mod; lia]. Qed.
Lemma cons_inv (x y : Z) l l' : x :: l = y :: l' -> x = y /\ l = l'.
Proof. intros E. injection E. auto. Qed.
Lemma plain_inj a b c t t' : 0 <= a < 100 -> 0 <= b < 100 -> c < 48 -> plain_number a ++ c :: t = plain_number b ++ c :: t' -> a = b /\ t = t'.
Proof.
  intros Ha Hb Hc. unfold plain_number, two_digits. pose proof (two_ranges a Ha). pose proof (two_ranges b Hb).
  destruct (Z.ltb_spec a 10), (Z.ltb_spec b 10); cbn [app]; intros E; repeat match goal with E : _ :: _ = _ :: _ |- _ => apply cons_inv in E as [? E] end;
  try (split; [lia|assumption]); try lia; exfalso; lia.
Qed.
Lemma says_inj m d h n m' d' h' n' : 1 <= m <= 12 -> 1 <= m' <= 12 -> 1 <= d <= 31 -> 1 <= d' <= 31 -> 0 <= h < 24 -> 0 <= h' < 24 -> 0 <= n < 60 -> 0 <= n' < 60 ->
  says_time m d h n = says_time m' d' h' n' -> m = m' /\ d = d' /\ h = h' /\ n = n'.
Proof.
  intros Hm Hm' Hd Hd' Hh Hh' Hn Hn' E. unfold says_time in E. cbn [app] in E. apply plain_inj in E as [-> E]; [|lia|lia|lia]. apply plain_inj in E as [-> E]; [|lia|lia|lia].
  unfold two_digits in E. cbn [app] in E. repeat match goal with E : _ :: _ = _ :: _ |- _ => apply cons_inv in E as [? E] end. pose proof (two_ranges h ltac:(lia)). pose proof (two_ranges h' ltac:(lia)). pose proof (two_ranges n ltac:(lia)). pose proof (two_ranges n' ltac:(lia)). repeat split; lia.
Qed.
Lemma clock_date local y m d : on_day (local / 86400) (y, m, d) -> 1 <= m <= 12 /\ 1 <= d <= 31.
Proof. intros H. destruct (on_day_number _ _ H) as [[A B] _]. pose proof (length_28 y m). lia. Qed.
(** They take 11 to 13 characters, all with glyphs (for any number at all). *)
Theorem C83_length : forall zone x, 11 <= len (time_text zone x) <= 13 /\ Forall printable (time_text zone x).
Proof.
  intros zone x. unfold time_text. set (abs := absolute _ _). assert (Ha : 0 <= abs) by (apply Z.mod_pos_bound; lia). clearbody abs.
  destruct (format_ok abs Ha) as (y & m & d & H & ->). set (local := abs - _) in *. destruct (clock_date _ _ _ _ H) as [Hm Hd]. destruct (clock_ranges local) as [Hh Hn].
  set (h := local mod 86400 / 3600) in *. set (n := local mod 3600 / 60) in *. unfold says_time, plain_number.
  pose proof (two_ranges m ltac:(lia)). pose proof (two_ranges d ltac:(lia)). pose proof (two_ranges h ltac:(lia)). pose proof (two_ranges n ltac:(lia)).
  unfold two_digits. destruct (Z.ltb_spec m 10), (Z.ltb_spec d 10); cbn [app]; (split; [unfold len; cbn [length]; lia|]); repeat (apply Forall_cons; [unfold printable; lia|]); apply Forall_nil.
Qed.
Print Assumptions C83_length.
Lemma same_date k k' y y' m d : on_day k (y, m, d) -> on_day k' (y', m, d) -> k < k' -> 365 <= k' - k.
Proof.
  intros H H' L. destruct (on_day_number _ _ H) as [_ E], (on_day_number _ _ H') as [_ E']. cbn [day_number] in *.
  assert (S : forall n : nat, let K := fun y => year_start y + month_start y m in K y + 365 * Z.of_nat n <= K (y + Z.of_nat n)).
  { intros n K. induction n as [|n IH]; [change (Z.of_nat 0) with 0; unfold K; rewrite ?Z.mul_0_r, ?Z.add_0_r; apply Z.le_refl|]. replace (y + Z.of_nat (S n)) with (y + Z.of_nat n + 1) by lia. unfold K in *. rewrite year_next. unfold month_start in *. set (z := y + Z.of_nat n) in *. pose proof (leap_day_range z). pose proof (leap_day_range (z + 1)). destruct (2 <? m); lia. }
  destruct (Z_lt_le_dec y y') as [C|C].
  - specialize (S (Z.to_nat (y' - y))). cbv zeta in S. rewrite Z2Nat.id in S by lia. replace (y + (y' - y)) with y' in S by ring. assert (1 <= y' - y) by lia. lia.
  - exfalso. destruct (Z.eq_dec y y') as [->|N]; [lia|]. assert (C' : y' < y) by lia. pose proof (year_mono _ _ C') as Y. unfold month_start in *. pose proof (leap_day_range y). pose proof (leap_day_range y'). destruct (2 <? m); lia.
Qed.
(** Two moments at least a minute and at most 364 days apart have different texts, if
    the clocks were not changed between them. *)
Theorem C83_distinct : forall zone x x', is_zone zone -> is_i64 x -> is_i64 x' -> zone (x / 1000000000) = zone (x' / 1000000000) ->
  60 * 1000000000 <= x' - x <= 364 * 86400 * 1000000000 -> time_text zone x <> time_text zone x'.
Proof.
  intros zone x x' Hz Hx Hx' Ez Hd E. destruct (C83_text zone x Hz Hx) as (y & m & d & H & T). destruct (C83_text zone x' Hz Hx') as (y' & m' & d' & H' & T'). rewrite T, T' in E. rewrite Ez in *. clear T T'.
  assert (Q : 60 <= x' / 1000000000 - x / 1000000000 <= 364 * 86400 + 1).
  { pose proof (Z.div_mod x 1000000000 ltac:(lia)). pose proof (Z.mod_pos_bound x 1000000000 ltac:(lia)). pose proof (Z.div_mod x' 1000000000 ltac:(lia)). pose proof (Z.mod_pos_bound x' 1000000000 ltac:(lia)). lia. }
  set (l := x / 1000000000 + _) in *. set (l' := x' / 1000000000 + _) in *. assert (Q' : 60 <= l' - l <= 364 * 86400 + 1) by (unfold l, l'; lia). clearbody l l'.
  destruct (clock_date _ _ _ _ H) as [Hm Hdd], (clock_date _ _ _ _ H') as [Hm' Hdd']. destruct (clock_ranges l) as [Hh Hn], (clock_ranges l') as [Hh' Hn'].
  apply says_inj in E as (-> & -> & Eh & En); try assumption.
  assert (B : Z.abs (l mod 86400 - l' mod 86400) < 60).
  { assert (M : forall z, z mod 86400 = 3600 * (z mod 86400 / 3600) + 60 * (z mod 3600 / 60) + z mod 60).
    { intros z. rewrite (Znumtheory.Zmod_div_mod 3600 86400 z) by (try lia; now exists 24). pose proof (Z.div_mod (z mod 86400) 3600 ltac:(lia)). rewrite (Znumtheory.Zmod_div_mod 60 86400 z) by (try lia; now exists 1440). rewrite (Znumtheory.Zmod_div_mod 60 3600 (z mod 86400)) by (try lia; now exists 60). pose proof (Z.div_mod ((z mod 86400) mod 3600) 60 ltac:(lia)). lia. }
    rewrite (M l), (M l'). pose proof (Z.mod_pos_bound l 60 ltac:(lia)). pose proof (Z.mod_pos_bound l' 60 ltac:(lia)). lia. }
  pose proof (Z.div_mod l 86400 ltac:(lia)). pose proof (Z.div_mod l' 86400 ltac:(lia)).
  destruct (Z.lt_trichotomy (l / 86400) (l' / 86400)) as [C|[C|C]]; [|lia|lia].
  pose proof (same_date _ _ _ _ _ _ H H' C). lia.
Qed.
Print Assumptions C83_distinct.
(** When the clocks are set back by an hour, the moments an hour apart have the same
    text; *)
Theorem C83_repeated_hour_refuted : forall zone x, is_zone zone -> is_i64 x -> is_i64 (x + 3600 * 1000000000) ->
  zone (x / 1000000000 + 3600) = zone (x / 1000000000) - 3600 -> time_text zone (x + 3600 * 1000000000) = time_text zone x.
Proof.
  intros zone x Hz Hx Hx' E. unfold time_text. rewrite !unix_floor. replace ((x + 3600 * 1000000000) / 1000000000) with (x / 1000000000 + 3600) by (rewrite Z.div_add by lia; reflexivity).
  unfold absolute. rewrite E. f_equal. f_equal. lia.
Qed.
Print Assumptions C83_repeated_hour_refuted.
(** and the year is not shown. *)
Theorem C83_year_refuted : forall zone x y y' m d, is_zone zone -> is_i64 x -> is_i64 (x + 365 * 86400 * 1000000000) -> zone (x / 1000000000 + 365 * 86400) = zone (x / 1000000000) ->
  let k := (x / 1000000000 + zone (x / 1000000000)) / 86400 in on_day k (y, m, d) -> on_day (k + 365) (y', m, d) ->
  time_text zone (x + 365 * 86400 * 1000000000) = time_text zone x.
Proof.
  intros zone x y y' m d Hz Hx Hx' E k H H'. destruct (C83_text zone x Hz Hx) as (y1 & m1 & d1 & H1 & T1). destruct (C83_text zone _ Hz Hx') as (y2 & m2 & d2 & H2 & T2). rewrite T1, T2.
  replace ((x + 365 * 86400 * 1000000000) / 1000000000) with (x / 1000000000 + 365 * 86400) in * by (rewrite Z.div_add by lia; reflexivity). rewrite E in *. set (l := x / 1000000000 + zone (x / 1000000000)) in *.
  replace (x / 1000000000 + 365 * 86400 + zone (x / 1000000000)) with (l + 365 * 86400) in * by (unfold l; lia). rewrite Z.div_add in H2 by lia. fold k in H1, H2.
  pose proof (proj1 (proj2 C83_calendar) _ _ _ H H1) as E1. pose proof (proj1 (proj2 C83_calendar) _ _ _ H' H2) as E2. injection E1; injection E2; intros; subst.
  rewrite Z.mod_add by lia. replace (l + 365 * 86400) with (l + 365 * 24 * 3600) by lia. rewrite Z.mod_add by lia. reflexivity.
Qed.
Print Assumptions C83_year_refuted.
(** * the chart *)
(** The labels below a chart stand, in order, at the moments that are multiples of the
    step, and say the time there; they are all different if the chart is of at most 364
    days without a change of the clocks. *)
Theorem C83_axis : forall zone o, g_time o = time_text zone -> is_zone zone -> 0 <= g_now o < 2 ^ 63 -> 0 < g_duration o < 2 ^ 63 -> 100 <= g_width o ->
  exists u ts labels, step_for (g_duration o / (g_width o / 100)) u /\ StronglySorted Z.lt ts /\
  (forall t, In t ts <-> g_now o - g_duration o < t <= g_now o /\ (u | t)) /\ bottom_labels o = Ok labels /\
  Forall2 (fun t l => clock_text (t / 1000000000 + zone (t / 1000000000)) (l_text l) /\ in_unit (l_pos l) /\
     (Rabs (val (l_pos l) - IZR (t - (g_now o - g_duration o)) / IZR (g_duration o)) <= / 2 ^ 48)%R) ts labels /\
  (g_duration o <= 364 * 86400 * 1000000000 -> (exists z, forall t, In t ts -> zone (t / 1000000000) = z) -> NoDup (map l_text labels)).
Proof.
  intros zone o Et Hz Hn Hd Hw. destruct (C67_times o ltac:(lia) Hd Hw) as (u & ts & labels & A & B & C & D & E). exists u, ts, labels. split; [exact A|]. split; [exact B|]. split; [exact C|]. split; [exact D|].
  assert (I64 : forall t, In t ts -> is_i64 t) by (intros t Ht; apply C in Ht; unfold is_i64; lia).
  assert (T : Forall2 (fun t l => l_text l = time_text zone t /\ in_unit (l_pos l) /\ (Rabs (val (l_pos l) - IZR (t - (g_now o - g_duration o)) / IZR (g_duration o)) <= / 2 ^ 48)%R) ts labels).
  { rewrite Et in E. exact E. }
  split.
  - clear - T I64 Hz. induction T as [|t l ts labels (H1 & H2 & H3) T IH]; constructor; [|apply IH; intros; apply I64; now right]. rewrite H1. split; [apply C83_text; [exact Hz|apply I64; now left]|]. now split.
  - intros Hl (z & Z0). assert (Us : 60 * 1000000000 <= u).
    { destruct A as [A _]. unfold is_unit, hours in A. destruct A as [->|(k & Hk & ->)]; lia. }
    assert (Rg : forall t, In t ts -> g_now o - g_duration o < t <= g_now o /\ (u | t)) by (intros t; apply C). clear - T B I64 Hz Z0 Rg Us Hl.
    induction T as [|t l ts labels (H1 & _) T IH]; [constructor|]. inversion B as [|? ? B' F]; subst. cbn [map]. constructor.
    + intros Hin. apply in_map_iff in Hin as (l' & E' & Hl'). assert (exists t', In t' ts /\ l_text l' = time_text zone t') as (t' & Ht' & E2).
      { clear - T Hl'. induction T as [|t l ts labels (H1 & _) T IH]; [destruct Hl'|]. destruct Hl' as [->|Hl']; [exists t; split; [now left|exact H1]|]. destruct (IH Hl') as (t' & A & B). exists t'. split; [now right|exact B]. }
      rewrite Forall_forall in F. specialize (F t' Ht'). destruct (Rg t (or_introl eq_refl)) as [R1 [q Q]], (Rg t' (or_intror Ht')) as [R2 [q' Q']].
      apply (C83_distinct zone t t' Hz (I64 t (or_introl eq_refl)) (I64 t' (or_intror Ht'))).
      * rewrite (Z0 t), (Z0 t'); [reflexivity|now right|now left].
      * assert (u <= t' - t) by (subst; assert (q < q') by nia; nia). lia.
      * congruence.
    + apply IH; [exact B'| | |]; intros; [apply I64|apply Z0|apply Rg]; now right.
Qed.
Print Assumptions C83_axis.
(** * every text of a chart *)
(** Go's texts: of quantiles, of the values at the quantiles of a record ([quantile]:
    Query, and the rounding to 16 bits), of times and of the largest rate *)
Definition go_texts (old : bool) (zone : Z -> Z) (quantile : drecord -> spec_float -> spec_float) (cdf : drecord -> Z -> spec_float) : graphics :=
  Graphics (fun r f => sprintf_3g old (quantile r f)) cdf sprintf_2f (time_text zone) (obs_text old).
(** They meet the assumptions of C66_drawable and C68_picture. *)
Theorem C83_texts : forall old zone quantile cdf newest,
  (forall f, valid_binary 53 1024 (quantile newest f) = true) -> (forall f, in_unit f -> two_digit_exponent (quantile newest f)) ->
  short_texts (go_texts old zone quantile cdf) newest.
Proof.
  intros old zone quantile cdf newest V T. split; [exact (proj1 C82_short)|]. split; [exact (proj2 C82_short old (quantile newest) V T)|].
  intros t. pose proof (proj1 (C83_length zone t)). cbn [go_texts gx_time]. lia.
Qed.
Print Assumptions C83_texts.
(** A chart, drawn with the embedded font and these texts on a new picture: C66's
    assumptions about texts are gone. *)
Theorem C83_chart : forall old zone quantile p newest,
  (forall f, valid_binary 53 1024 (quantile newest f) = true) -> (forall f, in_unit f -> two_digit_exponent (quantile newest f)) ->
  0 <= mp_padding p -> 0 <= mp_now p -> 0 < mp_dur p < 2 ^ 63 -> 52 <= mp_height p <= 2 ^ 24 -> 221 <= mp_width p <= 2 ^ 24 ->
  forall cdf cols, let gx := go_texts old zone quantile cdf in let d := DOpts None cols viridis (cdf newest) (obs_text old) in
  exists m, graph_measure (chart_opts gx p (Some newest)) = Ok (Some m) /\ mp_width p - 119 <= gm_width m <= mp_width p /\
  ((forall c, In c cols -> 0 <= col_x c /\ 0 <= col_w c /\ col_x c + col_w c <= gm_width m /\ 1 <= len (col_data c) <= 2 ^ 24 /\ forall v, In v (col_data c) -> in_unit (cdf newest v)) ->
   let W := mp_width p + 2 * mp_padding p in let H := mp_height p + 2 * mp_padding p in
   exists pl shown rank start c pix, chart_shows m d pl shown rank start /\ graph_draw iosevka_text m d = Ok (c, pix) /\ rgb_size c = (W, H) /\ shows_part W H c /\ is_image W H pix /\
   forall x y, 0 <= x < W -> 0 <= y < H -> pixel W pix x y = chart_pixel iosevka_shade m d pl shown rank start x y (opaque white)).
Proof.
  intros old zone quantile p newest V T HP Hn Hd Hh Hw cdf cols gx d. destruct (C83_texts old zone quantile cdf newest V T) as (T2 & TQ & TT). fold gx in T2, TQ, TT.
  destruct (C66_drawable (chart_opts gx p (Some newest))) as (m & EM & _ & GW & DR); try assumption.
  - intros q Q. injection Q as <-. exact TQ.
  - exists m. split; [exact EM|]. split; [exact GW|]. intros HC W H. assert (DW : drawable (chart_opts gx p (Some newest)) m d).
    { apply DR; [intros c Hc; destruct (HC c Hc) as (A & B & C & _); auto|intros _ c Hc; destruct (HC c Hc) as (_ & _ & _ & D); exact D|intros _; vm_compute; split; congruence]. }
    destruct (C81_chart_new _ m d DW) as (pl & sh & rank & start & CS & c & pix & G & Sz & Pt & Im & Px); [intros c pix E; discriminate E|]. exists pl, sh, rank, start, c, pix. auto 10.
Qed.
Print Assumptions C83_chart.

(** * the hypotheses are met *)
(** half past one in the morning of 28 February 2024 in a zone an hour east, as the
    clocks show it: nanoseconds since 1970 *)
Definition ex_time : Z := 1709080200 * 1000000000.
Example C83_ex : is_zone (fun _ => 3600) /\ is_i64 ex_time /\ time_text (fun _ => 3600) ex_time = [50; 47; 50; 56; 32; 64; 32; 48; 49; 58; 51; 48] /\
  time_text (fun _ => 3600) (ex_time + 86400 * 1000000000) = [50; 47; 50; 57; 32; 64; 32; 48; 49; 58; 51; 48] /\ time_text (fun _ => -3600) 0 = [49; 50; 47; 51; 49; 32; 64; 32; 50; 51; 58; 48; 48].
Proof. split; [intros s; lia|]. split; [unfold is_i64, ex_time; lia|]. repeat split; vm_compute; reflexivity. Qed.
(** the clocks of Berlin in October 2025: back at 3:00 on the 26th *)
Definition ex_zone (s : Z) : Z := if s <? 1761440400 then 7200 else 3600.
Example C83_ex_repeated : is_zone ex_zone /\ ex_zone (1761438600 + 3600) = ex_zone 1761438600 - 3600 /\
  time_text ex_zone (1761438600 * 1000000000) = [49; 48; 47; 50; 54; 32; 64; 32; 48; 50; 58; 51; 48] /\ time_text ex_zone (1761438600 * 1000000000 + 3600 * 1000000000) = [49; 48; 47; 50; 54; 32; 64; 32; 48; 50; 58; 51; 48].
Proof. split; [intros s; unfold ex_zone; destruct (_ <? _); lia|]. repeat split; vm_compute; reflexivity. Qed.
(** a day in 2021 and the same in 2022 *)
Example C83_ex_year : on_day 18993 (2022, 1, 1) /\ on_day (18993 + 365) (2023, 1, 1).
Proof.
  assert (R : forall y, real_date (y, 1, 1)) by (intros y; split; [lia|cbn; lia]). split; [exact (day_number_on _ (R 2022))|exact (day_number_on _ (R 2023))].
Qed.
(** C66's example of a chart, in that zone *)
Example C83_ex_chart : exists o, g_time o = time_text ex_zone /\ is_zone ex_zone /\ 0 <= g_now o < 2 ^ 63 /\ 0 < g_duration o < 2 ^ 63 /\ 100 <= g_width o /\
  match bottom_labels o with Ok ls => len ls = 12 /\ map l_text (firstn 2 ls) = [[49; 50; 47; 49; 57; 32; 64; 32; 48; 52; 58; 48; 48]; [49; 50; 47; 49; 57; 32; 64; 32; 48; 54; 58; 48; 48]] | _ => False end.
Proof.
  exists (GOpts None (g_now ex_opts) (g_duration ex_opts) 1000 300 5 sprintf_2f (time_text ex_zone)). split; [reflexivity|]. split; [apply C83_ex_repeated|]. cbn [g_now g_duration g_width].
  split; [vm_compute; split; congruence|]. split; [vm_compute; split; congruence|]. split; [lia|]. vm_compute. split; reflexivity.
Qed.
(** C82's quantiles and C66's columns make a chart *)
Example C83_ex_columns : (forall f, valid_binary 53 1024 (ex_quantile f) = true) /\ (forall f, in_unit f -> two_digit_exponent (ex_quantile f)) /\
  forall c, In c (d_columns ex_dopts) -> 0 <= col_x c /\ 0 <= col_w c /\ col_x c + col_w c <= 1000 - 119 /\ 1 <= len (col_data c) <= 2 ^ 24 /\ forall v, In v (col_data c) -> in_unit (k128 v).
Proof.
  split; [intros f; unfold ex_quantile; destruct (SFleb _ _); vm_compute; reflexivity|]. split; [exact ex_quantile_short|].
  intros c [<-|[<-|[]]]; cbn [col_x col_w col_data]; (split; [lia|]; split; [lia|]; split; [lia|]; split; [cbn; lia|]); intros v Hv; apply k128_unit; cbn in Hv; intuition subst; lia.
Qed.
