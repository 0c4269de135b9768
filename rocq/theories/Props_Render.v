(** Property C68: the picture a render request gets. *)
From Coq Require Import ZArith List Bool Lia String.
From Coq Require Import Floats.SpecFloat.
From Verif Require Import Base Pb PbRecord Float Merge MergeSpec MergeProofs Props_Merge Server ServerSpec Props_Server.
From Verif Require Import Draw DrawSpec DrawProofs Axis AxisSpec Props_Draw Graph GraphSpec Props_Graph Render.
Import ListNotations.
Open Scope Z_scope.

(** the texts take up to four, nine and 13 characters *)
Definition short_texts (gx : graphics) (newest : drecord) : Prop :=
  short_text 4 (gx_fmt2 gx) /\ short_text 9 (gx_query gx newest) /\ (forall t, 1 <= len (gx_time gx t) <= 13).
(** a chart that is large enough *)
Definition fair_size (p : mparams) : Prop := 221 <= mp_width p <= 2 ^ 24 /\ 52 <= mp_height p <= 2 ^ 24 /\ 0 <= mp_padding p /\ 0 <= mp_now p /\ mp_width p <= mp_dur p < 2 ^ 61.
(** the record meets the time of pixel [i] (see MergeSpec), or it ended before the first
    pixel and [i] is that *)
Definition meets (now ps w i : Z) (rec : drecord) : bool :=
  (d_start rec <? px_hi now ps w i) && ((i =? 0) || (px_lo now ps w i <=? d_end rec)).
(** the colour, in row [j] from the top of [h], of the merge of the records [l]: the
    rank, among the values of the record [newest], of the quantile of that row *)
Definition row_color (o : moptions) (cdf : Z -> spec_float) (l : list drecord) (h j : Z) (c : color) : Prop :=
  exists out data i k, merge (mo_params o) l = Ok out /\ mo_sample o out = Some data /\ nearest_below (len data) h (h - 1 - j) i /\
  0 <= k <= 128 /\ cdf (nth (Z.to_nat i) data 0) = k128 k /\ c = nth (Z.to_nat (k * 255 / 128)) viridis white.

Lemma in_box_col (c : column) h x y : in_box (col_x c) 0 (col_w c) h x y = true <-> in_col x c /\ 0 <= y < h.
Proof. unfold in_box, in_col. lia. Qed.
Lemma heat_none sh rank colors h cols x y p : (forall c, In c cols -> ~ in_col x c) -> heat_picture sh rank colors h cols x y p = p.
Proof. intros N. apply heat_outside. intros c Hc. specialize (N c Hc). destruct (in_box _ _ _ _ _ _) eqn:E; [|reflexivity]. apply in_box_col in E. tauto. Qed.
Lemma heat_one sh rank colors h cols : ForallOrdPairs (fun a b => col_x b + col_w b <= col_x a) cols -> forall c x y p, In c cols -> in_col x c -> 0 <= y < h ->
  heat_picture sh rank colors h cols x y p = opaque (nth (Z.to_nat (rank (nth (Z.to_nat (sh (len (col_data c)) (h - 1 - y))) (col_data c) 0))) colors white).
Proof.
  induction 1 as [|a cols F O IH]; intros c x y p Hc Hx Hy; [destruct Hc|]. change (heat_picture sh rank colors h (a :: cols) x y p) with
    (heat_picture sh rank colors h cols x y (if in_box (col_x a) 0 (col_w a) h x y then opaque (nth (Z.to_nat (rank (nth (Z.to_nat (sh (len (col_data a)) (h - 1 - y))) (col_data a) 0))) colors white) else p)).
  destruct Hc as [->|Hc].
  - rewrite (proj2 (in_box_col c h x y)) by auto. apply heat_none. intros b Hb Ib. rewrite Forall_forall in F. specialize (F b Hb). unfold in_col in *. lia.
  - now apply IH.
Qed.
Lemma largest_ge cols w s : largest_at cols s -> (forall c, In c cols -> 0 <= col_x c /\ 1 <= col_w c /\ col_x c + col_w c <= w) -> 0 <= s.
Proof. intros [[_ ->]|(b & c & a & -> & -> & _)] H; [lia|]. destruct (H c); [apply in_or_app; right; now left|]. lia. Qed.

Section Request.
  Context (gx : graphics) (shade : list Z -> Z -> Z -> list Z -> list Z) (txt : rgb -> Z -> Z -> list Z -> list Z -> list Z) (o : soptions) (e : env) (r : request).
  Let f := form_value (rq_form r).
  Let metric := f (bytes_of "metric").
  Let now := get_int (f (bytes_of "now")) (e_clock e).
  Let dur := get_or (e_duration e) (f (bytes_of "duration")) (24 * 3600 * 1000000000).
  Let p := MParams now dur (get_int (f (bytes_of "width")) 1000) (get_int (f (bytes_of "height")) 350) (get_int (f (bytes_of "padding")) 0).
  Let opts := MOpts now dur (e_params e (get_or (e_float e) (f (bytes_of "compression")) 0x4014000000000000)) (e_sample e (get_int (f (bytes_of "samples")) 30)).

  (** the request is one for the picture of a metric with readable records that ended
      before [now]; [newest] is the newest *)
  Record render_request (newest : drecord) (drecs : list drecord) (buf : list Z) : Prop := {
    rr_draws : draws_cells shade 11 3 6 txt;
    rr_texts : short_texts gx newest;
    rr_size : fair_size p;
    rr_trusted : trusted o r; rr_get : rq_method r = method_get; rr_path : rq_path r = path_render; rr_accept : rq_accept r <> bytes_of "application/json";
    rr_metric : metric <> [];
    rr_start : is_i64 (now - dur);
    rr_query : exists first rest, e_query e metric now = (first :: rest, false) /\ buf = snd first /\ Forall2 holds_record (upto (now - dur) (first :: rest)) (newest :: drecs);
    rr_measure : e_measure e = measure_width gx;
    rr_load : e_load e newest = true;
    rr_new : tp_new (mo_params opts) = true;
    rr_samples : forall l rec, merge (mo_params opts) l = Ok rec -> exists data, mo_sample opts rec = Some data /\ 1 <= len data <= 2 ^ 24;
    rr_cdf : forall v, exists k, 0 <= k <= 128 /\ gx_cdf gx newest v = k128 k;   (* C46_dyadic *)
    rr_records : forall rec, In rec (newest :: drecs) -> d_kind rec = s_tdigest /\ tp_valid (mo_params opts) (d_dist rec) = true /\ d_start rec < now /\ d_end rec < now /\ now - d_start rec < 2 ^ 61 /\ now - d_end rec < 2 ^ 61;
    rr_order : newest_first (newest :: drecs)
  }.
  (** the columns of the chart: side by side, and every column shows the merge of exactly
      the records that meet the time of each of its pixels *)
  Definition true_columns (w : Z) (l : list drecord) (cols : list column) : Prop :=
    ForallOrdPairs (fun a b => col_x b + col_w b <= col_x a) cols /\
    (forall c, In c cols -> 0 <= col_x c /\ 1 <= col_w c /\ col_x c + col_w c <= w) /\
    (forall c i, In c cols -> in_col i c -> col_shows opts c (filter (meets now (dur / w) w i) l)) /\
    (forall i, 0 <= i < w -> filter (meets now (dur / w) w i) l <> [] -> exists c, In c cols /\ in_col i c).

  (** The answer is an image of the asked size, which is white but for the chart (C66) of
      these columns. *)
Theorem C68_picture :
    forall newest drecs buf, render_request newest drecs buf ->
    exists cols m pl sh rank start c pix,
    let d := DOpts None cols viridis (gx_cdf gx newest) (gx_rate gx) in
    let W := mp_width p + 2 * mp_padding p in
    let H := mp_height p + 2 * mp_padding p in
    graph_measure (chart_opts gx p (Some newest)) = Ok (Some m) /\ mp_width p - 119 <= gm_width m /\
    true_columns (gm_width m) (newest :: drecs) cols /\ drawable (chart_opts gx p (Some newest)) m d /\ chart_shows m d pl sh rank start /\
    serve o e r = Ok (Resp 200 (origin_of o) false (BImage cols (Some buf) p)) /\
    image_of gx txt (BImage cols (Some buf) p) = Ok (c, pix) /\ rgb_size c = (W, H) /\ shows_part W H c /\ is_image W H pix /\
    forall x y, 0 <= x < W -> 0 <= y < H -> pixel W pix x y = chart_pixel shade m d pl sh rank start x y (opaque white).
  Proof.
    intros newest drecs buf [D (T2 & TQ & TT) (Sw & Sh & SP & Sn & Sd) Ht Hm Hp Ha Hme Hi (first & rest & Hq & -> & HF) Em Hl Tn Hs Hk HR HN].
    assert (TQ' : forall q, g_query (chart_opts gx p (Some newest)) = Some q -> short_text 9 q) by (intros q E; injection E as <-; exact TQ).
    destruct (C66_drawable (chart_opts gx p (Some newest)) SP Sn ltac:(cbn [chart_opts g_duration]; lia) Sh Sw T2 TQ' TT) as (m & EM & GW & GW2 & DR).
    assert (EW : e_measure e p (Some newest) = Ok (Some (gm_width m))) by (rewrite Em; unfold measure_width; rewrite EM; reflexivity).
    assert (Hw61 : 0 < gm_width m < 2 ^ 61 /\ gm_width m <= mo_duration opts < 2 ^ 61).
    { change (mo_duration opts) with (mp_dur p). cbn [chart_opts g_width] in GW2. lia. }
    destruct Hw61 as [W1 W2].
    destruct (C39_produced_partial opts (gm_width m) (newest :: drecs) W1 W2 Tn) as (cols & EC).
    { intros l rec El. destruct (Hs l rec El) as (data & -> & _). discriminate. }
    { intros rec Hrec. split; apply (HR rec Hrec). }
    assert (TC : true_columns (gm_width m) (newest :: drecs) cols).
    { destruct (mg_render_ok opts (gm_width m) (newest :: drecs) cols W1 W2) as [[A B C O F] U]; [|exact HN|exact EC|].
      { apply Forall_forall. intros rec Hrec. apply (HR rec Hrec). }
      assert (DM : forall i, 0 <= i -> filter (drawn (mo_now opts) (mo_duration opts / gm_width m) (gm_width m) i) (newest :: drecs) = filter (meets now (dur / gm_width m) (gm_width m) i) (newest :: drecs)).
      { intros i Hi'. apply filter_ext. intros rec. unfold drawn, meets. change (mo_now opts) with now. change (mo_duration opts) with dur. f_equal. f_equal. apply eq_true_iff_eq. lia. }
      split; [exact O|]. split; [intros c Hc; destruct (A c Hc); specialize (U c Hc); lia|]. split.
      - intros c i Hc Hci. destruct (A c Hc). assert (0 <= i) by (unfold in_col in Hci; lia). pose proof (B c i Hc Hci) as X. cbv beta in X. replace (0 <=? i) with true in X by lia. rewrite DM in X by assumption. exact X.
      - intros i Hi' Ne. apply F; [lia|]. cbv beta. replace (0 <=? i) with true by lia. rewrite DM by lia. exact Ne. }
    pose proof (C53_image_partial o e r (first :: rest) first rest newest drecs (gm_width m) cols Ht Hm Hp Ha Hme Hi Hq eq_refl HF Hl EW EC) as SV.
    set (d := DOpts None cols viridis (gx_cdf gx newest) (gx_rate gx)).
    assert (DW : drawable (chart_opts gx p (Some newest)) m d).
    { destruct TC as (_ & O2 & O3 & _). apply DR.
      - intros c Hc. destruct (O2 c Hc). lia.
      - intros _ c Hc. destruct (O2 c Hc) as (A & B & C). destruct (O3 c (col_x c) Hc ltac:(unfold in_col; lia)) as ((out & Eo & Es) & _). destruct (Hs _ out Eo) as (data & Es' & L). rewrite Es in Es'. injection Es' as <-. split; [exact L|].
        intros v _. cbn [d d_map]. destruct (Hk v) as (k & Hk' & ->). now apply k128_unit.
      - intros _. vm_compute. split; congruence. }
    destruct (C66_new_canvas shade txt _ m d D DW) as (pl & sh & rank & start & CS & c & pix & G & Sz & Pt & I & Px).
    { intros c pix E. discriminate. }
    exists cols, m, pl, sh, rank, start, c, pix. cbv zeta. fold d.
    split; [exact EM|]. split; [cbn [chart_opts g_width] in GW2; lia|]. split; [exact TC|]. split; [exact DW|]. split; [exact CS|]. split; [exact SV|]. split; [|split; [exact Sz|split; [exact Pt|split; [exact I|exact Px]]]].
    inversion HF as [|? ? ? ? HB _]; subst. unfold image_of. unfold holds_record in HB. rewrite HB. cbn [bind]. rewrite EM. cbn [bind]. exact G.
  Qed.
  (** In that image there is a heat map of the window: its column [i] and row [j] have the
      colour of that quantile of the merge of exactly the records that meet the time of
      that column, and are white where there is none.  (The first column also shows
      older records, see C39.) *)
Theorem C68_heatmap :
    forall newest drecs buf, render_request newest drecs buf ->
    exists b c pix x0 y0 w h,
    let W := mp_width p + 2 * mp_padding p in
    let H := mp_height p + 2 * mp_padding p in
    serve o e r = Ok (Resp 200 (origin_of o) false b) /\ image_of gx txt b = Ok (c, pix) /\ rgb_size c = (W, H) /\ is_image W H pix /\
    mp_padding p <= x0 /\ mp_padding p <= y0 /\ x0 + w + mp_padding p <= W /\ y0 + h + mp_padding p <= H /\ mp_width p - 119 <= w /\ mp_height p - 50 <= h /\
    forall i j, 0 <= i < w -> 0 <= j < h ->
    let l := filter (meets now (dur / w) w i) (newest :: drecs) in
    (l = [] -> pixel W pix (x0 + i) (y0 + j) = opaque white) /\
    (l <> [] -> exists col, row_color opts (gx_cdf gx newest) l h j col /\ pixel W pix (x0 + i) (y0 + j) = opaque col).
  Proof.
    intros newest drecs buf RR. destruct (C68_picture newest drecs buf RR) as (cols & m & pl & sh & rank & start & c & pix & EM & GW & TC & DW & CS & SV & IM & Sz & Pt & I & Px).
    pose proof (rr_size _ _ _ RR) as (Sw & Sh & SP & Sn & Sd). destruct TC as (O1 & O2 & O3 & O4).
    set (d := DOpts None cols viridis (gx_cdf gx newest) (gx_rate gx)) in *.
    destruct (sizes _ _ d DW) as (labels & M & L1 & L2 & R1 & R2 & B1 & B2).
    pose proof (GraphProofs.ms_width _ _ _ M) as MW. pose proof (GraphProofs.ms_height _ _ _ M) as MH. destruct (GraphProofs.ms_pos _ _ _ M) as [P1 P2]. pose proof (GraphProofs.ms_bheight _ _ _ M) as BH.
    cbn [chart_opts g_width g_height g_padding] in MW, MH, P1, P2.
    exists (BImage cols (Some buf) p), c, pix, (gm_x m), (gm_y m), (gm_width m), (gm_height m). cbv zeta.
    split; [exact SV|]. split; [exact IM|]. split; [exact Sz|]. split; [exact I|].
    split; [lia|]. split; [lia|]. split; [lia|]. split; [lia|]. split; [exact GW|]. split; [destruct labels; lia|].
    intros i j Hi Hj. destruct CS as (_ & Sh' & Rk & St & _).
    assert (S0 : 0 <= start) by (destruct St as [->|(c0 & Hc0 & ->)]; [lia|apply (O2 c0 Hc0)]).
    destruct (C66_regions shade _ m d pl sh rank start (gm_x m + i) (gm_y m + j) (opaque white) DW ltac:(lia) S0) as (_ & HM & _).
    specialize (HM ltac:(lia) ltac:(lia)). rewrite Px by lia. rewrite HM. cbn [chart_opts g_query option_map]. clear HM.
    replace (gm_x m + i - gm_x m) with i by ring. replace (gm_y m + j - gm_y m) with j by ring. change (d_columns d) with cols. change (d_colors d) with viridis.
    split.
    - intros El. apply heat_none. intros c0 Hc0 Hci. destruct (O3 c0 i Hc0 Hci) as ((out & Eo & _) & _). rewrite El in Eo. discriminate.
    - intros Nl. destruct (O4 i Hi Nl) as (c0 & Hc0 & Hci). destruct (O3 c0 i Hc0 Hci) as ((out & Eo & Es) & _).
      destruct (rr_samples _ _ _ RR _ out Eo) as (data & Es' & Ld). rewrite Es in Es'. injection Es' as Ed. subst data.
      specialize (Sh' (len (col_data c0)) (gm_height m - 1 - j) Ld ltac:(lia)).
      destruct (rr_cdf _ _ _ RR (nth (Z.to_nat (sh (len (col_data c0)) (gm_height m - 1 - j))) (col_data c0) 0)) as (k & Hk & Ek).
      destruct (Rk (nth (Z.to_nat (sh (len (col_data c0)) (gm_height m - 1 - j))) (col_data c0) 0)) as (_ & Rk2).
      { cbn [d d_map]. rewrite Ek. now apply k128_unit. }
      { vm_compute. split; congruence. }
      specialize (Rk2 k Hk Ek). change (len (d_colors d) - 1) with 255 in Rk2.
      exists (nth (Z.to_nat (k * 255 / 128)) viridis white). split.
      + exists out, (col_data c0), (sh (len (col_data c0)) (gm_height m - 1 - j)), k. split; [exact Eo|]. split; [exact Es|]. split; [exact Sh'|]. split; [exact Hk|]. split; [exact Ek|reflexivity].
      + rewrite (heat_one _ _ _ _ cols O1 c0 i j (opaque white) Hc0 Hci Hj), Rk2. reflexivity.
  Qed.
  (** A width of less than 100 is not refused: the request panics. *)
Theorem C68_narrow_refuted :
    forall first rest newest, trusted o r -> rq_method r = method_get -> rq_path r = path_render -> metric <> [] ->
    e_query e metric now = (first :: rest, false) -> holds_record first newest -> e_load e newest = true -> e_measure e = measure_width gx ->
    0 <= mp_width p < 100 -> 50 <= mp_height p -> serve o e r = Panic.
  Proof.
    intros first rest newest Ht Hm Hp Hme Hq Hh Hl Em Hw Hhh. unfold serve. rewrite (proj1 (route o e r Ht Hm) Hp). unfold serve_render. fold f. fold metric. fold now. fold dur. fold p. fold opts.
    rewrite Hq. destruct first as [[st fin] buf]. unfold holds_record in Hh. cbn [snd] in Hh. cbn [render_loop]. rewrite Hh. cbn [bind rd_first]. rewrite Hl, Em. unfold measure_width.
    rewrite (C66_narrow_refuted (chart_opts gx p (Some newest)) Hhh Hw). cbn [bind]. destruct metric; [contradiction|]. reflexivity.
  Qed.
End Request.
(** the hypotheses are met *)
Definition ex_gx : graphics := Graphics (fun _ _ => [49; 46; 48]) (fun _ v => k128 (v mod 129)) (fun _ => [48; 46; 53; 48]) (fun t => [49; 47; 50]) (fun _ => [55]).
Definition ex_renv : env :=
  Env (fun _ _ => (map ex_buf [ex_rec 9000 9900 1; ex_rec 8000 8500 2], false)) ([], false) None (fun x => x) [110] 10000 (fun _ => Some 5000) (fun _ => None)
    (fun _ => ex_tp) (fun _ => true) (fun _ r => Some [hd 0 (d_dist r); 7]) (measure_width ex_gx).
Definition ex_rreq : request := Req None method_get path_render [(bytes_of "metric", [109]); (bytes_of "padding", bytes_of "4")] [].
Example C68_ex : render_request ex_gx Props_Axis.ex_shade Props_Axis.ex_txt (SOpts [] [] []) ex_renv ex_rreq (ex_rec 9000 9900 1) [ex_rec 8000 8500 2] (drec_marshal (ex_rec 9000 9900 1)).
Proof.
  constructor.
  - apply Props_Axis.ex_txt_draws.
  - split; [|split]; [split; [discriminate|intros; cbn; lia]|split; [discriminate|intros; cbn; lia]|intros; cbn; lia].
  - vm_compute. repeat split; congruence.
  - now left.
  - reflexivity.
  - reflexivity.
  - discriminate.
  - discriminate.
  - vm_compute. split; congruence.
  - eexists. eexists. split; [reflexivity|]. split; [reflexivity|].
    constructor; [vm_compute; reflexivity|]. constructor; [vm_compute; reflexivity|]. constructor.
  - reflexivity.
  - reflexivity.
  - reflexivity.
  - intros l rec El. eexists. split; [reflexivity|]. cbn. lia.
  - intros v. exists (v mod 129). split; [pose proof (Z.mod_pos_bound v 129); lia|reflexivity].
  - intros rec [<-|[<-|[]]]; vm_compute; repeat split; congruence.
  - cbn. split; [lia|]. exact (conj I I).
Qed.
Print Assumptions C68_heatmap.

(** the colours tell ranks apart: a greater rank is shown brighter (by the luminance of
    its colour, Rec. 709), and no rank is shown white, which means that there is no record *)
Definition luminance (c : color) : Z := 2126 * c_r c + 7152 * c_g c + 722 * c_b c.
Definition shown_color (rank : Z) : color := nth (Z.to_nat (rank * 255 / 128)) viridis white.
Theorem C68_brighter : forall k k', 0 <= k <= 128 -> 0 <= k' <= 128 ->
  (k < k' <-> luminance (shown_color k) < luminance (shown_color k')) /\ shown_color k <> white /\
  (0 <= c_r (shown_color k) < 256 /\ 0 <= c_g (shown_color k) < 256 /\ 0 <= c_b (shown_color k) < 256).
Proof.
  assert (T : forallb (fun k => forallb (fun k' => Bool.eqb (k <? k') (luminance (shown_color k) <? luminance (shown_color k'))) (map Z.of_nat (seq 0 129))
      && (c_r (shown_color k) <? 255) && (0 <=? c_r (shown_color k)) && (0 <=? c_g (shown_color k)) && (c_g (shown_color k) <? 256)
      && (0 <=? c_b (shown_color k)) && (c_b (shown_color k) <? 256)) (map Z.of_nat (seq 0 129)) = true) by (vm_compute; reflexivity).
  intros k k' Hk Hk'. rewrite forallb_forall in T.
  assert (I : forall z, 0 <= z <= 128 -> In z (map Z.of_nat (seq 0 129))).
  { intros z Hz. apply in_map_iff. exists (Z.to_nat z). split; [lia|]. apply in_seq. lia. }
  specialize (T k (I k Hk)). repeat rewrite andb_true_iff in T. destruct T as ((((((T & A) & B) & C) & D) & E) & F).
  rewrite forallb_forall in T. specialize (T k' (I k' Hk')). apply Bool.eqb_prop in T.
  split; [|split; [intros W; rewrite W in A; discriminate A|lia]].
  rewrite <- !Z.ltb_lt. rewrite T. tauto.
Qed.
Print Assumptions C68_brighter.
Corollary row_color_shown o cdf l h j c : row_color o cdf l h j c -> exists k, 0 <= k <= 128 /\ c = shown_color k.
Proof. intros (? & ? & ? & k & _ & _ & _ & Hk & _ & ->). eauto. Qed.
