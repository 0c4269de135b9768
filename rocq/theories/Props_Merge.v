(** Properties C38 and C39: merging records, and the columns of a graph. *)
From Coq Require Import ZArith List Lia Bool.
From Coq Require Import Floats.SpecFloat.
From Verif Require Import Base Pb PbRecord Float FloatProofs Merge MergeSpec MergeProofs.
Import ListNotations.
Open Scope Z_scope.

(** * C38 *)
(** Merge succeeds exactly for a non-empty list of readable t-digest records
    (with a usable compression) *)
Theorem C38_accepts :
  forall p l, (exists out, merge p l = Ok out) <->
  l <> [] /\ tp_new p = true /\ forall r, In r l -> d_kind r = s_tdigest /\ tp_valid p (d_dist r) = true.
Proof.
  intros p l. split.
  - intros (out & E). apply merge_inv in E. destruct E as (r0 & rest & -> & Hn & Hv & _).
    split; [discriminate|]. split; [assumption|]. rewrite forallb_forall in Hv. intros r Hr. specialize (Hv r Hr).
    apply andb_true_iff in Hv. destruct Hv as [Hk Hv]. split; [|assumption]. now apply beqb_eq.
  - intros (Hne & Hn & Hv). apply merge_total; auto. apply forallb_forall. intros r Hr. destruct (Hv r Hr) as [Hk ->].
    rewrite Hk. reflexivity.
Qed.
(** Everything but the ids of the extremes: whatever the order of the records *)
Theorem C38_metadata :
  forall p l out,
  (forall r, In r l -> fnan (d_min r) = false /\ fnan (d_max r) = false) ->
  is_i64 (total d_obs l) -> is_i64 (total merge_count l) ->
  merge p l = Ok out ->
  smallest d_start (d_start out) l /\
  largest d_end (d_end out) l /\
  d_obs out = total d_obs l /\
  fsmallest d_min (d_min out) l /\
  flargest d_max (d_max out) l /\
  d_merged out = total merge_count l /\
  d_kind out = s_tdigest /\
  d_dist out = tp_marshal p (map d_dist l).
Proof.
  intros p l out Hnan Ho Hm E. apply merge_inv in E. destruct E as (r0 & rest & -> & Hn & Hv & ->).
  cbn [d_start d_end d_obs d_min d_max d_merged d_kind d_dist].
  split; [apply merge_start_ok|]. split; [apply merge_end_ok|]. split; [rewrite merge_obs_eq; now apply i64_id|].
  split; [|split; [|split; [rewrite merge_merged_eq; now apply i64_id|auto]]].
  - destruct (merge_min_ok rest (d_min r0, [])) as (_ & B & C & D).
    { apply Hnan. now left. } { intros r Hr. apply Hnan. now right. }
    set (m' := merge_min rest (d_min r0, [])) in *. cbn [fst] in *. split.
    + destruct D as [->|(_ & r & R1 & ->)]; [exists r0; split; [now left|reflexivity]|exists r; split; [now right|reflexivity]].
    + intros r [<-|Hr]; auto.
  - destruct (merge_max_ok rest (d_max r0, [])) as (_ & B & C & D).
    { apply Hnan. now left. } { intros r Hr. apply Hnan. now right. }
    set (m' := merge_max rest (d_max r0, [])) in *. cbn [fst] in *. split.
    + destruct D as [->|(_ & r & R1 & ->)]; [exists r0; split; [now left|reflexivity]|exists r; split; [now right|reflexivity]].
    + intros r [<-|Hr]; auto.
Qed.
(** The id of an extreme belongs to a record having that extreme, provided the
    first record does not have it. *)
Theorem C38_ids_partial :
  forall p r0 rest out,
  (forall r, In r (r0 :: rest) -> fnan (d_min r) = false /\ fnan (d_max r) = false) ->
  merge p (r0 :: rest) = Ok out ->
  (d_min out <> d_min r0 -> exists r, In r rest /\ d_min out = d_min r /\ d_minid out = d_minid r) /\
  (d_max out <> d_max r0 -> exists r, In r rest /\ d_max out = d_max r /\ d_maxid out = d_maxid r).
Proof.
  intros p r0 rest out Hnan E. apply merge_inv in E. destruct E as (x & y & E & Hn & Hv & ->). injection E as <- <-.
  cbn [d_min d_max d_minid d_maxid]. split; intros H.
  - destruct (merge_min_ok rest (d_min r0, [])) as (_ & _ & _ & D).
    { apply Hnan. now left. } { intros r Hr. apply Hnan. now right. }
    set (m' := merge_min rest (d_min r0, [])) in *. cbn [fst] in *.
    destruct D as [->|(_ & r & R1 & ->)]; [contradiction|]. exists r. auto.
  - destruct (merge_max_ok rest (d_max r0, [])) as (_ & _ & _ & D).
    { apply Hnan. now left. } { intros r Hr. apply Hnan. now right. }
    set (m' := merge_max rest (d_max r0, [])) in *. cbn [fst] in *.
    destruct D as [->|(_ & r & R1 & ->)]; [contradiction|]. exists r. auto.
Qed.
(** When the first record has the extreme the id is dropped: merging a single
    record loses both its ids. *)
Definition mg_f3 : Z := 0x4008000000000000.
Definition mg_f5 : Z := 0x4014000000000000.
Definition ex_tp : tparams := TParams true (fun _ => true) (fun l => concat l).
Definition ex_r1 : drecord := DRec 10 20 4 [1] s_tdigest mg_f3 mg_f5 [77] [88] 0.
Definition ex_r2 : drecord := DRec 5 12 6 [2] s_tdigest 0 0x4020000000000000 [78] [89] 2.
Theorem C38_ids_refuted :
  exists p l out, (forall r, In r l -> fnan (d_min r) = false /\ fnan (d_max r) = false) /\ merge p l = Ok out /\
  ~ (exists r, In r l /\ d_min out = d_min r /\ d_minid out = d_minid r) /\
  ~ (exists r, In r l /\ d_max out = d_max r /\ d_maxid out = d_maxid r).
Proof.
  exists ex_tp, [ex_r1], (DRec 10 20 4 [1] s_tdigest mg_f3 mg_f5 [] [] 1).
  split; [intros r [<-|[]]; split; reflexivity|]. split; [reflexivity|].
  split; intros (r & [<-|[]] & _ & H); discriminate.
Qed.
Example C38_example :
  merge ex_tp [ex_r1; ex_r2] = Ok (DRec 5 20 10 [1; 2] s_tdigest 0 0x4020000000000000 [78] [89] 3) /\
  (forall r, In r [ex_r1; ex_r2] -> fnan (d_min r) = false /\ fnan (d_max r) = false) /\
  is_i64 (total d_obs [ex_r1; ex_r2]) /\ is_i64 (total merge_count [ex_r1; ex_r2]).
Proof.
  split; [reflexivity|]. split; [intros r [<-|[<-|[]]]; split; reflexivity|]. split; vm_compute; split; congruence.
Qed.

(** * C39 *)
(** A window that is at least one nanosecond per pixel, records that ended
    before [now], were pushed newest first and end within the window: the columns do not overlap
    (they come right to left), lie within the canvas, each shows the merge of
    exactly the records that meet each of its pixels, and every pixel met by a
    record is in a column. *)
Theorem C39_columns_partial :
  forall o w l cols,
  let now := mo_now o in
  let ps := mo_duration o / w in
  0 < w < 2 ^ 61 -> w <= mo_duration o < 2 ^ 61 ->
  (forall r, In r l -> d_start r < now /\ d_end r < now /\ now - d_start r < 2 ^ 61 /\ px_lo now ps w 0 <= d_end r) ->
  newest_first l ->
  mg_render o w l = Ok cols ->
  ForallOrdPairs (fun a b => col_x b + col_w b <= col_x a) cols /\
  (forall c, In c cols -> 0 <= col_x c /\ 1 <= col_w c /\ col_x c + col_w c <= w) /\
  (forall c p, In c cols -> in_col p c -> col_shows o c (filter (shown now ps w p) l)) /\
  (forall p r, 0 <= p < w -> In r l -> shown now ps w p r = true -> exists c, In c cols /\ in_col p c).
Proof.
  cbn zeta. intros o w l cols Hw Hd HR HN E.
  pose proof (Z.div_str_pos (mo_duration o) w ltac:(lia)) as Hps.
  pose proof (Z.mul_div_le (mo_duration o) w ltac:(lia)) as Hps2.
  assert (HR' : Forall (in_range (mo_now o)) l).
  { apply Forall_forall. intros r Hr. destruct (HR r Hr) as (A & B & C & D). unfold in_range, px_lo in *. repeat split; auto. nia. }
  destruct (mg_render_ok o w l cols Hw Hd HR' HN E) as [[A B C D F] U].
  assert (Hsh : forall p, 0 <= p -> filter (drawn (mo_now o) (mo_duration o / w) w p) l = filter (shown (mo_now o) (mo_duration o / w) w p) l).
  { intros p Hp. apply filter_ext_in. intros r Hr. destruct (HR r Hr) as (_ & _ & _ & L). unfold drawn, shown. f_equal.
    destruct (Z.leb_spec p 0) as [P|P]; [|reflexivity]. cbn [orb]. replace p with 0 by lia. symmetry. apply Z.leb_le. exact L. }
  split; [assumption|]. split; [|split].
  - intros c Hc. specialize (A c Hc). specialize (U c Hc). lia.
  - intros c p Hc Hp. specialize (B c p Hc Hp). specialize (A c Hc). unfold in_col in Hp.
    replace (0 <=? p) with true in B by lia. rewrite Hsh in B by lia. exact B.
  - intros p r Hp Hr Hs. apply F; [lia|]. replace (0 <=? p) with true by lia. rewrite Hsh by lia.
    intros X. assert (I : In r (filter (shown (mo_now o) (mo_duration o / w) w p) l)) by (apply filter_In; auto).
    rewrite X in I. destruct I.
Qed.
(** and the columns are produced, whatever the records, when every record can
    be merged *)
Theorem C39_produced_partial :
  forall o w l, 0 < w < 2 ^ 61 -> w <= mo_duration o < 2 ^ 61 ->
  tp_new (mo_params o) = true -> (forall l r, merge (mo_params o) l = Ok r -> mo_sample o r <> None) ->
  (forall r, In r l -> d_kind r = s_tdigest /\ tp_valid (mo_params o) (d_dist r) = true) ->
  exists cols, mg_render o w l = Ok cols.
Proof.
  intros o w l Hw Hd Hn Hs Hl. apply mg_render_total; auto; [split; auto|].
  apply forallb_forall. intros r Hr. destruct (Hl r Hr) as [Hk Hv]. unfold mergeable. rewrite Hk, Hv. reflexivity.
Qed.
(** Without the hypothesis that records end within the window: the records that
    ended before it are drawn in pixel 0 as well, the other pixels are exact *)
Theorem C39_other_pixels_partial :
  forall o w l cols,
  let now := mo_now o in
  let ps := mo_duration o / w in
  0 < w < 2 ^ 61 -> w <= mo_duration o < 2 ^ 61 ->
  (forall r, In r l -> d_start r < now /\ d_end r < now /\ now - d_start r < 2 ^ 61 /\ now - d_end r < 2 ^ 61) ->
  newest_first l ->
  mg_render o w l = Ok cols ->
  ForallOrdPairs (fun a b => col_x b + col_w b <= col_x a) cols /\
  (forall c, In c cols -> 0 <= col_x c /\ 1 <= col_w c /\ col_x c + col_w c <= w) /\
  (forall c p, In c cols -> in_col p c -> 0 < p -> col_shows o c (filter (shown now ps w p) l)) /\
  (forall p r, 0 <= p < w -> In r l -> shown now ps w p r = true -> exists c, In c cols /\ in_col p c).
Proof.
  cbn zeta. intros o w l cols Hw Hd HR HN E.
  assert (HR' : Forall (in_range (mo_now o)) l) by (apply Forall_forall; intros r Hr; apply HR; exact Hr).
  destruct (mg_render_ok o w l cols Hw Hd HR' HN E) as [[A B C D F] U].
  split; [assumption|]. split; [|split].
  - intros c Hc. specialize (A c Hc). specialize (U c Hc). lia.
  - intros c p Hc Hp Hp0. specialize (B c p Hc Hp). 
    replace (0 <=? p) with true in B by lia. 
    rewrite (filter_ext_in _ (shown (mo_now o) (mo_duration o / w) w p)) in B; [exact B|].
    intros r _. unfold drawn, shown. replace (p <=? 0) with false by lia. reflexivity.
  - intros p r Hp Hr Hs. apply F; [lia|]. replace (0 <=? p) with true by lia.
    intros X. assert (I : In r (filter (drawn (mo_now o) (mo_duration o / w) w p) l)).
    { apply filter_In. split; [assumption|]. unfold drawn, shown in *. apply andb_true_iff in Hs. destruct Hs as [-> ->]. now rewrite orb_true_r. }
    rewrite X in I. destruct I.
Qed.
(** Non-vacuity: three records, two of which overlap, one reaching out of the
    window on the left. *)
Definition ex_o : moptions := MOpts 1000 100 ex_tp (fun r => Some (d_dist r)).
Definition ex_rec (s e i : Z) : drecord := DRec s e 4 [i] s_tdigest mg_f3 mg_f5 [77] [88] 1.
Definition ex_recs : list drecord := [ex_rec 970 990 1; ex_rec 950 975 2; ex_rec 800 920 3].
Example C39_example :
  0 < 10 < 2 ^ 61 /\ 10 <= mo_duration ex_o < 2 ^ 61 /\
  (forall r, In r ex_recs -> d_start r < 1000 /\ d_end r < 1000 /\ 1000 - d_start r < 2 ^ 61 /\ px_lo 1000 10 10 0 <= d_end r) /\
  newest_first ex_recs /\
  match mg_render ex_o 10 ex_recs with
  | Ok cols => map (fun c => (col_x c, col_w c, col_data c)) cols = [(8, 2, [1]); (7, 1, [1; 2]); (5, 2, [2]); (0, 3, [3])]
  | _ => False
  end.
Proof.
  split; [lia|]. split; [cbn; lia|]. split; [|split; [cbn; lia|vm_compute; reflexivity]].
  intros r [<-|[<-|[<-|[]]]]; cbn; lia.
Qed.
(** The excluded cases.  A record that ended before the window began is drawn
    in pixel 0 although it meets no pixel (the server pushes one such record). *)
Theorem C39_older_record_refuted :
  exists o w l c, 0 < w /\ w <= mo_duration o /\ newest_first l /\
  (forall r, In r l -> d_start r <= d_end r < mo_now o) /\
  mg_render o w l = Ok [c] /\ in_col 0 c /\
  (forall p, 0 <= p < w -> filter (shown (mo_now o) (mo_duration o / w) w p) l = []).
Proof.
  exists ex_o, 10, [ex_rec 100 200 1]. eexists. split; [lia|]. split; [cbn; lia|]. split; [cbn; auto|].
  split; [intros r [<-|[]]; cbn; lia|]. split; [vm_compute; reflexivity|]. split; [unfold in_col; cbn; lia|].
  intros p Hp. cbn [filter]. unfold shown, px_lo, px_hi. cbn [ex_rec d_start d_end mo_now ex_o mo_duration].
  change (100 / 10) with 10. replace (1000 - (10 - p) * 10 <=? 200) with false by lia. rewrite andb_false_r. reflexivity.
Qed.
(** A window shorter than one nanosecond per pixel, or no pixels at all, is a
    division by zero. *)
Theorem C39_small_duration_refuted :
  exists o w l, 0 < w /\ 0 < mo_duration o /\ newest_first l /\
  (forall r, In r l -> d_start r <= d_end r < mo_now o) /\ mg_render o w l = Panic.
Proof.
  exists (MOpts 1000 5 ex_tp (fun r => Some (d_dist r))), 10, [ex_rec 997 998 1]. split; [lia|]. split; [cbn; lia|]. split; [cbn; auto|].
  split; [intros r [<-|[]]; cbn; lia|]. vm_compute. reflexivity.
Qed.
(** A record that ends exactly at [now] is drawn outside the canvas. *)
Theorem C39_end_now_refuted :
  exists o w l c rest, 0 < w /\ w <= mo_duration o /\ newest_first l /\
  (forall r, In r l -> d_start r <= d_end r <= mo_now o) /\
  mg_render o w l = Ok (c :: rest) /\ w < col_x c + col_w c.
Proof.
  exists ex_o, 10, [ex_rec 1000 1000 1]. eexists. eexists. split; [lia|]. split; [cbn; lia|]. split; [cbn; auto|].
  split; [intros r [<-|[]]; cbn; lia|]. split; [vm_compute; reflexivity|]. cbn. lia.
Qed.

Print Assumptions C38_accepts.
Print Assumptions C38_metadata.
Print Assumptions C38_ids_partial.
Print Assumptions C39_columns_partial.
Print Assumptions C39_produced_partial.
Print Assumptions C39_other_pixels_partial.
