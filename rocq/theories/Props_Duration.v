(** C87: what the texts of durations mean. *)
From Coq Require Import ZArith Reals List Bool Lia Lra.
From Verif Require Import Base Merge Draw Server Number NumberSpec NumberProofs Duration DurationSpec DurationFloat DurationProofs DurationValue DurationText.
Import ListNotations.
Open Scope Z_scope.

Lemma longest_eq : longest = max_i64.
Proof. reflexivity. Qed.
Lemma shorts l : Forall part_ok l -> Forall short l -> Forall fraction_nonneg l /\ Forall (fun p => 0 <= part_value p) l /\ values l = whole_total l /\ total_ns l = IZR (whole_total l).
Proof.
  induction l as [|p l IH]; intros P S; [repeat split; constructor|]. inversion P; subst. inversion S; subst. destruct (IH ltac:(assumption) ltac:(assumption)) as (A & B & C & D).
  destruct (short_value p) as (E & F & G & H); auto. split; [now constructor|]. split; [constructor; [lia|exact B]|]. cbn [values whole_total total_ns fold_right]. fold (values l) (whole_total l) (total_ns l).
  split; [lia|]. now rewrite D, G, plus_IZR.
Qed.
Lemma written_ok s neg l : written s neg l -> Forall part_ok l.
Proof. intros W. destruct W as [neg sg s l G P N|neg sg G]; [now apply (parts_ok s)|constructor]. Qed.

(** A text whose parts have no more digits after the point than their unit has powers of
    ten means exactly the sum of its parts, if that is not more than 2^63 - 1
    nanoseconds; otherwise it is refused. *)
Theorem C87_exact : forall s neg l, written s neg l -> Forall short l ->
  total_ns l = IZR (whole_total l) /\
  parse_duration s = if whole_total l <=? longest then Some (if neg then - whole_total l else whole_total l) else None.
Proof.
  intros s neg l W S. destruct (shorts l (written_ok s neg l W) S) as (A & B & C & D). split; [exact D|].
  rewrite (parse_written s neg l W A), (value_sum l B 0 ltac:(unfold max_i64; lia)), Z.add_0_l, C, longest_eq. now destruct (_ <=? _).
Qed.
Print Assumptions C87_exact.

(** With up to 22 digits after a point, every part is less than 1.02 nanoseconds short
    and less than 0.01 nanoseconds long. *)
Lemma closes l : Forall part_ok l -> Forall (fun p => (length (p_fraction p) <= 22)%nat) l ->
  Forall fraction_nonneg l /\ Forall (fun p => 0 <= part_value p) l /\
  (total_ns l - 102 / 100 * INR (length l) <= IZR (values l) <= total_ns l + 1 / 100 * INR (length l))%R.
Proof.
  induction l as [|p l IH]; intros P S; [split; [constructor|split; [constructor|cbn; lra]]|]. inversion P; subst. inversion S; subst. destruct (IH ltac:(assumption) ltac:(assumption)) as (A & B & C).
  destruct (close_value p) as (E & F & G); auto. split; [now constructor|]. split.
  - constructor; [|exact B]. unfold part_value, fraction_nonneg in *. destruct H1 as (Hi & _ & Hn). pose proof (spelled_bound (p_whole p) Hi). nia.
  - cbn [values total_ns fold_right]. fold (values l) (total_ns l). cbn [length]. rewrite S_INR, plus_IZR. lra.
Qed.
Theorem C87_close : forall s neg l, written s neg l -> Forall (fun p => (length (p_fraction p) <= 22)%nat) l ->
  match parse_duration s with
  | Some d => exists e, d = (if neg then - e else e) /\ 0 <= e <= longest /\
      (total_ns l - 102 / 100 * INR (length l) <= IZR e <= total_ns l + 1 / 100 * INR (length l))%R
  | None => (IZR longest - 1 / 100 * INR (length l) < total_ns l)%R
  end.
Proof.
  intros s neg l W S. destruct (closes l (written_ok s neg l W) S) as (A & B & C).
  rewrite (parse_written s neg l W A), (value_sum l B 0 ltac:(unfold max_i64; lia)), Z.add_0_l, <- longest_eq. pose proof (values_nonneg l B) as V.
  destruct (Z.leb_spec (values l) longest) as [L|L]; cbn [option_map].
  - exists (values l). split; [reflexivity|]. split; [lia|exact C].
  - apply IZR_lt in L. lra.
Qed.
Print Assumptions C87_close.

(** Nothing else is accepted. *)
Theorem C87_syntax : forall s d, parse_duration s = Some d -> exists neg l, written s neg l.
Proof.
  intros s d. unfold parse_duration. destruct (read_sign s) as [neg t] eqn:E. apply read_sign_split in E as (sg & G & ->).
  destruct (beqb t [48]) eqn:Z0; [apply beqb_eq in Z0; subst t; exists neg, []; now constructor|].
  intros H. assert (N : t <> []) by (intros ->; discriminate). destruct t as [|c t]; [easy|].
  destruct (parse_parts (length (c :: t)) 0 (c :: t)) as [r|] eqn:P; [|discriminate]. destruct (parse_parts_sound _ _ _ _ P) as [l L].
  exists neg, l. constructor; auto. intros ->. inversion L; subst.
Qed.
Print Assumptions C87_syntax.

(** The text that is made of a duration is read back as that duration. *)
Theorem C87_text : forall d, Z.abs d <= longest ->
  parse_duration (duration_text d) = Some d /\
  exists l, written (duration_text d) (d <? 0) l /\ Forall short l /\ whole_total l = Z.abs d.
Proof.
  intros d H. unfold longest in H. destruct (Z.eq_dec d 0) as [->|N].
  - split; [vm_compute; reflexivity|]. exists [Part [48] [] (10 ^ 9)]. split; [|split; [repeat constructor|reflexivity]].
    change (duration_text 0) with ([] ++ ([48] ++ [] ++ [] ++ [115]) ++ []). apply w_parts; [constructor| |discriminate].
    apply ps_part; [|constructor]. apply pt; [constructor; [lia|constructor]|constructor|discriminate|now right|exact un_s].
  - destruct (text_amount d ltac:(lia) N) as (t & E & l & P & Nl & S & T).
    assert (W : written (duration_text d) (d <? 0) l).
    { rewrite E. destruct (d <? 0); [change (45 :: t) with ([45] ++ t)|change t with ([] ++ t)]; constructor; auto; constructor. }
    split; [|exists l; auto].
    destruct (C87_exact _ _ _ W S) as [_ X]. rewrite X, T. unfold longest. replace (Z.abs d <=? 2 ^ 63 - 1) with true by (symmetry; apply Z.leb_le; lia). f_equal. destruct (Z.ltb_spec d 0); lia.
Qed.
Print Assumptions C87_text.

(** The duration of -2^63 nanoseconds has a text, which is refused. *)
Theorem C87_longest_refuted : ~ forall d, - 2 ^ 63 <= d < 2 ^ 63 -> parse_duration (duration_text d) = Some d.
Proof. intros H. specialize (H (- 2 ^ 63) ltac:(lia)). vm_compute in H. discriminate. Qed.
Print Assumptions C87_longest_refuted.

(** Not every text that means a whole number of nanoseconds is read as that number: zeros
    at the end of a fraction change the result. *)
Theorem C87_zeros_refuted : ~ forall s neg l z, written s neg l -> total_ns l = IZR z -> z <= longest -> parse_duration s = Some (if neg then - z else z).
Proof.
  intros H.
  assert (D : forall l, forallb (fun c => (48 <=? c) && (c <=? 57)) l = true -> digits l).
  { intros l F. apply Forall_forall. intros c I. rewrite forallb_forall in F. specialize (F c I). apply andb_prop in F as [A B]. apply Z.leb_le in A, B. now split. }
  specialize (H (45 :: 48 :: 46 :: [57; 53; 54; 48; 48; 48; 48; 48; 48; 48; 48; 48; 48; 48] ++ [117; 115]) true [Part [48] [57; 53; 54; 48; 48; 48; 48; 48; 48; 48; 48; 48; 48; 48] (10 ^ 3)] 956).
  assert (R : parse_duration (45 :: 48 :: 46 :: [57; 53; 54; 48; 48; 48; 48; 48; 48; 48; 48; 48; 48; 48] ++ [117; 115]) = Some (-955)) by (vm_compute; reflexivity).
  rewrite R in H. assert (X : Some (-955) = Some (- 956)); [|discriminate X]. apply H.
  - change (45 :: 48 :: 46 :: [57; 53; 54; 48; 48; 48; 48; 48; 48; 48; 48; 48; 48; 48] ++ [117; 115]) with ([45] ++ (([48] ++ [46] ++ [57; 53; 54; 48; 48; 48; 48; 48; 48; 48; 48; 48; 48; 48] ++ [117; 115]) ++ [])).
    apply w_parts; [constructor| |discriminate]. apply ps_part; [|constructor]. apply pt; [now apply D|now apply D|discriminate|now left|exact un_us].
  - unfold total_ns, part_ns. cbn [fold_right p_whole p_fraction p_unit].
    replace (spelled ([48] ++ [57; 53; 54; 48; 48; 48; 48; 48; 48; 48; 48; 48; 48; 48]) * 10 ^ 3) with (956 * 10 ^ 14) by reflexivity.
    rewrite (pow_IZR 10). change (10 ^ Z.of_nat (length _)) with (10 ^ 14).
    rewrite mult_IZR. assert (T : IZR (10 ^ 14) <> 0%R) by (apply IZR_neq; discriminate). revert T. generalize (IZR (10 ^ 14)). intros t T. unfold Rdiv. rewrite Rmult_assoc, Rinv_r by exact T. lra.
  - apply Z.leb_le. reflexivity.
Qed.
Print Assumptions C87_zeros_refuted.

(** The duration of a query (api/common.go:73-78): what the text means, or the default
    when the text is not a duration. *)
Theorem C87_query : forall x def,
  (forall neg l, written x neg l -> Forall short l -> whole_total l <= longest -> get_or parse_duration x def = if neg then - whole_total l else whole_total l) /\
  (forall neg l, written x neg l -> Forall short l -> longest < whole_total l -> get_or parse_duration x def = def) /\
  ((forall neg l, ~ written x neg l) -> get_or parse_duration x def = def).
Proof.
  intros x def. unfold get_or. split; [|split].
  - intros neg l W S L. destruct (C87_exact x neg l W S) as [_ ->]. apply Z.leb_le in L. now rewrite L.
  - intros neg l W S L. destruct (C87_exact x neg l W S) as [_ ->]. apply Z.leb_gt in L. now rewrite L.
  - intros N. destruct (parse_duration x) as [d|] eqn:E; [|reflexivity]. destruct (C87_syntax x d E) as (neg & l & W). now destruct (N neg l).
Qed.
Print Assumptions C87_query.

(** Texts of the three kinds. *)
Example C87_read : parse_duration [49; 104; 51; 48; 109] = Some (90 * 60 * 10 ^ 9) /\ parse_duration [45; 49; 46; 53; 115] = Some (- 1500000000) /\ parse_duration [50; 53; 48] = None /\ parse_duration [49; 46; 104; 46; 53; 109] = Some (3600 * 10 ^ 9 + 30 * 10 ^ 9).
Proof. vm_compute. auto. Qed.
(** an hour and a half: the hypotheses of the first theorem *)
Example C87_written : exists l, written [49; 46; 53; 104; 51; 115] false l /\ Forall short l /\ whole_total l = 5403 * 10 ^ 9.
Proof.
  exists [Part [49] [53] (3600 * 10 ^ 9); Part [51] [] (10 ^ 9)]. split; [|split; [repeat constructor|reflexivity]].
  change [49; 46; 53; 104; 51; 115] with ([] ++ (([49] ++ [46] ++ [53] ++ [104]) ++ ([51] ++ [] ++ [] ++ [115]) ++ [])).
  assert (D : forall c, 48 <= c <= 57 -> digits [c]) by (intros c Hc; constructor; [exact Hc|constructor]).
  apply w_parts; [constructor| |discriminate]. apply ps_part; [|apply ps_part; [|constructor]]; apply pt.
  - apply D. lia.
  - apply D. lia.
  - discriminate.
  - now left.
  - exact un_h.
  - apply D. lia.
  - constructor.
  - discriminate.
  - now right.
  - exact un_s.
Qed.
(** a fraction that is not a whole number of nanoseconds is cut *)
Example C87_cut : parse_duration [48; 46; 49; 50; 51; 52; 53; 54; 55; 56; 57; 57; 115] = Some 123456789.
Proof. vm_compute. reflexivity. Qed.
(** the longest durations and the ones after them *)
Example C87_limits : duration_text (2 ^ 63 - 1) = [50; 53; 54; 50; 48; 52; 55; 104; 52; 55; 109; 49; 54; 46; 56; 53; 52; 55; 55; 53; 56; 48; 55; 115] /\
  parse_duration [57; 50; 50; 51; 51; 55; 50; 48; 51; 54; 56; 53; 52; 55; 55; 53; 56; 48; 56; 110; 115] = None.
Proof. vm_compute. auto. Qed.
