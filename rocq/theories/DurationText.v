(** The text that String gives to a duration (C87). *)
From Coq Require Import ZArith Reals List Bool Lia Lra.
From Verif Require Import Base Convert ConvertProofs Merge Draw Number NumberSpec NumberProofs Duration DurationSpec DurationFloat DurationProofs DurationValue.
Import ListNotations.
Open Scope Z_scope.

Lemma undigits_spelled l : Forall (fun c => 48 <= c <= 57) l -> forall a, undigits a l = Some (a * 10 ^ Z.of_nat (length l) + spelled l).
Proof.
  induction 1 as [|c l Hc Hl IH]; intros a; cbn [undigits length spelled].
  - f_equal. change (10 ^ Z.of_nat 0) with 1. ring.
  - replace ((48 <=? c) && (c <=? 57)) with true by (symmetry; apply andb_true_intro; split; apply Z.leb_le; lia). rewrite IH, Nat2Z.inj_succ, Z.pow_succ_r by lia. f_equal. ring.
Qed.
Lemma itoa_spelled v : 0 <= v < 2 ^ 63 -> digits (itoa v) /\ spelled (itoa v) = v /\ itoa v <> [].
Proof.
  intros H. unfold itoa. replace (v <? 0) with false by (symmetry; apply Z.ltb_ge; lia).
  destruct (digits_spec 20 v []) as (ds & E & N & U & F); [split; [lia|]; apply Z.lt_trans with (2 ^ 63); [lia|reflexivity]|lia|].
  rewrite E, app_nil_r. split; [exact F|]. split; [|exact N]. rewrite (undigits_spelled ds F 0) in U. rewrite Z.mul_0_l, Z.add_0_l in U. congruence.
Qed.
Lemma snoc_spelled ds c : spelled (ds ++ [c]) = spelled ds * 10 + (c - 48).
Proof. rewrite spelled_app. cbn [length spelled]. change (10 ^ Z.of_nat 1) with 10. change (10 ^ Z.of_nat 0) with 1. ring. Qed.
Lemma ten_mod v k : 0 <= v -> v mod 10 ^ Z.of_nat (S k) = (v / 10) mod 10 ^ Z.of_nat k * 10 + v mod 10.
Proof.
  intros H. rewrite Nat2Z.inj_succ, Z.pow_succ_r by lia. assert (T : 0 < 10 ^ Z.of_nat k) by (apply Z.pow_pos_nonneg; lia). rewrite Z.rem_mul_r by lia. ring.
Qed.
Lemma ten_div v k : v / 10 ^ Z.of_nat (S k) = v / 10 / 10 ^ Z.of_nat k.
Proof. rewrite Nat2Z.inj_succ, Z.pow_succ_r by lia. assert (T : 0 < 10 ^ Z.of_nat k) by (apply Z.pow_pos_nonneg; lia). rewrite Z.div_div by lia. reflexivity. Qed.
Lemma fmt_frac_true k : forall v tail, 0 <= v -> exists ds, fmt_frac k true v tail = (46 :: ds ++ tail, v / 10 ^ Z.of_nat k) /\ digits ds /\ length ds = k /\ spelled ds = v mod 10 ^ Z.of_nat k.
Proof.
  induction k as [|k IH]; intros v tail H.
  - exists []. cbn [fmt_frac app length spelled]. change (10 ^ Z.of_nat 0) with 1. rewrite Z.div_1_r, Z.mod_1_r. repeat split. constructor.
  - cbn [fmt_frac orb]. destruct (IH (v / 10) (48 + v mod 10 :: tail) ltac:(apply Z.div_pos; lia)) as (ds & E & D & L & S).
    exists (ds ++ [48 + v mod 10]). rewrite E, <- app_assoc, ten_div. split; [reflexivity|]. pose proof (Z.mod_pos_bound v 10 ltac:(lia)) as B.
    split; [apply Forall_app; split; [exact D|constructor; [lia|constructor]]|]. split; [rewrite app_length, L; cbn [length]; lia|].
    rewrite snoc_spelled, S, ten_mod by lia. lia.
Qed.
Lemma fmt_frac_false k : forall v tail, 0 <= v ->
  (fmt_frac k false v tail = (tail, v / 10 ^ Z.of_nat k) /\ v mod 10 ^ Z.of_nat k = 0) \/
  exists ds j, fmt_frac k false v tail = (46 :: ds ++ tail, v / 10 ^ Z.of_nat k) /\ digits ds /\ (length ds + j = k)%nat /\ spelled ds * 10 ^ Z.of_nat j = v mod 10 ^ Z.of_nat k.
Proof.
  induction k as [|k IH]; intros v tail H.
  - left. cbn [fmt_frac]. change (10 ^ Z.of_nat 0) with 1. now rewrite Z.div_1_r, Z.mod_1_r.
  - cbn [fmt_frac]. destruct (Z.eqb_spec (v mod 10) 0) as [E0|E0]; cbn [orb negb].
    + rewrite ten_div, ten_mod by lia. rewrite E0, Z.add_0_r. destruct (IH (v / 10) tail ltac:(apply Z.div_pos; lia)) as [[E M]|(ds & j & E & D & L & S)].
      * left. rewrite M. now split.
      * right. exists ds, (Datatypes.S j). split; [exact E|]. split; [exact D|]. split; [lia|]. rewrite <- S, Nat2Z.inj_succ, Z.pow_succ_r by lia. ring.
    + right. destruct (fmt_frac_true k (v / 10) (48 + v mod 10 :: tail) ltac:(apply Z.div_pos; lia)) as (ds & E & D & L & S).
      exists (ds ++ [48 + v mod 10]), O. rewrite E, <- app_assoc, ten_div. split; [reflexivity|]. pose proof (Z.mod_pos_bound v 10 ltac:(lia)) as B.
      split; [apply Forall_app; split; [exact D|constructor; [lia|constructor]]|]. split; [rewrite app_length, L; cbn [length]; lia|].
      rewrite snoc_spelled, S, ten_mod by lia. change (10 ^ Z.of_nat 0) with 1. lia.
Qed.
(** the last part of the text, which may have a fraction *)
Lemma last_part k u v unit : 0 <= u -> 0 <= v < 2 ^ 63 -> (k <= 9)%nat -> unit_name unit (10 ^ Z.of_nat k) ->
  exists t p, fmt_frac k false u unit = (t, u / 10 ^ Z.of_nat k) /\ part_text (fmt_int v t) p /\ short p /\ whole_ns p = v * 10 ^ Z.of_nat k + u mod 10 ^ Z.of_nat k.
Proof.
  intros Hu Hv Hk U. destruct (itoa_spelled v Hv) as (D & S & N). unfold fmt_int. assert (T : 0 < 10 ^ Z.of_nat k) by (apply Z.pow_pos_nonneg; lia).
  destruct (fmt_frac_false k u unit Hu) as [[E M]|(ds & j & E & Dd & L & Sd)].
  - exists unit, (Part (itoa v) [] (10 ^ Z.of_nat k)). split; [exact E|]. split; [|split].
    + change (itoa v ++ unit) with (itoa v ++ [] ++ [] ++ unit). constructor; auto; [constructor|rewrite app_nil_r; exact N].
    + unfold short. cbn [p_fraction p_unit length]. change (10 ^ Z.of_nat 0) with 1. apply Z.mod_1_r.
    + unfold whole_ns. cbn [p_whole p_fraction p_unit length]. rewrite app_nil_r, S, M. change (10 ^ Z.of_nat 0) with 1. rewrite Z.div_1_r. ring.
  - exists (46 :: ds ++ unit), (Part (itoa v) ds (10 ^ Z.of_nat k)). split; [exact E|].
    assert (Q : 10 ^ Z.of_nat k = 10 ^ Z.of_nat (length ds) * 10 ^ Z.of_nat j) by (rewrite <- L, Nat2Z.inj_add, Z.pow_add_r by lia; reflexivity).
    assert (T1 : 0 < 10 ^ Z.of_nat (length ds)) by (apply Z.pow_pos_nonneg; lia).
    split; [|split].
    + change (itoa v ++ 46 :: ds ++ unit) with (itoa v ++ [46] ++ ds ++ unit). constructor; auto. intros X. apply app_eq_nil in X. now destruct X.
    + unfold short. cbn [p_fraction p_unit]. rewrite Q, Z.mul_comm. apply Z.mod_mul. lia.
    + unfold whole_ns. cbn [p_whole p_fraction p_unit]. rewrite Q at 1. rewrite (Z.mul_comm (10 ^ Z.of_nat (length ds))), Z.div_mul by lia. rewrite spelled_app, S, <- Sd, Q. ring.
Qed.
Lemma plain_part v unit n : 0 <= v < 2 ^ 63 -> unit_name unit n -> exists p, part_text (itoa v ++ unit) p /\ short p /\ whole_ns p = v * n.
Proof.
  intros Hv U. destruct (itoa_spelled v Hv) as (D & S & N). exists (Part (itoa v) [] n). split; [|split].
  - change (itoa v ++ unit) with (itoa v ++ [] ++ [] ++ unit). constructor; auto; [constructor|rewrite app_nil_r; exact N].
  - unfold short. cbn [p_fraction p_unit length]. change (10 ^ Z.of_nat 0) with 1. apply Z.mod_1_r.
  - unfold whole_ns. cbn [p_whole p_fraction p_unit length]. rewrite app_nil_r, S. change (10 ^ Z.of_nat 0) with 1. rewrite Z.div_1_r. ring.
Qed.
Lemma one_part t p : part_text t p -> parts_text t [p].
Proof. intros H. rewrite <- (app_nil_r t). repeat constructor. exact H. Qed.

Definition amount (u : Z) (t : list Z) : Prop := exists l, parts_text t l /\ l <> [] /\ Forall short l /\ whole_total l = u.
Lemma last_amount k u unit : 0 <= u < 2 ^ 63 -> (k <= 9)%nat -> unit_name unit (10 ^ Z.of_nat k) ->
  amount u (let '(t, u) := fmt_frac k false u unit in fmt_int u t).
Proof.
  intros Hu Hk U. assert (T : 0 < 10 ^ Z.of_nat k) by (apply Z.pow_pos_nonneg; lia).
  assert (B : 0 <= u / 10 ^ Z.of_nat k < 2 ^ 63). { split; [apply Z.div_pos; lia|]. apply Z.le_lt_trans with u; [apply Z.div_le_upper_bound; nia|lia]. }
  destruct (last_part k u (u / 10 ^ Z.of_nat k) unit ltac:(lia) B Hk U) as (t & p & -> & P & S & W).
  exists [p]. split; [now apply one_part|]. split; [discriminate|]. split; [repeat constructor; exact S|]. cbn [whole_total fold_right]. rewrite W. pose proof (Z.div_mod u (10 ^ Z.of_nat k) ltac:(lia)). lia.
Qed.
Lemma add_part t p u s : part_text t p -> short p -> amount u s -> amount (whole_ns p + u) (t ++ s).
Proof. intros P S (l & Q & N & F & W). exists (p :: l). split; [now constructor|]. split; [discriminate|]. split; [now constructor|]. cbn [whole_total fold_right]. fold (whole_total l). now rewrite W. Qed.
Lemma text_amount d : Z.abs d < 2 ^ 63 -> d <> 0 -> exists t, duration_text d = (if d <? 0 then 45 :: t else t) /\ amount (Z.abs d) t.
Proof.
  intros H N. unfold duration_text. replace (Z.abs d =? 0) with false by (symmetry; apply Z.eqb_neq; lia). set (u := Z.abs d) in *. assert (Hu : 0 <= u < 2 ^ 63) by lia. clearbody u.
  cbv zeta. eexists. split; [reflexivity|]. destruct (Z.ltb_spec u 1000000000) as [L|L].
  - destruct (u <? 1000); [|destruct (u <? 1000000)].
    + apply (last_amount 0); [exact Hu|lia|exact un_ns].
    + apply (last_amount 3); [exact Hu|lia|exact un_micro].
    + apply (last_amount 6); [exact Hu|lia|exact un_ms].
  - change 1000000000 with (10 ^ Z.of_nat 9) in L. pose proof (last_part 9 u) as LP. change (10 ^ Z.of_nat 9) with 1000000000 in *.
    pose proof (Z.div_mod u 1000000000 ltac:(lia)) as D9. pose proof (Z.mod_pos_bound u 1000000000 ltac:(lia)) as B9. set (w := u / 1000000000) in *. set (r := u mod 1000000000) in *.
    pose proof (Z.div_mod w 60 ltac:(lia)) as D60. pose proof (Z.mod_pos_bound w 60 ltac:(lia)) as B60. set (q := w / 60) in *. set (sec := w mod 60) in *.
    destruct (LP sec [115] ltac:(lia) ltac:(lia) ltac:(lia) un_s) as (t & p & E & P & S & W). rewrite E. change (w / 60) with q. change (w mod 60) with sec.
    pose proof (one_part _ _ P) as Q. assert (A : amount (sec * 1000000000 + r) (fmt_int sec t)).
    { exists [p]. split; [exact Q|]. split; [discriminate|]. split; [repeat constructor; exact S|]. cbn [whole_total fold_right]. rewrite W. ring. }
    destruct (Z.ltb_spec 0 q) as [Lq|Lq].
    2:{ replace u with (sec * 1000000000 + r) by lia. exact A. }
    pose proof (Z.div_mod q 60 ltac:(lia)) as D2. pose proof (Z.mod_pos_bound q 60 ltac:(lia)) as B2. set (h := q / 60) in *. set (mi := q mod 60) in *. 
    destruct (plain_part mi [109] (60 * 10 ^ 9) ltac:(lia) un_m) as (pm & Pm & Sm & Wm). pose proof (add_part _ _ _ _ Pm Sm A) as Am. rewrite <- app_assoc in Am. cbn [app] in Am. rewrite Wm in Am. change (60 * 10 ^ 9) with 60000000000 in Am.
    destruct (Z.ltb_spec 0 h) as [Lh|Lh].
    2:{ replace u with (mi * 60000000000 + (sec * 1000000000 + r)) by lia. exact Am. }
    destruct (plain_part h [104] (3600 * 10 ^ 9) ltac:(lia) un_h) as (ph & Ph & Sh & Wh). pose proof (add_part _ _ _ _ Ph Sh Am) as Ah. rewrite <- app_assoc in Ah. cbn [app] in Ah. rewrite Wh in Ah. change (3600 * 10 ^ 9) with 3600000000000 in Ah.
    replace u with (h * 3600000000000 + (mi * 60000000000 + (sec * 1000000000 + r))) by lia. exact Ah.
Qed.
