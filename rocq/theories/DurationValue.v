(** What the parts of a duration are worth (C87). *)
From Coq Require Import ZArith Reals List Bool Lia Lra.
From Verif Require Import Base Merge Draw Number NumberSpec NumberProofs Duration DurationSpec DurationFloat DurationProofs.
Import ListNotations.
Open Scope Z_scope.

Lemma spelled_app a b : spelled (a ++ b) = spelled a * 10 ^ Z.of_nat (length b) + spelled b.
Proof.
  induction a as [|c a IH]; [cbn [app spelled]; ring|]. cbn [app spelled]. rewrite IH, app_length, Nat2Z.inj_add, Z.pow_add_r by lia. ring.
Qed.
Definition part_ok (p : part) : Prop := digits (p_whole p) /\ digits (p_fraction p) /\ 0 < p_unit p <= 2 ^ 42.
Lemma part_text_ok t p : part_text t p -> part_ok p.
Proof. intros H. destruct H as [ip dot fp u n Hi Hf Hn Hd Hu]. split; [exact Hi|]. split; [exact Hf|]. now apply (unit_name_ok u n). Qed.
Lemma parts_ok s l : parts_text s l -> Forall part_ok l.
Proof. induction 1 as [|s p t l H P IH]; constructor; [now apply (part_text_ok s)|exact IH]. Qed.
Lemma fraction_kept fp n : digits fp -> exists d1 d2, fp = d1 ++ d2 /\ spelled d1 <= max_i64 /\ (d2 = [] \/ max_i64 / 10 <= spelled d1) /\
  fraction_ns fp n = if 0 <? spelled d1 then frac (spelled d1) n (length d1) else 0.
Proof.
  intros D. destruct (leading_fraction_ok fp D 0 0 [] ltac:(unfold max_i64; lia) I) as (d1 & d2 & E & F & B & C). rewrite Z.mul_0_l, Z.add_0_l in *. rewrite app_nil_r in F.
  exists d1, d2. split; [exact E|]. split; [exact B|]. split; [exact C|]. unfold fraction_ns. change (f_of_int 1) with (scale_at 0). rewrite F. reflexivity.
Qed.
Lemma digits_app a b : digits (a ++ b) -> digits a /\ digits b.
Proof. unfold digits. intros H. now apply Forall_app in H. Qed.

(** whole nanoseconds *)
Lemma short_value p : part_ok p -> short p -> part_value p = whole_ns p /\ fraction_nonneg p /\ part_ns p = IZR (whole_ns p) /\ 0 <= whole_ns p.
Proof.
  intros (Hi & Hf & Hn) S. destruct p as [ip fp n]. unfold short, part_value, whole_ns, fraction_nonneg, part_ns in *. cbn [p_whole p_fraction p_unit] in *.
  set (k := Z.of_nat (length fp)) in *. assert (T : 0 < 10 ^ k) by (apply Z.pow_pos_nonneg; lia).
  assert (Q : n = 10 ^ k * (n / 10 ^ k)) by (pose proof (Z.div_mod n (10 ^ k) ltac:(lia)); lia).
  assert (q0 : 0 < n / 10 ^ k) by (apply Z.div_str_pos; split; [lia|]; apply Z.le_ngt; intros X; rewrite Z.div_small in Q by lia; lia).
  assert (tn : 10 ^ k <= n) by nia.
  assert (K12 : k <= 12). { destruct (Z.le_gt_cases k 12) as [L|L]; [exact L|]. assert (10 ^ 13 <= 10 ^ k) by (apply Z.pow_le_mono_r; lia). lia. }
  destruct (fraction_kept fp n Hf) as (d1 & d2 & E & B & C & ->).
  pose proof (spelled_bound fp Hf) as Bf. fold k in Bf.
  assert (N2 : d2 = []).
  { destruct C as [C|C]; [exact C|exfalso]. rewrite E in Hf. apply digits_app in Hf as [H1 H2]. pose proof (spelled_bound d1 H1) as B1.
    assert (10 ^ Z.of_nat (length d1) <= 10 ^ k) by (apply Z.pow_le_mono_r; [lia|unfold k; rewrite E, app_length; lia]). change (max_i64 / 10) with 922337203685477580 in C. lia. }
  subst d2. rewrite app_nil_r in E. subst d1. clear C B.
  assert (FR : (if 0 <? spelled fp then frac (spelled fp) n (length fp) else 0) = spelled fp * (n / 10 ^ k)).
  { destruct (Z.ltb_spec 0 (spelled fp)) as [L|L]; [|replace (spelled fp) with 0 by lia; ring].
    unfold k. apply frac_exact; [exact Hn|exact S|unfold k in K12; lia|fold k; lia]. }
  rewrite FR, spelled_app. fold k. pose proof (spelled_bound ip Hi) as Bi.
  split; [rewrite Q at 1; ring|]. split; [nia|]. split; [|nia].
  rewrite Q at 1. rewrite <- (Z2Nat.id k) at 3 by lia. rewrite pow_IZR. unfold k. rewrite !Nat2Z.id. fold k.
  rewrite !mult_IZR. field. apply IZR_neq. lia.
Qed.
(** the others *)
Lemma close_value p : part_ok p -> (length (p_fraction p) <= 22)%nat -> fraction_nonneg p /\ (part_ns p - 102 / 100 < IZR (part_value p) < part_ns p + 1 / 100)%R /\ (0 <= part_ns p)%R.
Proof.
  intros (Hi & Hf & Hn) K. destruct p as [ip fp n]. unfold part_value, fraction_nonneg, part_ns in *. cbn [p_whole p_fraction p_unit] in *.
  destruct (fraction_kept fp n Hf) as (d1 & d2 & E & B & C & ->).
  pose proof (spelled_bound ip Hi) as Bi. pose proof Hf as Hf'. rewrite E in Hf'. apply digits_app in Hf' as [H1 H2]. pose proof (spelled_bound d1 H1) as B1. pose proof (spelled_bound d2 H2) as B2.
  set (k := length fp) in *. set (k1 := length d1) in *. set (k2 := length d2) in *. assert (Ek : k = (k1 + k2)%nat) by (unfold k, k1, k2; rewrite E; apply app_length).
  pose proof (ten_pos k1) as T1. pose proof (ten_pos k2) as T2. assert (TT : 10 ^ Z.of_nat k = 10 ^ Z.of_nat k1 * 10 ^ Z.of_nat k2) by (rewrite Ek, Nat2Z.inj_add, Z.pow_add_r by lia; reflexivity).
  rewrite (pow_IZR 10 k). rewrite spelled_app. fold k. assert (Sf : spelled fp = spelled d1 * 10 ^ Z.of_nat k2 + spelled d2) by (rewrite E, spelled_app; reflexivity). rewrite !Sf. rewrite TT.
  set (t1 := 10 ^ Z.of_nat k1) in *. set (t2 := 10 ^ Z.of_nat k2) in *. set (f := spelled d1) in *. set (g := spelled d2) in *. set (w := spelled ip) in *.
  assert (t1R : (1 <= IZR t1)%R) by (apply IZR_le; lia). assert (t2R : (1 <= IZR t2)%R) by (apply IZR_le; lia).
  assert (nR : (1 <= IZR n <= IZR (2 ^ 42))%R) by (split; apply IZR_le; lia). assert (fR : (0 <= IZR f)%R) by (apply IZR_le; lia). assert (wR : (0 <= IZR w)%R) by (apply IZR_le; lia).
  assert (gR : (0 <= IZR g)%R) by (apply IZR_le; lia). assert (gt : (IZR g / IZR t2 <= 1)%R).
  { apply Rmult_le_reg_r with (IZR t2); [lra|]. unfold Rdiv. rewrite Rmult_assoc, Rinv_l, Rmult_1_r, Rmult_1_l by lra. apply IZR_le. lia. }
  assert (X : (IZR ((w * (t1 * t2) + (f * t2 + g)) * n) / IZR (t1 * t2) = IZR w * IZR n + IZR f * IZR n / IZR t1 + IZR g / IZR t2 * (IZR n / IZR t1))%R).
  { rewrite !mult_IZR, !plus_IZR, !mult_IZR. field. lra. }
  rewrite X. set (y := (IZR g / IZR t2 * (IZR n / IZR t1))%R) in *.
  assert (gt0 : (0 <= IZR g / IZR t2)%R) by (apply Rmult_le_pos; [lra|left; apply Rinv_0_lt_compat; lra]).
  assert (it1 : (0 < / IZR t1)%R) by (apply Rinv_0_lt_compat; lra).
  assert (nt0 : (0 < IZR n / IZR t1)%R) by (apply Rmult_lt_0_compat; lra).
  assert (Y : (0 <= y < 1 / 100)%R).
  { split; [apply Rmult_le_pos; lra|]. destruct C as [->|C].
    - unfold y, g. cbn [spelled]. unfold Rdiv. rewrite !Rmult_0_l. lra.
    - apply Rle_lt_trans with (1 * (IZR n / IZR t1))%R; [apply Rmult_le_compat_r; lra|].
      assert (L : 2 ^ 42 * 200 <= t1) by (change (max_i64 / 10) with 922337203685477580 in C; lia). apply IZR_le in L. rewrite mult_IZR in L.
      apply Rmult_lt_reg_r with (IZR t1); [lra|]. unfold Rdiv. rewrite !Rmult_assoc, Rinv_l, Rmult_1_r by lra. lra. }
  rewrite plus_IZR, mult_IZR. assert (wn : (0 <= IZR w * IZR n)%R) by (apply Rmult_le_pos; lra).
  assert (fn : (0 <= IZR f * IZR n / IZR t1)%R) by (unfold Rdiv; apply Rmult_le_pos; [apply Rmult_le_pos; lra|lra]).
  destruct (Z.ltb_spec 0 f) as [L|L].
  - destruct (frac_close f n k1 Hn ltac:(lia) ltac:(lia) ltac:(unfold max_i64 in B; lia)) as [A D]. cbv zeta in D. fold t1 in D. split; [destruct A; assumption|]. split; lra.
  - assert (Ef : f = 0) by lia. split; [lia|]. rewrite Ef. rewrite Ef in fn. split; [|lra]. unfold Rdiv. rewrite !Rmult_0_l. lra.
Qed.

(** * the sum *)
Definition values (l : list part) : Z := fold_right (fun p x => part_value p + x) 0 l.
Lemma values_nonneg l : Forall (fun p => 0 <= part_value p) l -> 0 <= values l.
Proof. induction 1; cbn [values fold_right]; [lia|]. unfold values in *. lia. Qed.
Lemma value_sum l : Forall (fun p => 0 <= part_value p) l -> forall d, 0 <= d <= max_i64 -> value d l = if d + values l <=? max_i64 then Some (d + values l) else None.
Proof.
  induction 1 as [|p l Hp Hl IH]; intros d Hd; cbn [value values fold_right].
  - rewrite Z.add_0_r. now replace (d <=? max_i64) with true by lia.
  - pose proof (values_nonneg l Hl) as V. fold (values l). destruct (Z.ltb_spec max_i64 (part_value p)) as [L|L].
    + replace (_ <=? max_i64) with false; [reflexivity|]. symmetry. apply Z.leb_gt. lia.
    + destruct (Z.ltb_spec max_i64 (d + part_value p)) as [L2|L2].
      * replace (_ <=? max_i64) with false; [reflexivity|]. symmetry. apply Z.leb_gt. lia.
      * rewrite IH by lia. rewrite Z.add_assoc. reflexivity.
Qed.
(** the sign and the text *)
Lemma parts_first s l : parts_text s l -> l <> [] -> exists c r, s = c :: r /\ unit_end c = true /\ s <> [48].
Proof.
  intros H N. destruct H as [|s p t l H P]; [easy|]. destruct (part_head s p t H) as [A B]. destruct s as [|c s]; [easy|]. exists c, (s ++ t). split; [reflexivity|]. split; [exact A|].
  destruct H as [ip dot fp u n Hi Hf Hn Hd Hu]. destruct (unit_name_ok u n Hu) as (Uu & Nu & _). intros X.
  destruct u as [|c' u]; [easy|]. assert (M : In c' [48]) by (rewrite <- X, !in_app_iff; left; right; right; right; now left).
  destruct M as [<-|[]]. inversion Uu; subst. discriminate.
Qed.
Lemma parse_written s neg l : written s neg l -> Forall fraction_nonneg l -> parse_duration s = option_map (fun d => if neg then - d else d) (value 0 l).
Proof.
  intros W F. destruct W as [neg sg s l G P N|neg sg G].
  - destruct (parts_first s l P N) as (c & r & -> & U & N48). unfold parse_duration. rewrite (read_sign_eq neg sg (c :: r) G).
    2:{ unfold unit_end in U. split; intros ->; discriminate. }
    destruct (beqb (c :: r) [48]) eqn:B; [now apply beqb_eq in B|]. f_equal. apply parse_value; auto.
  - unfold parse_duration. rewrite (read_sign_eq neg sg [48] G) by (split; discriminate). now destruct neg.
Qed.
(** whatever is accepted is written in the grammar *)
Lemma parse_parts_sound fuel : forall d s r, parse_parts fuel d s = Some r -> exists l, parts_text s l.
Proof.
  induction fuel as [|fuel IH]; intros d s r H.
  - destruct s; [exists []; constructor|discriminate].
  - destruct (list_eq_dec Z.eq_dec s []) as [->|N]; [exists []; constructor|].
    destruct (round_sound (S fuel) d s r N H) as (t & p & rest & E & T & R).
    assert (K : exists d', parse_parts fuel d' rest = Some r).
    { rewrite E, (round_gen t p rest fuel d T R) in H. destruct (_ <? _); [discriminate|]. destruct (_ <? _); [discriminate|]. destruct (_ <? _); [discriminate|]. eexists. exact H. }
    destruct K as [d' K]. destruct (IH d' rest r K) as [l L]. exists (p :: l). rewrite E. now constructor.
Qed.
