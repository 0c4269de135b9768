(** The comparisons of Float.v order all numbers (NaN apart) by the integer
    [fkey]: so < is a strict weak order on them. *)
From Coq Require Import ZArith List Lia Bool.
From Coq Require Import Floats.SpecFloat.
From Verif Require Import Base Float.
Import ListNotations.
Open Scope Z_scope.

Definition fmag (b : Z) : Z := b mod 2 ^ 63.
Definition fkey (b : Z) : Z := if fsign b then - fmag b else fmag b.

Lemma fmag_split b : fmag b = fexp b * 2 ^ 52 + fman b.
Proof.
  unfold fmag, fexp, fman.
  change (2 ^ 63) with (2 ^ 52 * 2 ^ 11).
  rewrite Z.rem_mul_r by lia. lia.
Qed.
Lemma fexp_range b : 0 <= fexp b < 2048.
Proof. unfold fexp. pose proof (Z.mod_pos_bound (b / 2 ^ 52) (2 ^ 11)). lia. Qed.
Lemma fman_range b : 0 <= fman b < 2 ^ 52.
Proof. unfold fman. apply Z.mod_pos_bound. lia. Qed.

(** what a bit pattern decodes to, by magnitude *)
Inductive fview (b : Z) : spec_float -> Prop :=
| fv_zero : fexp b = 0 -> fman b = 0 -> fview b (S754_zero (fsign b))
| fv_fin m e : 0 <= e < 2046 -> 
    (e = 0 -> fexp b = 0 \/ fexp b = 1) -> (e > 0 -> fexp b = e + 1) ->
    (fexp b = 0 -> Zpos m = fman b) -> (fexp b > 0 -> Zpos m = 2 ^ 52 + fman b) ->
    fview b (S754_finite (fsign b) m (e - 1074))
| fv_inf : fexp b = 2047 -> fman b = 0 -> fview b (S754_infinity (fsign b))
| fv_nan : fexp b = 2047 -> fman b <> 0 -> fview b S754_nan.

Lemma fdecode_view b : fview b (fdecode b).
Proof.
  unfold fdecode. pose proof (fexp_range b) as E. pose proof (fman_range b) as M.
  destruct (Z.eqb_spec (fexp b) 0) as [H|H].
  - destruct (fman b) as [|m|m] eqn:F; [|change (-1074) with (0 - 1074)|lia].
    + constructor; assumption.
    + constructor; lia.
  - destruct (Z.eqb_spec (fexp b) 2047) as [H'|H'].
    + destruct (Z.eqb_spec (fman b) 0); constructor; assumption.
    + destruct (2 ^ 52 + fman b) as [|m|m] eqn:F; try lia.
      replace (fexp b - 1075) with ((fexp b - 1) - 1074) by lia. constructor; lia.
Qed.

Lemma fkey_compare a b : fnan a = false -> fnan b = false ->
  SFcompare (fdecode a) (fdecode b) = Some (fkey a ?= fkey b).
Proof.
  unfold fnan, fkey. intros Na Nb. rewrite (fmag_split a), (fmag_split b).
  pose proof (fexp_range a) as Ea. pose proof (fman_range a) as Ma.
  pose proof (fexp_range b) as Eb. pose proof (fman_range b) as Mb.
  destruct (fdecode_view a) as [e1 m1|m1 e1 R1 X1 Y1 Z1 W1|e1 m1|e1 m1]; try discriminate;
  destruct (fdecode_view b) as [e2 m2|m2 e2 R2 X2 Y2 Z2 W2|e2 m2|e2 m2]; try discriminate;
  cbn [SFcompare]; f_equal;
  destruct (fsign a), (fsign b);
  try (symmetry; first [apply Z.compare_eq_iff | apply Z.compare_lt_iff | apply Z.compare_gt_iff]; lia).
  all: try (destruct (Z.compare_spec (e1 - 1074) (e2 - 1074)) as [C|C|C];
    [change (Pos.compare_cont Eq m1 m2) with (Pos.compare m1 m2); destruct (Pos.compare_spec m1 m2) as [D|D|D]; cbn [CompOpp] | |];
     symmetry; first [apply Z.compare_eq_iff | apply Z.compare_lt_iff | apply Z.compare_gt_iff]; lia).
Qed.

Lemma flt_key a b : fnan a = false -> fnan b = false -> flt a b = (fkey a <? fkey b).
Proof.
  intros Na Nb. unfold flt, SFltb. rewrite (fkey_compare a b Na Nb). reflexivity.
Qed.
Lemma fle_key a b : fnan a = false -> fnan b = false -> fle a b = (fkey a <=? fkey b).
Proof.
  intros Na Nb. unfold fle, SFleb. rewrite (fkey_compare a b Na Nb). unfold Z.leb.
  destruct (fkey a ?= fkey b); reflexivity.
Qed.
Lemma feq_key a b : fnan a = false -> fnan b = false -> feq a b = (fkey a =? fkey b).
Proof.
  intros Na Nb. unfold feq, SFeqb. rewrite (fkey_compare a b Na Nb).
  destruct (Z.eqb_spec (fkey a) (fkey b)) as [E|E].
  - apply Z.compare_eq_iff in E. now rewrite E.
  - destruct (fkey a ?= fkey b) eqn:C; try reflexivity. now apply Z.compare_eq_iff in C.
Qed.
(** comparisons with NaN are false *)
Lemma flt_nan_l a b : fnan a = true -> flt a b = false.
Proof. unfold fnan, flt, SFltb. intros H. destruct (fdecode a); try discriminate. reflexivity. Qed.
Lemma flt_nan_r a b : fnan b = true -> flt a b = false.
Proof. unfold fnan, flt, SFltb. intros H. destruct (fdecode b); try discriminate. destruct (fdecode a); reflexivity. Qed.
Lemma flt_irrefl a : flt a a = false.
Proof. destruct (fnan a) eqn:E; [now apply flt_nan_l|]. rewrite flt_key by assumption. apply Z.ltb_irrefl. Qed.

Lemma fkey_inf_bound a : finite a -> - (2047 * 2 ^ 52) < fkey a < 2047 * 2 ^ 52.
Proof.
  intros (R & N & I). unfold fkey. rewrite fmag_split. unfold fnan, finf in *.
  pose proof (fexp_range a) as Ea. pose proof (fman_range a) as Ma.
  destruct (fdecode_view a) as [e1 m1|m1 e1 R1 X1 Y1 Z1 W1|e1 m1|e1 m1]; try discriminate; destruct (fsign a); lia.
Qed.
