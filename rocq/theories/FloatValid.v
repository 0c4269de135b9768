(** Every bit pattern is a valid float64 (C84, C86). *)
From Coq Require Import ZArith Bool Lia.
From Coq Require Import Floats.SpecFloat.
From Flocq Require Import Core.Core IEEE754.BinarySingleNaN.
From Verif Require Import Base Float.
Open Scope Z_scope.

Lemma bounded_of m e : (Zpos m < 2 ^ 53) -> -1074 <= e <= 971 -> (e = -1074 \/ 2 ^ 52 <= Zpos m) -> valid_binary 53 1024 (S754_finite false m e) = true.
Proof.
  intros U He L. cbn. unfold bounded, canonical_mantissa. apply andb_true_intro. split; [|apply Zle_bool_true; lia].
  apply Zeq_bool_true. change (Z.pos (digits2_pos m)) with (Zdigits2 (Zpos m)). rewrite Zdigits2_Zdigits.
  pose proof (Zdigits_correct radix2 (Zpos m)) as D. rewrite Z.abs_eq in D by lia. set (d := Zdigits radix2 (Zpos m)) in *. change (Z.pow radix2) with (Z.pow 2) in D.
  unfold SpecFloat.fexp, SpecFloat.emin. change (3 - 1024 - 53)%Z with (-1074)%Z.
  assert (Hd : (1 <= d)%Z) by (pose proof (Zdigits_gt_0 radix2 (Zpos m) ltac:(lia)); unfold d; lia).
  assert (d <= 53). { destruct (Z.le_gt_cases d 53); [assumption|]. exfalso. assert (2 ^ 53 <= 2 ^ (d - 1))%Z by (apply Z.pow_le_mono_r; lia). lia. }
  destruct L as [->|L]; [lia|]. assert (53 <= d); [|lia]. destruct (Z.le_gt_cases 53 d); [assumption|]. exfalso. assert (2 ^ d <= 2 ^ 52)%Z by (apply Z.pow_le_mono_r; lia). lia.
Qed.
Lemma fdecode_valid b : valid_binary 53 1024 (fdecode b) = true.
Proof.
  unfold fdecode. assert (Hm : 0 <= fman b < 2 ^ 52) by (apply Z.mod_pos_bound; lia).
  assert (He : 0 <= Float.fexp b < 2 ^ 11) by (apply Z.mod_pos_bound; lia).
  destruct (Z.eqb_spec (Float.fexp b) 0).
  - destruct (fman b) as [|m|m] eqn:E; try reflexivity. apply (bounded_of m (-1074)); [lia|lia|now left].
  - destruct (Z.eqb_spec (Float.fexp b) 2047); [destruct (fman b =? 0); reflexivity|].
    destruct (2 ^ 52 + fman b) as [|m|m] eqn:E; try reflexivity. apply (bounded_of m (Float.fexp b - 1075)); lia.
Qed.
