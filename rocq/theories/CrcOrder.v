(** The order of x modulo the Castagnoli polynomial is 2^31 - 1 (C88). *)
From Coq Require Import ZArith Znumtheory List Lia Bool.
From Verif Require Import Base Crc CrcProofs CrcBits.
Import ListNotations.
Open Scope Z_scope.

(** a linear function on 32 bits as the list of its values at the powers of two *)
Fixpoint apply_m (m : list Z) (c : Z) : Z := match m with [] => 0 | x :: m => Z.lxor (if Z.odd c then x else 0) (apply_m m (c / 2)) end.
Fixpoint powers (n : nat) (c : Z) : list Z := match n with O => [] | S n => c :: powers n (2 * c) end.
Fixpoint square (k : nat) : list Z :=
  match k with O => map crc_step (powers 32 1) | S k => let m := square k in map (apply_m m) m end.

Lemma apply_powers (F : Z -> Z) : F 0 = 0 -> (forall a b, F (Z.lxor a b) = Z.lxor (F a) (F b)) ->
  forall n j c, 0 <= c < 2 ^ Z.of_nat n -> 0 <= j -> apply_m (map F (powers n (2 ^ j))) c = F (c * 2 ^ j).
Proof.
  intros F0 FL. induction n as [|n IH]; intros j c H J.
  - change (2 ^ Z.of_nat 0) with 1 in H. replace c with 0 by lia. symmetry. exact F0.
  - rewrite Nat2Z.inj_succ, Z.pow_succ_r in H by lia. cbn [powers map apply_m]. rewrite <- Z.pow_succ_r by lia. rewrite IH by first [lia | split; [apply Z.div_pos; lia|apply Z.div_lt_upper_bound; lia]].
    transitivity (F (Z.lxor (Z.b2z (Z.odd c) * 2 ^ j) (c / 2 * 2 ^ Z.succ j))).
    + rewrite FL. f_equal. destruct (Z.odd c); cbn [Z.b2z]; [now rewrite Z.mul_1_l|now rewrite Z.mul_0_l, F0].
    + f_equal. rewrite Z.pow_succ_r by lia. replace (c / 2 * (2 * 2 ^ j)) with (2 * (c / 2) * 2 ^ j) by ring. rewrite <- !Z.shiftl_mul_pow2 by lia. rewrite <- Z.shiftl_lxor, <- b2z_odd. reflexivity.
Qed.
Lemma square_spec k : square k = map (iter_step (Nat.pow 2 k)) (powers 32 1).
Proof.
  induction k as [|k IH]; [reflexivity|]. cbn [square]. rewrite IH at 2. rewrite map_map. apply map_ext_in. intros c Hc.
  assert (R : is_u32 c).
  { assert (forallb (fun c => (0 <=? c) && (c <? 2 ^ 32)) (powers 32 1) = true) as A by (vm_compute; reflexivity). rewrite forallb_forall in A. specialize (A c Hc). unfold is_u32. lia. }
  rewrite IH. change 1 with (2 ^ 0) at 1. rewrite (apply_powers (iter_step (Nat.pow 2 k)) (iter_0 _) (iter_lxor _) 32 0 _ (iter_range _ _ R)) by lia.
  rewrite Z.mul_1_r. rewrite <- iter_add. f_equal. cbn [Nat.pow]. lia.
Qed.
Lemma two_power k : iter_step (Nat.pow 2 k) 1 = hd 0 (square k).
Proof. rewrite square_spec. reflexivity. Qed.
Lemma two31 n : n = Nat.pow 2 31 -> iter_step n 1 = crc_step 1.
Proof. intros ->. rewrite two_power. vm_compute. reflexivity. Qed.

(** the numbers of steps that take 1 to 1 *)
Definition period (d : Z) : Prop := 0 <= d /\ iter_step (Z.to_nat d) 1 = 1.
Lemma u1 : is_u32 1.
Proof. unfold is_u32. lia. Qed.
Lemma period_add a b : period a -> period b -> period (a + b).
Proof. intros [A Ha] [B Hb]. split; [lia|]. rewrite Z2Nat.inj_add by lia. now rewrite iter_add, Ha. Qed.
Lemma period_sub a b : period a -> period b -> b <= a -> period (a - b).
Proof.
  intros [A Ha] [B Hb] L. split; [lia|]. apply (iter_inj (Z.to_nat b)); [apply iter_range, u1|apply u1|].
  rewrite <- iter_add. replace (Z.to_nat (a - b) + Z.to_nat b)%nat with (Z.to_nat a) by (rewrite <- Z2Nat.inj_add by lia; f_equal; lia). now rewrite Ha, Hb.
Qed.
Lemma period_mul n a : 0 <= n -> period a -> period (n * a).
Proof.
  intros N P. revert n N. apply natlike_ind; [split; [lia|reflexivity]|]. intros n N IH. rewrite Z.mul_succ_l. now apply period_add.
Qed.
Definition mersenne : Z := 2147483647.
Lemma period_mersenne : period mersenne.
Proof.
  split; [unfold mersenne; lia|]. apply (iter_inj 1); [apply iter_range, u1|apply u1|]. rewrite <- iter_add. transitivity (crc_step 1); [apply two31|reflexivity].
  apply Nat2Z.inj. rewrite Nat2Z.inj_add, Z2Nat.id by (unfold mersenne; lia). rewrite Nat2Z.inj_pow. reflexivity.
Qed.
(** 2^31 - 1 is prime: no divisor up to its square root *)
Definition no_divisor (n : Z) (fuel : nat) : bool :=
  (fix go k d := match k with O => true | S k => negb (n mod d =? 0) && go k (d + 1) end) fuel 2.
Lemma no_divisor_spec n fuel : no_divisor n fuel = true -> forall d, 2 <= d < 2 + Z.of_nat fuel -> n mod d <> 0.
Proof.
  unfold no_divisor. generalize 2 at 1 2 3 as s. induction fuel as [|k IH]; intros s H d Hd; [lia|].
  apply andb_prop in H as [A B]. destruct (Z.eq_dec d s) as [->|N]; [now apply negb_true_iff, Z.eqb_neq in A|]. apply (IH (s + 1)); [exact B|lia].
Qed.
Lemma mersenne_prime : prime mersenne.
Proof.
  assert (F : no_divisor mersenne (Z.to_nat 46340) = true) by (vm_compute; reflexivity).
  pose proof (no_divisor_spec _ _ F) as D. rewrite Z2Nat.id in D by lia. clear F.
  assert (K : forall d, 2 <= d < mersenne -> ~ (d | mersenne)).
  { intros d Hd [q Hq]. destruct (Z.le_gt_cases d 46341) as [L|L].
    - apply (D d); [lia|]. rewrite Hq. apply Z.mod_mul. lia.
    - apply (D q); [unfold mersenne in *; nia|]. rewrite Hq, Z.mul_comm. apply Z.mod_mul. unfold mersenne in *. nia. }
  apply prime_alt. split; [unfold mersenne; lia|]. intros n Hn. apply K. lia.
Qed.
Lemma no_period d : 0 < d < mersenne -> iter_step (Z.to_nat d) 1 <> 1.
Proof.
  intros Hd E. assert (P : period d) by (split; [lia|exact E]).
  assert (G : rel_prime d mersenne) by (apply rel_prime_sym, prime_rel_prime; [apply mersenne_prime|]; intros [q Hq]; unfold mersenne in *; nia).
  apply rel_prime_bezout in G. destruct G as [u v G]. set (k := Z.abs u + Z.abs v).
  assert (P1 : period ((u + k * mersenne) * d)) by (apply period_mul; [unfold k, mersenne; nia|exact P]).
  assert (P2 : period ((k * d - v) * mersenne)) by (apply period_mul; [unfold k; nia|apply period_mersenne]).
  assert (One : period 1).
  { replace 1 with ((u + k * mersenne) * d - (k * d - v) * mersenne) by lia. apply period_sub; [exact P1|exact P2|]. lia. }
  destruct One as [_ One]. vm_compute in One. discriminate.
Qed.
