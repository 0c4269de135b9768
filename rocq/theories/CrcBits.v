(** CRC-32C one bit at a time: linearity, parity, the order of x (C88). *)
From Coq Require Import ZArith Znumtheory List Lia Bool.
From Verif Require Import Base Crc CrcProofs.
Import ListNotations.
Open Scope Z_scope.

Lemma odd_lxor a b : Z.odd (Z.lxor a b) = xorb (Z.odd a) (Z.odd b).
Proof. rewrite <- !Z.bit0_odd. apply Z.lxor_spec. Qed.
(** xor of four *)
Lemma lxor4 a b c d : Z.lxor (Z.lxor a b) (Z.lxor c d) = Z.lxor (Z.lxor a c) (Z.lxor b d).
Proof. rewrite !Z.lxor_assoc. f_equal. rewrite <- !Z.lxor_assoc. f_equal. apply Z.lxor_comm. Qed.
Lemma step_lxor a b : crc_step (Z.lxor a b) = Z.lxor (crc_step a) (crc_step b).
Proof.
  unfold crc_step. rewrite odd_lxor, Z.shiftr_lxor. set (u := Z.shiftr a 1). set (v := Z.shiftr b 1). generalize poly. intros p. destruct (Z.odd a), (Z.odd b); cbn [xorb].
  - rewrite lxor4, Z.lxor_nilpotent, Z.lxor_0_r. reflexivity.
  - rewrite !Z.lxor_assoc. f_equal. apply Z.lxor_comm.
  - now rewrite Z.lxor_assoc.
  - reflexivity.
Qed.
Lemma step_0 : crc_step 0 = 0.
Proof. reflexivity. Qed.
Lemma iter_lxor n : forall a b, iter_step n (Z.lxor a b) = Z.lxor (iter_step n a) (iter_step n b).
Proof. induction n as [|n IH]; intros a b; [reflexivity|]. cbn [iter_step]. now rewrite step_lxor, IH. Qed.
Lemma iter_0 n : iter_step n 0 = 0.
Proof. induction n as [|n IH]; [reflexivity|]. cbn [iter_step]. now rewrite step_0. Qed.
Lemma iter_add n : forall m c, iter_step (n + m) c = iter_step m (iter_step n c).
Proof. induction n as [|n IH]; intros m c; [reflexivity|]. cbn [iter_step Nat.add]. apply IH. Qed.
Lemma step_double w : crc_step (2 * w) = w.
Proof. unfold crc_step. rewrite Z.odd_mul. cbn [Z.odd andb]. rewrite Z.shiftr_div_pow2 by lia. change (2 ^ 1) with 2. rewrite Z.mul_comm. now apply Z.div_mul. Qed.
Lemma poly_range : is_u32 poly.
Proof. unfold is_u32, poly. lia. Qed.
Lemma step_range c : is_u32 c -> is_u32 (crc_step c).
Proof.
  intros H. assert (S : 0 <= Z.shiftr c 1 < 2 ^ 32). { unfold is_u32 in H. rewrite Z.shiftr_div_pow2 by lia. change (2 ^ 1) with 2. split; [apply Z.div_pos; lia|apply Z.div_lt_upper_bound; lia]. }
  unfold crc_step. destruct (Z.odd c); [|exact S]. apply lxor_range; [lia|exact S|apply poly_range].
Qed.
Lemma iter_range n : forall c, is_u32 c -> is_u32 (iter_step n c).
Proof. induction n as [|n IH]; intros c H; [exact H|]. cbn [iter_step]. now apply IH, step_range. Qed.
Lemma step_kernel c : is_u32 c -> crc_step c = 0 -> c = 0.
Proof.
  intros H E. unfold is_u32 in H. unfold crc_step in E. rewrite Z.shiftr_div_pow2 in E by lia. change (2 ^ 1) with 2 in E. rewrite Zodd_mod in E.
  pose proof (Z.div_mod c 2 ltac:(lia)) as D. pose proof (Z.mod_pos_bound c 2 ltac:(lia)) as B.
  destruct (Zeq_bool (c mod 2) 1) eqn:O.
  - apply Z.lxor_eq in E. unfold poly in E. lia.
  - apply Zeq_bool_neq in O. lia.
Qed.
Lemma iter_kernel n : forall c, is_u32 c -> iter_step n c = 0 -> c = 0.
Proof. induction n as [|n IH]; intros c H E; [exact E|]. cbn [iter_step] in E. apply step_kernel; [exact H|]. apply IH; [now apply step_range|exact E]. Qed.
Lemma iter_inj n a b : is_u32 a -> is_u32 b -> iter_step n a = iter_step n b -> a = b.
Proof.
  intros Ha Hb E. apply Z.lxor_eq. apply (iter_kernel n); [apply lxor_range; [lia|exact Ha|exact Hb]|]. rewrite iter_lxor, E. apply Z.lxor_nilpotent.
Qed.

(** * bit by bit *)
Fixpoint crc_bits (c : Z) (l : list bool) : Z :=
  match l with [] => c | b :: l => crc_bits (crc_step (Z.lxor c (Z.b2z b))) l end.
Fixpoint low_bits (k : nat) (v : Z) : list bool :=
  match k with O => [] | S k => Z.odd v :: low_bits k (v / 2) end.
Lemma b2z_odd v : v = Z.lxor (Z.b2z (Z.odd v)) (2 * (v / 2)).
Proof.
  apply Z.bits_inj'. intros n Hn. rewrite Z.lxor_spec. destruct (Z.eq_dec n 0) as [->|N].
  - rewrite Z.testbit_even_0, xorb_false_r. rewrite Z.bit0_odd. destruct (Z.odd v); reflexivity.
  - assert (Z.testbit (Z.b2z (Z.odd v)) n = false) as ->. { destruct (Z.odd v); cbn [Z.b2z]; [|apply Z.testbit_0_l]. change 1 with (2 ^ 0). apply Z.pow2_bits_false. lia. }
    rewrite xorb_false_l. replace n with (Z.succ (n - 1)) by lia. rewrite Z.testbit_even_succ by lia. rewrite <- Z.div2_div, Z.div2_spec, Z.shiftr_spec by lia. reflexivity.
Qed.
Lemma iter_bits k : forall c v, 0 <= v < 2 ^ Z.of_nat k -> iter_step k (Z.lxor c v) = crc_bits c (low_bits k v).
Proof.
  induction k as [|k IH]; intros c v H.
  - change (2 ^ Z.of_nat 0) with 1 in H. replace v with 0 by lia. apply Z.lxor_0_r.
  - rewrite Nat2Z.inj_succ, Z.pow_succ_r in H by lia. cbn [iter_step low_bits crc_bits].
    rewrite (b2z_odd v) at 1. rewrite <- Z.lxor_assoc, step_lxor, step_double. apply IH. split; [apply Z.div_pos; lia|apply Z.div_lt_upper_bound; lia].
Qed.
Lemma crc_bits_app l : forall c m, crc_bits c (l ++ m) = crc_bits (crc_bits c l) m.
Proof. induction l as [|b l IH]; intros c m; [reflexivity|]. cbn [crc_bits app]. apply IH. Qed.
Lemma table_entry i : 0 <= i < 256 -> at_ i crc_table = iter_step 8 i.
Proof.
  intros H. rewrite crc_table_entries. unfold at_. rewrite (nth_indep _ 0 (crc_entry (Z.of_nat 0))) by (rewrite map_length, seq_length; lia).
  rewrite (map_nth (fun n => crc_entry (Z.of_nat n))). rewrite seq_nth by lia. unfold crc_entry. f_equal. lia.
Qed.
Lemma iter_high k : forall y, iter_step k (y * 2 ^ Z.of_nat k) = y.
Proof.
  induction k as [|k IH]; intros y; [apply Z.mul_1_r|]. rewrite Nat2Z.inj_succ, Z.pow_succ_r by lia. cbn [iter_step]. replace (y * (2 * 2 ^ Z.of_nat k)) with (2 * (y * 2 ^ Z.of_nat k)) by ring. rewrite step_double. apply IH.
Qed.
Lemma split_byte c : c = Z.lxor (Z.land c 255) (Z.shiftr c 8 * 2 ^ 8).
Proof.
  rewrite <- Z.shiftl_mul_pow2 by lia. change 255 with (Z.ones 8). apply Z.bits_inj'. intros n Hn. rewrite Z.lxor_spec, Z.land_spec.
  rewrite Z.shiftl_spec by lia. destruct (Z.lt_ge_cases n 8) as [L|L].
  - rewrite Z.ones_spec_low, andb_true_r by lia. rewrite (Z.testbit_neg_r _ (n - 8)) by lia. now rewrite xorb_false_r.
  - rewrite Z.ones_spec_high, andb_false_r by lia. rewrite Z.shiftr_spec by lia. rewrite xorb_false_l. f_equal. lia.
Qed.
Lemma crc_byte_bits c b : is_u32 c -> is_byte b -> crc_byte c b = crc_bits c (low_bits 8 b).
Proof.
  intros Hc Hb. rewrite <- (iter_bits 8 c b Hb). unfold crc_byte. rewrite table_entry by (apply idx_range; [exact Hb|unfold is_u32 in Hc; lia]).
  transitivity (Z.lxor (iter_step 8 (Z.lxor (Z.land c 255) b)) (iter_step 8 (Z.shiftr c 8 * 2 ^ 8))); [f_equal; symmetry; exact (iter_high 8 _)|].
  rewrite <- iter_lxor. f_equal. rewrite (split_byte c) at 3. rewrite !Z.lxor_assoc. f_equal. apply Z.lxor_comm.
Qed.
Lemma testbit_low k : forall j v, 0 <= j -> map (fun i => Z.testbit v (j + Z.of_nat i)) (seq 0 k) = low_bits k (v / 2 ^ j).
Proof.
  induction k as [|k IH]; intros j v H; [reflexivity|]. cbn [seq map low_bits]. f_equal.
  - rewrite <- Z.bit0_odd, <- Z.shiftr_div_pow2, Z.shiftr_spec by lia. f_equal. lia.
  - rewrite Z.div_div by (try apply Z.pow_nonzero; lia). replace (2 ^ j * 2) with (2 ^ (j + 1)) by (rewrite Z.pow_add_r by lia; reflexivity). rewrite <- IH by lia.
    rewrite <- seq_shift, map_map. apply map_ext. intros i. f_equal. lia.
Qed.
From Verif Require Import FlipSpec.
Lemma bits_cons b s : bits (b :: s) = low_bits 8 b ++ bits s.
Proof. unfold bits. cbn [flat_map]. f_equal. pose proof (testbit_low 8 0 b ltac:(lia)) as T. rewrite Z.div_1_r in T. rewrite <- T. reflexivity. Qed.
Lemma bits_app a b : bits (a ++ b) = bits a ++ bits b.
Proof. apply flat_map_app. Qed.
Lemma fold_bits s : forall c, is_u32 c -> is_bytes s -> fold_left crc_byte s c = crc_bits c (bits s).
Proof.
  induction s as [|b s IH]; intros c Hc Hs; [reflexivity|]. inversion Hs; subst. rewrite bits_cons, crc_bits_app. cbn [fold_left].
  rewrite <- crc_byte_bits by assumption. apply IH; [now apply crc_byte_range|assumption].
Qed.

(** * differences *)
Definition diff (l m : list bool) : list bool := map (fun p => xorb (fst p) (snd p)) (combine l m).
Fixpoint count (l : list bool) : nat := match l with [] => O | b :: l => if b then S (count l) else count l end.
Lemma crc_bits_diff l : forall m c d, length l = length m -> Z.lxor (crc_bits c l) (crc_bits d m) = crc_bits (Z.lxor c d) (diff l m).
Proof.
  induction l as [|b l IH]; intros [|b' m] c d H; try discriminate; [reflexivity|]. injection H as H. unfold diff. cbn [crc_bits combine map fst snd]. fold (diff l m).
  rewrite IH by assumption. f_equal. rewrite <- step_lxor. f_equal. rewrite lxor4. f_equal. now destruct b, b'.
Qed.
Lemma count_app l m : count (l ++ m) = (count l + count m)%nat.
Proof. induction l as [|b l IH]; [reflexivity|]. cbn [app count]. rewrite IH. now destruct b. Qed.
Lemma count_rev l : count (rev l) = count l.
Proof. induction l as [|b l IH]; [reflexivity|]. cbn [rev count]. rewrite count_app, IH. cbn [count]. destruct b; lia. Qed.
Lemma diff_app a b c d : length a = length b -> diff (a ++ c) (b ++ d) = diff a b ++ diff c d.
Proof. revert b. induction a as [|x a IH]; intros [|y b] H; try discriminate; [reflexivity|]. injection H as H. unfold diff in *. cbn [app combine map]. now rewrite IH. Qed.
Lemma diff_length a b : length a = length b -> length (diff a b) = length a.
Proof. intros H. unfold diff. rewrite map_length, combine_length. lia. Qed.
Lemma bits_length s : length (bits s) = (8 * length s)%nat.
Proof. induction s as [|b s IH]; [reflexivity|]. unfold bits in *. cbn [flat_map]. rewrite app_length, IH. cbn [length map]. lia. Qed.
Lemma flips_count s t : flips s t = count (diff (bits s) (bits t)).
Proof.
  unfold flips, diff. generalize (combine (bits s) (bits t)). induction l as [|[a b] l IH]; [reflexivity|]. cbn [filter map count fst snd]. destruct a, b; cbn [Bool.eqb negb xorb length]; now rewrite IH.
Qed.
Lemma flips_app a b c d : length a = length b -> flips (a ++ c) (b ++ d) = (flips a b + flips c d)%nat.
Proof. intros H. rewrite !flips_count, !bits_app, diff_app, count_app by (rewrite !bits_length; lia). reflexivity. Qed.
Lemma diff_0 a : forall b, length a = length b -> count (diff a b) = O -> a = b.
Proof.
  induction a as [|x a IH]; intros [|y b] H E; try discriminate; [reflexivity|]. injection H as H. unfold diff in E. cbn [combine map fst snd count] in E. fold (diff a b) in E.
  destruct x, y; cbn [xorb] in E; try discriminate; f_equal; now apply IH.
Qed.

(** * parity *)
Fixpoint parity (k : nat) (c : Z) : bool := match k with O => false | S k => xorb (Z.odd c) (parity k (Z.div2 c)) end.
Lemma parity_lxor k : forall a b, parity k (Z.lxor a b) = xorb (parity k a) (parity k b).
Proof.
  induction k as [|k IH]; intros a b; [reflexivity|]. cbn [parity]. rewrite odd_lxor. rewrite !Z.div2_spec, Z.shiftr_lxor, <- !Z.div2_spec, IH. now destruct (Z.odd a), (Z.odd b), (parity k (Z.div2 a)), (parity k (Z.div2 b)).
Qed.
Lemma parity_0 k : parity k 0 = false.
Proof. induction k as [|k IH]; [reflexivity|]. cbn [parity]. change (Z.div2 0) with 0. now rewrite IH. Qed.
Lemma parity_snoc k : forall c, parity (S k) c = xorb (parity k c) (Z.testbit c (Z.of_nat k)).
Proof.
  induction k as [|k IH]; intros c; [cbn [parity]; rewrite xorb_false_l, xorb_false_r; symmetry; apply Z.bit0_odd|]. change (parity (S (S k)) c) with (xorb (Z.odd c) (parity (S k) (Z.div2 c))). rewrite IH.
  cbn [parity]. rewrite xorb_assoc. f_equal. f_equal. rewrite Z.div2_spec, Z.shiftr_spec by lia. f_equal. lia.
Qed.
Lemma high_bit c k : 0 <= c < 2 ^ k -> 0 <= k -> Z.testbit c k = false.
Proof. intros H K. destruct (Z.eq_dec c 0) as [->|N]; [apply Z.testbit_0_l|]. apply Z.bits_above_log2; [lia|]. apply Z.log2_lt_pow2; lia. Qed.
Lemma parity_step c : is_u32 c -> parity 32 (crc_step c) = parity 32 c.
Proof.
  intros H. assert (S : parity 32 (Z.shiftr c 1) = xorb (parity 32 c) (Z.odd c)).
  { rewrite <- Z.div2_spec. change (parity 32 c) with (xorb (Z.odd c) (parity 31 (Z.div2 c))). rewrite (parity_snoc 31).
    rewrite (high_bit (Z.div2 c)); [|rewrite Z.div2_div; unfold is_u32 in H; split; [apply Z.div_pos; lia|change (2 ^ Z.of_nat 31) with 2147483648; apply Z.div_lt_upper_bound; lia]|lia].
    now destruct (Z.odd c), (parity 31 (Z.div2 c)). }
  unfold crc_step. destruct (Z.odd c) eqn:O; [rewrite parity_lxor|]; rewrite S; [|apply xorb_false_r]. replace (parity 32 poly) with true by (vm_compute; reflexivity). now destruct (parity 32 c).
Qed.
Lemma b2z_range b : is_u32 (Z.b2z b).
Proof. unfold is_u32. destruct b; cbn; lia. Qed.
Lemma crc_bits_range l : forall c, is_u32 c -> is_u32 (crc_bits c l).
Proof. induction l as [|b l IH]; intros c H; [exact H|]. cbn [crc_bits]. apply IH, step_range. apply lxor_range; [lia|exact H|apply b2z_range]. Qed.
Lemma parity_bits l : forall c, is_u32 c -> parity 32 (crc_bits c l) = xorb (parity 32 c) (Nat.odd (count l)).
Proof.
  induction l as [|b l IH]; intros c H; [symmetry; apply xorb_false_r|]. cbn [crc_bits count]. assert (R : is_u32 (Z.lxor c (Z.b2z b))) by (apply lxor_range; [lia|exact H|apply b2z_range]).
  rewrite IH by now apply step_range. rewrite parity_step by exact R. rewrite parity_lxor. destruct b.
  - change (parity 32 (Z.b2z true)) with true. rewrite Nat.odd_succ, <- Nat.negb_odd. now destruct (parity 32 c), (Nat.odd (count l)).
  - change (parity 32 (Z.b2z false)) with false. now rewrite xorb_false_r.
Qed.
