(** C90: the format of a stored record. *)
From Coq Require Import ZArith List Lia Bool.
From Verif Require Import Base Maps Crc CrcProofs Record RecordSpec RecordProofs FlipSpec CrcBits CrcFlip
  File FileProofs Metric MetricSpec MetricFile MetricPaths MetricProofs DbSpec DbProofs DbLog DbClient DamageSpec StoredSpec MetricRead Props_Storage.
Import ListNotations.
Open Scope Z_scope.

(** ** carry-less multiplication *)
Lemma clmul_pos_nonneg b : 0 <= b -> forall a, 0 <= clmul_pos a b.
Proof. intros H. induction a as [a IH|a IH|]; cbn [clmul_pos]; [apply Z.lxor_nonneg; split; lia|lia|exact H]. Qed.
Lemma double_lxor a b : 2 * Z.lxor a b = Z.lxor (2 * a) (2 * b).
Proof. rewrite !(Z.mul_comm 2). change 2 with (2 ^ 1). rewrite <- !Z.shiftl_mul_pow2 by lia. apply Z.shiftl_lxor. Qed.
Lemma clmul_double a b : 0 <= a -> clmul (2 * a) b = 2 * clmul a b.
Proof. intros H. destruct a as [|a|a]; [reflexivity|reflexivity|lia]. Qed.
Lemma clmul_double_1 a b : 0 <= a -> clmul (2 * a + 1) b = Z.lxor b (2 * clmul a b).
Proof. intros H. destruct a as [|a|a]; [symmetry; apply Z.lxor_0_r|reflexivity|lia]. Qed.
Lemma clmul_bit a b c : 0 <= a -> clmul (2 * a + Z.b2z c) b = Z.lxor (if c then b else 0) (2 * clmul a b).
Proof. intros H. destruct c; cbn [Z.b2z]; [now apply clmul_double_1|]. rewrite Z.add_0_r, Z.lxor_0_l. now apply clmul_double. Qed.
Lemma lxor_bits a b c d : Z.lxor (2 * a + Z.b2z c) (2 * b + Z.b2z d) = 2 * Z.lxor a b + Z.b2z (xorb c d).
Proof.
  apply Z.bits_inj'. intros n Hn. rewrite Z.lxor_spec. destruct (Z.eq_dec n 0) as [->|N]; [now rewrite !Z.testbit_0_r|].
  replace n with (Z.succ (n - 1)) by lia. rewrite !Z.testbit_succ_r by lia. symmetry. apply Z.lxor_spec.
Qed.
Lemma clmul_lxor_fuel b n : forall a a', 0 <= a < 2 ^ Z.of_nat n -> 0 <= a' -> clmul (Z.lxor a a') b = Z.lxor (clmul a b) (clmul a' b).
Proof.
  induction n as [|n IH]; intros a a' H H'.
  - change (2 ^ Z.of_nat 0) with 1 in H. replace a with 0 by lia. cbn [clmul]. now rewrite !Z.lxor_0_l.
  - rewrite Nat2Z.inj_succ, Z.pow_succ_r in H by lia. pose proof (Z.div2_odd a) as Ea. pose proof (Z.div2_odd a') as Ea'.
    change (if Z.odd a then 1 else 0) with (Z.b2z (Z.odd a)) in Ea. change (if Z.odd a' then 1 else 0) with (Z.b2z (Z.odd a')) in Ea'.
    set (u := Z.div2 a) in *. set (v := Z.div2 a') in *.
    assert (U : 0 <= u < 2 ^ Z.of_nat n) by (destruct (Z.odd a); cbn [Z.b2z] in Ea; lia).
    assert (V : 0 <= v) by (destruct (Z.odd a'); cbn [Z.b2z] in Ea'; lia).
    rewrite Ea, Ea', lxor_bits. rewrite !clmul_bit by (try apply Z.lxor_nonneg; lia). rewrite IH by lia. rewrite double_lxor.
    destruct (Z.odd a), (Z.odd a'); cbn [xorb]; rewrite ?Z.lxor_0_l; try reflexivity.
    + rewrite lxor4, Z.lxor_nilpotent, Z.lxor_0_l. reflexivity.
    + now rewrite Z.lxor_assoc.
    + rewrite <- !Z.lxor_assoc. f_equal. apply Z.lxor_comm.
Qed.
Lemma clmul_lxor b a a' : 0 <= a -> 0 <= a' -> clmul (Z.lxor a a') b = Z.lxor (clmul a b) (clmul a' b).
Proof.
  intros H H'. apply (clmul_lxor_fuel b (Z.to_nat a)); [|exact H']. split; [exact H|]. rewrite Z2Nat.id by exact H. now apply Z.pow_gt_lin_r.
Qed.
Lemma clmul_pow k b : clmul (2 ^ Z.of_nat k) b = b * 2 ^ Z.of_nat k.
Proof.
  induction k as [|k IH]; [cbn; now rewrite Z.mul_1_r|]. rewrite Nat2Z.inj_succ, Z.pow_succ_r by lia. rewrite clmul_double by (apply Z.pow_nonneg; lia). rewrite IH. ring.
Qed.

(** ** polynomials of bit lists *)
Lemma poly_from l : forall p, fold_left (fun p b => 2 * p + Z.b2z b) l p = p * 2 ^ Z.of_nat (length l) + poly_of l.
Proof.
  unfold poly_of. induction l as [|b l IH]; intros p; [cbn; lia|]. cbn [fold_left length]. rewrite IH, (IH (2 * 0 + Z.b2z b)). rewrite Nat2Z.inj_succ, Z.pow_succ_r by lia. ring.
Qed.
Lemma poly_cons b l : poly_of (b :: l) = Z.b2z b * 2 ^ Z.of_nat (length l) + poly_of l.
Proof. unfold poly_of at 1. cbn [fold_left]. rewrite poly_from. ring. Qed.
Lemma poly_range_of l : 0 <= poly_of l < 2 ^ Z.of_nat (length l).
Proof.
  induction l as [|b l IH]; [cbn; lia|]. rewrite poly_cons. cbn [length]. rewrite Nat2Z.inj_succ, Z.pow_succ_r by lia. destruct b; cbn [Z.b2z]; lia.
Qed.
Lemma poly_snoc l b : poly_of (l ++ [b]) = 2 * poly_of l + Z.b2z b.
Proof. unfold poly_of. now rewrite fold_left_app. Qed.
(** no carry above a smaller number *)
Lemma add_lxor a b k : 0 <= k -> 0 <= b < 2 ^ k -> a * 2 ^ k + b = Z.lxor (a * 2 ^ k) b.
Proof.
  intros K H. rewrite <- Z.add_nocarry_lxor; [reflexivity|]. apply Z.bits_inj'. intros n Hn. rewrite Z.land_spec, Z.bits_0. destruct (Z.lt_ge_cases n k) as [L|L].
  - rewrite Z.mul_pow2_bits_low by lia. reflexivity.
  - assert (Z.testbit b n = false) as ->; [|apply andb_false_r]. destruct (Z.eq_dec b 0) as [->|N]; [apply Z.testbit_0_l|]. apply Z.bits_above_log2; [lia|]. apply Z.lt_le_trans with k; [|lia]. apply Z.log2_lt_pow2; lia.
Qed.
Lemma poly_cons_lxor b l : poly_of (b :: l) = Z.lxor (Z.b2z b * 2 ^ Z.of_nat (length l)) (poly_of l).
Proof. rewrite poly_cons. apply add_lxor; [lia|apply poly_range_of]. Qed.
Lemma shift_lxor a b k : 0 <= k -> Z.lxor a b * 2 ^ k = Z.lxor (a * 2 ^ k) (b * 2 ^ k).
Proof. intros K. rewrite <- !Z.shiftl_mul_pow2 by exact K. apply Z.shiftl_lxor. Qed.
Lemma poly_diff l : forall m, length l = length m -> poly_of (diff l m) = Z.lxor (poly_of l) (poly_of m).
Proof.
  induction l as [|b l IH]; intros [|c m] H; try discriminate; [reflexivity|]. injection H as H. unfold diff. cbn [combine map fst snd]. fold (diff l m).
  rewrite !poly_cons_lxor, IH by exact H. rewrite diff_length by exact H. rewrite H. rewrite lxor4. f_equal. rewrite <- shift_lxor by lia. f_equal. now destruct b, c.
Qed.

(** the polynomial of the state of the computation: bit 0 is the coefficient of x^31 *)
Definition rev32 (c : Z) : Z := poly_of (low_bits 32 c).
Lemma rev_lxor a b : rev32 (Z.lxor a b) = Z.lxor (rev32 a) (rev32 b).
Proof. unfold rev32. rewrite low_diff. apply poly_diff. now rewrite !low_length. Qed.
Lemma rev_range c : 0 <= rev32 c < 2 ^ 32.
Proof. unfold rev32. pose proof (poly_range_of (low_bits 32 c)) as H. rewrite low_length in H. exact H. Qed.
Lemma low_snoc k : forall v, low_bits (S k) v = low_bits k v ++ [Z.odd (v / 2 ^ Z.of_nat k)].
Proof.
  induction k as [|k IH]; intros v; [cbn; now rewrite Z.div_1_r|]. change (low_bits (S (S k)) v) with (Z.odd v :: low_bits (S k) (v / 2)). rewrite IH. cbn [low_bits app]. do 3 f_equal.
  rewrite Z.div_div by (try apply Z.pow_pos_nonneg; lia). rewrite Nat2Z.inj_succ, Z.pow_succ_r by lia. reflexivity.
Qed.
Lemma rev_bit b : rev32 (Z.b2z b) = Z.b2z b * 2 ^ 31.
Proof. destruct b; vm_compute; reflexivity. Qed.
Lemma rev_step c : is_u32 c -> rev32 (crc_step c) = Z.lxor (2 * rev32 c) (if Z.odd c then castagnoli else 0).
Proof.
  intros H. assert (S : rev32 (Z.shiftr c 1) = Z.lxor (2 * rev32 c) (if Z.odd c then 2 ^ 32 else 0)).
  { rewrite Z.shiftr_div_pow2 by lia. change (2 ^ 1) with 2. unfold rev32. rewrite (low_snoc 31).
    replace (c / 2 / 2 ^ Z.of_nat 31) with 0. 2:{ symmetry. rewrite Z.div_div by lia. apply Z.div_small. exact H. }
    cbn [Z.odd]. rewrite poly_snoc. cbn [Z.b2z]. rewrite Z.add_0_r. change (low_bits 32 c) with (Z.odd c :: low_bits 31 (c / 2)). rewrite poly_cons_lxor, low_length, double_lxor.
    destruct (Z.odd c); cbn [Z.b2z].
    - change (2 * (1 * 2 ^ Z.of_nat 31)) with (2 ^ 32). rewrite (Z.lxor_comm (2 ^ 32)), Z.lxor_assoc, Z.lxor_nilpotent. symmetry. apply Z.lxor_0_r.
    - rewrite Z.mul_0_l, Z.mul_0_r, Z.lxor_0_l. symmetry. apply Z.lxor_0_r. }
  unfold crc_step. destruct (Z.odd c); [|exact S]. rewrite rev_lxor, S, Z.lxor_assoc. f_equal. all: vm_compute; reflexivity.
Qed.
Lemma mul_2 x n : x * (2 * n) = 2 * x * n.
Proof. ring. Qed.
Lemma mul_32 x n : x * n * 2 ^ 32 = 2 * (x * 2 ^ 31) * n.
Proof. change (2 ^ 32) with (2 * 2 ^ 31). generalize (2 ^ 31). intros y. ring. Qed.
Lemma division l : forall c, is_u32 c -> exists q, 0 <= q /\
  Z.lxor (rev32 c * 2 ^ Z.of_nat (length l)) (poly_of l * 2 ^ 32) = Z.lxor (clmul q castagnoli) (rev32 (crc_bits c l)).
Proof.
  induction l as [|b l IH]; intros c H; [exists 0; split; [lia|]; cbn; now rewrite Z.mul_1_r, Z.lxor_0_r|].
  cbn [crc_bits]. set (d := Z.lxor c (Z.b2z b)). assert (D : is_u32 d) by (apply lxor_range; [lia|exact H|apply b2z_range]).
  destruct (IH (crc_step d) (step_range d D)) as (q & Hq & E). set (n := Z.of_nat (length l)) in *. set (R := rev32 (crc_bits (crc_step d) l)) in *.
  exists (Z.lxor q (if Z.odd d then 2 ^ n else 0)).
  assert (P0 : 0 <= (if Z.odd d then 2 ^ n else 0)) by (destruct (Z.odd d); [apply Z.pow_nonneg|]; lia).
  split; [apply Z.lxor_nonneg; lia|]. rewrite clmul_lxor by assumption.
  assert (C : clmul (if Z.odd d then 2 ^ n else 0) castagnoli = (if Z.odd d then castagnoli else 0) * 2 ^ n) by (destruct (Z.odd d); [apply clmul_pow|reflexivity]).
  rewrite C. rewrite rev_step in E by exact D. rewrite shift_lxor in E by lia.
  cbn [length]. rewrite Nat2Z.inj_succ, Z.pow_succ_r by lia. fold n. rewrite poly_cons_lxor. fold n.
  transitivity (Z.lxor (2 * rev32 d * 2 ^ n) (poly_of l * 2 ^ 32)).
  - unfold d. rewrite rev_lxor, rev_bit, double_lxor, !shift_lxor by lia. rewrite <- Z.lxor_assoc. f_equal. f_equal; [apply mul_2|apply mul_32].
  - apply (f_equal (fun x => Z.lxor x ((if Z.odd d then castagnoli else 0) * 2 ^ n))) in E.
    set (A := 2 * rev32 d * 2 ^ n) in *. set (B := (if Z.odd d then castagnoli else 0) * 2 ^ n) in *. set (L := poly_of l * 2 ^ 32) in *. set (Q := clmul q castagnoli) in *.
    rewrite (Z.lxor_assoc Q B R), (Z.lxor_comm B R), <- Z.lxor_assoc, <- E. rewrite !Z.lxor_assoc. f_equal. rewrite (Z.lxor_comm B), Z.lxor_assoc, Z.lxor_nilpotent, Z.lxor_0_r. reflexivity.
Qed.
Lemma high_bits r n : 0 <= r < 2 ^ 32 -> 32 <= n -> Z.testbit r n = false.
Proof.
  intros H L. destruct (Z.eq_dec r 0) as [->|N]; [apply Z.testbit_0_l|]. apply Z.bits_above_log2; [lia|]. apply Z.lt_le_trans with 32; [|lia]. apply Z.log2_lt_pow2; lia.
Qed.
Lemma complement r : 0 <= r < 2 ^ 32 -> Z.lxor (2 ^ 32 - 1) r = 2 ^ 32 - 1 - r.
Proof.
  intros H. change (2 ^ 32 - 1) with (Z.ones 32). rewrite Z.sub_nocarry_ldiff.
  - apply Z.bits_inj'. intros n Hn. rewrite Z.lxor_spec, Z.ldiff_spec. destruct (Z.lt_ge_cases n 32) as [L|L].
    + rewrite Z.ones_spec_low by lia. now destruct (Z.testbit r n).
    + rewrite Z.ones_spec_high by lia. cbn [andb]. rewrite xorb_false_l. apply (high_bits r n); lia.
  - apply Z.bits_inj'. intros n Hn. rewrite Z.ldiff_spec, Z.bits_0. destruct (Z.lt_ge_cases n 32) as [L|L].
    + rewrite Z.ones_spec_low by lia. apply andb_false_r.
    + rewrite (high_bits r n) by lia. reflexivity.
Qed.

(** ** the checksum *)
Lemma word_low c : word_bits c = low_bits 32 c.
Proof. unfold word_bits. pose proof (testbit_low 32 0 c ltac:(lia)) as T. rewrite Z.div_1_r in T. rewrite <- T. reflexivity. Qed.
Lemma word_rev c : poly_of (word_bits c) = rev32 c.
Proof. unfold rev32. now rewrite word_low. Qed.
Lemma mask_range : is_u32 mask32.
Proof. unfold is_u32, mask32. lia. Qed.
Lemma rev_mask : rev32 mask32 = 2 ^ 32 - 1.
Proof. vm_compute. reflexivity. Qed.
Lemma crc_is s : is_bytes s -> is_crc32c s (crc_update 0 s).
Proof.
  intros H. unfold crc_update. rewrite Z.lxor_0_r, (fold_bits s mask32 mask_range H). set (X := crc_bits mask32 (bits s)).
  assert (RX : is_u32 X) by (apply crc_bits_range, mask_range). split; [apply lxor_range; [lia|apply mask_range|exact RX]|].
  destruct (division (bits s) mask32 mask_range) as (q & Hq & E). fold X in E. exists q, (rev32 X). split; [exact Hq|]. split; [apply rev_range|]. split.
  - rewrite <- E, rev_mask, bits_length. rewrite Z.lxor_comm. f_equal. f_equal. f_equal. lia.
  - rewrite word_rev, rev_lxor, rev_mask. apply complement, rev_range.
Qed.
(** only one number is the checksum *)
Lemma clmul_big a b n : 0 <= n -> 2 ^ n <= b < 2 ^ (n + 1) -> 2 ^ n <= clmul_pos a b.
Proof.
  intros N H. assert (P : 0 < 2 ^ n) by (apply Z.pow_pos_nonneg; lia). rewrite Z.pow_add_r in H by lia. change (2 ^ 1) with 2 in H.
  induction a as [a IH|a IH|]; cbn [clmul_pos]; [|lia|lia]. set (y := clmul_pos a b) in *.
  assert (B : Z.testbit (Z.lxor b (2 * y)) (Z.log2 (2 * y)) = true).
  { rewrite Z.lxor_spec, Z.bit_log2 by lia. rewrite (Z.bits_above_log2 b); [reflexivity|lia|].
    apply Z.lt_le_trans with (n + 1); [apply Z.log2_lt_pow2; [lia|]; rewrite Z.pow_add_r by lia; change (2 ^ 1) with 2; lia|].
    apply Z.log2_le_pow2; [lia|]. rewrite Z.pow_add_r by lia. change (2 ^ 1) with 2. lia. }
  assert (NN : 0 <= Z.lxor b (2 * y)) by (apply Z.lxor_nonneg; lia).
  destruct (Z.lt_ge_cases (Z.lxor b (2 * y)) (2 ^ n)) as [L|L]; [|exact L]. exfalso.
  destruct (Z.eq_dec (Z.lxor b (2 * y)) 0) as [E0|E0]; [rewrite E0, Z.testbit_0_l in B; discriminate|].
  rewrite Z.bits_above_log2 in B; [discriminate|exact NN|]. apply Z.lt_le_trans with n; [apply Z.log2_lt_pow2; lia|]. apply Z.log2_le_pow2; lia.
Qed.
Lemma castagnoli_range : 2 ^ 32 <= castagnoli < 2 ^ (32 + 1).
Proof. split; vm_compute; [discriminate|reflexivity]. Qed.
Lemma lxor_eq_swap a b c d : Z.lxor a b = Z.lxor c d -> Z.lxor a c = Z.lxor b d.
Proof.
  intros H. apply Z.lxor_eq. rewrite lxor4, H. apply Z.lxor_nilpotent.
Qed.
Lemma remainder_unique q r q' r' : 0 <= q -> 0 <= q' -> 0 <= r < 2 ^ 32 -> 0 <= r' < 2 ^ 32 ->
  Z.lxor (clmul q castagnoli) r = Z.lxor (clmul q' castagnoli) r' -> r = r'.
Proof.
  intros Hq Hq' Hr Hr' E. apply lxor_eq_swap in E. rewrite <- clmul_lxor in E by assumption.
  assert (B : 0 <= Z.lxor r r' < 2 ^ 32) by (apply lxor_range; lia). assert (Q : 0 <= Z.lxor q q') by (apply Z.lxor_nonneg; lia).
  destruct (Z.lxor q q') as [|p|p]; [apply Z.lxor_eq; rewrite <- E; reflexivity| |lia].
  pose proof (clmul_big p castagnoli 32 ltac:(lia) castagnoli_range) as G. cbn [clmul] in E. lia.
Qed.
Lemma poly_0 l : poly_of l = 0 -> count l = O.
Proof.
  induction l as [|b l IH]; intros H; [reflexivity|]. rewrite poly_cons in H. pose proof (poly_range_of l). destruct b; cbn [Z.b2z count] in *; [lia|]. apply IH. lia.
Qed.
Lemma rev_inj a b : is_u32 a -> is_u32 b -> rev32 a = rev32 b -> a = b.
Proof.
  intros Ha Hb E. apply Z.lxor_eq. apply (low_count_0 32); [apply lxor_range; [lia|exact Ha|exact Hb]|]. apply poly_0. rewrite <- word_low, word_rev, rev_lxor, E. apply Z.lxor_nilpotent.
Qed.
Lemma crc_unique s c c' : is_crc32c s c -> is_crc32c s c' -> c = c'.
Proof.
  intros (H & q & r & Hq & Hr & E & P) (H' & q' & r' & Hq' & Hr' & E' & P'). rewrite E in E'. apply remainder_unique in E'; try assumption. subst r'.
  apply rev_inj; [exact H|exact H'|]. rewrite word_rev in P, P'. congruence.
Qed.

(** * C90 *)
(** The checksum of the model is the CRC-32C of the definition, and that is one number. *)
Theorem C90_checksum : forall s c, is_bytes s -> (is_crc32c s c <-> c = crc_update 0 s).
Proof.
  intros s c H. split; [intros C; exact (crc_unique s c _ C (crc_is s H))|]. intros ->. now apply crc_is.
Qed.
Print Assumptions C90_checksum.
(** the check value of the standard: "123456789" *)
Example C90_check_value : is_crc32c [49; 50; 51; 52; 53; 54; 55; 56; 57] 3808858755.
Proof. apply C90_checksum; [repeat constructor; unfold is_byte; lia|vm_compute; reflexivity]. Qed.

(** ** the layout *)
Lemma big_endian_be n : forall v, big_endian n v = be n v.
Proof.
  induction n as [|n IH]; intros v; [reflexivity|]. cbn [be]. rewrite <- IH. unfold big_endian. rewrite seq_S, map_app. cbn [map Nat.add]. f_equal.
  - apply map_ext_in. intros k Hk. apply in_seq in Hk. rewrite Z.div_div by (try apply Z.pow_pos_nonneg; lia). f_equal. f_equal.
    replace (Z.of_nat (S n - 1 - k)) with (Z.succ (Z.of_nat (n - 1 - k))) by lia. rewrite Z.pow_succ_r by lia. reflexivity.
  - replace (S n - 1 - n)%nat with O by lia. change (256 ^ Z.of_nat 0) with 1. now rewrite Z.div_1_r.
Qed.
(** the header of the format *)
Definition head_of (kind start end_ : Z) (data : list Z) : list Z :=
  [1; kind] ++ big_endian 8 (start mod 2 ^ 64) ++ big_endian 8 (end_ mod 2 ^ 64) ++ big_endian 2 (Z.of_nat (length data)).
Lemma header_is r : record_ok r -> header20 r = head_of (r_kind r) (r_start r) (r_end r) (r_data r).
Proof.
  intros (V & K & _ & _ & S & _ & _). unfold header20, head_of, u64. rewrite !big_endian_be, V, S. rewrite (Z.mod_small (r_kind r)) by lia. reflexivity.
Qed.
Lemma marshal_is r : record_ok r -> marshal r = header20 r ++ be 4 (rec_crc r) ++ r_data r.
Proof.
  intros (_ & _ & _ & _ & Hsz & _). unfold marshal, marshal_header. rewrite <- !app_assoc. do 2 f_equal. rewrite Hsz. unfold len. rewrite Nat2Z.id. apply firstn_all.
Qed.
Lemma crc_is_rec r : record_ok r -> rec_crc r = crc_update 0 (header20 r ++ r_data r).
Proof. intros (_ & _ & _ & _ & Hs & _). unfold rec_crc. rewrite crc_update_app, Hs. unfold len. now rewrite Nat2Z.id, firstn_all. Qed.

(** Writing a record makes exactly the bytes of the format. *)
Theorem C90_written : forall r s, record_ok r -> (is_stored (r_kind r) (r_start r) (r_end r) (r_data r) s <-> s = marshal r).
Proof.
  intros r s H. rewrite (marshal_is r H), (crc_is_rec r H). assert (B : is_bytes (header20 r ++ r_data r)) by (apply Forall_app; split; [apply header20_bytes|apply H]).
  unfold is_stored. fold (head_of (r_kind r) (r_start r) (r_end r) (r_data r)). cbv zeta. rewrite <- (header_is r H). split.
  - intros (c & C & ->). apply C90_checksum in C; [|exact B]. subst c. now rewrite big_endian_be.
  - intros ->. exists (crc_update 0 (header20 r ++ r_data r)). split; [now apply C90_checksum|]. now rewrite big_endian_be.
Qed.
Print Assumptions C90_written.

(** Whatever bytes are read, a record is reported only if they begin with one of
    the format, and then it is that one; and every record of the format is read,
    whatever follows it. *)
Theorem C90_read : forall buf r, is_bytes buf -> parse buf = Ok r ->
  exists kind s rest, buf = s ++ rest /\ 0 <= kind < 256 /\ is_i64 (r_start r) /\ is_i64 (r_end r) /\
    is_stored kind (r_start r) (r_end r) (r_data r) s /\ r_version r = 1 /\ r_kind r = (if kind <? 128 then kind else kind - 256) /\ r_size r = Z.of_nat (length (r_data r)).
Proof.
  intros buf r Hb P. unfold parse, recordHeaderSize, recordVersion in P. cbv zeta in P.
  destruct (Z.ltb_spec (len buf) 24) as [|L]; [discriminate|]. destruct (negb (i8 (at_ 0 buf) =? 1)) eqn:V; [discriminate|].
  destruct (Z.ltb_spec (len buf) (24 + unbe (sub 18 2 buf))) as [|L2]; [discriminate|]. match type of P with (if ?b then _ else _) = _ => destruct b eqn:C; [discriminate|] end. injection P as <-. cbn [r_start r_end r_data r_version r_kind r_size].
  apply negb_false_iff in V, C. apply Z.eqb_eq in V, C.
  assert (BS : forall off n, is_bytes (sub off n buf)) by (intros; now apply is_bytes_sub).
  assert (BA : forall i, 0 <= at_ i buf < 256).
  { intros i. unfold at_. destruct (Nat.lt_ge_cases (Z.to_nat i) (length buf)) as [I|I]; [|rewrite nth_overflow by lia; lia]. unfold is_bytes in Hb. rewrite Forall_forall in Hb. apply (Hb (nth (Z.to_nat i) buf 0)). now apply nth_In. }
  assert (V1 : at_ 0 buf = 1). { pose proof (BA 0) as Ba. unfold i8 in V. destruct (Z.lt_ge_cases (at_ 0 buf) 128); [rewrite Z.mod_small in V by lia; lia|]. replace (at_ 0 buf + 2 ^ 7) with ((at_ 0 buf - 128) + 1 * 2 ^ 8) in V by lia. rewrite Z.mod_add in V by lia. rewrite Z.mod_small in V by lia. lia. }
  set (size := unbe (sub 18 2 buf)) in *. assert (SR : 0 <= size < 65536). { pose proof (unbe_range (sub 18 2 buf) (BS _ _)) as U. rewrite sub_length in U by lia. exact U. }
  assert (LD : length (sub 24 size buf) = Z.to_nat size) by (rewrite sub_length by lia; reflexivity).
  exists (at_ 1 buf), (sub 0 20 buf ++ sub 20 4 buf ++ sub 24 size buf), (skipn (Z.to_nat (24 + size)) buf).
  assert (CUT : forall a b l, 0 <= a -> 0 <= b -> firstn (Z.to_nat a) l ++ sub a b l = firstn (Z.to_nat (a + b)) l).
  { intros a b l Ha Hb0. unfold sub. rewrite Z2Nat.inj_add by lia. rewrite <- (firstn_skipn (Z.to_nat a) (firstn (Z.to_nat a + Z.to_nat b) l)). rewrite firstn_firstn, Nat.min_l by lia. f_equal. rewrite firstn_skipn_comm. reflexivity. }
  assert (P20 : sub 0 20 buf = [at_ 0 buf; at_ 1 buf] ++ sub 2 8 buf ++ sub 10 8 buf ++ sub 18 2 buf).
  { change (sub 0 20 buf) with (firstn (Z.to_nat 20) buf). rewrite <- (CUT 18 2), <- (CUT 10 8), <- (CUT 2 8) by lia. rewrite <- !app_assoc. f_equal.
    unfold len in L. destruct buf as [|x [|y buf]]; cbn [length] in L; try lia. reflexivity. }
  split. { change (sub 0 20 buf) with (firstn (Z.to_nat 20) buf). rewrite !app_assoc, !CUT by lia. symmetry. apply firstn_skipn. }
  split; [apply BA|]. split; [apply i64_range|]. split; [apply i64_range|]. split; [|split; [exact V|split; [|rewrite LD; lia]]].
  2:{ pose proof (BA 1) as Ba. unfold i8. destruct (Z.ltb_spec (at_ 1 buf) 128); [rewrite Z.mod_small by lia; lia|]. replace (at_ 1 buf + 2 ^ 7) with ((at_ 1 buf - 128) + 1 * 2 ^ 8) by lia. rewrite Z.mod_add, Z.mod_small by lia. lia. }
  assert (H8 : forall off, 0 <= off -> off + 8 <= 24 -> big_endian 8 (i64 (unbe (sub off 8 buf)) mod 2 ^ 64) = sub off 8 buf).
  { intros off O1 O2. pose proof (unbe_range (sub off 8 buf) (BS _ _)) as U. assert (L8 : length (sub off 8 buf) = 8%nat) by (rewrite sub_length by lia; reflexivity). rewrite L8 in U. change (256 ^ Z.of_nat 8) with (2 ^ 64) in U.
    assert (M : i64 (unbe (sub off 8 buf)) mod 2 ^ 64 = unbe (sub off 8 buf)).
    { unfold i64. rewrite Zminus_mod_idemp_l. rewrite Z.add_simpl_r. apply Z.mod_small. exact U. }
    rewrite M, big_endian_be. rewrite <- L8 at 1. apply be_unbe, BS. }
  assert (HE : sub 0 20 buf = head_of (at_ 1 buf) (i64 (unbe (sub 2 8 buf))) (i64 (unbe (sub 10 8 buf))) (sub 24 size buf)).
  { rewrite P20. unfold head_of. rewrite V1, !H8 by lia. rewrite LD, Z2Nat.id by lia. rewrite big_endian_be. unfold size. f_equal. f_equal. f_equal.
    assert (L2' : length (sub 18 2 buf) = 2%nat) by (rewrite sub_length by lia; reflexivity). rewrite <- L2' at 1. symmetry. apply be_unbe, BS. }
  unfold is_stored. fold (head_of (at_ 1 buf) (i64 (unbe (sub 2 8 buf))) (i64 (unbe (sub 10 8 buf))) (sub 24 size buf)). cbv zeta. rewrite <- HE.
  exists (unbe (sub 20 4 buf)). split.
  - apply C90_checksum; [apply Forall_app; split; apply BS|]. rewrite <- C. now rewrite crc_update_app.
  - f_equal. f_equal. rewrite big_endian_be. assert (L4 : length (sub 20 4 buf) = 4%nat) by (rewrite sub_length by lia; reflexivity). rewrite <- L4 at 1. symmetry. apply be_unbe, BS.
Qed.
Print Assumptions C90_read.
Example C90_record_example : exists s, is_stored 2 (-5) 1500 [7; 8; 9] s /\ parse (s ++ [1; 2]) = Ok (Rec 1 2 (-5) 1500 3 [7; 8; 9]).
Proof.
  exists (marshal (Rec 1 2 (-5) 1500 3 [7; 8; 9])). split; [|vm_compute; reflexivity].
  apply (C90_written (Rec 1 2 (-5) 1500 3 [7; 8; 9])); [|reflexivity]. unfold record_ok, is_i64, is_bytes, is_byte, len. cbn [r_version r_kind r_start r_end r_size r_data length]. repeat split; try lia. repeat constructor; lia.
Qed.

(** ** data files *)
Definition pieces (size : Z) (v : value) : list piece := map (fun r => (r_kind r, r_data r)) (recs size v).
Lemma pieces_ok size v : 79 <= size < 65560 -> val_ok v -> pieces_of size v (pieces size v).
Proof.
  intros Hs Hv. destruct (recs_spec size v Hs Hv) as (_ & _ & _ & _ & C & K & F). unfold pieces_of, pieces. rewrite !map_map. cbn [fst snd]. split; [exact C|]. split.
  - intros p Hp. apply in_map_iff in Hp as (r & <- & Hr). rewrite Forall_forall in F. destruct (F r Hr) as ((_ & _ & _ & _ & S & _) & _ & _ & Z1). cbn [snd]. unfold rec_Size, recordHeaderSize in Z1. unfold len in S. lia.
  - change (map (fun x => r_kind x) (recs size v)) with (map r_kind (recs size v)). inversion K as [E|n E]; [now left|right; exists n; reflexivity].
Qed.
Definition pairs (size : Z) (vals : list value) : list (value * record) := flat_map (fun v => map (pair v) (recs size v)) vals.
Lemma pairs_pieces size vals :
  flat_map (fun x => map (pair (fst x)) (snd x)) (combine vals (map (pieces size) vals)) = map (fun x => (fst x, (r_kind (snd x), r_data (snd x)))) (pairs size vals).
Proof.
  unfold pairs. induction vals as [|v vals IH]; [reflexivity|]. cbn [map combine flat_map fst snd]. rewrite IH, map_app. f_equal. unfold pieces. now rewrite !map_map.
Qed.
Lemma pairs_recs size vals : flat_map (recs size) vals = map snd (pairs size vals).
Proof.
  unfold pairs. induction vals as [|v vals IH]; [reflexivity|]. cbn [flat_map]. rewrite IH, map_app. f_equal. rewrite map_map. cbn [snd]. symmetry. apply map_id.
Qed.
Lemma pairs_in size vals v r : In (v, r) (pairs size vals) -> In v vals /\ In r (recs size v).
Proof.
  intros H. apply in_flat_map in H as (w & Hw & H). apply in_map_iff in H as (q & E & H). injection E as -> ->. auto.
Qed.
Lemma hd_at l : at_ 0 l = hd 0 l.
Proof. destruct l; reflexivity. Qed.
Lemma file_is f c : file_rep f c -> data_file (a_size f) (a_cap f) (a_vals f) c.
Proof.
  intros (((Hs & Hc & Hp) & Hv & Hu & Hd) & m & (_ & Hb & Hl & Hls & _ & _ & Hr) & _). cbn [g_size g_cap geom_of] in *.
  split; [unfold len in Hl; lia|]. pose proof (used_nonneg (a_size f) (a_vals f) ltac:(lia)) as Hu0. fold (used f) in Hu0.
  pose proof (flat_recs_len (a_size f) (a_vals f) Hs Hv) as L. fold (used f) in L.
  exists (a_cap f - used f), (map (pieces (a_size f)) (a_vals f)). split.
  { clear -Hv Hs. induction Hv as [|v vs V _ IH]; cbn [map]; constructor; [now apply pieces_ok|exact IH]. }
  split.
  { enough (E : length (concat (map (pieces (a_size f)) (a_vals f))) = length (flat_map (recs (a_size f)) (a_vals f))) by (rewrite E; unfold len in L; lia).
    clear. induction (a_vals f) as [|v vs IH]; [reflexivity|]. cbn [map concat flat_map]. rewrite !app_length, IH. unfold pieces. now rewrite map_length. }
  assert (B : forall n, block (a_size f) (1 + n) c = sub (offset (geom_of f) n) (a_size f) c) by (intros n; unfold block, sub, offset; cbn [g_size geom_of]; now rewrite (Z.add_comm 1 n)).
  split.
  - intros n Hn. rewrite B, <- hd_at. specialize (Hr n ltac:(lia)). unfold slots_of in Hr. rewrite app_nth1 in Hr by (rewrite repeat_length; lia). rewrite nth_repeat in Hr. exact Hr.
  - intros n v p E. rewrite pairs_pieces, nth_error_map in E. destruct (nth_error (pairs (a_size f) (a_vals f)) n) as [[w r]|] eqn:En; [|discriminate]. cbn [option_map fst snd] in E. injection E as -> <-.
    assert (Lt : (n < length (flat_map (recs (a_size f)) (a_vals f)))%nat) by (rewrite pairs_recs, map_length; apply nth_error_Some; congruence).
    assert (Er : nth_error (flat_map (recs (a_size f)) (a_vals f)) n = Some r) by (rewrite pairs_recs, nth_error_map, En; reflexivity).
    rewrite <- Z.add_assoc, B. specialize (Hr (a_cap f - used f + Z.of_nat n) ltac:(unfold len in L; lia)). unfold slots_of in Hr.
    rewrite app_nth2 in Hr by (rewrite repeat_length; lia). rewrite repeat_length in Hr. replace (Z.to_nat (a_cap f - used f + Z.of_nat n) - Z.to_nat (a_cap f - used f))%nat with n in Hr by lia.
    rewrite (nth_error_nth _ _ _ (map_nth_error Some _ _ Er)) in Hr. cbn [slot_rep] in Hr. destruct Hr as (Ro & _ & P).
    destruct (C90_read _ _ (is_bytes_sub _ _ _ Hb) P) as (kind & s & rest & Es & Hk & _ & _ & S & _ & Kk & _). exists s, rest. split; [exact Es|]. cbn [fst snd].
    destruct (pairs_in _ _ _ _ (nth_error_In _ _ En)) as (Iv & Ir). destruct (recs_spec (a_size f) v Hs) as (_ & _ & _ & _ & _ & _ & F); [rewrite Forall_forall in Hv; now apply Hv|].
    rewrite Forall_forall in F. destruct (F r Ir) as (_ & <- & <- & _). destruct Ro as (_ & Rk & _). destruct (Z.ltb_spec kind 128) as [|]; [rewrite Kk; exact S|lia].
Qed.

(** The data files of a metric, as anybody can read them with the definition of
    the format: after any history they are numbered without gaps, and hold the
    values that queries answer, newest in the last, and those are the newest
    acknowledged ones. *)
Theorem C90_database : forall root size cap max handles rand ops name, history_ok root size cap handles rand ops ->
  let '(st, outs) := c_run ops (db_empty root size cap max handles rand) in
  let log := acked name ops outs in
  exists first files kept,
    (forall i ino, linked st name i ino -> first <= i < first + Z.of_nat (length files)) /\
    (forall k vals, nth_error files k = Some vals -> exists ino size' cap',
       linked st name (first + Z.of_nat k) ino /\ data_file size' cap' vals (contents st ino)) /\
    concat (rev files) = firstn kept log /\ (log <> [] -> (1 <= kept)%nat) /\ (unlimited max ops -> firstn kept log = log) /\
    (forall e, log <> [] -> (forall v, In v log -> v_end v < e) -> exists st', c_step (OQuery name e) st = (st', RQuery (concat (rev files)) (Ok tt))).
Proof.
  intros root size cap max handles rand ops name H.
  destruct (history_state root size cap max handles rand ops H) as (n & st & a & outs & -> & _ & Hn1 & Hn2 & HR & _ & _ & _ & HL & HU).
  cbv zeta. specialize (HL name). pose proof HR as (HI & HG & _). destruct HL as (Hd & He & (tl & Etl)). unfold vals in *.
  assert (HU' : unlimited max ops -> match ad_map a name with Some am => a_values am | None => [] end = acked name ops outs) by (intros U; exact (HU U name)). clear HU.
  set (log := acked name ops outs) in *.
  assert (LK : forall i ino, linked st name i ino -> exists am, ad_map a name = Some am /\ a_first am <= i <= a_last am).
  { intros i ino (Hi & Hp). destruct (i_paths _ _ _ _ HI _ _ Hp) as (_ & nm & am & i' & E & HA & Hi'). apply path_inj in E; [|exact (i_root _ _ _ _ HI)|exact Hi|exact (num_range _ _ _ _ _ _ _ HI HA Hi')]. destruct E as (<- & <-). eauto. }
  destruct (ad_map a name) as [am|] eqn:HA.
  - exists (a_first am), (rev (map a_vals (a_files am))), (length (a_values am)).
    assert (EV : concat (rev (rev (map a_vals (a_files am)))) = a_values am) by (rewrite rev_involutive; symmetry; apply flat_map_concat_map).
    assert (EK : firstn (length (a_values am)) log = a_values am) by (rewrite Etl, firstn_app, Nat.sub_diag, firstn_all; apply app_nil_r).
    split. { intros i ino Hl. destruct (LK i ino Hl) as (am' & E & B). injection E as <-. rewrite rev_length, map_length. unfold a_last, len in B. lia. }
    split.
    { intros k vs E. assert (Lk : (k < length (a_files am))%nat) by (rewrite <- (map_length a_vals), <- rev_length; apply nth_error_Some; congruence).
      assert (E2 : nth_error (map a_vals (a_files am)) (length (a_files am) - 1 - k) = Some vs).
      { rewrite <- E. rewrite (nth_error_nth' (rev (map a_vals (a_files am))) []) by (rewrite rev_length, map_length; exact Lk). rewrite rev_nth by (rewrite map_length; exact Lk). rewrite map_length.
        replace (length (a_files am) - S k)%nat with (length (a_files am) - 1 - k)%nat by lia. apply nth_error_nth'. rewrite map_length. lia. }
      rewrite nth_error_map in E2. destruct (nth_error (a_files am) (length (a_files am) - 1 - k)) as [f|] eqn:Ef; [|discriminate]. injection E2 as <-.
      destruct (i_file _ _ _ _ HI name am _ f HA Ef) as (ino & c & P1 & P2 & P3). exists ino, (a_size f), (a_cap f).
      replace (a_last am - Z.of_nat (length (a_files am) - 1 - k)) with (a_first am + Z.of_nat k) in P1 by (unfold a_last, len; lia).
      split; [split; [|exact P1]|unfold contents; rewrite P2; now apply file_is]. apply (num_range _ _ _ _ _ _ _ HI HA). unfold a_last, len. lia. }
    rewrite EV, EK. split; [reflexivity|]. split. { intros N. destruct (a_values am); [now specialize (He eq_refl)|cbn [length]; lia]. }
    split; [exact HU'|]. intros e N Hlt. destruct (query_answer n st a name e HR ltac:(lia)) as (st' & E). cbn [a_step] in E. rewrite HA in E. cbn [snd] in E. exists st'. rewrite E. do 2 f_equal.
    destruct (a_query_log am (HG name am HA)) as (newest & H1 & H2 & _ & H3). rewrite H3.
    assert (IN : forall v, In v (a_values am) -> v_end v < e) by (intros v Hv; apply Hlt; rewrite Etl; apply in_app_iff; now left).
    assert (NE : a_values am <> []) by (intros X; apply N; now apply He). specialize (H2 NE).
    assert (existsb (fun v => v_end v <? e) (firstn newest (a_values am)) = true) as ->.
    { destruct (a_values am) as [|v l]; [congruence|]. destruct newest; [lia|]. cbn. rewrite (proj2 (Z.ltb_lt _ _) (IN v (or_introl eq_refl))). reflexivity. }
    apply filter_all. intros v Hv. apply Z.ltb_lt. now apply IN.
  - exists 1, [], O. specialize (He eq_refl). split; [intros i ino Hl; destruct (LK i ino Hl) as (? & ? & _); discriminate|].
    split; [intros [|k] vs E; discriminate|]. rewrite He. cbn. split; [reflexivity|]. split; [congruence|]. split; [reflexivity|]. intros e N. congruence.
Qed.
Print Assumptions C90_database.
Example C90_database_example : history_ok ex_root 79 3 2 prng ex_ops /\
  let '(st, _) := c_run ex_ops (db_empty ex_root 79 3 1 2 prng) in
  exists first files, concat (rev files) = [small 30; two 20; small 10] /\
    forall k vals, nth_error files k = Some vals -> exists ino size cap, linked st ex_name (first + Z.of_nat k) ino /\ data_file size cap vals (contents st ino).
Proof.
  split; [exact ex_history|]. pose proof (C90_database ex_root 79 3 1 2 prng ex_ops ex_name ex_history) as T. revert T.
  assert (L1 : acked ex_name ex_ops (snd (c_run ex_ops (db_empty ex_root 79 3 1 2 prng))) = [small 30; two 20; small 10]) by (vm_compute; reflexivity).
  assert (L2 : snd (c_step (OQuery ex_name 31) (fst (c_run ex_ops (db_empty ex_root 79 3 1 2 prng)))) = RQuery [small 30; two 20; small 10] (Ok tt)) by (vm_compute; reflexivity).
  revert L1 L2. destruct (c_run ex_ops (db_empty ex_root 79 3 1 2 prng)) as [st outs]. cbn [fst snd]. intros L Q T. cbv zeta in T. rewrite L in T. destruct T as (first & files & kept & _ & F & E & _ & _ & A). exists first, files. split; [|exact F].
  destruct (A 31 ltac:(discriminate)) as (st' & X); [intros v [<-|[<-|[<-|[]]]]; reflexivity|]. rewrite X in Q. cbn [snd] in Q. now injection Q.
Qed.
