(** Proofs about common.go:fastMod and internal/pcg (models in Cache.v). *)
From Coq Require Import ZArith List Lia Bool Zquot Znumtheory.
From Verif Require Import Base Maps Cache CacheProofs.
Import ListNotations.
Open Scope Z_scope.

Lemma fastMod_div_le n m : 0 <= n < 2 ^ 32 -> 0 <= m <= 2 ^ 32 -> fastMod n m = n * m / 2 ^ 32.
Proof.
  intros Hn Hm. unfold fastMod, u64. rewrite (Z.mod_small m) by lia.
  assert (0 <= n * m < 2 ^ 32 * 2 ^ 32) by nia.
  rewrite (Z.mod_small (n * m)) by lia.
  apply i64_id. unfold is_i64.
  assert (0 <= n * m / 2 ^ 32 < 2 ^ 32).
  { split; [apply Z.div_pos; lia|]. apply Z.div_lt_upper_bound; lia. }
  lia.
Qed.

(** the first input that is mapped to index [i] or later *)
Definition bucket (m i : Z) : Z := (i * 2 ^ 32 + m - 1) / m.

Lemma bucket_le m i n : 0 < m -> bucket m i <= n <-> i * 2 ^ 32 <= n * m.
Proof.
  intros Hm. unfold bucket. set (a := i * 2 ^ 32). split; intros H.
  - pose proof (Z.div_mod (a + m - 1) m ltac:(lia)). pose proof (Z.mod_pos_bound (a + m - 1) m ltac:(lia)). nia.
  - apply Z.lt_succ_r. apply Z.div_lt_upper_bound; nia.
Qed.

Lemma fastMod_bucket m i n : 0 < m <= 2 ^ 32 -> 0 <= n < 2 ^ 32 ->
  (fastMod n m = i <-> bucket m i <= n < bucket m (i + 1)).
Proof.
  intros Hm Hn. rewrite fastMod_div_le by lia.
  rewrite bucket_le by lia.
  assert (n < bucket m (i + 1) <-> n * m < (i + 1) * 2 ^ 32).
  { pose proof (bucket_le m (i + 1) n ltac:(lia)). lia. }
  rewrite H. 
  pose proof (Z.div_mod (n * m) (2 ^ 32) ltac:(lia)). pose proof (Z.mod_pos_bound (n * m) (2 ^ 32) ltac:(lia)).
  split; [intros <-; nia|]. intros. symmetry. apply Z.div_unique with (r := n * m - 2 ^ 32 * i); nia.
Qed.

Lemma bucket_size m i : 0 < m ->
  let d := bucket m (i + 1) - bucket m i in d = 2 ^ 32 / m \/ d = 2 ^ 32 / m + 1.
Proof.
  intros Hm. cbn zeta. unfold bucket.
  set (a := i * 2 ^ 32 + m - 1). replace ((i + 1) * 2 ^ 32 + m - 1) with (a + 2 ^ 32) by lia.
  set (b := 2 ^ 32) in *.
  pose proof (Z.div_mod a m ltac:(lia)). pose proof (Z.mod_pos_bound a m ltac:(lia)).
  pose proof (Z.div_mod b m ltac:(lia)). pose proof (Z.mod_pos_bound b m ltac:(lia)).
  pose proof (Z.div_mod (a + b) m ltac:(lia)). pose proof (Z.mod_pos_bound (a + b) m ltac:(lia)).
  nia.
Qed.

(** * the LCG step *)
Definition lcg (inc s : Z) : Z := u64 (u64 (s * pcg_mul) + inc).

Lemma lcg_eq inc s : lcg inc s = (s * pcg_mul + inc) mod 2 ^ 64.
Proof. unfold lcg, u64. now rewrite Z.add_mod_idemp_l by lia. Qed.

Fixpoint geo (a : Z) (n : nat) : Z := match n with O => 0 | S k => 1 + a * geo a k end.

Lemma geo_pow a n : (a - 1) * geo a n = a ^ Z.of_nat n - 1.
Proof.
  induction n as [|n IH]; [cbn; lia|]. cbn [geo]. rewrite Nat2Z.inj_succ, Z.pow_succ_r by lia. nia.
Qed.

Lemma geo_add a n m : geo a (n + m) = geo a n + a ^ Z.of_nat n * geo a m.
Proof.
  induction n as [|n IH]; [cbn [geo Nat.add]; change (Z.of_nat 0) with 0; rewrite Z.pow_0_r; lia|].
  cbn [geo Nat.add]. rewrite IH, Nat2Z.inj_succ, Z.pow_succ_r by lia. lia.
Qed.

Lemma pow_mod4 a n : a mod 4 = 1 -> a ^ Z.of_nat n mod 4 = 1.
Proof.
  intros H. induction n as [|n IH]; [reflexivity|].
  rewrite Nat2Z.inj_succ, Z.pow_succ_r by lia. rewrite Z.mul_mod, H, IH by lia. reflexivity.
Qed.

Lemma geo_odd a n : a mod 4 = 1 -> geo a n mod 2 = Z.of_nat n mod 2.
Proof.
  intros H. induction n as [|n IH]; [reflexivity|]. cbn [geo].
  rewrite Nat2Z.inj_succ. unfold Z.succ. rewrite (Z.add_comm (Z.of_nat n)).
  rewrite Z.add_mod, Z.mul_mod, IH by lia.
  replace (a mod 2) with 1 by (pose proof (Z.div_mod a 4 ltac:(lia)); rewrite (Z.mod_eq a 2) by lia;
    assert (a / 2 = 2 * (a / 4)) by (symmetry; apply Z.div_unique with (r := 1); lia); lia).
  rewrite Z.mul_1_l, Z.mod_mod by lia. now rewrite <- Z.add_mod by lia.
Qed.

Lemma geo_valuation a : a mod 4 = 1 -> forall (k : nat) n,
  (2 ^ Z.of_nat k | geo a n) <-> (2 ^ Z.of_nat k | Z.of_nat n).
Proof.
  intros Ha. induction k as [|k IH]; intros n.
  { change (2 ^ Z.of_nat 0) with 1. split; intros _; apply Z.divide_1_l. }
  destruct (Nat.Even_or_Odd n) as [[m ->]|[m ->]].
  - replace (2 * m)%nat with (m + m)%nat by lia. rewrite geo_add.
    replace (geo a m + a ^ Z.of_nat m * geo a m) with (geo a m * (1 + a ^ Z.of_nat m)) by lia.
    pose proof (pow_mod4 a m Ha) as Hp. set (p := a ^ Z.of_nat m) in *.
    pose proof (Z.div_mod p 4 ltac:(lia)) as Hd. rewrite Hp in Hd.
    replace (1 + p) with (2 * (1 + 2 * (p / 4))) by lia.
    rewrite Nat2Z.inj_succ, Z.pow_succ_r by lia.
    replace (geo a m * (2 * (1 + 2 * (p / 4)))) with (2 * (geo a m * (1 + 2 * (p / 4)))) by lia.
    rewrite Nat2Z.inj_add. replace (Z.of_nat m + Z.of_nat m) with (2 * Z.of_nat m) by lia.
    split; intros H.
    + apply Z.mul_divide_cancel_l in H; [|lia]. apply Z.mul_divide_mono_l. apply IH.
      rewrite Z.mul_comm in H. apply Gauss with (1 := H).
      apply Zgcd_1_rel_prime. apply Zgcd_1_rel_prime. apply rel_prime_sym.
      apply rel_prime_sym. clear. 
      assert (rel_prime 2 (1 + 2 * (p / 4))).
      { apply bezout_rel_prime. apply Bezout_intro with (u := - (p / 4)) (v := 1). lia. }
      apply rel_prime_sym. 
      induction k as [|k IHk]; [change (2 ^ Z.of_nat 0) with 1; apply rel_prime_sym, rel_prime_1|].
      rewrite Nat2Z.inj_succ, Z.pow_succ_r by lia. apply rel_prime_mult; [apply rel_prime_sym; exact H|exact IHk].
    + apply Z.mul_divide_cancel_l in H; [|lia]. apply Z.mul_divide_mono_l.
      apply Z.divide_mul_l. now apply IH.
  - assert (Hodd : forall x, x mod 2 = 1 -> ~ (2 ^ Z.of_nat (S k) | x)).
    { intros x Hx [q ->]. rewrite Nat2Z.inj_succ, Z.pow_succ_r in Hx by lia.
      replace (q * (2 * 2 ^ Z.of_nat k)) with (q * 2 ^ Z.of_nat k * 2) in Hx by lia.
      rewrite Z.mod_mul in Hx by lia. discriminate. }
    assert (Hn : Z.of_nat (2 * m + 1) mod 2 = 1).
    { replace (Z.of_nat (2 * m + 1)) with (1 + Z.of_nat m * 2) by lia. rewrite Z.mod_add by lia. reflexivity. }
    split; intros H; exfalso; revert H; apply Hodd; [|exact Hn].
    rewrite geo_odd by exact Ha. exact Hn.
Qed.

Lemma lcg_iter inc s n : 0 <= s < 2 ^ 64 ->
  Nat.iter n (lcg inc) s = (s + geo pcg_mul n * ((pcg_mul - 1) * s + inc)) mod 2 ^ 64.
Proof.
  intros Hs. induction n as [|n IH].
  - cbn [geo Nat.iter nat_rect]. rewrite Z.mul_0_l, Z.add_0_r. symmetry. now apply Z.mod_small.
  - cbn [Nat.iter nat_rect]. change (nat_rect _ s _ n) with (Nat.iter n (lcg inc) s). rewrite IH, lcg_eq.
    rewrite <- (Z.add_mod_idemp_l (_ * _)), Z.mul_mod_idemp_l, Z.add_mod_idemp_l by lia.
    f_equal. cbn [geo]. lia.
Qed.

Lemma lcg_period inc s n : 0 <= s < 2 ^ 64 -> inc mod 2 = 1 ->
  (Nat.iter n (lcg inc) s = s <-> (2 ^ 64 | Z.of_nat n)).
Proof.
  intros Hs Hi. rewrite lcg_iter by exact Hs.
  pose proof (geo_valuation pcg_mul eq_refl 64 n) as Hv. change (Z.of_nat 64) with 64 in Hv.
  rewrite <- Hv. set (g := geo pcg_mul n). set (w := (pcg_mul - 1) * s + inc).
  assert (Hw : exists q, w = 1 + 2 * q).
  { exists (((pcg_mul - 1) / 2) * s + inc / 2). unfold w. pose proof (Z.div_mod inc 2 ltac:(lia)) as Hd.
    rewrite Hi in Hd. assert (pcg_mul - 1 = 2 * ((pcg_mul - 1) / 2)) by reflexivity.
    set (h := (pcg_mul - 1) / 2) in *. rewrite H. lia. }
  destruct Hw as (q & Hq). rewrite <- (Z.mod_small s (2 ^ 64)) at 2 by exact Hs.
  split; intros H.
  - assert (Hd : (2 ^ 64 | g * w)).
    { apply Z.mod_divide; [lia|]. replace (g * w) with ((s + g * w) - s) by lia.
      rewrite Zminus_mod, H, Z.sub_diag. reflexivity. }
    rewrite Z.mul_comm in Hd. apply Gauss with (1 := Hd).
    apply rel_prime_sym. rewrite Hq. 
    assert (rel_prime (1 + 2 * q) 2).
    { apply bezout_rel_prime. apply Bezout_intro with (u := 1) (v := - q). lia. }
    assert (forall k : nat, rel_prime (1 + 2 * q) (2 ^ Z.of_nat k)) as Hk.
    { induction k as [|k IHk]; [change (2 ^ Z.of_nat 0) with 1; apply rel_prime_sym, rel_prime_1|].
      rewrite Nat2Z.inj_succ, Z.pow_succ_r by lia. apply rel_prime_mult; assumption. }
    exact (Hk 64%nat).
  - destruct H as (k & ->). replace (s + k * 2 ^ 64 * w) with (s + (k * w) * 2 ^ 64) by lia.
    apply Z.mod_add. lia.
Qed.
