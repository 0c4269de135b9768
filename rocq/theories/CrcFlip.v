(** Few flipped bits change the checksum (C88). *)
From Coq Require Import ZArith List Lia Bool.
From Verif Require Import Base Crc CrcProofs Record RecordSpec RecordProofs FlipSpec CrcBits CrcOrder.
Import ListNotations.
Open Scope Z_scope.

(** numbers and their bits *)
Lemma low_diff k : forall a b, low_bits k (Z.lxor a b) = diff (low_bits k a) (low_bits k b).
Proof.
  induction k as [|k IH]; intros a b; [reflexivity|]. cbn [low_bits]. unfold diff. cbn [combine map fst snd]. fold (diff (low_bits k (a / 2)) (low_bits k (b / 2))).
  rewrite odd_lxor. f_equal. rewrite <- IH. f_equal. rewrite <- !Z.div2_div, !Z.div2_spec. apply Z.shiftr_lxor.
Qed.
Lemma low_length k : forall v, length (low_bits k v) = k.
Proof. induction k as [|k IH]; intros v; [reflexivity|]. cbn [low_bits length]. now rewrite IH. Qed.
Lemma low_count_0 k : forall v, 0 <= v < 2 ^ Z.of_nat k -> count (low_bits k v) = O -> v = 0.
Proof.
  induction k as [|k IH]; intros v H C; [change (2 ^ Z.of_nat 0) with 1 in H; lia|]. rewrite Nat2Z.inj_succ, Z.pow_succ_r in H by lia. cbn [low_bits count] in C. destruct (Z.odd v) eqn:Od; [discriminate|].
  apply IH in C; [|split; [apply Z.div_pos; lia|apply Z.div_lt_upper_bound; lia]]. rewrite (b2z_odd v), Od, C. reflexivity.
Qed.
Lemma low_count_1 k : forall v, 0 <= v < 2 ^ Z.of_nat k -> count (low_bits k v) = 1%nat -> exists j, (j < k)%nat /\ v = 2 ^ Z.of_nat j.
Proof.
  induction k as [|k IH]; intros v H C; [discriminate|]. rewrite Nat2Z.inj_succ, Z.pow_succ_r in H by lia. cbn [low_bits count] in C.
  assert (B : 0 <= v / 2 < 2 ^ Z.of_nat k) by (split; [apply Z.div_pos; lia|apply Z.div_lt_upper_bound; lia]). destruct (Z.odd v) eqn:Od.
  - injection C as C. apply low_count_0 in C; [|exact B]. exists 0%nat. split; [lia|]. rewrite (b2z_odd v), Od, C. reflexivity.
  - destruct (IH _ B C) as (j & Hj & E). exists (S j). split; [lia|]. rewrite (b2z_odd v), Od, E, Nat2Z.inj_succ, Z.pow_succ_r by lia. apply Z.lxor_0_l.
Qed.
Lemma low_parity k : forall v, parity k v = Nat.odd (count (low_bits k v)).
Proof.
  induction k as [|k IH]; intros v; [reflexivity|]. cbn [parity low_bits count]. rewrite Z.div2_div, IH. destruct (Z.odd v); [|apply xorb_false_l]. rewrite Nat.odd_succ, <- Nat.negb_odd. reflexivity.
Qed.
Lemma low_byte k v d : 0 <= d < 256 -> low_bits (8 + k) (v * 256 + d) = low_bits 8 d ++ low_bits k v.
Proof.
  intros H. assert (G : forall j d, 0 <= d < 2 ^ Z.of_nat j -> low_bits (j + k) (v * 2 ^ Z.of_nat j + d) = low_bits j d ++ low_bits k v).
  { clear. induction j as [|j IH]; intros d H.
    - change (2 ^ Z.of_nat 0) with 1 in *. cbn [Nat.add low_bits app]. f_equal. lia.
    - rewrite Nat2Z.inj_succ, Z.pow_succ_r in * by lia. cbn [Nat.add low_bits app]. f_equal.
      + rewrite Z.odd_add, Z.odd_mul, Z.odd_mul. cbn [Z.odd andb]. rewrite andb_false_r. apply xorb_false_l.
      + replace ((v * (2 * 2 ^ Z.of_nat j) + d) / 2) with (v * 2 ^ Z.of_nat j + d / 2); [apply IH; split; [apply Z.div_pos; lia|apply Z.div_lt_upper_bound; lia]|].
        replace (v * (2 * 2 ^ Z.of_nat j) + d) with (v * 2 ^ Z.of_nat j * 2 + d) by ring. symmetry. apply Z.div_add_l. lia. }
  exact (G 8%nat d H).
Qed.
Lemma low_unbe a b c d : is_bytes [a; b; c; d] -> low_bits 32 (unbe [a; b; c; d]) = low_bits 8 d ++ low_bits 8 c ++ low_bits 8 b ++ low_bits 8 a.
Proof.
  intros H. inversion H as [|? ? Ha H1]; subst. inversion H1 as [|? ? Hb H2]; subst. inversion H2 as [|? ? Hc H3]; subst. inversion H3 as [|? ? Hd _]; subst. unfold is_byte in *.
  unfold unbe. cbn [unbe_acc]. change 32%nat with (8 + 24)%nat. rewrite low_byte by lia. f_equal. change 24%nat with (8 + 16)%nat. rewrite low_byte by lia. f_equal. change 16%nat with (8 + 8)%nat. rewrite low_byte by lia. f_equal.
Qed.
Lemma checksum_flips x y : is_bytes x -> is_bytes y -> length x = 4%nat -> length y = 4%nat -> count (low_bits 32 (Z.lxor (unbe x) (unbe y))) = flips x y.
Proof.
  intros Hx Hy Lx Ly. destruct x as [|a [|b [|c [|d [|? ?]]]]]; try discriminate. destruct y as [|a' [|b' [|c' [|d' [|? ?]]]]]; try discriminate.
  rewrite low_diff, !low_unbe by assumption. rewrite !diff_app by (rewrite !low_length; reflexivity). rewrite flips_count, !bits_cons. rewrite !diff_app by (rewrite !low_length; reflexivity). rewrite !count_app. cbn [bits flat_map diff combine map count]. lia.
Qed.

(** the state after a difference *)
Lemma from_state l : forall c, crc_bits c l = Z.lxor (iter_step (length l) c) (crc_bits 0 l).
Proof.
  induction l as [|b l IH]; intros c; [symmetry; apply Z.lxor_0_r|]. cbn [crc_bits length iter_step]. rewrite (IH (crc_step (Z.lxor c (Z.b2z b)))), (IH (crc_step (Z.lxor 0 (Z.b2z b)))).
  rewrite Z.lxor_0_l, step_lxor, iter_lxor. apply Z.lxor_assoc.
Qed.
Lemma no_flip l : count l = O -> crc_bits 0 l = 0.
Proof. induction l as [|[|] l IH]; intros C; [reflexivity|discriminate|]. cbn [crc_bits]. change (crc_step (Z.lxor 0 (Z.b2z false))) with 0. now apply IH. Qed.
Lemma one_flip l : count l = 1%nat -> exists s, (s < length l)%nat /\ crc_bits 0 l = iter_step (S s) 1.
Proof.
  induction l as [|[|] l IH]; intros C; [discriminate| |].
  - injection C as C. exists (length l). split; [cbn [length]; lia|]. cbn [crc_bits]. rewrite from_state, (no_flip l C). apply Z.lxor_0_r.
  - destruct (IH C) as (s & H & E). exists s. split; [cbn [length]; lia|]. exact E.
Qed.
Lemma two_flips l : count l = 2%nat -> exists s q, (q < s)%nat /\ (s < length l)%nat /\ crc_bits 0 l = Z.lxor (iter_step (S s) 1) (iter_step (S q) 1).
Proof.
  induction l as [|[|] l IH]; intros C; [discriminate| |].
  - injection C as C. destruct (one_flip l C) as (q & H & E). exists (length l), q. split; [exact H|]. split; [cbn [length]; lia|]. cbn [crc_bits]. rewrite from_state, E. reflexivity.
  - destruct (IH C) as (s & q & H1 & H2 & E). exists s, q. split; [exact H1|]. split; [cbn [length]; lia|]. exact E.
Qed.
Lemma iter_pow j : iter_step j (2 ^ Z.of_nat j) = 1.
Proof. rewrite <- (Z.mul_1_l (2 ^ _)). apply iter_high. Qed.
Lemma pow_u32 j : (j < 32)%nat -> is_u32 (2 ^ Z.of_nat j).
Proof. intros H. unfold is_u32. split; [apply Z.pow_nonneg; lia|apply Z.pow_lt_mono_r; lia]. Qed.
(** no difference of an odd number of bits, or of two, goes unnoticed *)
Lemma checksum_detects l f : is_u32 f -> Z.of_nat (length l) + 33 < mersenne -> (Nat.odd (count l + count (low_bits 32 f)) = true \/ (count l + count (low_bits 32 f) = 2)%nat) -> crc_bits 0 l <> f.
Proof.
  intros Hf Hl H E. unfold is_u32 in Hf. destruct H as [H|H].
  - apply (f_equal (parity 32)) in E. rewrite parity_bits in E by (unfold is_u32; lia). rewrite parity_0, xorb_false_l, low_parity in E. rewrite Nat.odd_add, E in H. rewrite xorb_nilpotent in H. discriminate H.
  - destruct (count l) as [|[|[|n]]] eqn:C; [| | |lia].
    + rewrite (no_flip l C) in E. subst f. vm_compute in H. discriminate.
    + destruct (one_flip l C) as (s & Hs & E1). destruct (low_count_1 32 f Hf ltac:(lia)) as (j & Hj & ->). rewrite E1 in E. apply (f_equal (iter_step j)) in E. rewrite iter_pow, <- iter_add in E.
      apply (no_period (Z.of_nat (S s + j))); [lia|]. rewrite Nat2Z.id. exact E.
    + destruct (two_flips l C) as (s & q & Hq & Hs & E1). assert (Z0 : f = 0) by (apply (low_count_0 32); [exact Hf|lia]). rewrite E1, Z0 in E. apply Z.lxor_eq in E.
      apply (no_period (Z.of_nat (s - q))); [lia|]. rewrite Nat2Z.id. apply (iter_inj (S q)); [apply iter_range, u1|apply u1|]. rewrite <- iter_add. replace (s - q + S q)%nat with (S s) by lia. exact E.
Qed.

(** a burst: at most four neighbouring bytes *)
Lemma bits_inj_byte a b : is_byte a -> is_byte b -> low_bits 8 a = low_bits 8 b -> a = b.
Proof.
  intros Ha Hb E. apply Z.lxor_eq. apply (low_count_0 8); [apply lxor_range; [lia|exact Ha|exact Hb]|]. rewrite low_diff, E. clear. induction (low_bits 8 b) as [|x l IH]; [reflexivity|]. unfold diff. cbn [combine map fst snd]. rewrite xorb_nilpotent. exact IH.
Qed.
Lemma bits_inj s : forall t, is_bytes s -> is_bytes t -> bits s = bits t -> s = t.
Proof.
  induction s as [|a s IH]; intros [|b t] Hs Ht E; [reflexivity|exfalso; apply (f_equal (@length bool)) in E; rewrite !bits_length in E; cbn in E; lia..|].
  inversion Hs; subst. inversion Ht; subst. rewrite !bits_cons in E. assert (low_bits 8 a = low_bits 8 b /\ bits s = bits t) as [E1 E2].
  { apply (f_equal (firstn 8)) in E as E1. apply (f_equal (skipn 8)) in E as E2. rewrite !firstn_app, !low_length, !Nat.sub_diag, !firstn_O, !app_nil_r in E1. rewrite !skipn_app, !low_length, !Nat.sub_diag in E2.
    rewrite !firstn_all2 in E1 by (rewrite low_length; lia). rewrite !skipn_all2 in E2 by (rewrite low_length; lia). cbn [app skipn] in E2. now split. }
  f_equal; [now apply bits_inj_byte|now apply IH].
Qed.
Lemma undo_bits l : forall c d, is_u32 c -> is_u32 d -> crc_bits c l = crc_bits d l -> c = d.
Proof. intros c d Hc Hd E. rewrite (from_state l c), (from_state l d) in E. apply lxor_cancel_r in E. now apply iter_inj in E. Qed.
Lemma value_of l : exists v, 0 <= v < 2 ^ Z.of_nat (length l) /\ low_bits (length l) v = l.
Proof.
  induction l as [|b l (v & H & E)]; [exists 0; split; [cbn; lia|reflexivity]|]. exists (2 * v + Z.b2z b). cbn [length]. rewrite Nat2Z.inj_succ, Z.pow_succ_r by lia. split; [destruct b; cbn [Z.b2z]; lia|].
  cbn [low_bits]. f_equal.
  - rewrite Z.odd_add, Z.odd_mul. cbn [Z.odd andb]. now destruct b.
  - replace ((2 * v + Z.b2z b) / 2) with v; [exact E|]. destruct b; cbn [Z.b2z]; Z.div_mod_to_equations; lia.
Qed.
Lemma short_inj l m : length l = length m -> (length l <= 32)%nat -> crc_bits 0 l = crc_bits 0 m -> l = m.
Proof.
  intros L K E. assert (D : crc_bits 0 (diff l m) = 0) by (rewrite <- (Z.lxor_0_l 0) at 1; rewrite <- crc_bits_diff by exact L; rewrite E; apply Z.lxor_nilpotent).
  destruct (value_of (diff l m)) as (v & Hv & V). rewrite diff_length in * by exact L. rewrite <- V in D. rewrite <- (iter_bits (length l) 0 v Hv) in D. rewrite Z.lxor_0_l in D.
  apply iter_kernel in D; [|unfold is_u32; split; [lia|]; apply Z.lt_le_trans with (2 ^ Z.of_nat (length l)); [lia|apply Z.pow_le_mono_r; lia]].
  subst v. apply diff_0; [exact L|]. rewrite <- V. clear. induction (length l) as [|n IH]; [reflexivity|]. cbn [low_bits count Z.odd]. change (0 / 2) with 0. exact IH.
Qed.
Lemma burst_detects p a b s c : is_u32 c -> is_bytes p -> is_bytes a -> is_bytes b -> is_bytes s -> length a = length b -> (length a <= 4)%nat -> a <> b ->
  crc_update c (p ++ a ++ s) <> crc_update c (p ++ b ++ s).
Proof.
  intros Hc Hp Ha Hb Hs L K N E. apply N. unfold crc_update in E. apply lxor_cancel_l in E. assert (Hm : is_u32 (Z.lxor mask32 c)) by (apply lxor_range; [lia|apply mask32_range|exact Hc]).
  rewrite !fold_left_app in E. apply crc_fold_inj_c in E; [|apply crc_fold_range, crc_fold_range; exact Hm..|exact Hs].
  assert (Hq : is_u32 (fold_left crc_byte p (Z.lxor mask32 c))) by now apply crc_fold_range. rewrite !fold_bits in E by assumption || (rewrite <- fold_bits; assumption).
  rewrite (from_state (bits a)), (from_state (bits b)) in E. rewrite !bits_length, L in E. apply lxor_cancel_l in E. apply short_inj in E; [now apply bits_inj|rewrite !bits_length; lia|rewrite bits_length; lia].
Qed.
