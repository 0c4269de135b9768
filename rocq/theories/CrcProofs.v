(** CRC-32C: range, and injectivity in every single byte of the message. *)
From Coq Require Import ZArith List Lia Bool.
From Verif Require Import Base Crc.
Import ListNotations.
Open Scope Z_scope.

Lemma lxor_range n a b : 0 <= n -> 0 <= a < 2 ^ n -> 0 <= b < 2 ^ n ->
  0 <= Z.lxor a b < 2 ^ n.
Proof.
  intros Hn Ha Hb. assert (0 <= Z.lxor a b) as H0 by (apply Z.lxor_nonneg; lia).
  split; auto.
  destruct (Z.eq_dec (Z.lxor a b) 0) as [->|Hne]; [lia|].
  apply Z.log2_lt_pow2; [lia|].
  pose proof (Z.log2_lxor a b ltac:(lia) ltac:(lia)) as H.
  destruct (Z.eq_dec n 0) as [->|].
  { assert (a = 0) by (cbn in *; lia). assert (b = 0) by (cbn in *; lia). subst. cbn in *. lia. }
  assert (forall x, 0 <= x < 2 ^ n -> Z.log2 x < n) as L.
  { intros x Hx. destruct (Z.eq_dec x 0) as [->|]; [cbn; lia|]. apply Z.log2_lt_pow2; lia. }
  pose proof (L a Ha). pose proof (L b Hb). lia.
Qed.

Lemma lxor_cancel_l a b c : Z.lxor a b = Z.lxor a c -> b = c.
Proof.
  intros H. assert (Z.lxor a (Z.lxor a b) = Z.lxor a (Z.lxor a c)) as H' by congruence.
  rewrite <- !Z.lxor_assoc, Z.lxor_nilpotent, !Z.lxor_0_l in H'. auto.
Qed.

Lemma lxor_cancel_r a b c : Z.lxor b a = Z.lxor c a -> b = c.
Proof. rewrite (Z.lxor_comm b), (Z.lxor_comm c). apply lxor_cancel_l. Qed.

(** finite facts about the 256 table entries *)
Lemma crc_table_entries :
  crc_table = map (fun n => crc_entry (Z.of_nat n)) (seq 0 256).
Proof. vm_compute. reflexivity. Qed.

Lemma table_length : length crc_table = 256%nat.
Proof. reflexivity. Qed.

Lemma table_range i : is_u32 (at_ i crc_table).
Proof.
  assert (forallb (fun x => (0 <=? x) && (x <? 2 ^ 32)) crc_table = true) as H
    by (vm_compute; reflexivity).
  rewrite forallb_forall in H. unfold at_, is_u32.
  destruct (nth_in_or_default (Z.to_nat i) crc_table 0) as [Hin| ->]; [|lia].
  apply H in Hin. apply andb_prop in Hin as [H1 H2].
  apply Z.leb_le in H1. apply Z.ltb_lt in H2. lia.
Qed.

Lemma table_top_nodup : NoDup (map (fun x => Z.shiftr x 24) crc_table).
Proof.
  assert (forall l : list Z, (fix nd l := match l with [] => true
     | x :: r => negb (existsb (Z.eqb x) r) && nd r end) l = true -> NoDup l) as H.
  { induction l as [|x l IH]; intros H; constructor.
    - apply andb_prop in H as [H _]. intros Hin. apply negb_true_iff in H.
      rewrite <- not_true_iff_false in H. apply H. apply existsb_exists.
      exists x. split; auto. apply Z.eqb_refl.
    - apply IH. apply andb_prop in H as [_ H]. auto. }
  apply H. vm_compute. reflexivity.
Qed.

Lemma table_top_inj i j : 0 <= i < 256 -> 0 <= j < 256 ->
  Z.shiftr (at_ i crc_table) 24 = Z.shiftr (at_ j crc_table) 24 -> i = j.
Proof.
  intros Hi Hj H. unfold at_ in H.
  pose proof table_top_nodup as ND.
  rewrite (NoDup_nth _ 0) in ND.
  specialize (ND (Z.to_nat i) (Z.to_nat j)).
  rewrite !map_length, table_length in ND.
  assert (forall n, nth n (map (fun x => Z.shiftr x 24) crc_table) 0 =
                    Z.shiftr (nth n crc_table 0) 24) as E.
  { intros n. change 0 with ((fun x => Z.shiftr x 24) 0) at 1. now rewrite map_nth. }
  rewrite !E in ND. specialize (ND ltac:(lia) ltac:(lia) H). lia.
Qed.

Lemma idx_range c b : is_byte b -> 0 <= c -> 0 <= Z.lxor (Z.land c 255) b < 256.
Proof.
  intros Hb Hc. change 256 with (2^8). apply lxor_range; [lia| |exact Hb].
  change 255 with (Z.ones 8). rewrite Z.land_ones by lia. apply Z.mod_pos_bound; lia.
Qed.

Lemma shiftr8_range c : is_u32 c -> 0 <= Z.shiftr c 8 < 2 ^ 24.
Proof.
  intros Hc. unfold is_u32 in Hc. rewrite Z.shiftr_div_pow2 by lia.
  split; [apply Z.div_pos; lia|]. apply Z.div_lt_upper_bound; lia.
Qed.

Lemma crc_byte_range c b : is_u32 c -> is_u32 (crc_byte c b).
Proof.
  intros Hc. unfold crc_byte. apply lxor_range; [lia|apply table_range|].
  pose proof (shiftr8_range c Hc). lia.
Qed.

Lemma crc_fold_range l c : is_u32 c -> is_u32 (fold_left crc_byte l c).
Proof. revert c; induction l; cbn; auto. intros. apply IHl, crc_byte_range; auto. Qed.

Lemma mask32_range : is_u32 mask32.
Proof. unfold is_u32, mask32; lia. Qed.

Lemma crc_update_range c l : is_u32 c -> is_u32 (crc_update c l).
Proof.
  intros. unfold crc_update.
  apply lxor_range; [lia|apply mask32_range|]. apply crc_fold_range.
  apply lxor_range; [lia|apply mask32_range|auto].
Qed.

(** changing one byte changes the running value *)
Lemma crc_byte_inj_b c b b' : is_u32 c -> is_byte b -> is_byte b' ->
  crc_byte c b = crc_byte c b' -> b = b'.
Proof.
  intros Hc Hb Hb' H. unfold crc_byte in H. apply lxor_cancel_r in H.
  unfold is_u32 in Hc.
  assert (Z.lxor (Z.land c 255) b = Z.lxor (Z.land c 255) b') as E.
  { apply table_top_inj; try (apply idx_range; auto; lia). now rewrite H. }
  now apply lxor_cancel_l in E.
Qed.

(** different running values stay different *)
Lemma crc_byte_inj_c c c' b : is_u32 c -> is_u32 c' -> is_byte b ->
  crc_byte c b = crc_byte c' b -> c = c'.
Proof.
  intros Hc Hc' Hb H. unfold crc_byte in H.
  assert (Z.lxor (Z.land c 255) b = Z.lxor (Z.land c' 255) b) as E.
  { unfold is_u32 in *.
    apply table_top_inj; try (apply idx_range; auto; lia).
    apply (f_equal (fun x => Z.shiftr x 24)) in H.
    rewrite !Z.shiftr_lxor, !Z.shiftr_shiftr in H by lia.
    assert (forall x, 0 <= x < 2^32 -> Z.shiftr x (8 + 24) = 0) as S0.
    { intros x Hx. rewrite Z.shiftr_div_pow2 by lia. apply Z.div_small. lia. }
    rewrite !S0, !Z.lxor_0_r in H by auto. exact H. }
  rewrite E in H. apply lxor_cancel_l in H. apply lxor_cancel_r in E.
  change 255 with (Z.ones 8) in E. rewrite !Z.land_ones in E by lia.
  rewrite !Z.shiftr_div_pow2 in H by lia.
  rewrite (Z.div_mod c (2^8)), (Z.div_mod c' (2^8)) by lia. congruence.
Qed.

Lemma crc_fold_inj_c l : forall c c', is_u32 c -> is_u32 c' -> is_bytes l ->
  fold_left crc_byte l c = fold_left crc_byte l c' -> c = c'.
Proof.
  induction l as [|b l IH]; cbn; auto. intros c c' Hc Hc' Hl H.
  inversion Hl; subst. apply IH in H; auto using crc_byte_range.
  eapply crc_byte_inj_c; eauto.
Qed.

Lemma crc_fold_inj_byte p b b' s c :
  is_u32 c -> is_bytes p -> is_byte b -> is_byte b' -> is_bytes s ->
  fold_left crc_byte (p ++ b :: s) c = fold_left crc_byte (p ++ b' :: s) c -> b = b'.
Proof.
  intros Hc Hp Hb Hb' Hs H. rewrite !fold_left_app in H. cbn [fold_left] in H.
  assert (is_u32 (fold_left crc_byte p c)) by now apply crc_fold_range.
  apply crc_fold_inj_c in H; auto using crc_byte_range.
  eapply crc_byte_inj_b; eauto.
Qed.

(** chaining two updates is one update over the concatenation *)
Lemma crc_update_app c p q :
  crc_update (crc_update c p) q = crc_update c (p ++ q).
Proof.
  unfold crc_update. rewrite fold_left_app. f_equal. f_equal.
  now rewrite <- Z.lxor_assoc, Z.lxor_nilpotent, Z.lxor_0_l.
Qed.

Lemma crc_update_inj_byte c p b b' s :
  is_u32 c -> is_bytes p -> is_byte b -> is_byte b' -> is_bytes s ->
  crc_update c (p ++ b :: s) = crc_update c (p ++ b' :: s) -> b = b'.
Proof.
  intros Hc Hp Hb Hb' Hs H. unfold crc_update in H. apply lxor_cancel_l in H.
  eapply crc_fold_inj_byte in H; eauto.
  apply lxor_range; [lia|apply mask32_range|auto].
Qed.

(** the check value of CRC-32C: "123456789" -> 0xe3069283 *)
Example crc_check :
  crc_update 0 [49;50;51;52;53;54;55;56;57] = 3808858755.
Proof. vm_compute. reflexivity. Qed.
