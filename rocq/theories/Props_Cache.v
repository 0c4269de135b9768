(** Properties C24, C33, C34: the handle cache, its random index, its generator. *)
From Coq Require Import ZArith List Lia Bool Permutation.
From Verif Require Import Base Maps Cache CacheProofs PcgProofs FileCache FileCacheProofs.
Import ListNotations.
Open Scope Z_scope.

(** * C24 *)
(** For any sequence of acquire, release, evict and close operations in which
    callers release only what they hold: every handle ever opened is in exactly
    one of "in the cache", "handed out", "closed" (the three lists together are
    a rearrangement of 0, 1, ..., opened-1, so nothing is lost, shared or closed
    twice), and the cache holds at most [handles]. *)
Theorem C24_handles_conserved :
  forall handles rand ops,
  0 <= handles < 2 ^ 32 -> rand_ok rand -> fc_ok ops (fc_new handles rand) ->
  let st := fc_run ops (fc_new handles rand) in
  Permutation (held 0 (fc_ch st) ++ fc_out st ++ fc_closed st)
              (map Z.of_nat (seq 0 (length (fc_opened st)))) /\
  len (held 0 (fc_ch st)) <= handles.
Proof.
  intros handles rand ops Hc Hr Hok. destruct (finv_run handles ops _ (finv_new _ _ Hc Hr) Hok) as (C & _ & K & P & _).
  split; [exact P|]. unfold held, len. rewrite map_length. destruct C as (_ & C & _). unfold len in C. lia.
Qed.
Print Assumptions C24_handles_conserved.

(** A handle given to a caller was opened for the path the caller asked for and
    has not been closed. *)
Theorem C24_acquire_gives_a_live_handle_of_that_path :
  forall handles rand ops path opens h,
  0 <= handles < 2 ^ 32 -> rand_ok rand -> fc_ok ops (fc_new handles rand) ->
  let st := fc_run ops (fc_new handles rand) in
  snd (fc_step (FAcquire path opens) st) = Some h ->
  let st' := fst (fc_step (FAcquire path opens) st) in
  nth_error (fc_opened st') (Z.to_nat h) = Some path /\ ~ In h (fc_closed st') /\ ~ In h (held 0 (fc_ch st')).
Proof.
  intros handles rand ops path opens h Hc Hr Hok st Hs st'.
  pose proof (finv_run handles ops _ (finv_new _ _ Hc Hr) Hok) as HI. fold st in HI.
  destruct (finv_step handles (FAcquire path opens) st HI I) as [HI' Hacq]. fold st' in HI', Hacq.
  destruct (Hacq path opens h eq_refl Hs) as [H1 H2]. split; [exact H1|].
  destruct HI' as (_ & _ & _ & P & _).
  pose proof (Permutation_NoDup (Permutation_sym P) (iota_nodup _)) as ND.
  apply in_split in H2. destruct H2 as (a & b & E). rewrite E in ND. 
  split; intros X.
  - rewrite <- app_assoc in ND. cbn [app] in ND. rewrite app_assoc in ND. apply NoDup_remove_2 in ND.
    apply ND. rewrite !in_app_iff. auto.
  - rewrite <- app_assoc in ND. cbn [app] in ND. rewrite app_assoc in ND. apply NoDup_remove_2 in ND.
    apply ND. rewrite !in_app_iff. auto.
Qed.
Print Assumptions C24_acquire_gives_a_live_handle_of_that_path.

(** a file released is found again as long as it was not evicted: here with
    two handles of capacity, three files, an eviction and a reuse *)
Definition f_ops : list fop :=
  [FAcquire [1] true; FRelease [1] 0; FAcquire [2] true; FRelease [2] 1; FAcquire [3] true;
   FAcquire [4] false; FRelease [3] 2; FEvict [2]; FAcquire [3] true; FClose].
Example C24_example :
  rand_ok (fun _ => 5) /\ fc_ok f_ops (fc_new 2 (fun _ => 5)) /\
  let st := fc_run f_ops (fc_new 2 (fun _ => 5)) in
  (fc_out st, fc_closed st, length (fc_opened st)) = ([2], [1; 0], 3%nat).
Proof. split; [intros ?; lia|]. split; vm_compute; tauto. Qed.

(** * C33 *)
Theorem C33_index_in_range :
  forall n m, 0 <= n < 2 ^ 32 -> 1 <= m <= 2 ^ 32 -> 0 <= fastMod n m < m.
Proof.
  intros n m Hn Hm. rewrite fastMod_div_le by lia.
  split; [apply Z.div_pos; nia|]. apply Z.div_lt_upper_bound; nia.
Qed.
Theorem C33_index_monotone :
  forall n n' m, 0 <= n <= n' -> n' < 2 ^ 32 -> 1 <= m <= 2 ^ 32 -> fastMod n m <= fastMod n' m.
Proof. intros. rewrite !fastMod_div_le by lia. apply Z.div_le_mono; nia. Qed.
(** the inputs of index i are an interval of 2^32/m or 2^32/m + 1 numbers (at
    least one since m <= 2^32) *)
Theorem C33_index_balanced :
  forall m i, 1 <= m <= 2 ^ 32 -> 0 <= i < m ->
  exists lo hi, 0 <= lo < hi /\ hi <= 2 ^ 32 /\
    (forall n, 0 <= n < 2 ^ 32 -> (fastMod n m = i <-> lo <= n < hi)) /\
    (hi - lo = 2 ^ 32 / m \/ hi - lo = 2 ^ 32 / m + 1).
Proof.
  intros m i Hm Hi. exists (bucket m i), (bucket m (i + 1)).
  assert (H0 : 0 <= bucket m i) by (apply Z.div_pos; lia).
  assert (H1 : bucket m (i + 1) <= 2 ^ 32) by (apply bucket_le; nia).
  pose proof (bucket_size m i ltac:(lia)) as Hs. cbn zeta in Hs.
  assert (1 <= 2 ^ 32 / m) by (apply Z.div_le_lower_bound; lia).
  split; [lia|]. split; [lia|]. split; [|exact Hs].
  intros n Hn. apply fastMod_bucket; lia.
Qed.
Print Assumptions C33_index_in_range.
Print Assumptions C33_index_monotone.
Print Assumptions C33_index_balanced.
Example C33_example : map (fun n => fastMod n 3) [0; 1431655765; 1431655766; 2863311531; 4294967295] = [0; 0; 1; 2; 2].
Proof. reflexivity. Qed.

(** * C34 *)
(** the zero value produces the same numbers as New(0, 0) *)
Theorem C34_zero_value_is_new_0_0 :
  forall n, pcg_stream (PCG 0 0) n = pcg_stream (pcg_new 0 0) n.
Proof. intros [|n]; reflexivity. Qed.

(** after any number of outputs, the increment is odd and state, increment and
    outputs are in range *)
Fixpoint pcg_after (p : pcg) (n : nat) : pcg :=
  match n with O => p | S k => snd (pcg_uint32 (pcg_after p k)) end.
Theorem C34_increment_odd :
  forall state inc n, 0 <= state < 2 ^ 64 -> 0 <= inc < 2 ^ 64 ->
  let p := pcg_after (pcg_new state inc) n in
  p_inc p mod 2 = 1 /\ 0 < p_inc p < 2 ^ 64 /\ 0 <= p_state p < 2 ^ 64.
Proof.
  intros state inc n Hs Hi.
  assert (H0 : let p := pcg_new state inc in p_inc p mod 2 = 1 /\ 0 < p_inc p < 2 ^ 64 /\ 0 <= p_state p < 2 ^ 64).
  { cbn zeta. unfold pcg_new. cbn [p_inc p_state]. unfold u64.
    assert (E : Z.lor (inc * 2 mod 2 ^ 64) 1 = inc * 2 mod 2 ^ 64 + 1).
    { assert (Hm : inc * 2 mod 2 ^ 64 = 2 * (inc mod 2 ^ 63)).
      { replace (2 ^ 64) with (2 * 2 ^ 63) by lia. rewrite (Z.mul_comm inc 2). now rewrite Z.mul_mod_distr_l by lia. }
      rewrite Hm. destruct (Z.mod_pos_bound inc (2 ^ 63) ltac:(lia)). set (q := inc mod 2 ^ 63) in *.
      symmetry. rewrite Z.add_nocarry_lxor; [apply Z.lxor_lor|];
        (apply Z.bits_inj'; intros i Hi0; rewrite Z.land_spec, Z.bits_0;
         destruct (Z.eq_dec i 0) as [->|];
         [rewrite Z.testbit_even_0; reflexivity|rewrite (Z.bits_above_log2 1 i) by (cbn; lia); apply andb_false_r]). }
    rewrite E.
    assert (Hm : inc * 2 mod 2 ^ 64 = 2 * (inc mod 2 ^ 63)).
    { replace (2 ^ 64) with (2 * 2 ^ 63) by lia. rewrite (Z.mul_comm inc 2). now rewrite Z.mul_mod_distr_l by lia. }
    pose proof (Z.mod_pos_bound inc (2 ^ 63) ltac:(lia)). rewrite Hm.
    split; [rewrite Z.add_comm, Z.mul_comm, Z.mod_add by lia; reflexivity|].
    split; [lia|]. apply Z.mod_pos_bound. lia. }
  induction n as [|n IH]; [exact H0|]. cbn [pcg_after]. cbn zeta in IH |- *. destruct IH as (I1 & I2 & I3).
  unfold pcg_uint32. destruct (Z.eqb_spec (p_inc (pcg_after (pcg_new state inc) n)) 0); [lia|].
  cbn [snd p_inc p_state]. split; [exact I1|]. split; [exact I2|]. apply Z.mod_pos_bound. lia.
Qed.
(** the sequence of states returns to its start after exactly 2^64 outputs (and
    its multiples): it is purely periodic and visits every 64-bit state *)
Theorem C34_full_period :
  forall state inc n, 0 <= state < 2 ^ 64 -> 0 <= inc < 2 ^ 64 ->
  let p := pcg_new state inc in
  p_state (pcg_after p n) = p_state p <-> (2 ^ 64 | Z.of_nat n).
Proof.
  intros state inc n Hs Hi p. pose proof (C34_increment_odd state inc) as Hodd.
  assert (E : forall k, pcg_after p k = PCG (Nat.iter k (lcg (p_inc p)) (p_state p)) (p_inc p)).
  { induction k as [|k IH]; [destruct p; reflexivity|]. cbn [pcg_after]. rewrite IH.
    destruct (Hodd 0%nat Hs Hi) as (_ & O2 & _). cbn [pcg_after] in O2. fold p in O2.
    unfold pcg_uint32. cbn [p_inc p_state]. destruct (Z.eqb_spec (p_inc p) 0); [lia|]. reflexivity. }
  rewrite E. cbn [p_state]. destruct (Hodd 0%nat Hs Hi) as (O1 & _ & O3). apply lcg_period; assumption.
Qed.
(** distinct states stay distinct *)
Theorem C34_steps_invertible :
  forall inc s t, inc mod 2 = 1 -> 0 <= s < 2 ^ 64 -> 0 <= t < 2 ^ 64 ->
  p_state (snd (pcg_uint32 (PCG s inc))) = p_state (snd (pcg_uint32 (PCG t inc))) -> s = t.
Proof.
  intros inc s t Hi Hs Ht. unfold pcg_uint32. cbn [p_inc].
  destruct (Z.eqb_spec inc 0) as [->|]; [discriminate|]. cbn [snd p_state].
  change (lcg inc s = lcg inc t -> s = t). rewrite !lcg_eq. intros H.
  assert (Hd : (2 ^ 64 | (s - t) * pcg_mul)).
  { apply Z.mod_divide; [lia|]. replace ((s - t) * pcg_mul) with ((s * pcg_mul + inc) - (t * pcg_mul + inc)) by lia.
    rewrite Zminus_mod, H, Z.sub_diag. reflexivity. }
  rewrite Z.mul_comm in Hd. apply Znumtheory.Gauss in Hd.
  - destruct Hd as (k & Hk). assert (k = 0) by nia. lia.
  - apply Znumtheory.Zgcd_1_rel_prime. vm_compute. reflexivity.
Qed.
Print Assumptions C34_zero_value_is_new_0_0.
Print Assumptions C34_increment_odd.
Print Assumptions C34_full_period.
Print Assumptions C34_steps_invertible.
Example C34_example : map (pcg_stream (pcg_new 0 0)) [0%nat; 1%nat; 2%nat] = map (pcg_stream (PCG 0 0)) [0%nat; 1%nat; 2%nat]
  /\ p_inc (pcg_new 7 9) = 19.
Proof. vm_compute. auto. Qed.
