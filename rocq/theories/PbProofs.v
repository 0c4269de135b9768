From Coq Require Import ZArith List Lia Bool.
From Verif Require Import Base Pb Meta PbRecord.
Import ListNotations.
Open Scope Z_scope.

Lemma lor_add acc x n : 0 <= n -> 0 <= acc < 2 ^ n ->
  Z.lor acc (x * 2 ^ n) = acc + x * 2 ^ n.
Proof.
  intros Hn Ha.
  assert (Z.land acc (x * 2 ^ n) = 0) as L.
  { apply Z.bits_inj'. intros k Hk. rewrite Z.land_spec, Z.bits_0.
    destruct (Z.lt_ge_cases k n) as [H|H].
    - rewrite Z.mul_pow2_bits_low by lia. apply andb_false_r.
    - destruct (Z.eq_dec acc 0) as [->|].
      { now rewrite Z.bits_0. }
      rewrite Z.bits_above_log2; [reflexivity|lia|].
      apply Z.log2_lt_pow2; [lia|]. apply Z.lt_le_trans with (2^n); [lia|].
      apply Z.pow_le_mono_r; lia. }
  rewrite Z.add_nocarry_lxor by auto. now rewrite Z.lxor_lor.
Qed.

Lemma at_pre pre x post : at_ (len pre) (pre ++ x :: post) = x.
Proof.
  unfold at_, len. rewrite Nat2Z.id, app_nth2, Nat.sub_diag by lia. reflexivity.
Qed.

Lemma land127 b : Z.land b 127 = b mod 128.
Proof. change 127 with (Z.ones 7). now rewrite Z.land_ones. Qed.

Lemma get_put_ r : forall f shift acc v pre post,
  (1 <= r)%nat -> f = r ->
  0 <= v < 128 ^ Z.of_nat r -> 0 <= shift -> 0 <= acc < 2 ^ shift ->
  acc + v * 2 ^ shift < 2 ^ 64 ->
  get_varint_ r shift acc (pre ++ put_varint_ f v ++ post) (len pre)
  = Ok (acc + v * 2 ^ shift, len pre + len (put_varint_ f v)).
Proof.
  induction r as [|r IH]; intros f shift acc v pre post Hr -> Hv Hs Ha Hb; [lia|].
  assert (0 < 2 ^ shift) as Hp by (apply Z.pow_pos_nonneg; lia).
  cbn [get_varint_ put_varint_].
  pose proof (len_nonneg pre) as Hpre.
  destruct (Z.ltb_spec v 128) as [Hlt|Hge].
  - cbn [app]. rewrite at_pre.
    replace (len (pre ++ v :: post) <=? len pre) with false
      by (symmetry; apply Z.leb_gt; rewrite len_app, len_cons; pose proof (len_nonneg post); lia).
    replace (len pre <? 0) with false by (symmetry; apply Z.ltb_ge; lia).
    cbv zeta. rewrite land127. rewrite (Z.mod_small v 128) by lia.
    replace (u64 (v * 2 ^ shift)) with (v * 2 ^ shift)
      by (symmetry; unfold u64; apply Z.mod_small; nia).
    rewrite lor_add by lia.
    destruct (Z.ltb_spec v 128); [|lia]. f_equal.
  - cbn [app]. rewrite at_pre.
    set (b := v mod 128 + 128).
    pose proof (Z.mod_pos_bound v 128 ltac:(lia)) as Hm.
    pose proof (Z.div_mod v 128 ltac:(lia)) as Hdm.
    set (rest := put_varint_ r (v / 128) ++ post).
    replace (len (pre ++ b :: rest) <=? len pre) with false
      by (symmetry; apply Z.leb_gt; rewrite len_app, len_cons; pose proof (len_nonneg rest); lia).
    replace (len pre <? 0) with false by (symmetry; apply Z.ltb_ge; lia).
    cbv zeta. rewrite land127.
    assert (b mod 128 = v mod 128) as ->.
    { unfold b. replace (v mod 128 + 128) with (v mod 128 + 1 * 128) by lia.
      rewrite Z.mod_add by lia. apply Z.mod_mod. lia. }
    replace (u64 (v mod 128 * 2 ^ shift)) with (v mod 128 * 2 ^ shift)
      by (symmetry; unfold u64; apply Z.mod_small; nia).
    rewrite lor_add by lia.
    destruct (Z.ltb_spec b 128); [unfold b in *; lia|].
    replace (pre ++ b :: rest) with ((pre ++ [b]) ++ rest) by (rewrite <- app_assoc; reflexivity).
    replace (len pre + 1) with (len (pre ++ [b])) by (rewrite len_app; reflexivity).
    unfold rest.
    assert (H128 : 2 ^ (shift + 7) = 2 ^ shift * 128) by (rewrite Z.pow_add_r by lia; reflexivity).
    rewrite Nat2Z.inj_succ, Z.pow_succ_r in Hv by lia.
    assert (1 <= r)%nat by (destruct r as [|r']; [change (128 ^ Z.of_nat 0) with 1 in Hv|]; lia).
    assert (0 <= v / 128 < 128 ^ Z.of_nat r)
      by (split; [apply Z.div_pos; lia|]; apply Z.div_lt_upper_bound; lia).
    assert (0 <= acc + v mod 128 * 2 ^ shift < 2 ^ (shift + 7)) by (rewrite H128; nia).
    assert (acc + v mod 128 * 2 ^ shift + v / 128 * 2 ^ (shift + 7) = acc + v * 2 ^ shift) as EQ
      by (rewrite H128; nia).
    rewrite IH; [|assumption|reflexivity|assumption|lia|assumption|lia].
    rewrite EQ. f_equal. f_equal. rewrite len_app, len_cons, len_cons, len_nil. lia.
Qed.

Lemma get_put v pre post : 0 <= v < 2 ^ 64 ->
  get_varint (pre ++ put_varint v ++ post) (len pre)
  = Ok (v, len pre + len (put_varint v)).
Proof.
  intros Hv. unfold get_varint, put_varint.
  rewrite get_put_; try lia.
  f_equal. f_equal. lia.
Qed.

Lemma sov_put_ f : forall v, (1 <= f)%nat -> 0 <= v < 128 ^ Z.of_nat f ->
  sov_ f v = len (put_varint_ f v).
Proof.
  induction f as [|f IH]; intros v Hf Hv; [lia|]. cbn [sov_ put_varint_].
  rewrite Nat2Z.inj_succ, Z.pow_succ_r in Hv by lia.
  destruct (Z.ltb_spec v 128).
  - rewrite Z.div_small by lia. reflexivity.
  - destruct (Z.eqb_spec (v / 128) 0) as [e|ne].
    + apply Z.div_small_iff in e; lia.
    + rewrite len_cons, IH; [lia| |].
      * destruct f; [|lia]. cbn in Hv. lia.
      * split; [apply Z.div_pos; lia|]. apply Z.div_lt_upper_bound; lia.
Qed.

Lemma sov_put v : 0 <= v < 2 ^ 64 -> sov v = len (put_varint v).
Proof.
  intros. apply sov_put_; [lia|]. change (128 ^ Z.of_nat 10) with (2 ^ 70). lia.
Qed.

Lemma put_varint_len_ f : forall v, 0 <= v -> 
  1 <= len (put_varint_ f v) <= Z.of_nat f + 1.
Proof.
  induction f as [|f IH]; intros v Hv; cbn [put_varint_].
  - rewrite len_cons, len_nil; lia.
  - destruct (v <? 128); rewrite len_cons; rewrite ?len_nil; [lia|].
    specialize (IH (v / 128) ltac:(apply Z.div_pos; lia)). lia.
Qed.

Lemma put_varint_bytes_ f : forall v, 0 <= v < 128 ^ Z.of_nat f -> is_bytes (put_varint_ f v).
Proof.
  induction f as [|f IH]; intros v Hv; cbn [put_varint_].
  - cbn in Hv. constructor; [|constructor]. unfold is_byte; lia.
  - rewrite Nat2Z.inj_succ, Z.pow_succ_r in Hv by lia.
    pose proof (Z.mod_pos_bound v 128 ltac:(lia)).
    destruct (Z.ltb_spec v 128); constructor; try (unfold is_byte; lia); [constructor|].
    apply IH. split; [apply Z.div_pos; lia|]. apply Z.div_lt_upper_bound; lia.
Qed.

(** at most 10 bytes for 64 bits *)
Lemma put_varint_len10_ f : forall v k, (k <= f)%nat -> (1 <= k)%nat ->
  0 <= v < 128 ^ Z.of_nat k -> len (put_varint_ f v) <= Z.of_nat k.
Proof.
  induction f as [|f IH]; intros v k Hk H1 Hv; [lia|]. cbn [put_varint_].
  destruct (Z.ltb_spec v 128).
  - rewrite len_cons, len_nil; lia.
  - rewrite len_cons. destruct k as [|k]; [lia|].
    rewrite Nat2Z.inj_succ, Z.pow_succ_r in Hv by lia.
    destruct k as [|k]; [cbn in Hv; lia|].
    specialize (IH (v / 128) (S k) ltac:(lia) ltac:(lia)).
    assert (0 <= v / 128 < 128 ^ Z.of_nat (S k)) as Hd.
    { split; [apply Z.div_pos; lia|]. apply Z.div_lt_upper_bound; lia. }
    specialize (IH Hd). lia.
Qed.

Lemma put_varint_len v : 0 <= v < 2 ^ 64 -> 1 <= len (put_varint v) <= 10.
Proof.
  intros. pose proof (put_varint_len_ 10 v ltac:(lia)). unfold put_varint.
  pose proof (put_varint_len10_ 10 v 10 ltac:(lia) ltac:(lia)) as H'.
  change (128 ^ Z.of_nat 10) with (2 ^ 70) in H'. lia.
Qed.

Lemma put_varint_bytes v : 0 <= v < 2 ^ 64 -> is_bytes (put_varint v).
Proof.
  intros. apply put_varint_bytes_. change (128 ^ Z.of_nat 10) with (2 ^ 70). lia.
Qed.

Lemma get_tag t pre post : 0 <= t < 128 ->
  get_varint (pre ++ t :: post) (len pre) = Ok (t, len pre + 1).
Proof.
  intros Ht. pose proof (get_put t pre post ltac:(lia)) as H.
  assert (put_varint t = [t]) as E.
  { unfold put_varint. cbn [put_varint_]. destruct (Z.ltb_spec t 128); [auto|lia]. }
  rewrite E in H. exact H.
Qed.

(** one known field of the loop *)
Lemma pb_known {M} (field : Z -> Z -> list Z -> Z -> M -> option (res (M * Z)))
  fuel pre t body post m m' :
  0 <= t < 128 -> t / 8 > 0 -> t mod 8 <> 4 ->
  field (t / 8) (t mod 8) (pre ++ (t :: body) ++ post) (len pre + 1) m
    = Some (Ok (m', len pre + 1 + len body)) ->
  (length ((t :: body) ++ post) < fuel)%nat ->
  exists fuel', (length post < fuel')%nat /\
    pb_loop field fuel (pre ++ (t :: body) ++ post) (len pre) m
    = pb_loop field fuel' (pre ++ (t :: body) ++ post) (len pre + len (t :: body)) m'.
Proof.
  intros Ht Hn Hw Hf Hfuel. destruct fuel as [|fuel]; [lia|].
  exists fuel. split; [rewrite app_length in Hfuel; cbn in Hfuel; lia|].
  set (d := pre ++ (t :: body) ++ post) in *.
  assert (len d = len pre + 1 + len body + len post) as Ld.
  { unfold d. rewrite !len_app, len_cons. lia. }
  pose proof (len_nonneg body). pose proof (len_nonneg post).
  cbn [pb_loop].
  replace (len d <=? len pre) with false by (symmetry; apply Z.leb_gt; lia).
  unfold d at 1. cbn [app]. rewrite get_tag by auto. cbn [bind].
  assert (i32 (t / 8) = t / 8) as ->.
  { unfold i32. rewrite Z.mod_small; [lia|].
    assert (t / 8 < 16) by (apply Z.div_lt_upper_bound; lia). lia. }
  destruct (Z.eqb_spec (t mod 8) 4); [lia|].
  destruct (Z.leb_spec (t / 8) 0); [lia|].
  rewrite Hf. cbn [bind fst snd]. rewrite len_cons. f_equal; lia.
Qed.

Lemma pb_done {M} (field : Z -> Z -> list Z -> Z -> M -> option (res (M * Z))) fuel d m :
  pb_loop field fuel d (len d) m = Ok m.
Proof.
  assert (forall x, (x <=? x) = true) as R by (intros; apply Z.leb_refl).
  destruct fuel; cbn [pb_loop]; rewrite R, Z.ltb_irrefl; reflexivity.
Qed.

(** an optional varint field whose zero value is omitted *)
Lemma put_field_step {M} (field : Z -> Z -> list Z -> Z -> M -> option (res (M * Z)))
  num (m m' : M) v :
  is_i64 v -> 0 < num < 16 -> (v = 0 -> m' = m) ->
  (forall d i j, get_varint d i = Ok (u64 v, j) -> field num 0 d i m = Some (Ok (m', j))) ->
  forall fuel pre post,
  (length (put_field (num * 8) v ++ post) < fuel)%nat ->
  exists fuel', (length post < fuel')%nat /\
    pb_loop field fuel (pre ++ put_field (num * 8) v ++ post) (len pre) m
    = pb_loop field fuel' ((pre ++ put_field (num * 8) v) ++ post) (len (pre ++ put_field (num * 8) v)) m'.
Proof.
  intros Hv Hn H0 Hf fuel pre post Hfuel. unfold put_field in *.
  assert (num * 8 / 8 = num) as Hd by (apply Z.div_mul; lia).
  assert (num * 8 mod 8 = 0) as Hw by (apply Z.mod_mul; lia).
  set (t := num * 8) in *.
  destruct (Z.eqb_spec v 0) as [->|Hne].
  - exists fuel. split; [exact Hfuel|]. rewrite app_nil_r. rewrite H0; auto.
  - destruct (pb_known field fuel pre t (put_varint (u64 v)) post m m') as (f' & Hf' & E); auto; try lia.
    + rewrite Hw, Hd.
      assert (get_varint (pre ++ (t :: put_varint (u64 v)) ++ post) (len pre + 1)
              = Ok (u64 v, len pre + 1 + len (put_varint (u64 v)))) as G.
      { replace (pre ++ (t :: put_varint (u64 v)) ++ post)
          with ((pre ++ [t]) ++ put_varint (u64 v) ++ post) by (rewrite <- !app_assoc; reflexivity).
        replace (len pre + 1) with (len (pre ++ [t])) by (rewrite len_app; reflexivity).
        apply get_put. apply u64_range. }
      now apply Hf.
    + exists f'. split; auto. rewrite <- app_assoc, len_app. exact E.
Qed.

(** a length delimited field *)
Lemma get_bytes_put b pre post :
  len b < 2 ^ 62 -> len (pre ++ put_varint (len b) ++ b ++ post) < 2 ^ 62 ->
  get_bytes (pre ++ put_varint (len b) ++ b ++ post) (len pre)
  = Ok (b, len pre + len (put_varint (len b) ++ b)).
Proof.
  intros Hb Hd. pose proof (len_nonneg b) as Hnb. pose proof (len_nonneg pre).
  pose proof (len_nonneg post).
  unfold get_bytes. rewrite get_put by lia. cbn [bind].
  rewrite !len_app in Hd.
  pose proof (len_nonneg (put_varint (len b))).
  rewrite (i64_id (len b)) by (unfold is_i64; lia).
  destruct (Z.ltb_spec (len b) 0); [lia|]. cbv zeta.
  rewrite i64_id by (unfold is_i64; lia).
  rewrite !len_app.
  destruct (Z.ltb_spec (len pre + (len (put_varint (len b)) + (len b + len post)))
             (len pre + len (put_varint (len b)) + len b)); [lia|].
  destruct (Z.ltb_spec (len pre + len (put_varint (len b)) + len b)
             (len pre + len (put_varint (len b)))); [lia|].
  f_equal. f_equal; [|lia].
  unfold sub. rewrite app_assoc.
  replace (Z.to_nat (len pre + len (put_varint (len b)))) with (length (pre ++ put_varint (len b)))
    by (rewrite app_length; unfold len; lia).
  rewrite skipn_app, skipn_all, Nat.sub_diag. cbn [skipn app].
  replace (Z.to_nat _) with (length b) by (unfold len; lia).
  rewrite firstn_app, firstn_all, Nat.sub_diag. cbn. apply app_nil_r.
Qed.

Lemma put_bytes_step {M} (field : Z -> Z -> list Z -> Z -> M -> option (res (M * Z)))
  num (m m' : M) b :
  len b < 2 ^ 62 -> 0 < num < 15 -> (b = [] -> m' = m) ->
  (forall d i j, get_bytes d i = Ok (b, j) -> field num 2 d i m = Some (Ok (m', j))) ->
  forall fuel pre post,
  len (pre ++ put_bytes (num * 8 + 2) b ++ post) < 2 ^ 62 ->
  (length (put_bytes (num * 8 + 2) b ++ post) < fuel)%nat ->
  exists fuel', (length post < fuel')%nat /\
    pb_loop field fuel (pre ++ put_bytes (num * 8 + 2) b ++ post) (len pre) m
    = pb_loop field fuel' ((pre ++ put_bytes (num * 8 + 2) b) ++ post)
        (len (pre ++ put_bytes (num * 8 + 2) b)) m'.
Proof.
  intros Hb Hn H0 Hf fuel pre post Hlen Hfuel. unfold put_bytes in *.
  assert ((num * 8 + 2) / 8 = num) as Hd by (rewrite Z.div_add_l; [|lia]; change (2/8) with 0; lia).
  assert ((num * 8 + 2) mod 8 = 2) as Hw
    by (rewrite Z.add_comm, Z.mod_add by lia; reflexivity).
  set (t := num * 8 + 2) in *.
  destruct (Z.eqb_spec (len b) 0) as [e|Hne].
  - exists fuel. split; [exact Hfuel|]. rewrite app_nil_r. rewrite H0; auto. now apply len_0_nil.
  - destruct (pb_known field fuel pre t (put_varint (len b) ++ b) post m m') as (f' & Hf' & E); auto; try lia.
    + rewrite Hw, Hd. apply Hf.
      assert (pre ++ (t :: put_varint (len b) ++ b) ++ post
          = (pre ++ [t]) ++ put_varint (len b) ++ b ++ post) as EE
        by (rewrite <- !app_assoc; cbn [app]; rewrite <- !app_assoc; reflexivity).
      rewrite EE in *.
      replace (len pre + 1) with (len (pre ++ [t])) by (rewrite len_app; reflexivity).
      apply get_bytes_put; auto.
    + exists f'. split; auto. rewrite <- app_assoc, len_app. exact E.
Qed.

Lemma le8_length n : length (le8 n) = 8%nat.
Proof. unfold le8. now rewrite rev_length, be_length. Qed.

Lemma put_float_step {M} (field : Z -> Z -> list Z -> Z -> M -> option (res (M * Z)))
  num (m m' : M) v :
  0 <= v < 2 ^ 64 -> 0 < num < 15 -> (fbits_zero v = true -> m' = m) ->
  (forall d i j, get_fixed64 d i = Ok (v, j) -> field num 1 d i m = Some (Ok (m', j))) ->
  forall fuel pre post,
  (length (put_float (num * 8 + 1) v ++ post) < fuel)%nat ->
  exists fuel', (length post < fuel')%nat /\
    pb_loop field fuel (pre ++ put_float (num * 8 + 1) v ++ post) (len pre) m
    = pb_loop field fuel' ((pre ++ put_float (num * 8 + 1) v) ++ post)
        (len (pre ++ put_float (num * 8 + 1) v)) m'.
Proof.
  intros Hv Hn H0 Hf fuel pre post Hfuel. unfold put_float in *.
  assert ((num * 8 + 1) / 8 = num) as Hd by (rewrite Z.div_add_l; [|lia]; change (1/8) with 0; lia).
  assert ((num * 8 + 1) mod 8 = 1) as Hw
    by (rewrite Z.add_comm, Z.mod_add by lia; reflexivity).
  set (t := num * 8 + 1) in *.
  destruct (fbits_zero v) eqn:Ez.
  - exists fuel. split; [exact Hfuel|]. rewrite app_nil_r. rewrite H0; auto.
  - destruct (pb_known field fuel pre t (le8 v) post m m') as (f' & Hf' & E); auto; try lia.
    + rewrite Hw, Hd. apply Hf.
      replace (pre ++ (t :: le8 v) ++ post)
          with ((pre ++ [t]) ++ le8 v ++ post) by (rewrite <- !app_assoc; reflexivity).
      replace (len pre + 1) with (len (pre ++ [t])) by (rewrite len_app; reflexivity).
      unfold get_fixed64. rewrite len_app, (len_app (le8 v)).
      assert (len (le8 v) = 8) as L8 by (unfold len; now rewrite le8_length).
      rewrite L8. pose proof (len_nonneg post).
      destruct (Z.ltb_spec (len (pre ++ [t]) + (8 + len post)) (len (pre ++ [t]) + 8)); [lia|].
      f_equal. f_equal. unfold unle, sub.
      replace (Z.to_nat (len (pre ++ [t]))) with (length (pre ++ [t])) by (unfold len; lia).
      rewrite skipn_app, skipn_all, Nat.sub_diag. cbn [skipn app].
      change (Z.to_nat 8) with 8%nat. rewrite <- (le8_length v).
      rewrite firstn_app, firstn_all, Nat.sub_diag. rewrite firstn_O, app_nil_r.
      unfold le8. rewrite rev_involutive. apply unbe_be.
      change (256 ^ Z.of_nat 8) with (2 ^ 64). lia.
    + exists f'. split; auto. rewrite <- app_assoc, len_app. exact E.
Qed.

Lemma u64_0 : u64 0 = 0. Proof. reflexivity. Qed.

Ltac vfield H :=
  intros d i j H; unfold meta_field, drec_field;
  cbn [Z.eqb Pos.eqb negb]; rewrite H; cbn [bind fst snd];
  rewrite ?i64_u64 by assumption; reflexivity.

Lemma meta_roundtrip_ m :
  is_i64 (m_size m) -> is_i64 (m_head m) -> is_i64 (m_start m) ->
  is_i64 (m_end m) -> is_i64 (m_smallest m) ->
  meta_unmarshal (meta_marshal m) = Ok m.
Proof.
  destruct m as [a b c e f]; cbn [m_size m_head m_start m_end m_smallest].
  intros Ha Hb Hc He Hf. unfold meta_unmarshal, pb_unmarshal, meta_marshal, meta_zero.
  cbn [m_size m_head m_start m_end m_smallest].
  set (d := _ ++ _).
  assert (exists fuel, S (length d) = fuel /\ (length d < fuel)%nat) as (fuel & -> & Hfuel)
    by (eexists; split; [reflexivity|lia]).
  assert (forall m, pb_loop meta_field fuel d 0 m = pb_loop meta_field fuel ([] ++ d) (len (@nil Z)) m) as ->
    by reflexivity.
  unfold d in *. clear d.
  destruct (put_field_step meta_field 1 (Meta 0 0 0 0 0) (Meta a 0 0 0 0) a Ha ltac:(lia) ltac:(congruence)
    ltac:(vfield G) fuel [] (put_field 16 b ++ put_field 24 c ++ put_field 32 e ++ put_field 40 f) Hfuel)
    as (f1 & F1 & E1). change (1 * 8) with 8 in E1. rewrite E1.
  destruct (put_field_step meta_field 2 (Meta a 0 0 0 0) (Meta a b 0 0 0) b Hb ltac:(lia) ltac:(congruence)
    ltac:(vfield G) f1 ([] ++ put_field 8 a) (put_field 24 c ++ put_field 32 e ++ put_field 40 f) F1)
    as (f2 & F2 & E2). change (2 * 8) with 16 in E2. rewrite E2.
  destruct (put_field_step meta_field 3 (Meta a b 0 0 0) (Meta a b c 0 0) c Hc ltac:(lia) ltac:(congruence)
    ltac:(vfield G) f2 (([] ++ put_field 8 a) ++ put_field 16 b) (put_field 32 e ++ put_field 40 f) F2)
    as (f3 & F3 & E3). change (3 * 8) with 24 in E3. rewrite E3.
  destruct (put_field_step meta_field 4 (Meta a b c 0 0) (Meta a b c e 0) e He ltac:(lia) ltac:(congruence)
    ltac:(vfield G) f3 ((([] ++ put_field 8 a) ++ put_field 16 b) ++ put_field 24 c) (put_field 40 f) F3)
    as (f4 & F4 & E4). change (4 * 8) with 32 in E4. rewrite E4.
  destruct (put_field_step meta_field 5 (Meta a b c e 0) (Meta a b c e f) f Hf ltac:(lia) ltac:(congruence)
    ltac:(vfield G) f4 (((([] ++ put_field 8 a) ++ put_field 16 b) ++ put_field 24 c) ++ put_field 32 e) []
    ltac:(rewrite app_nil_r; exact F4))
    as (f5 & F5 & E5). change (5 * 8) with 40 in E5. rewrite !app_nil_r in E5. rewrite E5.
  apply pb_done.
Qed.

Lemma put_field_size t v : len (put_field t v) = (if v =? 0 then 0 else 1 + sov (u64 v)).
Proof.
  unfold put_field. destruct (v =? 0); [reflexivity|].
  rewrite len_cons, sov_put by apply u64_range. reflexivity.
Qed.

Lemma meta_size_len m : meta_size m = len (meta_marshal m).
Proof.
  unfold meta_size, meta_marshal. rewrite !len_app, !put_field_size. lia.
Qed.

Lemma put_field_bound t v : 0 <= len (put_field t v) <= 11.
Proof.
  rewrite put_field_size. destruct (v =? 0); [lia|].
  pose proof (u64_range v) as H. rewrite sov_put by exact H.
  pose proof (put_varint_len _ H). lia.
Qed.

Lemma meta_size_bound m : 0 <= meta_size m <= 55.
Proof.
  rewrite meta_size_len. unfold meta_marshal. rewrite !len_app.
  pose proof (put_field_bound 8 (m_size m)). pose proof (put_field_bound 16 (m_head m)).
  pose proof (put_field_bound 24 (m_start m)). pose proof (put_field_bound 32 (m_end m)).
  pose proof (put_field_bound 40 (m_smallest m)). lia.
Qed.

Lemma put_field_bytes t v : is_byte t -> is_bytes (put_field t v).
Proof.
  intros. unfold put_field. destruct (v =? 0); constructor; auto.
  apply put_varint_bytes, u64_range.
Qed.

Lemma meta_marshal_bytes m : is_bytes (meta_marshal m).
Proof.
  unfold meta_marshal, is_bytes. rewrite !Forall_app.
  repeat split; apply put_field_bytes; unfold is_byte; lia.
Qed.

(** data records *)
Definition norm_zero (b : Z) : Z := if fbits_zero b then 0 else b.

Lemma put_float_norm t v : put_float t v = put_float t (norm_zero v).
Proof. unfold put_float, norm_zero. destruct (fbits_zero v) eqn:E; [reflexivity|now rewrite E]. Qed.

Lemma norm_zero_zero v : fbits_zero (norm_zero v) = true -> norm_zero v = 0.
Proof. unfold norm_zero. destruct (fbits_zero v) eqn:E; auto. congruence. Qed.

Lemma norm_zero_range v : 0 <= v < 2 ^ 64 -> 0 <= norm_zero v < 2 ^ 64.
Proof. unfold norm_zero. destruct (fbits_zero v); lia. Qed.

Lemma drec_roundtrip_ m :
  is_i64 (d_start m) -> is_i64 (d_end m) -> is_i64 (d_obs m) -> is_i64 (d_merged m) ->
  0 <= d_min m < 2 ^ 64 -> 0 <= d_max m < 2 ^ 64 ->
  len (drec_marshal m) < 2 ^ 62 ->
  drec_unmarshal (drec_marshal m) =
  Ok (DRec (d_start m) (d_end m) (d_obs m) (d_dist m) (d_kind m)
        (norm_zero (d_min m)) (norm_zero (d_max m)) (d_minid m) (d_maxid m) (d_merged m)).
Proof.
  destruct m as [a b c e f g h k l n]; unfold drec_unmarshal, pb_unmarshal, drec_marshal, drec_zero;
  cbn [d_start d_end d_obs d_merged d_min d_max d_dist d_kind d_minid d_maxid].
  rewrite (put_float_norm 49 g), (put_float_norm 57 h).
  intros Ha Hb Hc Hn Hg Hh.
  apply norm_zero_range in Hg, Hh.
  pose proof (norm_zero_zero g) as Zg. pose proof (norm_zero_zero h) as Zh.
  set (g' := norm_zero g) in *. set (h' := norm_zero h) in *. clearbody g' h'. clear g h.
  set (d := _ ++ _). intros Hlen.
  assert (forall pre x post, d = pre ++ x ++ post -> len x < 2 ^ 62) as Hx.
  { intros pre x post E. rewrite E, !len_app in Hlen. pose proof (len_nonneg pre). pose proof (len_nonneg post). lia. }
  assert (forall t x, 0 <= len x -> len x <= len (put_bytes t x)) as PB.
  { intros t x _. unfold put_bytes. destruct (Z.eqb_spec (len x) 0); [rewrite len_nil; lia|].
    rewrite len_cons, len_app. pose proof (len_nonneg (put_varint (len x))). lia. }
  assert (exists fuel, S (length d) = fuel /\ (length d < fuel)%nat) as (fuel & -> & Hfuel)
    by (eexists; split; [reflexivity|lia]).
  assert (forall m, pb_loop drec_field fuel d 0 m = pb_loop drec_field fuel ([] ++ d) (len (@nil Z)) m) as ->
    by reflexivity.
  assert (Hl' : len e < 2^62 /\ len f < 2^62 /\ len k < 2^62 /\ len l < 2^62).
  { pose proof (PB 34 e (len_nonneg e)). pose proof (PB 42 f (len_nonneg f)).
    pose proof (PB 66 k (len_nonneg k)). pose proof (PB 74 l (len_nonneg l)).
    unfold d in Hlen. rewrite !len_app in Hlen.
    repeat match goal with |- context [len ?x] => pose proof (len_nonneg x); fail | _ => idtac end.
    pose proof (len_nonneg (put_field 8 a)). pose proof (len_nonneg (put_field 16 b)).
    pose proof (len_nonneg (put_field 24 c)). pose proof (len_nonneg (put_field 80 n)).
    pose proof (len_nonneg (put_float 49 g')). pose proof (len_nonneg (put_float 57 h')).
    pose proof (len_nonneg e). pose proof (len_nonneg f). pose proof (len_nonneg k). pose proof (len_nonneg l).
    lia. }
  destruct Hl' as (Le & Lf & Lk & Ll).
  unfold d in *. clear d Hx.
  set (P1 := put_field 8 a) in *. set (P2 := put_field 16 b) in *. set (P3 := put_field 24 c) in *.
  set (P4 := put_bytes 34 e) in *. set (P5 := put_bytes 42 f) in *. set (P6 := put_float 49 g') in *.
  set (P7 := put_float 57 h') in *. set (P8 := put_bytes 66 k) in *. set (P9 := put_bytes 74 l) in *.
  set (P10 := put_field 80 n) in *.
  destruct (put_field_step drec_field 1 (DRec 0 0 0 [] [] 0 0 [] [] 0) (DRec a 0 0 [] [] 0 0 [] [] 0) a Ha
    ltac:(lia) ltac:(congruence) ltac:(vfield G) fuel []
    (P2 ++ P3 ++ P4 ++ P5 ++ P6 ++ P7 ++ P8 ++ P9 ++ P10) Hfuel) as (f1 & F1 & E1).
  change (put_field (1 * 8) a) with P1 in E1. rewrite E1. clear E1.
  destruct (put_field_step drec_field 2 (DRec a 0 0 [] [] 0 0 [] [] 0) (DRec a b 0 [] [] 0 0 [] [] 0) b Hb
    ltac:(lia) ltac:(congruence) ltac:(vfield G) f1 ([] ++ P1)
    (P3 ++ P4 ++ P5 ++ P6 ++ P7 ++ P8 ++ P9 ++ P10) F1) as (f2 & F2 & E1).
  change (put_field (2 * 8) b) with P2 in E1. rewrite E1. clear E1.
  destruct (put_field_step drec_field 3 (DRec a b 0 [] [] 0 0 [] [] 0) (DRec a b c [] [] 0 0 [] [] 0) c Hc
    ltac:(lia) ltac:(congruence) ltac:(vfield G) f2 (([] ++ P1) ++ P2)
    (P4 ++ P5 ++ P6 ++ P7 ++ P8 ++ P9 ++ P10) F2) as (f3 & F3 & E1).
  change (put_field (3 * 8) c) with P3 in E1. rewrite E1. clear E1.
  assert (Hlen' : len ((([] ++ P1) ++ P2) ++ P3 ++ P4 ++ P5 ++ P6 ++ P7 ++ P8 ++ P9 ++ P10) < 2 ^ 62)
    by (rewrite ?len_app, ?len_nil in *; lia).
  destruct (put_bytes_step drec_field 4 (DRec a b c [] [] 0 0 [] [] 0) (DRec a b c e [] 0 0 [] [] 0) e Le
    ltac:(lia) ltac:(congruence) ltac:(vfield G) f3 ((([] ++ P1) ++ P2) ++ P3)
    (P5 ++ P6 ++ P7 ++ P8 ++ P9 ++ P10)
    ltac:(change (put_bytes (4 * 8 + 2) e) with P4; rewrite ?len_app, ?len_nil in *; lia) F3) as (f4 & F4 & E1).
  change (put_bytes (4 * 8 + 2) e) with P4 in E1. rewrite E1. clear E1.
  destruct (put_bytes_step drec_field 5 (DRec a b c e [] 0 0 [] [] 0) (DRec a b c e f 0 0 [] [] 0) f Lf
    ltac:(lia) ltac:(congruence) ltac:(vfield G) f4 (((([] ++ P1) ++ P2) ++ P3) ++ P4)
    (P6 ++ P7 ++ P8 ++ P9 ++ P10)
    ltac:(change (put_bytes (5 * 8 + 2) f) with P5; rewrite ?len_app, ?len_nil in *; lia) F4) as (f5 & F5 & E1).
  change (put_bytes (5 * 8 + 2) f) with P5 in E1. rewrite E1. clear E1.
  destruct (put_float_step drec_field 6 (DRec a b c e f 0 0 [] [] 0) (DRec a b c e f g' 0 [] [] 0) g' Hg
    ltac:(lia) ltac:(intros Hz; rewrite (Zg Hz); reflexivity) ltac:(vfield G) f5
    ((((([] ++ P1) ++ P2) ++ P3) ++ P4) ++ P5) (P7 ++ P8 ++ P9 ++ P10) F5) as (f6 & F6 & E1).
  change (put_float (6 * 8 + 1) g') with P6 in E1. rewrite E1. clear E1.
  destruct (put_float_step drec_field 7 (DRec a b c e f g' 0 [] [] 0) (DRec a b c e f g' h' [] [] 0) h' Hh
    ltac:(lia) ltac:(intros Hz; rewrite (Zh Hz); reflexivity) ltac:(vfield G) f6
    (((((([] ++ P1) ++ P2) ++ P3) ++ P4) ++ P5) ++ P6) (P8 ++ P9 ++ P10) F6) as (f7 & F7 & E1).
  change (put_float (7 * 8 + 1) h') with P7 in E1. rewrite E1. clear E1.
  destruct (put_bytes_step drec_field 8 (DRec a b c e f g' h' [] [] 0) (DRec a b c e f g' h' k [] 0) k Lk
    ltac:(lia) ltac:(congruence) ltac:(vfield G) f7
    ((((((([] ++ P1) ++ P2) ++ P3) ++ P4) ++ P5) ++ P6) ++ P7) (P9 ++ P10)
    ltac:(change (put_bytes (8 * 8 + 2) k) with P8; rewrite ?len_app, ?len_nil in *; lia) F7) as (f8 & F8 & E1).
  change (put_bytes (8 * 8 + 2) k) with P8 in E1. rewrite E1. clear E1.
  destruct (put_bytes_step drec_field 9 (DRec a b c e f g' h' k [] 0) (DRec a b c e f g' h' k l 0) l Ll
    ltac:(lia) ltac:(congruence) ltac:(vfield G) f8
    (((((((([] ++ P1) ++ P2) ++ P3) ++ P4) ++ P5) ++ P6) ++ P7) ++ P8) P10
    ltac:(change (put_bytes (9 * 8 + 2) l) with P9; rewrite ?len_app, ?len_nil in *; lia) F8) as (f9 & F9 & E1).
  change (put_bytes (9 * 8 + 2) l) with P9 in E1. rewrite E1. clear E1.
  destruct (put_field_step drec_field 10 (DRec a b c e f g' h' k l 0) (DRec a b c e f g' h' k l n) n Hn
    ltac:(lia) ltac:(congruence) ltac:(vfield G) f9
    ((((((((([] ++ P1) ++ P2) ++ P3) ++ P4) ++ P5) ++ P6) ++ P7) ++ P8) ++ P9) []
    ltac:(rewrite app_nil_r; exact F9)) as (f10 & F10 & E1).
  change (put_field (10 * 8) n) with P10 in E1. rewrite !app_nil_r in E1. rewrite E1. clear E1.
  apply pb_done.
Qed.

Lemma drec_size_len m : 0 <= d_min m < 2^64 -> 0 <= d_max m < 2^64 ->
  len (d_dist m) < 2^62 -> len (d_kind m) < 2^62 -> len (d_minid m) < 2^62 -> len (d_maxid m) < 2^62 ->
  drec_size m = len (drec_marshal m).
Proof.
  intros _ _ H1 H2 H3 H4. unfold drec_size, drec_marshal. rewrite !len_app, !put_field_size.
  assert (forall t l, len l < 2^62 -> len (put_bytes t l) = (if 0 <? len l then 1 + len l + sov (len l) else 0)) as PB.
  { intros t l Hl. unfold put_bytes. pose proof (len_nonneg l).
    destruct (Z.eqb_spec (len l) 0) as [e|e]; destruct (Z.ltb_spec 0 (len l)); try lia; try reflexivity.
    rewrite len_cons, len_app, sov_put by lia. lia. }
  assert (forall t v, len (put_float t v) = if fbits_zero v then 0 else 9) as PF.
  { intros. unfold put_float. destruct (fbits_zero v); [reflexivity|].
    rewrite len_cons. unfold len. rewrite le8_length. reflexivity. }
  rewrite !PB, !PF by assumption. lia.
Qed.
