(** Safety of the generated decoders on arbitrary bytes (property C08). *)
From Coq Require Import ZArith List Lia Bool.
From Verif Require Import Base Pb Meta PbRecord.
Import ListNotations.
Open Scope Z_scope.

(** among any 8 consecutive bytes one is below 128 (positions past the end
    count as 0) *)
Definition short_varints (d : list Z) : Prop :=
  forall i, 0 <= i -> exists k, 0 <= k < 8 /\ at_ (i + k) d < 128.

Lemma nth_skipn_ {A} (k n : nat) (l : list A) d : nth k (skipn n l) d = nth (n + k) l d.
Proof. revert l; induction n; intros [|h t]; cbn; auto. now destruct k. Qed.

Lemma at_skipn n d i : 0 <= n -> 0 <= i -> at_ i (skipn (Z.to_nat n) d) = at_ (n + i) d.
Proof.
  intros. unfold at_. rewrite nth_skipn_. f_equal. lia.
Qed.

Lemma short_skipn n d : 0 <= n -> short_varints d -> short_varints (skipn (Z.to_nat n) d).
Proof.
  intros Hn H i Hi. destruct (H (n + i) ltac:(lia)) as (k & Hk & Hlt).
  exists k. split; [lia|]. rewrite at_skipn by lia. now replace (n + (i + k)) with (n + i + k) by lia.
Qed.

Lemma len_skipn n (d : list Z) : 0 <= n <= len d -> len (skipn (Z.to_nat n) d) = len d - n.
Proof. intros. unfold len in *. rewrite skipn_length. lia. Qed.

Lemma lor_bound a b n : 0 <= n -> 0 <= a < 2 ^ n -> 0 <= b < 2 ^ n -> 0 <= Z.lor a b < 2 ^ n.
Proof.
  intros Hn Ha Hb. split; [apply Z.lor_nonneg; lia|].
  destruct (Z.eq_dec (Z.lor a b) 0) as [->|Hz]; [apply Z.pow_pos_nonneg; lia|].
  assert (0 <= Z.lor a b) by (apply Z.lor_nonneg; lia).
  apply Z.log2_lt_pow2; [lia|]. rewrite Z.log2_lor by lia.
  apply Z.max_lub_lt.
  - destruct (Z.eq_dec a 0) as [->|]; [|apply Z.log2_lt_pow2; lia].
    destruct (Z.eq_dec n 0) as [->|]; [|cbn; lia].
    cbn in *. assert (b = 0) by lia. subst. now cbn in Hz.
  - destruct (Z.eq_dec b 0) as [->|]; [|apply Z.log2_lt_pow2; lia].
    destruct (Z.eq_dec n 0) as [->|]; [|cbn; lia].
    cbn in *. assert (a = 0) by lia. subst. now cbn in Hz.
Qed.

Lemma land127 b : 0 <= Z.land b 127 < 128.
Proof. change 127 with (Z.ones 7). rewrite Z.land_ones by lia. apply Z.mod_pos_bound. lia. Qed.

Lemma get_varint_safe : forall r shift acc d i, 0 <= i ->
  match get_varint_ r shift acc d i with
  | Ok (v, j) => i < j <= len d /\ j <= i + Z.of_nat r
  | Err => True
  | _ => False
  end.
Proof.
  induction r as [|r IH]; intros shift acc d i Hi; cbn [get_varint_]; auto.
  destruct (Z.leb_spec (len d) i); auto. destruct (Z.ltb_spec i 0); [lia|].
  destruct (_ <? 128); [lia|].
  match goal with |- context [get_varint_ r ?s ?a d ?x] => specialize (IH s a d x ltac:(lia)) end.
  destruct (get_varint_ _ _ _ _ _) as [[v j]| | |]; auto. lia.
Qed.

Lemma get_varint_range : forall r shift acc d i, 0 <= shift -> 0 <= acc < 2 ^ 64 ->
  match get_varint_ r shift acc d i with
  | Ok (v, j) => 0 <= v < 2 ^ 64
  | _ => True
  end.
Proof.
  induction r as [|r IH]; intros shift acc d i Hs Ha; cbn [get_varint_]; auto.
  destruct (_ <=? _); auto. destruct (_ <? 0); auto.
  assert (0 <= Z.lor acc (u64 (Z.land (at_ i d) 127 * 2 ^ shift)) < 2 ^ 64) as B
    by (apply lor_bound; [lia|lia|apply u64_range]).
  destruct (_ <? 128); [exact B|]. apply IH; [lia|exact B].
Qed.

Lemma get_varint_small : forall n r shift acc d i, 0 <= shift -> 0 <= acc < 2 ^ shift ->
  (exists k, 0 <= k < Z.of_nat n /\ at_ (i + k) d < 128) ->
  match get_varint_ r shift acc d i with
  | Ok (v, j) => v < 2 ^ (shift + 7 * Z.of_nat n)
  | _ => True
  end.
Proof.
  induction n as [|n IH]; intros r shift acc d i Hs Ha (k & Hk & Hlt); [lia|].
  destruct r as [|r]; cbn [get_varint_]; auto.
  destruct (_ <=? _); auto. destruct (_ <? 0); auto.
  assert (0 <= Z.lor acc (u64 (Z.land (at_ i d) 127 * 2 ^ shift)) < 2 ^ (shift + 7)) as B.
  { apply lor_bound; [lia| |].
    - split; [lia|]. eapply Z.lt_le_trans; [apply Ha|]. apply Z.pow_le_mono_r; lia.
    - unfold u64. pose proof (land127 (at_ i d)). rewrite Z.pow_add_r by lia.
      pose proof (Z.pow_pos_nonneg 2 shift ltac:(lia) Hs).
      set (x := Z.land (at_ i d) 127 * 2 ^ shift).
      assert (0 <= x < 2 ^ shift * 2 ^ 7) by (unfold x; change (2^7) with 128; nia).
      split; [apply Z.mod_pos_bound; lia|].
      eapply Z.le_lt_trans; [apply Z.mod_le; lia|lia]. }
  destruct (Z.ltb_spec (at_ i d) 128).
  - eapply Z.lt_le_trans; [apply B|]. apply Z.pow_le_mono_r; lia.
  - assert (k <> 0) by (intros ->; rewrite Z.add_0_r in Hlt; lia).
    specialize (IH r (shift + 7) _ d (i + 1) ltac:(lia) B).
    match type of IH with ?A -> _ => assert A as HA end.
    { exists (k - 1). split; [lia|]. now replace (i + 1 + (k - 1)) with (i + k) by lia. }
    specialize (IH HA). destruct (get_varint_ _ _ _ _ _) as [[v j]| | |]; auto.
    now replace (shift + 7 * Z.of_nat (S n)) with (shift + 7 + 7 * Z.of_nat n) by lia.
Qed.

Lemma get_varint_spec d i : 0 <= i ->
  match get_varint d i with
  | Ok (v, j) => i < j <= len d /\ j <= i + 10 /\ 0 <= v < 2 ^ 64 /\
                 (short_varints d -> v < 2 ^ 56)
  | Err => True
  | _ => False
  end.
Proof.
  intros Hi. unfold get_varint.
  pose proof (get_varint_safe 10 0 0 d i Hi) as A.
  pose proof (get_varint_range 10 0 0 d i ltac:(lia) ltac:(lia)) as B.
  pose proof (get_varint_small 8 10 0 0 d i ltac:(lia) ltac:(lia)) as C.
  destruct (get_varint_ _ _ _ _ _) as [[v j]| | |]; auto.
  split; [lia|]. split; [lia|]. split; [exact B|]. intros H. apply C, H. exact Hi.
Qed.

Lemma i64_range x : is_i64 (i64 x).
Proof. unfold is_i64, i64. pose proof (Z.mod_pos_bound (x + 2^63) (2^64) ltac:(lia)). lia. Qed.

(** [skip] and its group loop: never diverge; an answer is at least 1 unless it
    wrapped below 0; no panic and no wrap when the varints are short *)
Lemma skip_safe : forall fuel,
  (forall d, 0 < len d < 2 ^ 62 -> 2 * len d + 1 <= Z.of_nat fuel ->
    match skip_ fuel d with
    | Ok n => (1 <= n \/ n < - 2 ^ 62) /\ is_i64 n /\ (short_varints d -> 1 <= n < 2 ^ 62 + len d)
    | Err => True | Panic => ~ short_varints d | Diverge => False
    end) /\
  (forall d i, 0 < len d < 2 ^ 62 -> 1 <= i -> 2 * (len d - i) + 2 <= Z.of_nat fuel -> 1 <= Z.of_nat fuel ->
    match group_ fuel d i with
    | Ok n => (1 <= n <= len d) /\ is_i64 n
    | Err => True | Panic => ~ short_varints d | Diverge => False
    end).
Proof.
  induction fuel as [|f [IHs IHg]]; split.
  - intros d Hd Hf. lia.
  - intros d i Hd Hi Hf Hf'. lia.
  - intros d Hd Hf. cbn [skip_]. destruct (Z.leb_spec (len d) 0); [lia|].
    pose proof (get_varint_spec d 0 ltac:(lia)) as G.
    destruct (get_varint d 0) as [[w i]| | |]; cbn [bind]; [|exact I|tauto|tauto].
    destruct G as (G1 & G2 & G3 & G4).
    destruct (w mod 8 =? 0).
    { pose proof (get_varint_spec d i ltac:(lia)) as G.
      destruct (get_varint d i) as [[v j]| | |]; cbn [bind snd]; [|exact I|tauto|tauto].
      unfold is_i64. lia. }
    destruct (w mod 8 =? 1).
    { rewrite i64_id by (unfold is_i64; lia). unfold is_i64. lia. }
    destruct (w mod 8 =? 2).
    { pose proof (get_varint_spec d i ltac:(lia)) as G.
      destruct (get_varint d i) as [[v j]| | |]; cbn [bind]; [|exact I|tauto|tauto].
      destruct (Z.ltb_spec (i64 v) 0); auto.
      pose proof (i64_range v) as Rv. unfold is_i64 in Rv.
      split; [|split; [apply i64_range|]].
      - unfold i64 at 1 3. destruct (Z_lt_ge_dec (j + i64 v) (2^63)).
        + rewrite !Z.mod_small by lia. lia.
        + right. replace (j + i64 v + 2^63) with (j + i64 v - 2^63 + 1 * 2^64) by lia.
          rewrite Z.mod_add by lia. rewrite Z.mod_small by lia. lia.
      - intros Hsh. destruct G as (G5 & G6 & G7 & G8). specialize (G8 Hsh).
        assert (2^56 < 2^62) by (cbv; reflexivity).
        rewrite (i64_id v) in * by (unfold is_i64; lia).
        rewrite i64_id by (unfold is_i64; lia). lia. }
    destruct (w mod 8 =? 3).
    { specialize (IHg d i Hd ltac:(lia) ltac:(lia) ltac:(lia)).
      destruct (group_ f d i); auto. split; [lia|]. split; [tauto|]. lia. }
    destruct (w mod 8 =? 4). { unfold is_i64. lia. }
    destruct (w mod 8 =? 5).
    { rewrite i64_id by (unfold is_i64; lia). unfold is_i64. lia. }
    exact I.
  - intros d i Hd Hi Hf Hf'. cbn [group_].
    pose proof (get_varint_spec d i ltac:(lia)) as G.
    destruct (get_varint d i) as [[w j]| | |]; cbn [bind]; [|exact I|tauto|tauto].
    destruct G as (G1 & G2 & G3 & G4).
    destruct (w mod 8 =? 4). { unfold is_i64. lia. }
    assert (Hl : len (skipn (Z.to_nat i) d) = len d - i) by (apply len_skipn; lia).
    specialize (IHs (skipn (Z.to_nat i) d) ltac:(lia) ltac:(lia)).
    destruct (skip_ f (skipn (Z.to_nat i) d)) as [n| | |]; cbn [bind]; auto.
    2:{ intros Hsh. apply IHs. now apply short_skipn; [lia|]. }
    destruct IHs as (H1 & H2 & H3). unfold is_i64 in H2.
    destruct (Z_lt_ge_dec n 0) as [Hneg|Hpos].
    + (* wrapped: the next read panics *)
      assert (~ short_varints d) as Hns.
      { intros Hsh. specialize (H3 (short_skipn i d ltac:(lia) Hsh)). lia. }
      rewrite i64_id by (unfold is_i64; lia).
      destruct f as [|f]; [lia|]. cbn [group_]. unfold get_varint. cbn [get_varint_].
      destruct (Z.leb_spec (len d) (i + n)); [lia|].
      destruct (Z.ltb_spec (i + n) 0); [cbn [bind]; exact Hns|lia].
    + destruct (Z_lt_ge_dec (i + n) (2 ^ 63)) as [Hlt|Hge].
      * rewrite i64_id by (unfold is_i64; lia).
        apply IHg; auto; try lia.
      * assert (~ short_varints d) as Hns.
        { intros Hsh. specialize (H3 (short_skipn i d ltac:(lia) Hsh)). lia. }
        unfold i64. replace (i + n + 2^63) with (i + n - 2^63 + 1 * 2^64) by lia.
        rewrite Z.mod_add by lia. rewrite Z.mod_small by lia.
        destruct f as [|f]; [lia|]. cbn [group_]. unfold get_varint. cbn [get_varint_].
        destruct (Z.leb_spec (len d) (i + n - 2^63 - 2^63)); [lia|].
        destruct (Z.ltb_spec (i + n - 2^63 - 2^63) 0); [cbn [bind]; exact Hns|lia].
Qed.

(** what the field switch must satisfy *)
Definition field_safe {M} (field : Z -> Z -> list Z -> Z -> M -> option (res (M * Z))) : Prop :=
  forall num wt d i m, 0 <= i <= len d -> len d < 2 ^ 62 ->
    match field num wt d i m with
    | None | Some Err => True
    | Some (Ok (_, j)) => i <= j <= len d
    | Some Panic => ~ short_varints d
    | Some Diverge => False
    end.

Lemma pb_loop_safe {M} (field : Z -> Z -> list Z -> Z -> M -> option (res (M * Z))) :
  field_safe field ->
  forall fuel d i m, 0 <= i -> len d < 2 ^ 62 -> len d - i + 1 <= Z.of_nat fuel ->
    match pb_loop field fuel d i m with
    | Diverge => False
    | Panic => ~ short_varints d
    | _ => True
    end.
Proof.
  intros HF. induction fuel as [|f IH]; intros d i m Hi Hl Hf; cbn [pb_loop];
    destruct (Z.leb_spec (len d) i).
  - destruct (_ <? _); exact I.
  - lia.
  - destruct (_ <? _); exact I.
  - pose proof (get_varint_spec d i ltac:(lia)) as G.
    destruct (get_varint d i) as [[w j]| | |]; cbn [bind]; [|exact I|tauto|tauto].
    destruct G as (G1 & G2 & G3 & G4).
    destruct (_ =? 4); auto. destruct (_ <=? 0); auto.
    match goal with |- context [field ?a ?b d j m] =>
      pose proof (HF a b d j m ltac:(lia) Hl) as F; destruct (field a b d j m) as [r|] end.
    + destruct r as [[m' k]| | |]; cbn [bind fst snd]; auto.
      apply IH; lia.
    + assert (Hln : len (skipn (Z.to_nat i) d) = len d - i) by (apply len_skipn; lia).
      pose proof (proj1 (skip_safe (2 * length (skipn (Z.to_nat i) d) + 3))
                    (skipn (Z.to_nat i) d) ltac:(lia) ltac:(unfold len; lia)) as S.
      unfold skip. destruct (skip_ _ _) as [n| | |]; cbn [bind]; auto.
      2:{ intros Hsh. apply S. now apply short_skipn; [lia|]. }
      destruct S as (S1 & S2 & S3). unfold is_i64 in S2.
      destruct (Z.ltb_spec n 0); auto.
      destruct (Z_lt_ge_dec (i + n) (2 ^ 63)) as [Hlt|Hge].
      * rewrite i64_id by (unfold is_i64; lia).
        destruct (_ <? _); auto. apply IH; lia.
      * assert (~ short_varints d) as Hns.
        { intros Hsh. specialize (S3 (short_skipn i d ltac:(lia) Hsh)). lia. }
        unfold i64. replace (i + n + 2^63) with (i + n - 2^63 + 1 * 2^64) by lia.
        rewrite Z.mod_add by lia. rewrite Z.mod_small by lia.
        destruct (_ <? _); auto. 
        assert (i + n - 2^63 - 2^63 < 0) as Hn0 by lia.
        destruct f as [|f]; cbn [pb_loop];
          (destruct (Z.leb_spec (len d) (i + n - 2^63 - 2^63)); [lia|]).
        -- lia.
        -- unfold get_varint. cbn [get_varint_].
           destruct (Z.leb_spec (len d) (i + n - 2^63 - 2^63)); [lia|].
           destruct (Z.ltb_spec (i + n - 2^63 - 2^63) 0); [cbn [bind]; exact Hns|lia].
Qed.

Lemma meta_field_safe : field_safe meta_field.
Proof.
  intros num wt d i m Hi Hl. destruct m as [a b c e f]. unfold meta_field.
  pose proof (get_varint_spec d i ltac:(lia)) as G.
  repeat match goal with |- context [if ?x =? ?y then _ else _] => destruct (x =? y) end; auto;
    destruct (negb _); auto;
    destruct (get_varint d i) as [[v j]| | |]; cbn [bind fst snd]; auto; lia.
Qed.

Lemma get_bytes_safe d i : 0 <= i <= len d -> len d < 2 ^ 62 ->
  match get_bytes d i with
  | Ok (_, j) => i <= j <= len d
  | Err => True | Panic => ~ short_varints d | Diverge => False
  end.
Proof.
  intros Hi Hl. unfold get_bytes. pose proof (get_varint_spec d i ltac:(lia)) as G.
  destruct (get_varint d i) as [[v j]| | |]; cbn [bind]; [|exact I|tauto|tauto].
  destruct G as (G1 & G2 & G3 & G4). pose proof (i64_range v) as R. unfold is_i64 in R.
  destruct (Z.ltb_spec (i64 v) 0); auto.
  destruct (Z.ltb_spec (len d) (i64 (j + i64 v))); auto.
  destruct (Z.ltb_spec (i64 (j + i64 v)) j); [|lia].
  intros Hsh. specialize (G4 Hsh).
  rewrite (i64_id v) in * by (unfold is_i64; lia).
  rewrite i64_id in * by (unfold is_i64; lia). lia.
Qed.

Lemma drec_field_safe : field_safe drec_field.
Proof.
  intros num wt d i m Hi Hl. destruct m. unfold drec_field.
  pose proof (get_varint_spec d i ltac:(lia)) as G.
  pose proof (get_bytes_safe d i Hi Hl) as B.
  repeat match goal with |- context [if ?x =? ?y then _ else _] => destruct (x =? y) end; auto;
    destruct (negb _); auto;
    solve [ destruct (get_varint d i) as [[v j]| | |]; cbn [bind fst snd]; auto; lia
          | destruct (get_bytes d i) as [[v j]| | |]; cbn [bind fst snd]; auto; lia
          | unfold get_fixed64; destruct (Z.ltb_spec (len d) (i + 8)); cbn [bind fst snd]; auto; lia ].
Qed.

Lemma meta_unmarshal_safe d : len d < 2 ^ 62 ->
  meta_unmarshal d <> Diverge /\ (short_varints d -> meta_unmarshal d <> Panic).
Proof.
  intros H. pose proof (pb_loop_safe meta_field meta_field_safe (S (length d)) d 0 meta_zero
    ltac:(lia) H ltac:(unfold len; lia)) as P.
  unfold meta_unmarshal, pb_unmarshal. destruct (pb_loop _ _ _ _ _); split; try tauto; congruence.
Qed.

Lemma drec_unmarshal_safe d : len d < 2 ^ 62 ->
  drec_unmarshal d <> Diverge /\ (short_varints d -> drec_unmarshal d <> Panic).
Proof.
  intros H. pose proof (pb_loop_safe drec_field drec_field_safe (S (length d)) d 0 drec_zero
    ltac:(lia) H ltac:(unfold len; lia)) as P.
  unfold drec_unmarshal, pb_unmarshal. destruct (pb_loop _ _ _ _ _); split; try tauto; congruence.
Qed.
