(** Proofs about the texts of numbers (C82). *)
From Coq Require Import ZArith Reals List Bool Lia Lra.
From Coq Require Import Floats.SpecFloat.
From Flocq Require Import Core.Core IEEE754.BinarySingleNaN.
From Verif Require Import Base Merge Format FormatSpec.
Import ListNotations.
Open Scope Z_scope.

(** * numbers as lists of digits *)
Definition num (l : list Z) : Z := fold_left (fun n d => 10 * n + d) l 0.
Definition dig (d : Z) : Prop := 0 <= d <= 9.
Lemma num_acc l : forall n, fold_left (fun n d => 10 * n + d) l n = n * 10 ^ len l + num l.
Proof.
  unfold num. induction l as [|d l IH]; intros n; cbn [fold_left].
  - change (len (@nil Z)) with 0. lia.
  - rewrite (IH (10 * n + d)), (IH (10 * 0 + d)). replace (len (d :: l)) with (len l + 1) by (unfold len; cbn [length]; lia).
    rewrite Z.pow_add_r by (unfold len; lia). ring.
Qed.
Lemma num_app a b : num (a ++ b) = num a * 10 ^ len b + num b.
Proof. unfold num at 1. rewrite fold_left_app. apply num_acc. Qed.
Lemma num_cons d l : num (d :: l) = d * 10 ^ len l + num l.
Proof. unfold num at 1. cbn [fold_left]. rewrite num_acc. f_equal. Qed.
Lemma len_app_ {A} (a b : list A) : Z.of_nat (length (a ++ b)) = Z.of_nat (length a) + Z.of_nat (length b).
Proof. rewrite app_length. lia. Qed.
Lemma pow_pos_ k : 0 <= k -> 0 < 10 ^ k.
Proof. intros. apply Z.pow_pos_nonneg; lia. Qed.
Lemma num_bound l : Forall dig l -> 0 <= num l < 10 ^ len l.
Proof.
  induction 1 as [|d l Hd F IH].
  - cbn. lia.
  - rewrite num_cons. replace (len (d :: l)) with (len l + 1) by (unfold len; cbn [length]; lia). rewrite Z.pow_add_r by (unfold len; lia).
    unfold dig in Hd. nia.
Qed.
Lemma num_zeros k : num (repeat 0 k) = 0.
Proof. induction k as [|k IH]; [reflexivity|]. cbn [repeat]. rewrite num_cons, IH. lia. Qed.
Lemma dig_zeros k : Forall dig (repeat 0 k).
Proof. induction k; cbn; constructor; [unfold dig; lia|assumption]. Qed.

Lemma digits_acc fuel : forall n acc, digits_ fuel n acc = digits_ fuel n [] ++ acc.
Proof.
  induction fuel as [|fuel IH]; intros n acc; [reflexivity|]. cbn [digits_]. destruct (n <=? 0); [reflexivity|].
  rewrite (IH (n / 10) (n mod 10 :: acc)), (IH (n / 10) [n mod 10]), <- app_assoc. reflexivity.
Qed.
Lemma digits_spec fuel : forall n, 0 <= n < 2 ^ Z.of_nat fuel ->
  num (digits_ fuel n []) = n /\ Forall dig (digits_ fuel n []) /\ (0 < n -> hd 0 (digits_ fuel n []) <> 0).
Proof.
  induction fuel as [|fuel IH]; intros n Hn.
  - cbn in Hn. assert (n = 0) by lia. subst. cbn. repeat split; [constructor|lia].
  - cbn [digits_]. destruct (Z.leb_spec n 0) as [L|L].
    + assert (n = 0) by lia. subst. repeat split; [constructor|lia].
    + rewrite digits_acc. assert (D : n = 10 * (n / 10) + n mod 10) by (apply Z.div_mod; lia). assert (M : 0 <= n mod 10 < 10) by (apply Z.mod_pos_bound; lia).
      destruct (IH (n / 10)) as (A & B & C).
      { split; [apply Z.div_pos; lia|]. apply Z.div_lt_upper_bound; [lia|]. replace (Z.of_nat (S fuel)) with (Z.of_nat fuel + 1) in Hn by lia. rewrite Z.pow_add_r in Hn by lia. lia. }
      rewrite num_app, A. change (len [n mod 10]) with 1. change (num [n mod 10]) with (n mod 10). split; [lia|]. split.
      * apply Forall_app. split; [exact B|]. constructor; [unfold dig; lia|constructor].
      * intros _. destruct (Z.eq_dec (n / 10) 0) as [Z0|Z0].
        { rewrite Z0. destruct fuel; cbn [digits_ app]; [cbn; lia|]. cbn. lia. }
        assert (P : 0 < n / 10) by (assert (0 <= n / 10) by (apply Z.div_pos; lia); lia). specialize (C P).
        destruct (digits_ fuel (n / 10) []) as [|d l]; [now cbn in A; lia|exact C].
Qed.
Lemma digits_ok n : 0 < n -> num (digits n) = n /\ Forall dig (digits n) /\ hd 0 (digits n) <> 0.
Proof.
  intros Hn. unfold digits. destruct (digits_spec (Z.to_nat (Z.log2 n + 1)) n) as (A & B & C).
  - pose proof (Z.log2_spec n Hn) as L. pose proof (Z.log2_nonneg n). rewrite Z2Nat.id by lia. unfold Z.succ in L. lia.
  - auto.
Qed.

(** * decimals *)
Definition dval (a : decimal) : R := (IZR (num (dc_d a)) * bpow ten (dc_dp a - len (dc_d a)))%R.
Record good (a : decimal) : Prop := { gd_dig : Forall dig (dc_d a); gd_hd : dc_d a <> [] -> hd 0 (dc_d a) <> 0; gd_last : dc_d a <> [] -> last (dc_d a) 0 <> 0; gd_zero : dc_d a = [] -> dc_dp a = 0 }.
Lemma bpow_Z k : 0 <= k -> bpow ten k = IZR (10 ^ k).
Proof. intros. rewrite <- IZR_Zpower by assumption. reflexivity. Qed.
Lemma trim_zeros_spec l : exists k, l = trim_zeros l ++ repeat 0 k.
Proof.
  induction l as [|d l [k IH]]; [now exists 0%nat|]. cbn [trim_zeros]. destruct (trim_zeros l) as [|x r] eqn:E.
  - destruct (Z.eqb_spec d 0) as [D|D]; [exists (S k); subst d; rewrite IH at 1; reflexivity|exists k; rewrite IH at 1; reflexivity].
  - exists k. rewrite IH at 1. reflexivity.
Qed.
Lemma trim_zeros_last l : trim_zeros l <> [] -> last (trim_zeros l) 0 <> 0.
Proof.
  induction l as [|d l IH]; [easy|]. cbn [trim_zeros]. destruct (trim_zeros l) as [|x r] eqn:E.
  - destruct (Z.eqb_spec d 0); [easy|cbn; auto].
  - intros _. change (last (d :: x :: r) 0) with (last (x :: r) 0). apply IH. discriminate.
Qed.
Lemma dval_zeros l k dp : dval (Decimal (l ++ repeat 0 k) dp) = dval (Decimal l dp).
Proof.
  unfold dval. cbn [dc_d dc_dp]. rewrite num_app, num_zeros, Z.add_0_r.
  unfold len. rewrite len_app_, repeat_length. rewrite mult_IZR. rewrite <- bpow_Z by lia.
  rewrite Rmult_assoc, <- bpow_plus. f_equal. f_equal. lia.
Qed.
Lemma trim_ok l dp : Forall dig l -> (l <> [] -> hd 0 l <> 0) -> good (trim (Decimal l dp)) /\ dval (trim (Decimal l dp)) = dval (Decimal l dp) /\ (length (dc_d (trim (Decimal l dp))) <= length l)%nat /\
  (l <> [] -> dc_d (trim (Decimal l dp)) <> [] /\ dc_dp (trim (Decimal l dp)) = dp).
Proof.
  intros F Hh. destruct (trim_zeros_spec l) as [k E]. unfold trim. cbn [dc_d dc_dp]. pose proof (trim_zeros_last l) as La.
  destruct (trim_zeros l) as [|x r] eqn:T.
  - assert (L : l = []). { destruct l as [|y l]; [reflexivity|]. exfalso. apply Hh; [discriminate|]. rewrite E. destruct k; [discriminate|]. reflexivity. }
    clear E Hh La F. subst l. split; [constructor; cbn; try easy; constructor|]. split; [unfold dval; cbn [dc_d]; change (num []) with 0; ring|]. split; [cbn; lia|]. intros N. now destruct N.
  - clear T. assert (F' : Forall dig (x :: r)) by (rewrite E in F; now apply Forall_app in F).
    rewrite E in Hh. split; [constructor; cbn [dc_d dc_dp]|split; [|split]].
    + exact F'.
    + intros _. apply Hh. discriminate.
    + exact La.
    + discriminate.
    + rewrite E. symmetry. apply dval_zeros.
    + rewrite E. rewrite app_length. cbn [dc_d]. lia.
    + intros _. split; [discriminate|reflexivity].
Qed.
Lemma assign_ok m e : 0 < m -> good (assign m e) /\ dc_d (assign m e) <> [] /\ dval (assign m e) = (IZR m * bpow radix2 e)%R.
Proof.
  intros Hm. unfold assign.
  assert (K : forall n dp, 0 < n -> good (trim (Decimal (digits n) dp)) /\ dc_d (trim (Decimal (digits n) dp)) <> [] /\ dval (trim (Decimal (digits n) dp)) = (IZR n * bpow ten (dp - len (digits n)))%R).
  { intros n dp Hn. destruct (digits_ok n Hn) as (A & B & C). destruct (trim_ok (digits n) dp B (fun _ => C)) as (G & V & _ & N).
    assert (Ne : digits n <> []) by (intros E; rewrite E in C; now apply C). split; [exact G|]. split; [apply N, Ne|]. rewrite V. unfold dval. cbn [dc_d dc_dp]. now rewrite A. }
  destruct (Z.ltb_spec e 0) as [L|L].
  - assert (P : 0 < 5 ^ (- e)) by (apply Z.pow_pos_nonneg; lia). destruct (K (m * 5 ^ (- e)) (len (digits (m * 5 ^ (- e))) + e)) as (A & B & C); [apply Z.mul_pos_pos; assumption|].
    split; [exact A|]. split; [exact B|]. rewrite C. replace (len (digits (m * 5 ^ - e)) + e - len (digits (m * 5 ^ - e))) with e by lia.
    rewrite mult_IZR, Rmult_assoc. f_equal.
    replace (bpow ten e) with (/ IZR (10 ^ (- e)))%R by (rewrite <- bpow_Z by lia; rewrite <- bpow_opp; f_equal; lia).
    replace (bpow radix2 e) with (/ IZR (2 ^ (- e)))%R by (change 2 with (radix_val radix2); rewrite IZR_Zpower by lia; rewrite <- bpow_opp; f_equal; lia).
    change 10 with (5 * 2). rewrite Z.pow_mul_l, mult_IZR. field. assert (0 < 2 ^ (- e)) by (apply Z.pow_pos_nonneg; lia). split; apply IZR_neq; lia.
  - assert (P : 0 < 2 ^ e) by (apply Z.pow_pos_nonneg; lia). destruct (K (m * 2 ^ e) (len (digits (m * 2 ^ e)))) as (A & B & C); [apply Z.mul_pos_pos; assumption|].
    split; [exact A|]. split; [exact B|]. rewrite C, Z.sub_diag. cbn [bpow]. rewrite Rmult_1_r, mult_IZR. f_equal. rewrite <- IZR_Zpower by lia. reflexivity.
Qed.

(** * rounding *)
(** rounding N / K to the nearest integer, half to even *)
Lemma nearest_Z N K : 0 < K -> 0 <= N -> let q := N / K in let r := N mod K in
  ZnearestE (IZR N / IZR K) = if (K <? 2 * r) || ((K =? 2 * r) && negb (Z.even q)) then q + 1 else q.
Proof.
  intros HK HN q r. assert (D : N = K * q + r) by (apply Z.div_mod; lia). assert (M : 0 <= r < K) by (apply Z.mod_pos_bound; lia).
  assert (HK' : (0 < IZR K)%R) by (apply IZR_lt; lia).
  assert (Fl : Zfloor (IZR N / IZR K) = q).
  { apply Zfloor_imp. rewrite D, plus_IZR, mult_IZR, plus_IZR. split.
    - apply Rmult_le_reg_r with (IZR K); [exact HK'|]. field_simplify; [|lra]. assert (0 <= IZR r)%R by (apply IZR_le; lia). lra.
    - apply Rmult_lt_reg_r with (IZR K); [exact HK'|]. field_simplify; [|lra]. assert (IZR r < IZR K)%R by (apply IZR_lt; lia). lra. }
  unfold Znearest. rewrite Fl.
  assert (Ce : r <> 0 -> Zceil (IZR N / IZR K) = q + 1).
  { intros Hr. rewrite Zceil_floor_neq; [now rewrite Fl|]. rewrite Fl. intros E. apply (f_equal (fun x => x * IZR K)%R) in E. unfold Rdiv in E. rewrite Rmult_assoc, Rinv_l, Rmult_1_r in E by lra.
    rewrite <- mult_IZR in E. apply eq_IZR in E. nia. }
  assert (Fr : (IZR N / IZR K - IZR q = IZR r / IZR K)%R) by (rewrite D, plus_IZR, mult_IZR; field; lra).
  rewrite Fr. assert (HC : Rcompare (IZR r / IZR K) (/ 2) = Z.compare (2 * r) K).
  { destruct (Z.compare_spec (2 * r) K) as [C|C|C].
    - apply Rcompare_Eq. apply Rmult_eq_reg_r with (2 * IZR K)%R; [|lra]. field_simplify; [|lra]. rewrite <- mult_IZR. now rewrite C.
    - apply Rcompare_Lt. apply Rmult_lt_reg_r with (2 * IZR K)%R; [lra|]. field_simplify; [|lra]. rewrite <- mult_IZR. now apply IZR_lt.
    - apply Rcompare_Gt. apply Rmult_lt_reg_r with (2 * IZR K)%R; [lra|]. field_simplify; [|lra]. rewrite <- mult_IZR. now apply IZR_lt. }
  rewrite HC. destruct (Z.compare_spec (2 * r) K) as [C|C|C].
  - replace (K <? 2 * r) with false by lia. replace (K =? 2 * r) with true by lia. cbn [orb andb]. destruct (negb (Z.even q)); [apply Ce; lia|reflexivity].
  - replace (K <? 2 * r) with false by lia. replace (K =? 2 * r) with false by lia. reflexivity.
  - replace (K <? 2 * r) with true by lia. cbn [orb]. apply Ce. lia.
Qed.
Lemma last_split (l : list Z) : l <> [] -> l = removelast l ++ [last l 0].
Proof. apply app_removelast_last. Qed.
Lemma num_even l : num l mod 2 = last l 0 mod 2.
Proof.
  destruct l as [|x l]; [reflexivity|]. rewrite (last_split (x :: l)) at 1 by discriminate. rewrite num_app. change (len [last (x :: l) 0]) with 1. change (num [last (x :: l) 0]) with (last (x :: l) 0).
  replace (num (removelast (x :: l)) * 10 ^ 1 + last (x :: l) 0) with (last (x :: l) 0 + (num (removelast (x :: l)) * 5) * 2) by ring. now rewrite Z.mod_add by lia.
Qed.
Lemma last_nonzero_pos l : Forall dig l -> l <> [] -> last l 0 <> 0 -> 0 < num l.
Proof.
  intros F N L. pose proof (last_split l N) as E. set (a := removelast l) in *. set (b := last l 0) in *. clearbody a b. subst l.
  rewrite num_app. change (len [b]) with 1. change (num [b]) with b. change (10 ^ 1) with 10. apply Forall_app in F as [F1 F2]. inversion F2 as [|? ? D _]. subst. unfold dig in D. pose proof (num_bound _ F1). lia.
Qed.
Lemma should_ok l nd : Forall dig l -> (l <> [] -> last l 0 <> 0) -> (nd < length l)%nat ->
  let K := 10 ^ Z.of_nat (length l - nd) in let q := num (firstn nd l) in let r := num (skipn nd l) in
  num l / K = q /\ num l mod K = r /\
  should_round_up l nd = (K <? 2 * r) || ((K =? 2 * r) && negb (Z.even q)).
Proof.
  intros F La Hn K q r. assert (Hl : len (skipn nd l) = Z.of_nat (length l - nd)) by (unfold len; now rewrite skipn_length).
  assert (E : num l = q * K + r). { rewrite <- (firstn_skipn nd l) at 1. rewrite num_app, Hl. reflexivity. }
  assert (F1 : Forall dig (firstn nd l)) by (rewrite <- (firstn_skipn nd l) in F; now apply Forall_app in F).
  assert (F2 : Forall dig (skipn nd l)) by (rewrite <- (firstn_skipn nd l) in F; now apply Forall_app in F).
  pose proof (num_bound _ F2) as B2. rewrite Hl in B2. fold r K in B2. pose proof (num_bound _ F1) as B1. fold q in B1.
  assert (PK : K <> 0) by (clear -B2; lia).
  split; [symmetry; apply (Z.div_unique_pos (num l) K q r B2); rewrite E; ring|]. split; [symmetry; apply (Z.mod_unique_pos (num l) K q r B2); rewrite E; ring|].
  unfold should_round_up, r in *. destruct (skipn nd l) as [|d rest] eqn:Sk.
  { exfalso. cbn in Hl. lia. }
  inversion F2 as [|? ? D F3]. subst. unfold dig in D.
  assert (Kd : K = 10 * 10 ^ len rest). { unfold K. replace (Z.of_nat (length l - nd)) with (len rest + 1) by (rewrite <- Hl; unfold len; cbn [length]; lia). rewrite Z.pow_add_r by (unfold len; lia). ring. }
  rewrite num_cons in *. destruct rest as [|d2 rest].
  - change (len []) with 0 in *. change (num []) with 0 in *. change (10 ^ 0) with 1 in *. rewrite Kd. clear Kd E B2 PK K.
    replace (10 * 1 <? 2 * (d * 1 + 0)) with (6 <=? d) by lia. replace (10 * 1 =? 2 * (d * 1 + 0)) with (d =? 5) by lia.
    destruct (Z.eqb_spec d 5) as [E5|E5]; [|lia]. subst d. change (6 <=? 5) with false. cbn [orb andb].
    destruct nd as [|k]; [reflexivity|]. f_equal. unfold q. rewrite Zeven_mod. unfold Zeq_bool. 
    replace (nth k l 0) with (last (firstn (S k) l) 0).
    + rewrite <- num_even. destruct (Z.eqb_spec (num (firstn (S k) l) mod 2) 0) as [Q|Q]; [rewrite Q; reflexivity|]. destruct (Z.compare_spec (num (firstn (S k) l) mod 2) 0); congruence.
    + clear -Hn. revert l Hn. induction k as [|k IH]; intros [|x l] Hn; cbn [length] in Hn; try lia; [reflexivity|]. change (firstn (S (S k)) (x :: l)) with (x :: firstn (S k) l). cbn [nth].
      rewrite <- IH by lia. destruct l as [|y l]; [cbn in Hn; lia|]. reflexivity.
  - assert (Lr : last l 0 = last (d2 :: rest) 0).
    { rewrite <- (firstn_skipn nd l), Sk. clear. induction (firstn nd l) as [|x a IH]; [reflexivity|]. rewrite <- IH. destruct a; reflexivity. }
    assert (P : 0 < num (d2 :: rest)). { apply last_nonzero_pos; [exact F3|discriminate|]. rewrite <- Lr. apply La. intros E0. rewrite E0 in Hn. cbn in Hn. lia. }
    pose proof (num_bound _ F3) as B3. set (T := 10 ^ len (d2 :: rest)) in *. set (v := num (d2 :: rest)) in *. rewrite Kd.
    clearbody T v q. clear -D P B3. destruct (Z.leb_spec 5 d) as [L|L]; symmetry.
    + apply orb_true_iff. left. apply Z.ltb_lt. assert (5 * T <= d * T) by (apply Z.mul_le_mono_nonneg_r; lia). lia.
    + assert (d * T <= 4 * T) by (apply Z.mul_le_mono_nonneg_r; lia). replace (10 * T =? 2 * (d * T + v)) with false by lia. rewrite orb_false_r. apply Z.ltb_ge. lia.
Qed.
Lemma bump_ok r : Forall dig r -> match bump r with
  | Some r' => Forall dig r' /\ (exists k, num (rev r) + 1 = num (rev r') * 10 ^ Z.of_nat k /\ (length r = k + length r')%nat) /\ r' <> [] /\ hd 0 r' <> 0 /\ (last r 0 <> 0 -> last r' 0 <> 0)
  | None => num (rev r) + 1 = 10 ^ len r
  end.
Proof.
  induction 1 as [|d r Hd F IH]; [reflexivity|]. cbn [bump]. unfold dig in Hd. destruct (Z.ltb_spec d 9) as [L|L].
  - split; [constructor; [unfold dig; lia|exact F]|]. split; [|split; [discriminate|split; [cbn; lia|]]].
    + exists 0%nat. split; [|cbn; lia]. cbn [rev]. rewrite !num_app. change (len [d]) with 1. change (len [d + 1]) with 1. change (num [d]) with d. change (num [d + 1]) with (d + 1). change (10 ^ Z.of_nat 0) with 1. lia.
    + destruct r; cbn; lia.
  - assert (d = 9) by lia. subst d. destruct (bump r) as [r'|].
    + destruct IH as (A & (k & B1 & B2) & C & D & E). split; [exact A|]. split; [|split; [exact C|split; [exact D|]]].
      * exists (S k). split; [|cbn; lia]. cbn [rev]. rewrite num_app. change (len [9]) with 1. change (num [9]) with 9. replace (Z.of_nat (S k)) with (Z.of_nat k + 1) by lia. rewrite Z.pow_add_r by lia. change (10 ^ 1) with 10. nia.
      * intros La. destruct r as [|y r]; [cbn in B2; destruct r'; [now destruct C|cbn in B2; lia]|]. apply E. exact La.
    + cbn [rev]. rewrite num_app. change (len [9]) with 1. change (num [9]) with 9. replace (len (9 :: r)) with (len r + 1) by (unfold len; cbn [length]; lia). rewrite Z.pow_add_r by (unfold len; lia). change (10 ^ 1) with 10. lia.
Qed.
Lemma hd_rev (r : list Z) : r <> [] -> hd 0 (rev r) = last r 0.
Proof. intros C. rewrite (last_split r C) at 1. rewrite rev_app_distr. reflexivity. Qed.
(** rounding to nd digits is rounding to the nearest *)
Lemma round_ok a nd : good a -> 0 <= nd < len (dc_d a) ->
  good (Format.round a nd) /\ len (dc_d (Format.round a nd)) <= Z.max nd 1 /\
  dval (Format.round a nd) = (IZR (ZnearestE (dval a * bpow ten (nd - dc_dp a))) * bpow ten (dc_dp a - nd))%R /\
  (1 <= nd -> dc_d (Format.round a nd) <> []) /\
  (dc_dp (Format.round a nd) = dc_dp a \/ dc_d (Format.round a nd) = [] \/ Format.round a nd = Decimal [1] (dc_dp a + 1)) /\ (nd = 0 -> dc_d (Format.round a nd) = [] \/ Format.round a nd = Decimal [1] (dc_dp a + 1)).
Proof.
  intros G Hn. destruct a as [l dp]. cbn [dc_d dc_dp] in *. destruct G as [F Hh La _]. cbn [dc_d dc_dp] in *.
  assert (HN : (Z.to_nat nd < length l)%nat) by (unfold len in Hn; lia).
  destruct (should_ok l (Z.to_nat nd) F La HN) as (Q & R & S). set (k := (length l - Z.to_nat nd)%nat) in *.
  assert (Hk : dp - len l = dp - nd - Z.of_nat k) by (unfold len in *; lia).
  assert (P : 0 < 10 ^ Z.of_nat k) by (apply pow_pos_; lia). pose proof (num_bound l F) as Nb.
  assert (Sc : (dval (Decimal l dp) * bpow ten (nd - dp) = IZR (num l) / IZR (10 ^ Z.of_nat k))%R).
  { unfold dval. cbn [dc_d dc_dp]. rewrite Rmult_assoc, <- bpow_plus. unfold Rdiv. f_equal. rewrite <- bpow_Z by lia. rewrite <- bpow_opp. f_equal. lia. }
  rewrite Sc, nearest_Z by lia. rewrite Q, R, <- S. clear Sc. unfold Format.round. cbn [dc_d dc_dp]. replace ((nd <? 0) || (len l <=? nd)) with false by lia.
  assert (F1 : Forall dig (firstn (Z.to_nat nd) l)) by (rewrite <- (firstn_skipn (Z.to_nat nd) l) in F; now apply Forall_app in F).
  assert (Lf : length (firstn (Z.to_nat nd) l) = Z.to_nat nd) by (apply firstn_length_le; lia).
  assert (Hf : firstn (Z.to_nat nd) l <> [] -> hd 0 (firstn (Z.to_nat nd) l) <> 0).
  { intros N. assert (l <> []) by (intros ->; now rewrite firstn_nil in N). specialize (Hh H). destruct l; [easy|]. destruct (Z.to_nat nd); [easy|]. exact Hh. }
  destruct (should_round_up l (Z.to_nat nd)).
  - unfold round_up. cbn [dc_d dc_dp]. pose proof (bump_ok (rev (firstn (Z.to_nat nd) l)) (Forall_rev F1)) as B. rewrite rev_involutive in B.
    destruct (bump (rev (firstn (Z.to_nat nd) l))) as [r|].
    + destruct B as (A & (j & B1 & B2) & C & D & E). rewrite rev_length, Lf in B2.
      assert (Ne : rev r <> []) by (intros X; apply C; rewrite <- (rev_involutive r), X; reflexivity).
      split; [constructor; cbn [dc_d dc_dp]|split; [|split; [|split; [|split]]]].
      * now apply Forall_rev.
      * intros _. rewrite (hd_rev r C). apply E.
        assert (N1 : firstn (Z.to_nat nd) l <> []) by (intros X; rewrite X in Lf; cbn in Lf; destruct r; [easy|cbn in B2; lia]). specialize (Hf N1).
        destruct (firstn (Z.to_nat nd) l) as [|x f]; [easy|]. cbn [rev]. rewrite last_last. exact Hf.
      * intros _. destruct r as [|x r]; [easy|]. cbn [rev]. rewrite last_last. exact D.
      * intros X. now destruct (Ne X).
      * cbn [dc_d]. unfold len. rewrite rev_length. lia.
      * unfold dval. cbn [dc_d dc_dp]. rewrite B1, mult_IZR, <- bpow_Z by lia. rewrite Rmult_assoc, <- bpow_plus. f_equal. f_equal. unfold len. rewrite rev_length. lia.
      * intros _. exact Ne.
      * left. reflexivity.
      * intros ->. cbn in B2. destruct r; [easy|cbn in B2; lia].
    + split; [constructor; cbn; try lia; try easy; repeat constructor; unfold dig; lia|]. split; [cbn; lia|]. split; [|split; [easy|split; [right; right; reflexivity|intros _; right; reflexivity]]].
      unfold dval. cbn [dc_d dc_dp]. change (num [1]) with 1. change (len [1]) with 1. rewrite B. unfold len. rewrite rev_length, Lf, Z2Nat.id by lia. rewrite <- bpow_Z by lia. rewrite <- bpow_plus, Rmult_1_l. f_equal. lia.
  - unfold round_down. cbn [dc_d dc_dp]. destruct (trim_ok (firstn (Z.to_nat nd) l) dp F1 Hf) as (A & B & C & D). split; [exact A|]. split; [unfold len; rewrite Lf in C; lia|]. split; [|split; [|split]].
    + rewrite B. unfold dval. cbn [dc_d dc_dp]. f_equal. f_equal. unfold len. lia.
    + intros N1. apply D. intros X. rewrite X in Lf. cbn in Lf. lia.
    + destruct (Z.eq_dec nd 0) as [->|N0]; [right; left; reflexivity|]. left. apply D. intros X. rewrite X in Lf. cbn in Lf. lia.
    + intros ->. left. reflexivity.
Qed.
Lemma dval_mag a : good a -> dc_d a <> [] -> (bpow ten (dc_dp a - 1) <= dval a < bpow ten (dc_dp a))%R.
Proof.
  intros G N. destruct a as [l dp]. destruct G as [F Hh _ _]. cbn [dc_d dc_dp] in *. unfold dval. cbn [dc_d dc_dp]. specialize (Hh N).
  pose proof (num_bound l F) as B. destruct l as [|d l]; [easy|]. cbn [hd] in Hh. inversion F as [|? ? D F']. subst. unfold dig in D.
  pose proof (num_bound l F') as B'. rewrite num_cons in *. assert (L : len (d :: l) = len l + 1) by (unfold len; cbn [length]; lia). assert (0 <= len l) by (unfold len; lia).
  assert (A : 10 ^ len l <= d * 10 ^ len l + num l) by (assert (1 * 10 ^ len l <= d * 10 ^ len l) by (apply Z.mul_le_mono_nonneg_r; [apply Z.pow_nonneg; lia|lia]); lia).
  split.
  - replace (dp - 1) with (len l + (dp - len (d :: l))) by lia. rewrite bpow_plus. apply Rmult_le_compat_r; [apply bpow_ge_0|]. rewrite bpow_Z by lia. now apply IZR_le.
  - replace (bpow ten dp) with (bpow ten (len (d :: l)) * bpow ten (dp - len (d :: l)))%R by (rewrite <- bpow_plus; f_equal; lia). apply Rmult_lt_compat_r; [apply bpow_gt_0|]. rewrite bpow_Z by lia. apply IZR_lt. lia.
Qed.
Lemma dval_pos a : good a -> dc_d a <> [] -> (0 < dval a)%R.
Proof. intros G N. pose proof (dval_mag a G N). pose proof (bpow_gt_0 ten (dc_dp a - 1)). lra. Qed.
Lemma mag_dval a : good a -> dc_d a <> [] -> (mag ten (dval a) : Z) = dc_dp a.
Proof. intros G N. apply mag_unique_pos. now apply dval_mag. Qed.
Lemma sig_ok a k : good a -> dc_d a <> [] -> 1 <= k ->
  let b := Format.round a k in good b /\ dc_d b <> [] /\ len (dc_d b) <= k /\ dval b = to_significant k (dval a).
Proof.
  intros G N Hk b. assert (VE : Valid_exp (FLX_exp k)) by (apply FLX_exp_valid; red; lia).
  destruct (Z_lt_le_dec k (len (dc_d a))) as [L|L].
  - destruct (round_ok a k G ltac:(lia)) as (A & B & C & D & _). fold b in A, B, C, D. split; [exact A|]. split; [now apply D|]. split; [lia|]. rewrite C.
    unfold to_significant, Generic_fmt.round, F2R, scaled_mantissa, cexp. rewrite (mag_dval a G N). unfold FLX_exp. cbn [Fnum Fexp]. replace (- (dc_dp a - k)) with (k - dc_dp a) by lia. reflexivity.
  - assert (E : b = a) by (unfold b, Format.round; replace ((k <? 0) || (len (dc_d a) <=? k)) with true by lia; reflexivity). rewrite E. repeat split; try apply G; try assumption.
    unfold to_significant. symmetry. apply round_generic; [typeclasses eauto|].
    apply generic_format_FLX. exists (Float ten (num (dc_d a)) (dc_dp a - len (dc_d a))); [reflexivity|]. cbn [Fnum]. pose proof (num_bound _ (gd_dig a G)) as B. rewrite Z.abs_eq by lia. change (radix_val ten) with 10.
    apply Z.lt_le_trans with (10 ^ len (dc_d a)); [lia|]. apply Z.pow_le_mono_r; lia.
Qed.
Lemma dec_ok a k : good a -> dc_d a <> [] -> 0 <= k ->
  let b := Format.round a (dc_dp a + k) in good b /\
  ((0 <= dc_dp b + k /\ len (dc_d b) <= dc_dp b + k /\ dval b = to_decimals k (dval a)) \/ (dc_dp b + k < 0 /\ 0%R = to_decimals k (dval a))).
Proof.
  intros G N Hk b. assert (VE : Valid_exp (FIX_exp (- k))) by apply FIX_exp_valid. set (nd := dc_dp a + k) in *.
  assert (Rd : to_decimals k (dval a) = (IZR (ZnearestE (dval a * bpow ten (nd - dc_dp a))) * bpow ten (dc_dp a - nd))%R).
  { unfold to_decimals, Generic_fmt.round, F2R, scaled_mantissa, cexp, FIX_exp. cbn [Fnum Fexp]. unfold nd. repeat f_equal; lia. }
  assert (Pos : 0 < len (dc_d a)) by (unfold len; destruct (dc_d a); [easy|cbn [length]; lia]).
  destruct (Z_lt_le_dec nd 0) as [L0|L0].
  - assert (E : b = a) by (unfold b, Format.round; replace ((nd <? 0) || (len (dc_d a) <=? nd)) with true by lia; reflexivity). rewrite E. split; [exact G|]. right. split; [exact L0|].
    rewrite Rd. pose proof (dval_mag a G N) as M. pose proof (dval_pos a G N) as P. replace (ZnearestE _) with 0; [lra|]. symmetry. apply Znearest_imp. rewrite Rminus_0_r.
    rewrite Rabs_pos_eq by (apply Rmult_le_pos; [lra|apply bpow_ge_0]). apply Rlt_le_trans with (bpow ten (dc_dp a) * bpow ten (nd - dc_dp a))%R; [apply Rmult_lt_compat_r; [apply bpow_gt_0|lra]|].
    rewrite <- bpow_plus. replace (dc_dp a + (nd - dc_dp a)) with nd by lia. apply Rle_trans with (bpow ten (-1)); [apply bpow_le; lia|]. cbn. lra.
  - destruct (Z_lt_le_dec nd (len (dc_d a))) as [L|L].
    + destruct (round_ok a nd G ltac:(lia)) as (A & B & C & D & E & E0). fold b in A, B, C, D, E, E0. split; [exact A|]. left. rewrite Rd, <- C. split; [|split; [|reflexivity]].
      * destruct E as [E|[E|E]]; [rewrite E; lia|rewrite (gd_zero b A E); lia|rewrite E; cbn [dc_dp]; lia].
      * destruct (Z.eq_dec nd 0) as [Z0|Z0].
        { destruct (E0 Z0) as [E1|E1]; [rewrite E1, (gd_zero b A E1); cbn; lia|rewrite E1; cbn [dc_d dc_dp]; change (len [1]) with 1; lia]. }
        destruct E as [E|[E|E]]; [rewrite E; lia|rewrite E, (gd_zero b A E); cbn; lia|rewrite E; cbn [dc_d dc_dp]; change (len [1]) with 1; lia].
    + assert (E : b = a) by (unfold b, Format.round; replace ((nd <? 0) || (len (dc_d a) <=? nd)) with true by lia; reflexivity). rewrite E. split; [exact G|]. left. split; [exact L0|]. split; [exact L|].
      unfold to_decimals. symmetry. apply round_generic; [typeclasses eauto|]. apply generic_format_FIX.
      exists (Float ten (num (dc_d a) * 10 ^ (nd - len (dc_d a))) (- k)); [|reflexivity]. unfold F2R. cbn [Fnum Fexp]. rewrite mult_IZR, <- bpow_Z by lia. rewrite Rmult_assoc, <- bpow_plus. unfold dval. f_equal. f_equal. unfold nd. lia.
Qed.

(** * reading the texts *)
Definition no_digit (t : list Z) : Prop := match t with c :: _ => is_digit c = false | [] => True end.
Lemma is_digit_char d : dig d -> is_digit (48 + d) = true.
Proof. unfold dig, is_digit. lia. Qed.
Lemma read_chars l : forall t n k, Forall dig l -> no_digit t -> read_digits (chars l ++ t) n k = (n * 10 ^ len l + num l, k + len l, t).
Proof.
  induction l as [|d l IH]; intros t n k F Nt.
  - cbn [chars map app]. change (len []) with 0. change (num []) with 0. rewrite Z.pow_0_r, Z.mul_1_r, !Z.add_0_r. destruct t as [|c t]; [reflexivity|]. cbn [read_digits]. cbn in Nt. now rewrite Nt.
  - inversion F as [|? ? D F']. subst. cbn [chars map app read_digits]. rewrite is_digit_char by exact D. fold (chars l). rewrite IH by assumption. rewrite num_cons.
    replace (len (d :: l)) with (len l + 1) by (unfold len; cbn [length]; lia). rewrite Z.pow_add_r by (unfold len; lia). apply f_equal2; [apply f_equal2|reflexivity]; [ring|lia].
Qed.
Lemma window l p : forall j, map (fun i => nth (j + i) l 0) (seq 0 p) = firstn p (skipn j l ++ repeat 0 p).
Proof.
  induction p as [|p IH]; intros j; [reflexivity|]. rewrite <- cons_seq, <- seq_shift. cbn [map]. rewrite map_map.
  transitivity (nth j l 0 :: map (fun i => nth (S j + i) l 0) (seq 0 p)). { f_equal; [f_equal; lia|]. apply map_ext. intros i. f_equal. lia. }
  rewrite IH. destruct (skipn j l) as [|d r] eqn:E.
  - assert (L : (length l <= j)%nat). { destruct (Nat.lt_ge_cases j (length l)) as [X|X]; [|exact X]. apply (f_equal (@length Z)) in E. rewrite skipn_length in E. cbn in E. lia. }
    rewrite nth_overflow by exact L. rewrite skipn_all2 by lia. cbn [app repeat firstn]. reflexivity.
  - assert (E2 : skipn (S j) l = r). { clear -E. revert l E. induction j as [|j IH]; intros [|x l] E; cbn in *; try congruence. now apply IH. }
    assert (E3 : nth j l 0 = d). { clear -E. revert l E. induction j as [|j IH]; intros [|x l] E; cbn in *; try congruence. now apply IH. }
    rewrite E2, E3. cbn [app firstn]. f_equal. rewrite !firstn_app. f_equal. change (repeat 0 (S p)) with (0 :: repeat 0 p). clear. remember (p - length r)%nat as q eqn:Q. assert (H : (q <= p)%nat) by lia. clear Q. 
    revert p H. induction q as [|q IH]; intros p H; [reflexivity|]. destruct p as [|p]; [lia|]. cbn [repeat firstn]. f_equal. apply IH. lia.
Qed.
Lemma firstn_zeros k : forall n, (k <= n)%nat -> firstn k (repeat 0 n) = repeat 0 k.
Proof. induction k as [|k IH]; intros [|n] H; cbn; try reflexivity; try lia. f_equal. apply IH. lia. Qed.
Lemma map_zeros {A} (f : A -> Z) l : (forall x, In x l -> f x = 0) -> map f l = repeat 0 (length l).
Proof. induction l as [|x l IH]; intros H; [reflexivity|]. cbn. rewrite (H x (or_introl eq_refl)), IH; [reflexivity|]. intros y Hy. apply H. now right. Qed.
Lemma seq_shift_ a : forall n b, map (fun x => a + x)%nat (seq b n) = seq (a + b) n.
Proof. induction n as [|n IH]; intros b; [reflexivity|]. cbn. rewrite IH. f_equal. f_equal. lia. Qed.
Lemma window_zeros l p j : (length l <= j + p)%nat -> map (fun i => nth (j + i) l 0) (seq 0 p) = skipn j l ++ repeat 0 (p - (length l - j)).
Proof.
  intros H. rewrite window, firstn_app, skipn_length. rewrite (firstn_all2 (skipn j l)) by (rewrite skipn_length; clear -H; lia). f_equal.
  apply firstn_zeros. lia.
Qed.
Lemma fmt_f_parts neg d prec : good d -> 0 <= prec -> len (dc_d d) <= dc_dp d + prec \/ dc_dp d + prec < 0 ->
  exists ip fp, Forall dig ip /\ Forall dig fp /\ len ip = Z.max (dc_dp d) 1 /\ len fp = prec /\
  fmt_f neg d prec = minus_sign neg ++ chars ip ++ (if 0 <? prec then 46 :: chars fp else []) /\
  num (ip ++ fp) = if 0 <=? dc_dp d + prec then num (dc_d d) * 10 ^ (dc_dp d + prec - len (dc_d d)) else 0.
Proof.
  intros G Hp Hl. destruct d as [l dp]. pose proof (gd_dig _ G) as F. cbn [dc_d dc_dp] in *. unfold fmt_f. cbn [dc_d dc_dp].
  set (fp := map _ (seq 0 (Z.to_nat prec))).
  assert (Lfp : len fp = prec) by (unfold fp, len; rewrite map_length, seq_length; lia).
  assert (E : fp = map (fun i => if 0 <=? dp + Z.of_nat i then nth (Z.to_nat (dp + Z.of_nat i)) l 0 else 0) (seq 0 (Z.to_nat prec))).
  { unfold fp. apply map_ext. intros i. cbv zeta. destruct (Z.leb_spec 0 (dp + Z.of_nat i)); [|reflexivity]. cbn [andb]. destruct (Z.ltb_spec (dp + Z.of_nat i) (len l)); [reflexivity|]. rewrite nth_overflow; [reflexivity|]. unfold len in *. lia. }
  clearbody fp.
  assert (Nd : forall k, dig (nth k l 0)). { intros k. destruct (nth_in_or_default k l 0) as [I|I]; [rewrite Forall_forall in F; now apply F|rewrite I; unfold dig; lia]. }
  assert (Ffp : Forall dig fp). { rewrite E. apply Forall_forall. intros x Hx. apply in_map_iff in Hx as (i & <- & _). destruct (_ <=? _); [apply Nd|unfold dig; lia]. }
  destruct (Z.ltb_spec 0 dp) as [D|D].
  - exists (firstn (Z.to_nat dp) l ++ repeat 0 (Z.to_nat (dp - len l))), fp.
    assert (Fip : Forall dig (firstn (Z.to_nat dp) l ++ repeat 0 (Z.to_nat (dp - len l)))). { apply Forall_app. split; [|apply dig_zeros]. rewrite <- (firstn_skipn (Z.to_nat dp) l) in F. now apply Forall_app in F. }
    split; [exact Fip|]. split; [exact Ffp|]. split; [unfold len; rewrite app_length, firstn_length, repeat_length; unfold len; lia|]. split; [exact Lfp|]. split; [reflexivity|].
    destruct Hl as [Hl|Hl]; [|lia]. replace (0 <=? dp + prec) with true by lia.
    assert (E2 : fp = skipn (Z.to_nat dp) l ++ repeat 0 (Z.to_nat prec - (length l - Z.to_nat dp))).
    { rewrite <- window_zeros by (unfold len in Hl; lia). rewrite E. apply map_ext. intros i. replace (0 <=? dp + Z.of_nat i) with true by (symmetry; apply Z.leb_le; clear -D; lia). f_equal. lia. }
    rewrite E2. destruct (Z_lt_le_dec dp (len l)) as [C|C].
    + replace (Z.to_nat (dp - len l)) with 0%nat by lia. cbn [repeat]. rewrite app_nil_r. rewrite app_assoc, firstn_skipn, num_app, num_zeros, Z.add_0_r. f_equal. f_equal. unfold len in *. rewrite repeat_length. lia.
    + rewrite skipn_all2 by (unfold len in C; lia). rewrite firstn_all2 by (unfold len in C; lia). cbn [app]. rewrite <- app_assoc, <- repeat_app, num_app, num_zeros, Z.add_0_r. f_equal. f_equal. unfold len in *. rewrite repeat_length. lia.
  - exists [0], fp. split; [repeat constructor; unfold dig; lia|]. split; [exact Ffp|]. split; [change (len [0]) with 1; lia|]. split; [exact Lfp|]. split; [reflexivity|].
    change (num ([0] ++ fp)) with (num (0 :: fp)). rewrite num_cons. cbn [Z.mul]. rewrite Z.add_0_l.
    destruct (Z.leb_spec 0 (dp + prec)) as [C|C].
    + destruct Hl as [Hl|Hl]; [|lia]. assert (E2 : fp = repeat 0 (Z.to_nat (- dp)) ++ (skipn 0 l ++ repeat 0 (Z.to_nat (dp + prec) - (length l - 0)))).
      { rewrite <- window_zeros by (unfold len in Hl; lia). rewrite E. replace (Z.to_nat prec) with (Z.to_nat (- dp) + Z.to_nat (dp + prec))%nat by lia. rewrite seq_app, map_app. f_equal.
        - rewrite map_zeros; [now rewrite seq_length|]. intros x Hx. apply in_seq in Hx. replace (0 <=? dp + Z.of_nat x) with false by lia. reflexivity.
        - rewrite Nat.add_0_l. rewrite <- (Nat.add_0_r (Z.to_nat (- dp))) at 1. rewrite <- (seq_shift_ (Z.to_nat (- dp))). rewrite map_map. apply map_ext. intros x. replace (0 <=? dp + Z.of_nat (Z.to_nat (- dp) + x)) with true by (symmetry; apply Z.leb_le; clear -D; lia). f_equal. lia. }
      rewrite E2. change (skipn 0 l) with l. rewrite !num_app, !num_zeros. cbn [Z.mul]. rewrite Z.add_0_r, Z.add_0_l. f_equal. f_equal. unfold len in *. rewrite repeat_length. lia.
    + rewrite E, map_zeros; [apply num_zeros|]. intros x Hx. apply in_seq in Hx. replace (0 <=? dp + Z.of_nat x) with false by lia. reflexivity.
Qed.
Lemma read_parts ip fp prec : Forall dig ip -> Forall dig fp -> ip <> [] -> len fp = prec -> 0 <= prec ->
  read_unsigned (chars ip ++ (if 0 <? prec then 46 :: chars fp else [])) = Some (num (ip ++ fp), - prec).
Proof.
  intros F1 F2 N L Hp. unfold read_unsigned. assert (P : 0 < len ip) by (unfold len; destruct ip; [easy|cbn [length]; lia]).
  destruct (Z.ltb_spec 0 prec) as [C|C].
  - rewrite read_chars by (try assumption; reflexivity). replace (0 + len ip =? 0) with false by lia.
    rewrite <- (app_nil_r (chars fp)), read_chars by (try assumption; exact I). rewrite Z.mul_0_l, Z.add_0_l, num_app, L. reflexivity.
  - rewrite read_chars by (try assumption; exact I). replace (0 + len ip =? 0) with false by lia. assert (fp = []) by (destruct fp; [reflexivity|unfold len in *; cbn [length] in *; lia]). subst fp.
    rewrite app_nil_r, Z.mul_0_l, Z.add_0_l. replace prec with 0 by lia. reflexivity.
Qed.
Lemma value_scale n m k e : 0 <= k -> n = m * 10 ^ k -> value (n, e) = value (m, e + k).
Proof. intros H ->. unfold value. cbn [fst snd]. rewrite mult_IZR, <- bpow_Z by exact H. rewrite bpow_plus. ring. Qed.
Lemma fmt_f_read d prec : good d -> 0 <= prec -> len (dc_d d) <= dc_dp d + prec \/ dc_dp d + prec < 0 ->
  exists p, read_unsigned (fmt_f false d prec) = Some p /\ value p = (if 0 <=? dc_dp d + prec then dval d else 0%R).
Proof.
  intros G Hp Hl. destruct (fmt_f_parts false d prec G Hp Hl) as (ip & fp & F1 & F2 & L1 & L2 & E & V). exists (num (ip ++ fp), - prec).
  split. { rewrite E. cbn [minus_sign app]. apply read_parts; try assumption. intros X. rewrite X in L1. change (len []) with 0 in L1. lia. }
  rewrite V. destruct (Z.leb_spec 0 (dc_dp d + prec)) as [C|C].
  - destruct Hl as [Hl|Hl]; [|lia]. rewrite (value_scale _ (num (dc_d d)) (dc_dp d + prec - len (dc_d d))) by (try reflexivity; lia). unfold value, dval. cbn [fst snd]. do 2 f_equal. lia.
  - unfold value. cbn [fst]. ring.
Qed.
Lemma fmt_f_neg neg d prec : fmt_f neg d prec = minus_sign neg ++ fmt_f false d prec.
Proof. reflexivity. Qed.
(** a text that starts with a digit *)
Lemma read_signed neg t p : read_unsigned t = Some p -> read_number (minus_sign neg ++ t) = Some (if neg then (- value p)%R else value p).
Proof.
  intros E. destruct neg; cbn [minus_sign app read_number]; [now rewrite E|]. unfold read_number.
  destruct t as [|c t]; [discriminate|]. destruct (Z.eq_dec c 45) as [->|N]; [discriminate|].
  replace (match c with 45 => option_map (fun p => (- value p)%R) (read_unsigned t) | _ => option_map value (read_unsigned (c :: t)) end) with (option_map value (read_unsigned (c :: t))).
  - rewrite E. reflexivity.
  - destruct c as [|q|q]; try reflexivity. do 6 (destruct q as [q|q|]; try reflexivity). now destruct N.
Qed.
Lemma dec_opp k x : to_decimals k (- x) = (- to_decimals k x)%R.
Proof. unfold to_decimals. apply round_NE_opp. Qed.
Lemma sig_opp k x : to_significant k (- x) = (- to_significant k x)%R.
Proof. unfold to_significant. apply round_NE_opp. Qed.
Lemma SF2R_finite neg m e : SF2R radix2 (S754_finite neg m e) = (if neg then - (IZR (Z.pos m) * bpow radix2 e) else IZR (Z.pos m) * bpow radix2 e)%R.
Proof. destruct neg; unfold SF2R, F2R; cbn [Fnum Fexp cond_Zopp]; [rewrite opp_IZR; ring|reflexivity]. Qed.
Definition plain_number (x : spec_float) : Prop := match x with S754_zero _ | S754_finite _ _ _ => True | _ => False end.
Lemma format_f_ok k x : 0 <= k -> plain_number x -> read_number (format_f k x) = Some (to_decimals k (SF2R radix2 x)).
Proof.
  intros Hk Nx. assert (Z0 : to_decimals k 0 = 0%R) by (unfold to_decimals; apply round_0; typeclasses eauto).
  destruct x as [neg|neg| |neg m e]; try easy; cbn [format_f].
  - destruct (fmt_f_read (Decimal [] 0) k) as (p & A & B); [constructor; cbn; try easy; constructor|exact Hk|left; cbn; lia|]. rewrite fmt_f_neg, (read_signed neg _ p A), B. cbn [dc_dp].
    replace (0 <=? 0 + k) with true by lia. cbn [SF2R]. rewrite Z0. unfold dval. cbn [dc_d dc_dp]. change (num []) with 0. f_equal. destruct neg; ring.
  - destruct (assign_ok (Z.pos m) e ltac:(lia)) as (G & N & V). set (a := assign (Z.pos m) e) in *. destruct (dec_ok a k G N Hk) as (G2 & Hd). set (b := Format.round a (dc_dp a + k)) in *.
    destruct (fmt_f_read b k G2 Hk) as (p & A & B); [destruct Hd as [(_ & H & _)|[H _]]; auto|]. rewrite fmt_f_neg, (read_signed neg _ p A), B, SF2R_finite, <- V.
    assert (Y : (if 0 <=? dc_dp b + k then dval b else 0%R) = to_decimals k (dval a)). { destruct Hd as [(H0 & _ & H)|[H0 H]]; [replace (0 <=? dc_dp b + k) with true by lia|replace (0 <=? dc_dp b + k) with false by lia]; exact H. }
    rewrite Y. destruct neg; [now rewrite dec_opp|reflexivity].
Qed.
(** * %g *)
Lemma exp_digits e : 0 <= e < 1000 -> let l := if e <? 10 then [0; e] else if e <? 100 then [e / 10; e mod 10] else [e / 100; e / 10 mod 10; e mod 10] in
  Forall dig l /\ num l = e /\ 2 <= len l <= 3 /\ (e < 100 -> len l = 2).
Proof.
  intros H l. unfold l. assert (D : e = 10 * (e / 10) + e mod 10) by (apply Z.div_mod; lia). assert (M : 0 <= e mod 10 < 10) by (apply Z.mod_pos_bound; lia).
  destruct (Z.ltb_spec e 10) as [A|A]; [|destruct (Z.ltb_spec e 100) as [B|B]].
  - split; [repeat constructor; unfold dig; lia|]. split; [reflexivity|]. split; [cbn; lia|reflexivity].
  - assert (0 <= e / 10 < 10) by (split; [apply Z.div_pos; lia|apply Z.div_lt_upper_bound; lia]). split; [repeat constructor; unfold dig; lia|]. split; [|split; [cbn; lia|reflexivity]]. unfold num. cbn [fold_left]. lia.
  - assert (X : e / 100 = e / 10 / 10) by (rewrite Z.div_div by lia; reflexivity). assert (D2 : e / 10 = 10 * (e / 10 / 10) + e / 10 mod 10) by (apply Z.div_mod; lia). assert (M2 : 0 <= e / 10 mod 10 < 10) by (apply Z.mod_pos_bound; lia).
    assert (0 <= e / 100 < 10) by (split; [apply Z.div_pos; lia|apply Z.div_lt_upper_bound; lia]). split; [repeat constructor; unfold dig; lia|]. split; [|split; [cbn; lia|lia]]. unfold num. cbn [fold_left]. lia.
Qed.
(** the forms of the texts, for a number with digits [a], [a b] or [a b c]; three
    significant ones are shown, except by older versions of Go for numbers below 0.1 *)
Definition g_digits (ds : list Z) : Z * Z * Z := (nth 0 ds 0, nth 1 ds 0, nth 2 ds 0).
Inductive g_form (old : bool) (ds : list Z) (dp : Z) : list Z -> Prop :=
| gf_exp a b c : g_digits ds = (a, b, c) -> dp < -3 \/ 3 < dp -> g_form old ds dp ([48 + a; 46; 48 + b; 48 + c] ++ fmt_exp (dp - 1))
| gf_plain ip fp : Forall dig ip -> Forall dig fp -> -3 <= dp <= 3 -> ip <> [] -> len (ip ++ fp) <= 7 -> 
    num (ip ++ fp) * 10 ^ (10 - len fp) = num ds * 10 ^ (10 + dp - len ds) ->
    (old = false -> exists z, ip ++ fp = repeat 0 z ++ [nth 0 ds 0; nth 1 ds 0; nth 2 ds 0]) ->
    g_form old ds dp (chars ip ++ 46 :: chars fp).
Lemma digit_eqb d k : dig d -> (48 + d =? k) = (d =? k - 48).
Proof. intros. destruct (Z.eqb_spec (48 + d) k), (Z.eqb_spec d (k - 48)); lia. Qed.
Lemma char_facts d : dig d -> (48 + d =? 101) = false /\ (48 + d =? 46) = false /\ (d <> 0 -> (48 + d =? 48) = false).
Proof. unfold dig. lia. Qed.
Ltac hide a ca := let E := fresh "E" in let A := fresh "A" in let B := fresh "B" in let C := fresh "C" in
  match goal with D : dig a |- _ => destruct (char_facts a D) as (A & B & C) end; remember (48 + a) as ca eqn:E.
Ltac step_g := repeat (match goal with H : (?c =? ?k) = false |- context [?c =? ?k] => rewrite H | H : ?x <> 0, C : ?x <> 0 -> (?c =? 48) = false |- context [?c =? 48] => rewrite (C H) end; cbn); rewrite ?orb_true_r.
Ltac digs t := match t with nil => constr:(@nil Z) | cons 48 ?r => let r' := digs r in constr:(0 :: r') | cons (48 + ?d) ?r => let r' := digs r in constr:(d :: r') end.
Ltac split46 t := match t with cons 46 ?r => let f := digs r in constr:((@nil Z, f)) | cons 48 ?r => let p := split46 r in match p with (?i, ?f) => constr:((0 :: i, f)) end
  | cons (48 + ?d) ?r => let p := split46 r in match p with (?i, ?f) => constr:((d :: i, f)) end end.
Ltac all_dig := repeat first [apply Forall_nil|apply Forall_cons; [first [assumption|unfold dig; lia]|]].
Ltac plain_g := match goal with |- g_form ?o ?ds ?dp ?t => let p := split46 t in match p with (?i, ?f) => change (g_form o ds dp (chars i ++ 46 :: chars f)); apply gf_plain end end;
  [all_dig|all_dig|lia|discriminate|vm_compute; discriminate
  |unfold num, len; cbn [fold_left length app]; repeat match goal with |- context [10 ^ ?e] => let v := eval vm_compute in (10 ^ e) in change (10 ^ e) with v end; lia
  |try discriminate; intros _; first [exists 0%nat; reflexivity|exists 1%nat; reflexivity|exists 2%nat; reflexivity|exists 3%nat; reflexivity|exists 4%nat; reflexivity]].
Lemma g_form_ok old ds dp : good (Decimal ds dp) -> ds <> [] -> len ds <= 3 -> g_form old ds dp (sharp old 3 (fmt_g false (Decimal ds dp) 3)).
Proof.
  intros G N L. destruct G as [F Hh _ _]. cbn [dc_d dc_dp] in *. specialize (Hh N).
  assert (Eg : forall k, len ds = k -> 1 <= k <= 3 -> (dp - 1 <? -4) || ((if (k <? 3) && (dp <=? k) then k else 3) <=? dp - 1) = (dp <? -3) || (3 <? dp)).
  { intros k _ Hk. destruct (Z.ltb_spec k 3), (Z.leb_spec dp k); cbn [andb]; lia. }
  unfold fmt_g. cbn [dc_d dc_dp]. rewrite (Eg (len ds) eq_refl) by (unfold len in *; destruct ds; [easy|cbn [length] in *; lia]). clear Eg.
  destruct ((dp <? -3) || (3 <? dp)) eqn:C.
  - assert (Hdp : dp < -3 \/ 3 < dp) by lia.
    destruct ds as [|a [|b [|c [|? ds]]]]; [easy| | | |unfold len in L; cbn [length] in L; lia].
    all: repeat match goal with F : Forall dig (_ :: _) |- _ => inversion F; clear F; subst end; cbn [hd] in Hh.
    + replace (sharp old 3 (fmt_e false (Decimal [a] dp) (Z.min 3 (len [a]) - 1))) with ([48 + a; 46; 48 + 0; 48 + 0] ++ fmt_exp (dp - 1)); [now apply gf_exp|].
      change (fmt_e false (Decimal [a] dp) (Z.min 3 (len [a]) - 1)) with (48 + a :: fmt_exp (dp - 1)). change (48 + 0) with 48. hide a ca. unfold sharp, fmt_exp. cbn [sharp_scan]. step_g. destruct old; cbn; step_g; reflexivity.
    + replace (sharp old 3 (fmt_e false (Decimal [a; b] dp) (Z.min 3 (len [a; b]) - 1))) with ([48 + a; 46; 48 + b; 48 + 0] ++ fmt_exp (dp - 1)); [now apply gf_exp|].
      change (fmt_e false (Decimal [a; b] dp) (Z.min 3 (len [a; b]) - 1)) with (48 + a :: 46 :: 48 + b :: fmt_exp (dp - 1)). change (48 + 0) with 48. hide a ca. hide b cb. unfold sharp, fmt_exp. cbn [sharp_scan]. step_g. destruct old; cbn; step_g; reflexivity.
    + replace (sharp old 3 (fmt_e false (Decimal [a; b; c] dp) (Z.min 3 (len [a; b; c]) - 1))) with ([48 + a; 46; 48 + b; 48 + c] ++ fmt_exp (dp - 1)); [now apply gf_exp|].
      change (fmt_e false (Decimal [a; b; c] dp) (Z.min 3 (len [a; b; c]) - 1)) with (48 + a :: 46 :: 48 + b :: 48 + c :: fmt_exp (dp - 1)). hide a ca. hide b cb. hide c cc. unfold sharp, fmt_exp. cbn [sharp_scan]. step_g. destruct old; cbn; step_g; reflexivity.
  - assert (Hdp : dp = -3 \/ dp = -2 \/ dp = -1 \/ dp = 0 \/ dp = 1 \/ dp = 2 \/ dp = 3) by lia. clear C.
    destruct ds as [|a [|b [|c [|? ds]]]]; [easy| | | |unfold len in L; cbn [length] in L; lia].
    all: repeat match goal with F : Forall dig (_ :: _) |- _ => inversion F; clear F; subst end; cbn [hd] in Hh.
    + destruct Hdp as [->|[->|[->|[->|[->|[->| ->]]]]]];
      match goal with |- g_form _ _ _ (sharp _ _ (fmt_f _ ?d ?p)) => let p' := eval vm_compute in p in change p with p' end; unfold fmt_f; lazy -[chars sharp]; unfold chars; cbn [map app]; change (48 + 0) with 48; hide a ca; unfold sharp; cbn [sharp_scan]; step_g; destruct old; cbn; step_g; subst; change (Pos.to_nat 1) with 1%nat; change (Pos.to_nat 2) with 2%nat; cbn [repeat app]; plain_g.
    + destruct Hdp as [->|[->|[->|[->|[->|[->| ->]]]]]];
      match goal with |- g_form _ _ _ (sharp _ _ (fmt_f _ ?d ?p)) => let p' := eval vm_compute in p in change p with p' end; unfold fmt_f; lazy -[chars sharp]; unfold chars; cbn [map app]; change (48 + 0) with 48; hide a ca; hide b cb; unfold sharp; cbn [sharp_scan]; step_g; destruct old; cbn; step_g; subst; change (Pos.to_nat 1) with 1%nat; change (Pos.to_nat 2) with 2%nat; cbn [repeat app]; plain_g.
    + destruct Hdp as [->|[->|[->|[->|[->|[->| ->]]]]]];
      match goal with |- g_form _ _ _ (sharp _ _ (fmt_f _ ?d ?p)) => let p' := eval vm_compute in p in change p with p' end; unfold fmt_f; lazy -[chars sharp]; unfold chars; cbn [map app]; change (48 + 0) with 48; hide a ca; hide b cb; hide c cc; unfold sharp; cbn [sharp_scan]; step_g; destruct old; cbn; step_g; subst; change (Pos.to_nat 1) with 1%nat; change (Pos.to_nat 2) with 2%nat; cbn [repeat app]; plain_g.
Qed.
Lemma fmt_g_neg neg d prec : fmt_g neg d prec = minus_sign neg ++ fmt_g false d prec.
Proof. unfold fmt_g. destruct (_ || _); reflexivity. Qed.
Lemma fmt_g_first d prec : Forall dig (dc_d d) -> dc_dp d <= 0 \/ dc_d d <> [] -> exists c t, fmt_g false d prec = c :: t /\ c <> 45.
Proof.
  intros F N. unfold fmt_g. destruct (_ || _).
  - unfold fmt_e. cbn [minus_sign app]. eexists _, _. split; [reflexivity|]. assert (dig (nth 0 (dc_d d) 0)); [|unfold dig in *; lia].
    destruct (dc_d d); [unfold dig; cbn; lia|]. now inversion F.
  - unfold fmt_f. cbn [minus_sign app]. destruct (Z.ltb_spec 0 (dc_dp d)) as [L|L]; [|eexists _, _; split; [reflexivity|lia]].
    destruct N as [N|N]; [lia|]. destruct (dc_d d) as [|x l]; [easy|]. destruct (Z.to_nat (dc_dp d)) eqn:E; [lia|]. cbn [firstn app chars map]. eexists _, _. split; [reflexivity|]. inversion F. unfold dig in *. lia.
Qed.
Definition g_decimal (x : spec_float) : decimal := match x with S754_finite _ m e => Format.round (assign (Z.pos m) e) 3 | _ => Decimal [] 0 end.
Definition negative (x : spec_float) : bool := match x with S754_finite s _ _ | S754_zero s => s | _ => false end.
Lemma g_decimal_ok neg m e : let d := g_decimal (S754_finite neg m e) in good d /\ dc_d d <> [] /\ len (dc_d d) <= 3 /\ dval d = to_significant 3 (IZR (Z.pos m) * bpow radix2 e).
Proof.
  intros d. destruct (assign_ok (Z.pos m) e ltac:(lia)) as (G & N & V). destruct (sig_ok _ 3 G N ltac:(lia)) as (A & B & C & D). rewrite V in D. now repeat split; try apply A.
Qed.
Lemma sprintf_3g_ok old x : plain_number x -> sprintf_3g old x = minus_sign (negative x) ++ sharp old 3 (fmt_g false (g_decimal x) 3).
Proof.
  intros Nx. assert (K : forall neg d, Forall dig (dc_d d) -> dc_dp d <= 0 \/ dc_d d <> [] ->
    match fmt_g neg d 3 with 45 :: t => 45 :: sharp old 3 t | t => sharp old 3 t end = minus_sign neg ++ sharp old 3 (fmt_g false d 3)).
  { intros neg d F N. rewrite fmt_g_neg. destruct neg; cbn [minus_sign app]; [reflexivity|]. destruct (fmt_g_first d 3 F N) as (c & t & -> & Hc).
    destruct c as [|q|q]; try reflexivity. do 6 (destruct q as [q|q|]; try reflexivity). now destruct Hc. }
  destruct x as [neg|neg| |neg m e]; try easy.
  - apply (K neg (Decimal [] 0)); [constructor|left; cbn; lia].
  - destruct (g_decimal_ok neg m e) as (G & N & _ & _). apply (K neg (g_decimal (S754_finite neg m e))); [apply G|now right].
Qed.
Lemma chars_forms ip fp : Forall dig ip -> Forall dig fp -> ip <> [] -> read_unsigned (chars ip ++ 46 :: chars fp) = Some (num (ip ++ fp), - len fp).
Proof.
  intros F1 F2 N. unfold read_unsigned. assert (P : 0 < len ip) by (unfold len; destruct ip; [easy|cbn [length]; lia]).
  rewrite read_chars by (try assumption; reflexivity). replace (0 + len ip =? 0) with false by lia.
  rewrite <- (app_nil_r (chars fp)), read_chars by (try assumption; exact I). rewrite Z.mul_0_l, !Z.add_0_l, num_app. reflexivity.
Qed.
Lemma exp_forms a b c e : dig a -> dig b -> dig c -> -1000 < e < 1000 -> read_unsigned ([48 + a; 46; 48 + b; 48 + c] ++ fmt_exp e) = Some (num [a; b; c], e - 2).
Proof.
  intros Da Db Dc He. unfold read_unsigned. change ([48 + a; 46; 48 + b; 48 + c] ++ fmt_exp e) with (chars [a] ++ 46 :: chars [b; c] ++ fmt_exp e).
  rewrite read_chars; [|repeat constructor; apply Da|reflexivity]. change (0 + len [a] =? 0) with false. cbv iota.
  rewrite read_chars; [|constructor; [exact Db|constructor; [exact Dc|constructor]]|reflexivity]. unfold fmt_exp.
  destruct (exp_digits (Z.abs e) ltac:(lia)) as (F & V & _). cbv zeta. set (l := if Z.abs e <? 10 then _ else _) in *.
  rewrite <- (app_nil_r (chars l)). change (len [b; c]) with 2.
  replace ((0 * 10 ^ len [a] + num [a]) * 10 ^ 2 + num [b; c]) with (num [a; b; c]) by (unfold num, len; cbn [fold_left length]; change (10 ^ Z.of_nat 1) with 10; ring).
  destruct (Z.ltb_spec e 0) as [L|L]; rewrite read_chars by (try assumption; exact I); rewrite V, Z.mul_0_l, Z.add_0_l; f_equal; f_equal; lia.
Qed.
Lemma g_form_value old ds dp t : Forall dig ds -> ds <> [] -> len ds <= 3 -> -999 < dp <= 1000 -> g_form old ds dp t -> exists p, read_unsigned t = Some p /\ value p = dval (Decimal ds dp).
Proof.
  intros F N L Hdp H. destruct H as [a b c E _|ip fp F1 F2 R Ni L7 V _].
  - unfold g_digits in E. assert (Dn : forall k, dig (nth k ds 0)). { intros k. destruct (nth_in_or_default k ds 0) as [I|I]; [rewrite Forall_forall in F; now apply F|rewrite I; unfold dig; lia]. }
    injection E as <- <- <-. eexists. split; [apply exp_forms; [apply Dn|apply Dn|apply Dn|lia]|].
    assert (X : num [nth 0 ds 0; nth 1 ds 0; nth 2 ds 0] = num ds * 10 ^ (3 - len ds)).
    { destruct ds as [|a [|b [|c [|? ds]]]]; [easy| | | |unfold len in L; cbn [length] in L; lia]; unfold num, len; cbn [nth fold_left length]; match goal with |- context [10 ^ ?e] => let v := eval vm_compute in (10 ^ e) in change (10 ^ e) with v end; lia. }
    rewrite (value_scale _ (num ds) (3 - len ds) _) by (lia || exact X). unfold value, dval. cbn [fst snd dc_d dc_dp]. do 2 f_equal. lia.
  - eexists. split; [now apply chars_forms|]. unfold value, dval. cbn [fst snd dc_d dc_dp].
    assert (0 <= len fp) by (unfold len; lia). assert (len fp <= 7) by (unfold len in *; rewrite app_length in L7; lia). assert (0 <= len ds) by (unfold len; lia).
    apply Rmult_eq_reg_r with (bpow ten 10); [|pose proof (bpow_gt_0 ten 10); lra]. rewrite !Rmult_assoc, <- !bpow_plus.
    replace (- len fp + 10) with (10 - len fp) by lia. replace (dp - len ds + 10) with (10 + dp - len ds) by lia. rewrite !bpow_Z by lia. rewrite <- !mult_IZR. now rewrite V.
Qed.
Lemma float_range neg m e : valid_binary 53 1024 (S754_finite neg m e) = true -> (bpow ten (-324) <= IZR (Z.pos m) * bpow radix2 e <= bpow ten 309)%R.
Proof.
  intros V. pose (b := SF2B (S754_finite neg m e) V).
  assert (E : Rabs (B2R b) = (IZR (Z.pos m) * bpow radix2 e)%R).
  { replace (B2R b) with (SF2R radix2 (S754_finite neg m e)) by (unfold b; destruct neg; reflexivity). rewrite SF2R_finite. assert (0 <= IZR (Z.pos m) * bpow radix2 e)%R by (apply Rmult_le_pos; [apply IZR_le; lia|apply bpow_ge_0]). destruct neg; [rewrite Rabs_Ropp|]; now apply Rabs_pos_eq. }
  split.
  - apply Rle_trans with (bpow radix2 (-1074)).
    + change (-324) with (- (324)). change (-1074) with (- (1074)). rewrite !bpow_opp. apply Rinv_le_contravar; [apply bpow_gt_0|]. rewrite bpow_Z by lia. rewrite <- IZR_Zpower by lia. apply IZR_le. apply Zle_bool_imp_le. vm_compute. reflexivity.
    + rewrite <- E. apply (abs_B2R_ge_emin 53 1024 b). reflexivity.
  - rewrite <- E. apply Rle_trans with (bpow radix2 1024); [apply Rlt_le; apply (abs_B2R_lt_emax 53 1024 b)|]. rewrite bpow_Z by lia. rewrite <- IZR_Zpower by lia. apply IZR_le. apply Zle_bool_imp_le. vm_compute. reflexivity.
Qed.
Lemma flx3 : Valid_exp (FLX_exp 3).
Proof. apply FLX_exp_valid. red. lia. Qed.
Lemma g_decimal_range x : plain_number x -> valid_binary 53 1024 x = true -> -324 < dc_dp (g_decimal x) <= 310.
Proof.
  intros Nx V. pose proof flx3. destruct x as [neg|neg| |neg m e]; try easy. destruct (g_decimal_ok neg m e) as (G & N & _ & E). destruct (float_range neg m e V) as [A B].
  set (d := g_decimal (S754_finite neg m e)) in *. destruct (dval_mag d G N) as [C D]. rewrite E in *. set (v := (IZR (Z.pos m) * bpow radix2 e)%R) in *.
  assert (A' : (bpow ten (-324) <= to_significant 3 v)%R) by (apply round_ge_generic; [typeclasses eauto|typeclasses eauto|apply generic_format_bpow; unfold FLX_exp; lia|exact A]).
  assert (B' : (to_significant 3 v <= bpow ten 309)%R) by (apply round_le_generic; [typeclasses eauto|typeclasses eauto|apply generic_format_bpow; unfold FLX_exp; lia|exact B]).
  assert (K1 : -324 < dc_dp d) by (apply (lt_bpow ten); lra). assert (K2 : dc_dp d - 1 <= 309) by (apply (le_bpow ten); lra). lia.
Qed.
Lemma sprintf_3g_read old x : plain_number x -> valid_binary 53 1024 x = true -> read_number (sprintf_3g old x) = Some (to_significant 3 (SF2R radix2 x)).
Proof.
  intros Nx V. pose proof flx3. pose proof (g_decimal_range x Nx V) as Rg. rewrite sprintf_3g_ok by exact Nx. destruct x as [neg|neg| |neg m e]; try easy.
  - cbn [g_decimal negative SF2R]. assert (Z0 : to_significant 3 0 = 0%R) by (unfold to_significant; apply round_0; typeclasses eauto). rewrite Z0.
    assert (T : sharp old 3 (fmt_g false (Decimal [] 0) 3) = [48; 46; 48; 48]) by (destruct old; reflexivity). rewrite T. rewrite (read_signed neg [48; 46; 48; 48] (0, -2) eq_refl). f_equal. unfold value. cbn [fst snd]. destruct neg; ring.
  - destruct (g_decimal_ok neg m e) as (G & N & L & E). cbn [negative]. rewrite SF2R_finite. set (d := g_decimal (S754_finite neg m e)) in *. destruct d as [ds dp] eqn:Ed. cbn [dc_d dc_dp] in *.
    pose proof (g_form_ok old ds dp G N L) as Fm. destruct (g_form_value old ds dp _ (gd_dig _ G) N L ltac:(lia) Fm) as (p & A & B). rewrite (read_signed neg _ p A), B, E. destruct neg; [now rewrite sig_opp|reflexivity].
Qed.
(** * characters, lengths, digits *)
Lemma chars_len l : len (chars l) = len l.
Proof. unfold len, chars. now rewrite map_length. Qed.
Lemma len_app3 (a b : list Z) : len (a ++ b) = len a + len b.
Proof. unfold len. rewrite app_length. lia. Qed.
(** %.kf of a number: a sign, at least one digit, and k decimals *)
Lemma format_f_parts k x : 0 < k -> plain_number x -> exists ip fp, Forall dig ip /\ Forall dig fp /\ 1 <= len ip /\ len fp = k /\
  format_f k x = minus_sign (negative x) ++ chars ip ++ 46 :: chars fp /\
  (forall n, 1 <= n -> (Rabs (SF2R radix2 x) <= bpow ten n - bpow ten (- k))%R -> len ip <= n).
Proof.
  intros Hk Nx. destruct x as [neg|neg| |neg m e]; try easy; cbn [format_f negative].
  - destruct (fmt_f_parts neg (Decimal [] 0) k) as (ip & fp & F1 & F2 & L1 & L2 & E & _); [constructor; cbn; try easy; constructor|lia|left; cbn; lia|]. cbn [dc_dp] in L1. exists ip, fp.
    repeat split; try assumption; try lia. rewrite E. replace (0 <? k) with true by lia. reflexivity.
  - destruct (assign_ok (Z.pos m) e ltac:(lia)) as (G & N & V). set (a := assign (Z.pos m) e) in *. destruct (dec_ok a k G N ltac:(lia)) as (G2 & Hd). set (b := Format.round a (dc_dp a + k)) in *.
    destruct (fmt_f_parts neg b k G2 ltac:(lia)) as (ip & fp & F1 & F2 & L1 & L2 & E & _); [destruct Hd as [(_ & H & _)|[H _]]; auto|]. exists ip, fp. repeat split; try assumption; try lia.
    + rewrite E. replace (0 <? k) with true by lia. reflexivity.
    + intros n Hn U. rewrite L1. assert (dc_dp b <= n); [|lia]. destruct Hd as [(H0 & H1 & H)|[H0 _]]; [|lia]. destruct (list_eq_dec Z.eq_dec (dc_d b) []) as [Z0|Z0]; [rewrite (gd_zero b G2 Z0); lia|].
      destruct (dval_mag b G2 Z0) as [M _]. assert (Dv : (dval a <= bpow ten n - bpow ten (- k))%R).
      { rewrite SF2R_finite in U. rewrite V. assert (0 <= IZR (Z.pos m) * bpow radix2 e)%R by (apply Rmult_le_pos; [apply IZR_le; lia|apply bpow_ge_0]). destruct neg; [rewrite Rabs_Ropp in U|]; rewrite Rabs_pos_eq in U by assumption; exact U. }
      assert (B : (dval b <= bpow ten n - bpow ten (- k))%R).
      { rewrite H. unfold to_decimals. apply round_le_generic; [typeclasses eauto|typeclasses eauto| |exact Dv]. apply generic_format_FIX. exists (Float ten (10 ^ (n + k) - 1) (- k)); [|reflexivity].
        unfold F2R. cbn [Fnum Fexp]. rewrite minus_IZR, <- bpow_Z by lia. rewrite Rmult_minus_distr_r, <- bpow_plus. rewrite Rmult_1_l. do 2 f_equal. lia. }
      pose proof (bpow_gt_0 ten (- k)). assert (dc_dp b - 1 < n); [|lia]. apply (lt_bpow ten). lra.
Qed.
Lemma fmt_exp_digits e : -1000 < e < 1000 -> exists l, fmt_exp e = 101 :: (if e <? 0 then 45 else 43) :: chars l /\ Forall dig l /\ 2 <= len l <= 3 /\ (Z.abs e < 100 -> len l = 2).
Proof. intros H. destruct (exp_digits (Z.abs e) ltac:(lia)) as (A & _ & B & C). unfold fmt_exp. eexists. split; [reflexivity|]. auto. Qed.
(** %#.3g of a number: digits with a point, or d.dde+dd *)
Lemma sprintf_3g_parts old x : plain_number x -> valid_binary 53 1024 x = true -> exists ip fp ex, Forall dig ip /\ Forall dig fp /\ ip <> [] /\ sprintf_3g old x = minus_sign (negative x) ++ chars ip ++ 46 :: chars fp ++ ex /\
  (ex = [] /\ len ip + len fp <= 7 \/ exists s l, (s = 43 \/ s = 45) /\ ex = 101 :: s :: chars l /\ Forall dig l /\ len ip + len fp = 3 /\ 2 <= len l <= 3 /\
     ((bpow ten (-99) <= Rabs (SF2R radix2 x) < bpow ten 99)%R -> len l = 2)) /\
  (old = false -> SF2R radix2 x <> 0%R -> exists z a b c, a <> 0 /\ ip ++ fp = repeat 0 z ++ [a; b; c] /\ dig a /\ dig b /\ dig c).
Proof.
  intros Nx V. pose proof flx3. pose proof (g_decimal_range x Nx V) as Rg. rewrite sprintf_3g_ok by exact Nx. destruct x as [neg|neg| |neg m e]; try easy.
  - exists [0], [0; 0], []. cbn [g_decimal negative]. repeat split.
    + constructor; [unfold dig; lia|constructor].
    + constructor; [unfold dig; lia|constructor; [unfold dig; lia|constructor]].
    + discriminate.
    + f_equal. destruct old; reflexivity.
    + left. split; [reflexivity|cbn; lia].
    + intros _ Z0. now destruct Z0.
  - destruct (g_decimal_ok neg m e) as (G & N & L & E). cbn [negative]. set (d := g_decimal (S754_finite neg m e)) in *. destruct d as [ds dp] eqn:Ed. cbn [dc_d dc_dp] in *.
    pose proof (gd_hd _ G N) as Hh. pose proof (gd_dig _ G) as F. cbn [dc_d] in *. destruct (dval_mag _ G N) as [M1 M2]. cbn [dc_dp] in *. rewrite E in M1, M2.
    assert (Ex : (bpow ten (-99) <= Rabs (SF2R radix2 (S754_finite neg m e)) < bpow ten 99)%R -> -99 <= dp - 1 <= 99).
    { rewrite SF2R_finite. assert (0 <= IZR (Z.pos m) * bpow radix2 e)%R by (apply Rmult_le_pos; [apply IZR_le; lia|apply bpow_ge_0]). intros [A B].
      assert ((bpow ten (-99) <= IZR (Z.pos m) * bpow radix2 e < bpow ten 99)%R) as [A' B'] by (destruct neg; [rewrite Rabs_Ropp in A, B|]; rewrite Rabs_pos_eq in A, B by assumption; auto).
      assert (A2 : (bpow ten (-99) <= to_significant 3 (IZR (Z.pos m) * bpow radix2 e))%R) by (apply round_ge_generic; [typeclasses eauto|typeclasses eauto|apply generic_format_bpow; unfold FLX_exp; lia|exact A']).
      assert (B2 : (to_significant 3 (IZR (Z.pos m) * bpow radix2 e) <= bpow ten 99)%R) by (apply round_le_generic; [typeclasses eauto|typeclasses eauto|apply generic_format_bpow; unfold FLX_exp; lia|apply Rlt_le; exact B']).
      assert (-99 < dp) by (apply (lt_bpow ten); lra). assert (dp - 1 <= 99) by (apply (le_bpow ten); lra). lia. }
    assert (Dn : forall k, dig (nth k ds 0)). { intros k. destruct (nth_in_or_default k ds 0) as [I|I]; [rewrite Forall_forall in F; now apply F|rewrite I; unfold dig; lia]. }
    assert (H0 : nth 0 ds 0 <> 0) by (destruct ds; [easy|exact Hh]).
    pose proof (g_form_ok old ds dp G N L) as Fm. inversion Fm as [a b c Eg Hdp Et|ip fp F1 F2 Hdp Ni L7 Vv Hz Et].
    + unfold g_digits in Eg. injection Eg as <- <- <-. destruct (fmt_exp_digits (dp - 1) ltac:(lia)) as (l & El & Fl & Ll & L2).
      exists [nth 0 ds 0], [nth 1 ds 0; nth 2 ds 0], (fmt_exp (dp - 1)). repeat split.
      * constructor; [apply Dn|constructor].
      * constructor; [apply Dn|constructor; [apply Dn|constructor]].
      * discriminate.
      * right. exists (if dp - 1 <? 0 then 45 else 43), l. split; [destruct (dp - 1 <? 0); auto|]. split; [exact El|]. split; [exact Fl|]. split; [reflexivity|]. split; [exact Ll|]. intros Hx. apply L2. specialize (Ex Hx). lia.
      * intros _ _. exists 0%nat, (nth 0 ds 0), (nth 1 ds 0), (nth 2 ds 0). split; [exact H0|]. split; [reflexivity|]. auto.
    + exists ip, fp, []. split; [exact F1|]. split; [exact F2|]. split; [exact Ni|]. split; [now rewrite app_nil_r|]. split.
      * left. split; [reflexivity|]. rewrite <- len_app3. exact L7.
      * intros O _. destruct (Hz O) as (z & Ez). exists z, (nth 0 ds 0), (nth 1 ds 0), (nth 2 ds 0). auto.
Qed.
Lemma shown_digits_point ip fp t : forall saw, Forall dig ip -> shown_digits saw (chars ip ++ 46 :: chars fp ++ t) = shown_digits saw (chars (ip ++ fp) ++ t).
Proof.
  induction ip as [|d ip IH]; intros saw F; [reflexivity|]. inversion F as [|? ? D F']; subst. cbn [app chars map]. cbn [shown_digits].
  destruct (char_facts d D) as (A & _ & _). rewrite A, (is_digit_char d D). cbn [andb]. fold (chars ip). fold (chars (ip ++ fp)). rewrite !IH by assumption. reflexivity.
Qed.
Lemma shown_digits_all l t : Forall dig l -> match t with [] => True | c :: _ => c = 101 end -> shown_digits true (chars l ++ t) = len l.
Proof.
  intros F Ht. induction F as [|d l D F IH]; cbn [chars map app].
  - destruct t as [|c t]; [reflexivity|]. subst c. reflexivity.
  - cbn [shown_digits]. destruct (char_facts d D) as (A & _ & _). rewrite A, (is_digit_char d D). cbn [andb orb]. fold (chars l). rewrite IH. unfold len. cbn [length]. lia.
Qed.
Lemma shown_digits_zeros z l t : shown_digits false (chars (repeat 0 z ++ l) ++ t) = shown_digits false (chars l ++ t).
Proof. induction z as [|z IH]; [reflexivity|]. cbn [repeat app chars map]. change (48 + 0) with 48. cbn [shown_digits]. cbn. exact IH. Qed.
