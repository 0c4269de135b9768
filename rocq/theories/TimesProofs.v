(** Proofs about the texts of times (C83). *)
From Coq Require Import ZArith List Bool Lia.
From Verif Require Import Base Times TimesSpec.
Import ListNotations.
Open Scope Z_scope.

(** * the calendar in closed form *)
Definition leap_day (y : Z) : Z := if leap_year y then 1 else 0.
Definition year_start (y : Z) : Z := 365 * (y - 1) + (y - 1) / 4 - (y - 1) / 100 + (y - 1) / 400.
Definition month_start (y m : Z) : Z := nth (Z.to_nat (m - 1)) days_before 0 + (if 2 <? m then leap_day y else 0).
Definition day_number (t : date) : Z := let '(y, m, d) := t in year_start y + month_start y m + d - 1 - 719162.
Lemma div_step y k : 0 < k -> y / k = (y - 1) / k + (if y mod k =? 0 then 1 else 0).
Proof.
  intros Hk. pose proof (Z.div_mod y k ltac:(lia)) as A. pose proof (Z.mod_pos_bound y k Hk) as B. destruct (Z.eqb_spec (y mod k) 0) as [E|E].
  - assert ((y - 1) / k = y / k - 1); [|lia]. symmetry. apply (Z.div_unique _ _ _ (k - 1)); [lia|]. lia.
  - rewrite Z.add_0_r. apply (Z.div_unique (y - 1) k (y / k) (y mod k - 1)) in A as A'; [|lia|lia] || (apply (Z.div_unique _ _ _ (y mod k - 1)); lia).
Qed.
Lemma mod_of y k j : 0 < k -> 0 < j -> (y mod (k * j) = 0 -> y mod k = 0).
Proof. intros Hk Hj H. apply Z.mod_divide in H; [|lia]. apply Z.mod_divide; [lia|]. destruct H as [q ->]. exists (q * j). ring. Qed.
Lemma year_next y : year_start (y + 1) = year_start y + 365 + leap_day y.
Proof.
  unfold year_start, leap_day, leap_year. replace (y + 1 - 1) with y by ring. rewrite (div_step y 4), (div_step y 100), (div_step y 400) by lia.
  pose proof (mod_of y 100 4 ltac:(lia) ltac:(lia)) as A. pose proof (mod_of y 4 25 ltac:(lia) ltac:(lia)) as B. change (100 * 4) with 400 in A. change (4 * 25) with 100 in B.
  destruct (Z.eqb_spec (y mod 4) 0), (Z.eqb_spec (y mod 100) 0), (Z.eqb_spec (y mod 400) 0); cbn [andb negb orb]; lia.
Qed.
Lemma leap_day_range y : 0 <= leap_day y <= 1.
Proof. unfold leap_day. destruct (leap_year y); lia. Qed.
Lemma months m : 1 <= m <= 12 -> m = 1 \/ m = 2 \/ m = 3 \/ m = 4 \/ m = 5 \/ m = 6 \/ m = 7 \/ m = 8 \/ m = 9 \/ m = 10 \/ m = 11 \/ m = 12.
Proof. lia. Qed.
Ltac each_month H := destruct (months _ H) as [->|[->|[->|[->|[->|[->|[->|[->|[->|[->|[->| ->]]]]]]]]]]].
Lemma length_28 y m : 28 <= month_length y m <= 31.
Proof. unfold month_length. destruct (_ =? _), (leap_year y); try destruct (_ || _); lia. Qed.
Lemma month_next y m : 1 <= m < 12 -> month_start y (m + 1) = month_start y m + month_length y m.
Proof. intros H. assert (H' : 1 <= m <= 12) by lia. unfold month_start, month_length, leap_day. destruct (leap_year y); each_month H'; try lia; reflexivity. Qed.
Lemma month_first y : month_start y 1 = 0.
Proof. reflexivity. Qed.
Lemma month_last y : month_start y 12 + month_length y 12 = 365 + leap_day y.
Proof. unfold month_start, leap_day. destruct (leap_year y); reflexivity. Qed.
Lemma month_mono y m m' : 1 <= m -> m' <= 12 -> m < m' -> month_start y m + month_length y m <= month_start y m'.
Proof.
  intros H1 H2 H3. replace m' with (m + 1 + Z.of_nat (Z.to_nat (m' - m - 1))) in * by lia. set (j := Z.to_nat (m' - m - 1)) in *. clearbody j. clear H3. induction j as [|j IH].
  - rewrite Z.add_0_r in *. rewrite month_next by lia. lia.
  - replace (m + 1 + Z.of_nat (S j)) with (m + 1 + Z.of_nat j + 1) in * by lia. rewrite month_next by lia. pose proof (length_28 y (m + 1 + Z.of_nat j)). specialize (IH ltac:(lia)). lia.
Qed.
Lemma in_year y m d : real_date (y, m, d) -> 0 <= month_start y m + d - 1 < 365 + leap_day y.
Proof.
  intros [Hm Hd]. rewrite <- month_last. assert (0 <= month_start y m).
  { destruct (Z.eq_dec m 1) as [->|N]; [rewrite month_first; lia|]. pose proof (month_mono y 1 m ltac:(lia) ltac:(lia) ltac:(lia)). pose proof (length_28 y 1). rewrite month_first in *. lia. }
  split; [lia|]. destruct (Z.eq_dec m 12) as [->|N]; [lia|]. pose proof (month_mono y m 12 ltac:(lia) ltac:(lia) ltac:(lia)). pose proof (length_28 y 12). lia.
Qed.
Lemma year_mono y y' : y < y' -> year_start y + 365 + leap_day y <= year_start y'.
Proof.
  intros H. replace y' with (y + 1 + Z.of_nat (Z.to_nat (y' - y - 1))) by lia. set (j := Z.to_nat (y' - y - 1)). clearbody j. induction j as [|j IH].
  - rewrite Z.add_0_r, year_next. lia.
  - replace (y + 1 + Z.of_nat (S j)) with (y + 1 + Z.of_nat j + 1) by lia. rewrite year_next. pose proof (leap_day_range (y + 1 + Z.of_nat j)). lia.
Qed.
Lemma day_number_inj t t' : real_date t -> real_date t' -> day_number t = day_number t' -> t = t'.
Proof.
  destruct t as [[y m] d], t' as [[y' m'] d']. intros R R' E. pose proof (in_year _ _ _ R). pose proof (in_year _ _ _ R'). destruct R as [Hm Hd], R' as [Hm' Hd']. cbn [day_number] in E.
  assert (y = y'). { destruct (Z.lt_trichotomy y y') as [C|[C|C]]; [pose proof (year_mono _ _ C); lia|exact C|pose proof (year_mono _ _ C); lia]. } subst y'.
  assert (m = m'). { destruct (Z.lt_trichotomy m m') as [C|[C|C]]; [pose proof (month_mono y m m' ltac:(lia) ltac:(lia) C); lia|exact C|pose proof (month_mono y m' m ltac:(lia) ltac:(lia) C); lia]. } subst m'.
  assert (d = d') by lia. now subst.
Qed.
Lemma next_ok t : real_date t -> real_date (next_day t) /\ day_number (next_day t) = day_number t + 1.
Proof.
  destruct t as [[y m] d]. intros [Hm Hd]. unfold next_day. destruct (Z.ltb_spec d (month_length y m)) as [A|A]; [|destruct (Z.ltb_spec m 12) as [B|B]].
  - split; [split; lia|]. cbn [day_number]. lia.
  - pose proof (length_28 y (m + 1)). split; [split; lia|]. cbn [day_number]. rewrite month_next by lia. lia.
  - assert (m = 12) by lia. subst m. pose proof (length_28 (y + 1) 1). split; [split; lia|]. cbn [day_number]. rewrite year_next, month_first. pose proof (month_last y). lia.
Qed.
Lemma prev_ok t : real_date t -> exists t', real_date t' /\ next_day t' = t.
Proof.
  destruct t as [[y m] d]. intros [Hm Hd]. destruct (Z.eq_dec d 1) as [->|D].
  - destruct (Z.eq_dec m 1) as [->|M].
    + exists (y - 1, 12, 31). split; [split; [lia|reflexivity || (cbn; lia)]|]. unfold next_day. cbn. do 2 f_equal. lia.
    + exists (y, m - 1, month_length y (m - 1)). pose proof (length_28 y (m - 1)). split; [split; lia|]. unfold next_day. rewrite Z.ltb_irrefl. replace (m - 1 <? 12) with true by lia. do 2 f_equal. lia.
  - exists (y, m, d - 1). split; [split; lia|]. unfold next_day. replace (d - 1 <? month_length y m) with true by lia. do 2 f_equal. lia.
Qed.
Lemma on_day_number k t : on_day k t -> real_date t /\ day_number t = k.
Proof.
  induction 1 as [|k t H [A B]|k t R H [A B]].
  - split; [split; [lia|cbn; lia]|]. vm_compute. reflexivity.
  - destruct (next_ok t A). split; [assumption|lia].
  - split; [exact R|]. destruct (next_ok t R). lia.
Qed.
Lemma day_number_on t : real_date t -> on_day (day_number t) t.
Proof.
  intros R. assert (U : forall n : nat, exists t', on_day (Z.of_nat n) t').
  { induction n as [|n [t' IH]]; [exists (1970, 1, 1); constructor|]. exists (next_day t'). replace (Z.of_nat (S n)) with (Z.of_nat n + 1) by lia. now constructor. }
  assert (D : forall n : nat, exists t', on_day (- Z.of_nat n) t').
  { induction n as [|n [t' IH]]; [exists (1970, 1, 1); constructor|]. destruct (on_day_number _ _ IH) as [R' _]. destruct (prev_ok t' R') as (p & Rp & Np). exists p. apply on_previous; [exact Rp|]. rewrite Np. replace (- Z.of_nat (S n) + 1) with (- Z.of_nat n) by lia. exact IH. }
  assert (X : exists t', on_day (day_number t) t').
  { destruct (Z_le_gt_dec 0 (day_number t)) as [C|C]; [destruct (U (Z.to_nat (day_number t))) as [t' H]|destruct (D (Z.to_nat (- day_number t))) as [t' H]]; exists t'; [rewrite Z2Nat.id in H by lia; exact H|rewrite Z2Nat.id in H by lia; rewrite Z.opp_involutive in H; exact H]. }
  destruct X as [t' H]. destruct (on_day_number _ _ H) as [R' E]. assert (t = t') by (apply day_number_inj; auto). now subst.
Qed.

(** * the date of the model *)
Lemma is_leap_ok y : is_leap y = leap_year y.
Proof.
  assert (K : forall k, 0 < k -> (Z.rem y k =? 0) = (y mod k =? 0)).
  { intros k Hk. apply eq_true_iff_eq. rewrite !Z.eqb_eq. rewrite Z.rem_divide, Z.mod_divide by lia. tauto. }
  unfold is_leap, leap_year. now rewrite !K by lia.
Qed.
Lemma month_day_ok y yday : 0 <= yday < 365 + leap_day y -> let '(m, d) := month_day (leap_year y) yday in real_date (y, m, d) /\ month_start y m + d - 1 = yday.
Proof.
  set (ml := fun (b : bool) m => if m =? 2 then (if b then 29 else 28) else if (m =? 4) || (m =? 6) || (m =? 9) || (m =? 11) then 30 else 31).
  set (ok := fun (b : bool) yday => let '(m, d) := month_day b yday in (1 <=? m) && (m <=? 12) && (1 <=? d) && (d <=? ml b m) && (nth (Z.to_nat (m - 1)) days_before 0 + (if 2 <? m then if b then 1 else 0 else 0) + d - 1 =? yday)).
  assert (T : forallb (fun i => ok true (Z.of_nat i)) (seq 0 366) = true) by (vm_compute; reflexivity). assert (F : forallb (fun i => ok false (Z.of_nat i)) (seq 0 365) = true) by (vm_compute; reflexivity).
  intros H. assert (O : ok (leap_year y) yday = true).
  { unfold leap_day in H. rewrite forallb_forall in T, F. destruct (leap_year y); [specialize (T (Z.to_nat yday) ltac:(apply in_seq; lia))|specialize (F (Z.to_nat yday) ltac:(apply in_seq; lia))]; rewrite Z2Nat.id in * by lia; assumption. }
  unfold ok in O. destruct (month_day (leap_year y) yday) as [m d]. unfold real_date, month_length, month_start, leap_day. fold (ml (leap_year y) m). change (if m =? 2 then if leap_year y then 29 else 28 else if (m =? 4) || (m =? 6) || (m =? 9) || (m =? 11) then 30 else 31) with (ml (leap_year y) m). lia.
Qed.
Lemma cap3 n : 0 <= n <= 4 -> n - Z.shiftr n 2 = Z.min n 3.
Proof. intros H. rewrite Z.shiftr_div_pow2 by lia. change (2 ^ 2) with 4. assert (n = 4 \/ n / 4 = 0) as [->|E] by (destruct (Z.eq_dec n 4); [now left|right; apply Z.div_small; lia]); [reflexivity|]. rewrite E. assert (n = 0 \/ n = 1 \/ n = 2 \/ n = 3 \/ n = 4) by lia. destruct (Z.eq_dec n 4) as [->|]; [discriminate E|]. lia. Qed.
Lemma year_day_ok abs : 0 <= abs -> let '(y, yday) := year_day abs in 0 <= yday < 365 + leap_day y /\ year_start y + yday - 719162 = abs / 86400 - days_to_1970.
Proof.
  intros Ha. unfold year_day. unfold seconds_per_day, days_per_400_years, days_per_100_years, days_per_4_years. change (365 * 400 + 97) with 146097. change (365 * 100 + 24) with 36524. change (365 * 4 + 1) with 1461.
  set (D := abs / 86400). assert (HD : 0 <= D) by (apply Z.div_pos; lia).
  pose proof (Z.div_mod D 146097 ltac:(lia)) as E1. pose proof (Z.mod_pos_bound D 146097 ltac:(lia)) as B1. set (a := D / 146097) in *. replace (D - 146097 * a) with (D mod 146097) by lia. set (r1 := D mod 146097) in *.
  pose proof (Z.div_mod r1 36524 ltac:(lia)) as E2. pose proof (Z.mod_pos_bound r1 36524 ltac:(lia)) as B2. assert (Q2 : 0 <= r1 / 36524 <= 4) by (split; [apply Z.div_pos; lia|apply Z.lt_succ_r, Z.div_lt_upper_bound; lia]). rewrite (cap3 _ Q2). set (q2 := r1 / 36524) in *. set (b := Z.min q2 3). set (r2 := r1 - 36524 * b).
  assert (Hr2 : 0 <= r2 <= 36524 /\ (b < 3 -> r2 < 36524) /\ 0 <= b <= 3) by (unfold r2, b; lia).
  pose proof (Z.div_mod r2 1461 ltac:(lia)) as E3. pose proof (Z.mod_pos_bound r2 1461 ltac:(lia)) as B3. set (c := r2 / 1461) in *. replace (r2 - 1461 * c) with (r2 mod 1461) by lia. set (r3 := r2 mod 1461) in *.
  pose proof (Z.div_mod r3 365 ltac:(lia)) as E4. pose proof (Z.mod_pos_bound r3 365 ltac:(lia)) as B4. assert (Q4 : 0 <= r3 / 365 <= 4) by (split; [apply Z.div_pos; lia|apply Z.lt_succ_r, Z.div_lt_upper_bound; lia]). rewrite (cap3 _ Q4). set (q4 := r3 / 365) in *. set (e := Z.min q4 3). set (r4 := r3 - 365 * e).
  assert (Hr4 : 0 <= r4 <= 365 /\ (r4 = 365 -> e = 3 /\ r3 = 1460) /\ 0 <= e <= 3) by (unfold r4, e; lia).
  assert (Hc : 0 <= c <= 24) by lia.
  set (yy := 400 * a + 100 * b + 4 * c + e). assert (Y4 : yy / 4 = 100 * a + 25 * b + c) by (symmetry; apply (Z.div_unique _ _ _ e); unfold yy; lia).
  assert (Y100 : yy / 100 = 4 * a + b) by (symmetry; apply (Z.div_unique _ _ _ (4 * c + e)); unfold yy; lia). assert (Y400 : yy / 400 = a) by (symmetry; apply (Z.div_unique _ _ _ (100 * b + 4 * c + e)); unfold yy; lia).
  set (K := 730692556). assert (Z1 : yy + absolute_zero_year - 1 = yy + (- K) * 400) by (unfold absolute_zero_year, K; lia).
  assert (D4 : (yy + absolute_zero_year - 1) / 4 = yy / 4 - 100 * K) by (rewrite Z1; replace (yy + - K * 400) with (yy + (- (100 * K)) * 4) by ring; rewrite Z.div_add by lia; ring).
  assert (D100 : (yy + absolute_zero_year - 1) / 100 = yy / 100 - 4 * K) by (rewrite Z1; replace (yy + - K * 400) with (yy + (- (4 * K)) * 100) by ring; rewrite Z.div_add by lia; ring).
  assert (D400 : (yy + absolute_zero_year - 1) / 400 = yy / 400 - K) by (rewrite Z1; rewrite Z.div_add by lia; ring).
  split.
  - split; [lia|]. destruct (Z.eq_dec r4 365) as [R|R]; [|pose proof (leap_day_range (yy + absolute_zero_year)); lia]. destruct Hr4 as (_ & H3 & _). destruct (H3 R) as [Ee Er3].
    assert (L : leap_year (yy + absolute_zero_year) = true); [|unfold leap_day; rewrite L; lia].
    assert (C : c <> 24 \/ b = 3) by lia. unfold leap_year.
    assert (M4 : (yy + absolute_zero_year) mod 4 = 0) by (apply Z.mod_divide; [lia|]; exists (100 * a + 25 * b + c + 1 - 100 * K); unfold yy, absolute_zero_year, K; lia). rewrite M4. cbn [Z.eqb andb].
    destruct C as [C|C].
    + assert (M : (yy + absolute_zero_year) mod 100 = 4 * c + 4) by (symmetry; apply (Z.mod_unique _ _ (4 * a + b - 4 * K)); [lia|unfold yy, absolute_zero_year, K; lia]). rewrite M. replace (4 * c + 4 =? 0) with false by lia. reflexivity.
    + destruct (Z.eqb_spec ((yy + absolute_zero_year) mod 100) 0) as [M|M]; [|reflexivity]. cbn [negb orb].
      destruct (Z.eq_dec c 24) as [C24|C24]; [|exfalso; assert (M' : (yy + absolute_zero_year) mod 100 = 4 * c + 4) by (symmetry; apply (Z.mod_unique _ _ (4 * a + b - 4 * K)); [lia|unfold yy, absolute_zero_year, K; lia]); lia].
      replace ((yy + absolute_zero_year) mod 400) with 0; [reflexivity|]. symmetry. apply Z.mod_divide; [lia|]. exists (a + 1 - K). unfold yy, absolute_zero_year, K. lia.
  - unfold year_start. rewrite D4, D100, D400, Y4, Y100, Y400. rewrite Z1. unfold K, days_to_1970, yy. lia.
Qed.
Lemma abs_date_ok abs : 0 <= abs -> exists y, let '(m, d) := abs_date abs in on_day (abs / 86400 - days_to_1970) (y, m, d) /\ 1 <= m <= 12 /\ 1 <= d <= 31.
Proof.
  intros Ha. unfold abs_date. pose proof (year_day_ok abs Ha) as H. destruct (year_day abs) as [y yday]. destruct H as [A B]. exists y. rewrite is_leap_ok. pose proof (month_day_ok y yday A) as M. destruct (month_day (leap_year y) yday) as [m d]. destruct M as [R M].
  split; [|destruct R; pose proof (length_28 y m); lia]. replace (abs / 86400 - days_to_1970) with (day_number (y, m, d)); [now apply day_number_on|]. cbn [day_number]. lia.
Qed.
(** * the texts *)
Lemma int_2 x : 0 <= x < 100 -> append_int x 0 = plain_number x /\ append_int x 2 = two_digits x.
Proof.
  intros H. unfold append_int, plain_number, two_digits. cbn [int_digits]. destruct (Z.leb_spec 10 x) as [C|C].
  - assert (0 <= x / 10 < 10) by (split; [apply Z.div_pos; lia|apply Z.div_lt_upper_bound; lia]). replace (10 <=? x / 10) with false by lia. replace (x <? 10) with false by lia. pose proof (Z.div_mod x 10 ltac:(lia)). replace (x - x / 10 * 10) with (x mod 10) by lia. split; reflexivity.
  - replace (x <? 10) with true by lia. rewrite Z.div_small, Z.mod_small by lia. split; reflexivity.
Qed.
Lemma unix_floor x : unix_seconds x = x / 1000000000.
Proof.
  unfold unix_seconds. destruct ((x <? 0) || (1000000000 <=? x)) eqn:E; [|symmetry; apply Z.div_small; lia].
  pose proof (Z.quot_rem x 1000000000 ltac:(lia)) as A. set (q := Z.quot x 1000000000) in *. set (r := Z.rem x 1000000000) in *.
  assert (B : (0 <= x -> 0 <= r < 1000000000) /\ (x <= 0 -> -1000000000 < r <= 0)).
  { split; intros Hx; unfold r; [apply Z.rem_bound_pos; lia|]. pose proof (Z.rem_bound_pos (- x) 1000000000 ltac:(lia) ltac:(lia)) as Q. rewrite Z.rem_opp_l in Q by lia. lia. }
  replace (x - q * 1000000000) with r by lia. destruct (Z.ltb_spec r 0) as [C|C]; [apply (Z.div_unique _ _ _ (r + 1000000000)); lia|apply (Z.div_unique _ _ _ r); lia].
Qed.
Lemma format_ok abs : 0 <= abs -> clock_text (abs - days_to_1970 * 86400) (format_time abs).
Proof.
  intros Ha. destruct (abs_date_ok abs Ha) as (y & H). unfold format_time. destruct (abs_date abs) as [m d]. destruct H as (A & Hm & Hd). exists y, m, d. split.
  - replace ((abs - days_to_1970 * 86400) / 86400) with (abs / 86400 - days_to_1970); [exact A|]. replace (abs - days_to_1970 * 86400) with (abs + (- days_to_1970) * 86400) by ring. rewrite Z.div_add by lia. ring.
  - unfold abs_clock, says_time. unfold seconds_per_day. assert (S : (abs - days_to_1970 * 86400) mod 86400 = abs mod 86400) by (replace (abs - days_to_1970 * 86400) with (abs + (- days_to_1970) * 86400) by ring; apply Z.mod_add; lia).
    assert (S2 : (abs - days_to_1970 * 86400) mod 3600 = abs mod 86400 - abs mod 86400 / 3600 * 3600).
    { rewrite <- S. set (l := abs - days_to_1970 * 86400). pose proof (Z.div_mod (l mod 86400) 3600 ltac:(lia)). assert (l mod 3600 = (l mod 86400) mod 3600); [|lia]. apply Znumtheory.Zmod_div_mod; [lia|lia|now exists 24]. }
    rewrite S, S2. pose proof (Z.mod_pos_bound abs 86400 ltac:(lia)) as Bd. set (s := abs mod 86400) in *. assert (0 <= s / 3600 < 24) by (split; [apply Z.div_pos; lia|apply Z.div_lt_upper_bound; lia]). pose proof (Z.div_mod s 3600 ltac:(lia)). pose proof (Z.mod_pos_bound s 3600 ltac:(lia)).
    assert (0 <= (s - s / 3600 * 3600) / 60 < 60) by (split; [apply Z.div_pos; lia|apply Z.div_lt_upper_bound; lia]).
    rewrite (proj1 (int_2 m ltac:(lia))), (proj1 (int_2 d ltac:(lia))), (proj2 (int_2 (s / 3600) ltac:(lia))), (proj2 (int_2 ((s - s / 3600 * 3600) / 60) ltac:(lia))). reflexivity.
Qed.
