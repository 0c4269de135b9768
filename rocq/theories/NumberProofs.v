(** The texts that [Number.v] reads. *)
From Coq Require Import ZArith Reals List Bool Lia.
From Coq Require Import Floats.SpecFloat.
From Verif Require Import Base Float Number NumberSpec.
Import ListNotations.
Open Scope Z_scope.

Lemma is_digit_true c : is_digit c = true <-> 48 <= c <= 57.
Proof. unfold is_digit. rewrite andb_true_iff, !Z.leb_le. tauto. Qed.
Lemma digits_then_eq ds : forall rest, digits ds -> (match rest with c :: _ => is_digit c = false | [] => True end) ->
  digits_then (ds ++ rest) = (ds, rest).
Proof.
  induction ds as [|c ds IH]; intros rest H R; cbn [app digits_then].
  - destruct rest as [|c r]; [reflexivity|]. cbn [digits_then]. now rewrite R.
  - inversion H as [|? ? Hc Hd]; subst. apply is_digit_true in Hc. rewrite Hc, (IH rest Hd R). reflexivity.
Qed.
Lemma digits_then_split s : forall a b, digits_then s = (a, b) ->
  s = a ++ b /\ digits a /\ (match b with c :: _ => is_digit c = false | [] => True end).
Proof.
  induction s as [|c s IH]; intros a b E; cbn [digits_then] in E.
  - injection E as <- <-. repeat split; constructor.
  - destruct (is_digit c) eqn:D.
    + destruct (digits_then s) as [a' b'] eqn:E'. injection E as <- <-. destruct (IH a' b' eq_refl) as (A & B & C).
      split; [cbn [app]; now rewrite <- A|split; [constructor; [now apply is_digit_true|assumption]|assumption]].
    + injection E as <- <-. split; [reflexivity|split; [constructor|assumption]].
Qed.
Lemma dec_fold ds : forall n, fold_left (fun n c => 10 * n + (c - 48)) ds n = n * 10 ^ Z.of_nat (length ds) + spelled ds.
Proof.
  induction ds as [|c ds IH]; intros n; cbn [fold_left spelled].
  - cbn [length]. change (10 ^ Z.of_nat 0) with 1. lia.
  - rewrite IH. cbn [length]. rewrite Nat2Z.inj_succ, Z.pow_succ_r by lia. ring.
Qed.
Lemma dec_value_spelled ds : dec_value ds = spelled ds.
Proof. unfold dec_value. rewrite dec_fold. lia. Qed.
Lemma spelled_bound ds : digits ds -> 0 <= spelled ds < 10 ^ Z.of_nat (length ds).
Proof.
  induction 1 as [|c ds Hc Hd IH]; cbn [spelled]; [cbn; lia|].
  cbn [length]. rewrite Nat2Z.inj_succ, Z.pow_succ_r by lia. assert (0 < 10 ^ Z.of_nat (length ds)) by (apply Z.pow_pos_nonneg; lia). nia.
Qed.
Lemma exp_fold ds : digits ds -> forall n, 0 <= n -> n * 10 ^ Z.of_nat (length ds) + spelled ds < 100000 ->
  fold_left (fun e c => if e <? 10000 then 10 * e + (c - 48) else e) ds n = n * 10 ^ Z.of_nat (length ds) + spelled ds.
Proof.
  induction 1 as [|c ds Hc Hd IH]; intros n Hn Hb; cbn [fold_left spelled] in *.
  - cbn [length]. change (10 ^ Z.of_nat 0) with 1. lia.
  - cbn [length] in *. rewrite Nat2Z.inj_succ, Z.pow_succ_r in * by lia. pose proof (spelled_bound ds Hd) as S.
    assert (P : 0 < 10 ^ Z.of_nat (length ds)) by (apply Z.pow_pos_nonneg; lia).
    destruct (Z.ltb_spec n 10000) as [L|L]; [|exfalso; nia].
    rewrite IH by nia. ring.
Qed.
Lemma exp_value_spelled ds : digits ds -> spelled ds < 100000 -> exp_value ds = spelled ds.
Proof. intros H B. unfold exp_value. rewrite (exp_fold ds H 0) by lia. lia. Qed.

Lemma read_sign_eq neg sg rest : signed neg sg -> (match rest with c :: _ => c <> 43 /\ c <> 45 | [] => True end) ->
  read_sign (sg ++ rest) = (neg, rest).
Proof.
  intros H R. destruct H; cbn [app read_sign]; try reflexivity.
  destruct rest as [|c r]; [reflexivity|]. destruct R as [A B]. cbn [read_sign]. now rewrite (proj2 (Z.eqb_neq _ _) A), (proj2 (Z.eqb_neq _ _) B).
Qed.
Lemma read_sign_split s neg rest : read_sign s = (neg, rest) -> exists sg, signed neg sg /\ s = sg ++ rest.
Proof.
  destruct s as [|c s]; cbn [read_sign]; intros E.
  - injection E as <- <-. exists []. split; [constructor|reflexivity].
  - destruct (Z.eqb_spec c 43) as [->|]; [injection E as <- <-; exists [43]; split; [constructor|reflexivity]|].
    destruct (Z.eqb_spec c 45) as [->|]; [injection E as <- <-; exists [45]; split; [constructor|reflexivity]|].
    injection E as <- <-. exists []. split; [constructor|reflexivity].
Qed.
Lemma digit_head ds c r : digits (c :: ds) -> r = (c :: ds) -> c <> 43 /\ c <> 45.
Proof. intros H _. inversion H; subst. lia. Qed.
Lemma lower_e c : to_lower c = 101 <-> c = 101 \/ c = 69.
Proof. unfold to_lower. destruct (Z.leb_spec 65 c), (Z.leb_spec c 90); cbn [andb]; lia. Qed.

(** the exponent that is read: its digits are cut at five *)
Inductive exponent_read : Z -> list Z -> Prop :=
| er_none : exponent_read 0 []
| er_some neg c sg ds : c = 101 \/ c = 69 -> signed neg sg -> digits ds -> ds <> [] ->
    exponent_read (if neg then - exp_value ds else exp_value ds) ([c] ++ sg ++ ds).
Lemma read_exponent_iff s e : read_exponent s = Some e <-> exponent_read e s.
Proof.
  split.
  - destruct s as [|c s]; cbn [read_exponent]; [intros E; injection E as <-; constructor|].
    destruct (Z.eqb_spec (to_lower c) 101) as [L|]; [|discriminate].
    destruct (read_sign s) as [neg s1] eqn:E1. destruct (digits_then s1) as [ds rest] eqn:E2.
    destruct ds as [|d ds]; [discriminate|]. destruct rest; [|discriminate]. intros E. injection E as <-.
    destruct (read_sign_split _ _ _ E1) as (sg & S & ->). destruct (digits_then_split _ _ _ E2) as (-> & D & _).
    rewrite app_nil_r. apply (er_some neg c sg (d :: ds)); [now apply lower_e|assumption..|discriminate].
  - intros H. destruct H as [|neg c sg ds Hc Hs Hd Hn]; [reflexivity|]. cbn [app read_exponent].
    apply lower_e in Hc. rewrite Hc. cbn [Z.eqb]. change (101 =? 101) with true. cbv iota.
    destruct ds as [|d ds]; [congruence|]. rewrite (read_sign_eq neg sg (d :: ds) Hs) by (apply (digit_head ds d (d :: ds) Hd eq_refl)).
    rewrite <- (app_nil_r (d :: ds)) at 1. rewrite (digits_then_eq (d :: ds) [] Hd I). reflexivity.
Qed.
Lemma exponent_small e s : exponent e s -> Z.abs e < 100000 -> exponent_read e s.
Proof.
  intros H B. destruct H as [|neg c sg ds Hc Hs Hd Hn]; [constructor|]. pose proof (spelled_bound ds Hd) as S.
  assert (E : exp_value ds = spelled ds) by (apply exp_value_spelled; [assumption|destruct neg; lia]).
  rewrite <- E. now constructor.
Qed.
Lemma exponent_text e s : exponent_read e s -> exists e', exponent e' s /\ (Z.abs e' < 100000 -> e' = e).
Proof.
  intros H. destruct H as [|neg c sg ds Hc Hs Hd Hn]; [exists 0; split; [constructor|reflexivity]|].
  exists (if neg then - spelled ds else spelled ds). split; [now constructor|]. pose proof (spelled_bound ds Hd) as S. intros B.
  rewrite exp_value_spelled; [reflexivity|assumption|destruct neg; lia].
Qed.
Lemma exponent_head e s : exponent e s -> match s with c :: _ => is_digit c = false /\ c <> 46 | [] => True end.
Proof. intros H. destruct H as [|neg c sg ds Hc Hs Hd Hn]; [exact I|]. cbn [app]. split; [|lia]. unfold is_digit. destruct Hc; subst; reflexivity. Qed.
Lemma exponent_read_head e s : exponent_read e s -> match s with c :: _ => is_digit c = false /\ c <> 46 | [] => True end.
Proof. intros H. destruct (exponent_text _ _ H) as (e' & H' & _). now apply exponent_head in H'. Qed.

Lemma read_number_complete sg neg ip dot fp e ex : signed neg sg -> digits ip -> digits fp -> ip ++ fp <> [] ->
  (dot = [46] \/ dot = [] /\ fp = []) -> exponent_read e ex ->
  read_number (sg ++ ip ++ dot ++ fp ++ ex) = Some (neg, spelled (ip ++ fp), e - Z.of_nat (length fp)).
Proof.
  intros Hs Hi Hf Hn Hd He. pose proof (exponent_read_head _ _ He) as Hh. unfold read_number.
  rewrite (read_sign_eq neg sg _ Hs).
  2:{ destruct ip as [|c ip]; [|apply (digit_head ip c (c :: ip) Hi eq_refl)].
      destruct Hd as [->|[-> ->]]; [cbn [app]; lia|cbn in Hn; congruence]. }
  assert (K : (match dot ++ fp ++ ex with c :: _ => is_digit c = false | [] => True end)).
  { destruct Hd as [->|[-> ->]]; [reflexivity|]. cbn [app]. destruct ex; [exact I|apply Hh]. }
  rewrite (digits_then_eq ip _ Hi K).
  assert (E : (match dot ++ fp ++ ex with c :: s2' => if c =? 46 then digits_then s2' else ([], dot ++ fp ++ ex) | [] => ([], dot ++ fp ++ ex) end) = (fp, ex)).
  { destruct Hd as [->|[-> ->]].
    - cbn [app]. change (46 =? 46) with true. cbv iota. apply digits_then_eq; [assumption|]. destruct ex; [exact I|apply Hh].
    - cbn [app]. destruct ex as [|c ex]; [reflexivity|]. destruct Hh as [_ Hh]. now rewrite (proj2 (Z.eqb_neq _ _) Hh). }
  rewrite E. destruct (ip ++ fp) as [|c l] eqn:En; [congruence|]. rewrite <- En. rewrite (proj2 (read_exponent_iff ex e) He), dec_value_spelled. reflexivity.
Qed.
Lemma read_number_sound s neg m k : read_number s = Some (neg, m, k) ->
  exists sg ip dot fp e ex, s = sg ++ ip ++ dot ++ fp ++ ex /\ signed neg sg /\ digits ip /\ digits fp /\ ip ++ fp <> [] /\
    (dot = [46] \/ dot = [] /\ fp = []) /\ exponent_read e ex /\ m = spelled (ip ++ fp) /\ k = e - Z.of_nat (length fp).
Proof.
  unfold read_number. destruct (read_sign s) as [neg' s1] eqn:E1. destruct (digits_then s1) as [ip s2] eqn:E2.
  destruct (read_sign_split _ _ _ E1) as (sg & S & ->). destruct (digits_then_split _ _ _ E2) as (-> & Di & Hh).
  intros E. destruct s2 as [|c s2].
  - rewrite app_nil_r in *. destruct ip as [|d ip]; [discriminate|]. cbn [read_exponent] in E. injection E as <- <- <-.
    exists sg, (d :: ip), [], [], 0, []. rewrite !app_nil_r, dec_value_spelled. repeat split; auto using er_none; try constructor; discriminate.
  - destruct (Z.eqb_spec c 46) as [->|N].
    + destruct (digits_then s2) as [fp s3] eqn:E3. destruct (digits_then_split _ _ _ E3) as (-> & Df & _).
      destruct (ip ++ fp) as [|d l] eqn:En; [discriminate|]. rewrite <- En in *. destruct (read_exponent s3) as [e|] eqn:E4; [|discriminate].
      injection E as <- <- <-. apply read_exponent_iff in E4. exists sg, ip, [46], fp, e, s3. rewrite dec_value_spelled.
      repeat split; auto. rewrite En. discriminate.
    + rewrite app_nil_r in E. destruct ip as [|d ip]; [discriminate|]. destruct (read_exponent (c :: s2)) as [e|] eqn:E4; [|discriminate].
      injection E as <- <- <-. apply read_exponent_iff in E4. exists sg, (d :: ip), [], [], e, (c :: s2). rewrite !app_nil_r, dec_value_spelled.
      repeat split; auto; try constructor; discriminate.
Qed.

(** the words *)
Lemma same_letters_lower s t : Forall (fun d => 97 <= d <= 122) t -> (same_letters s t <-> map to_lower s = t).
Proof.
  intros Ht. split.
  - intros H. revert Ht. induction H as [|c d s t Hc _ IH]; intros Ht; [reflexivity|]. inversion Ht; subst. cbn [map]. f_equal; [|auto].
    unfold to_lower. destruct (Z.leb_spec 65 c), (Z.leb_spec c 90); cbn [andb]; lia.
  - revert t Ht. induction s as [|c s IH]; intros t Ht E; cbn [map] in E; subst t; [constructor|].
    inversion Ht; subst. constructor; [|apply IH; auto]. unfold to_lower in *. destruct (Z.leb_spec 65 c), (Z.leb_spec c 90); cbn [andb] in *; lia.
Qed.
Lemma beqb_true a b : beqb a b = true <-> a = b.
Proof. apply beqb_eq. Qed.
Lemma letters_inf : Forall (fun d => 97 <= d <= 122) word_inf.
Proof. repeat (apply Forall_cons; [lia|]). apply Forall_nil. Qed.
Lemma letters_infinity : Forall (fun d => 97 <= d <= 122) word_infinity.
Proof. repeat (apply Forall_cons; [lia|]). apply Forall_nil. Qed.
Lemma letters_nan : Forall (fun d => 97 <= d <= 122) word_nan.
Proof. repeat (apply Forall_cons; [lia|]). apply Forall_nil. Qed.
Lemma signed_lower neg sg s x t : signed neg sg -> map to_lower (sg ++ s) = x :: t -> x = (if neg then 45 else 43) \/ sg = [] /\ map to_lower s = x :: t.
Proof. intros H E. destruct H; cbn [app map] in E; auto; injection E as <- _; left; reflexivity. Qed.
Lemma lower_sign_head c t : (t = 43 \/ t = 45) -> to_lower c = t <-> c = t.
Proof. intros H. unfold to_lower. destruct (Z.leb_spec 65 c), (Z.leb_spec c 90); cbn [andb]; lia. Qed.
Lemma map_lower_cons s x t : (x = 43 \/ x = 45) -> (map to_lower s = x :: t <-> exists s', s = x :: s' /\ map to_lower s' = t).
Proof.
  intros H. destruct s as [|c s]; cbn [map].
  - split; [discriminate|intros (s' & E & _); discriminate].
  - split.
    + intros E. injection E as E1 E2. apply (proj1 (lower_sign_head c x H)) in E1. subst. eauto.
    + intros (s' & E & <-). injection E as -> ->. f_equal. now apply lower_sign_head.
Qed.
Definition inf_letters (s : list Z) : Prop := map to_lower s = word_inf \/ map to_lower s = word_infinity.
Lemma infinite_word_iff neg s : infinite_word neg s <-> exists sg s', signed neg sg /\ s = sg ++ s' /\ inf_letters s'.
Proof.
  split.
  - intros H. destruct H as [neg sg s Hs H]. exists sg, s. split; [assumption|split; [reflexivity|]]. destruct H as [H|H].
    + left. now apply (same_letters_lower s word_inf letters_inf).
    + right. now apply (same_letters_lower s word_infinity letters_infinity).
  - intros (sg & s' & Hs & -> & H). constructor; [assumption|]. destruct H as [H|H].
    + left. now apply (same_letters_lower s' word_inf letters_inf).
    + right. now apply (same_letters_lower s' word_infinity letters_infinity).
Qed.
Lemma read_word_iff s f : read_word s = Some f <->
  (exists neg, f = S754_infinity neg /\ infinite_word neg s) \/ (f = S754_nan /\ nan_word s).
Proof.
  assert (P : forall neg, infinite_word neg s <-> match neg with
    | false => inf_letters s \/ (map to_lower s = 43 :: word_inf \/ map to_lower s = 43 :: word_infinity)
    | true => map to_lower s = 45 :: word_inf \/ map to_lower s = 45 :: word_infinity end).
  { intros neg. rewrite infinite_word_iff. split.
    - intros (sg & s' & Hs & -> & H). destruct Hs; cbn [app map].
      + now left.
      + right. change (to_lower 43) with 43. destruct H as [-> | ->]; auto.
      + change (to_lower 45) with 45. destruct H as [-> | ->]; auto.
    - intros H. destruct neg.
      + assert (exists s', s = 45 :: s' /\ inf_letters s') as (s' & -> & L).
        { destruct H as [H|H]; apply (map_lower_cons s 45 _ (or_intror eq_refl)) in H; destruct H as (s' & -> & E); exists s'; split; try reflexivity; [left|right]; assumption. }
        exists [45], s'. repeat split; [constructor|assumption].
      + destruct H as [H|H]; [exists [], s; repeat split; [constructor|assumption]|].
        assert (exists s', s = 43 :: s' /\ inf_letters s') as (s' & -> & L).
        { destruct H as [H|H]; apply (map_lower_cons s 43 _ (or_introl eq_refl)) in H; destruct H as (s' & -> & E); exists s'; split; try reflexivity; [left|right]; assumption. }
        exists [43], s'. repeat split; [constructor|assumption]. }
  assert (N : nan_word s <-> map to_lower s = word_nan) by (apply (same_letters_lower s word_nan letters_nan)).
  unfold read_word. set (t := map to_lower s) in *.
  destruct (beqb t word_inf || beqb t (43 :: word_inf) || beqb t word_infinity || beqb t (43 :: word_infinity)) eqn:A.
  - rewrite !orb_true_iff, !beqb_true in A. assert (I : infinite_word false s) by (apply P; unfold inf_letters; fold t; tauto).
    split; [intros E; injection E as <-; left; exists false; auto|].
    intros [(neg & -> & H)|[-> H]].
    + destruct neg; [|reflexivity]. apply P in H. unfold word_inf, word_infinity in *. exfalso. destruct A as [[[A|A]|A]|A], H as [H|H]; rewrite A in H; discriminate H.
    + apply N in H. exfalso. unfold word_inf, word_infinity, word_nan in *. destruct A as [[[A|A]|A]|A]; rewrite A in H; discriminate H.
  - rewrite !orb_false_iff in A. assert (A' : ~ infinite_word false s).
    { intros H. apply P in H. unfold inf_letters in H. fold t in H. rewrite <- !beqb_true in H. destruct A as [[[A1 A2] A3] A4].
      rewrite A1, A2, A3, A4 in H. destruct H as [[H|H]|[H|H]]; discriminate H. }
    destruct (beqb t (45 :: word_inf) || beqb t (45 :: word_infinity)) eqn:B.
    + rewrite orb_true_iff, !beqb_true in B. assert (I : infinite_word true s) by (apply P; tauto).
      split; [intros E; injection E as <-; left; exists true; auto|].
      intros [(neg & -> & H)|[-> H]]; [destruct neg; [reflexivity|contradiction]|].
      apply N in H. exfalso. unfold word_inf, word_infinity, word_nan in *. destruct B as [B|B]; rewrite B in H; discriminate H.
    + rewrite orb_false_iff in B. assert (B' : ~ infinite_word true s).
      { intros H. apply P in H. rewrite <- !beqb_true in H. destruct B as [B1 B2]. rewrite B1, B2 in H. destruct H as [H|H]; discriminate H. }
      destruct (beqb t word_nan) eqn:C.
      * apply beqb_true in C. split; [intros E; injection E as <-; right; split; [reflexivity|now apply N]|].
        intros [(neg & -> & H)|[-> H]]; [destruct neg; contradiction|reflexivity].
      * split; [discriminate|]. intros [(neg & -> & H)|[-> H]]; [destruct neg; contradiction|]. apply N in H. apply beqb_true in H. congruence.
Qed.
(** a number is no word *)
Lemma numeral_not_word s neg m k : read_number s = Some (neg, m, k) -> read_word s = None.
Proof.
  intros H. destruct (read_word s) as [f|] eqn:E; [|reflexivity]. exfalso.
  destruct (read_number_sound _ _ _ _ H) as (sg & ip & dot & fp & e & ex & -> & Hs & Hi & Hf & Hn & Hd & _).
  assert (X : exists c r, ip ++ dot ++ fp ++ ex = c :: r /\ (48 <= c <= 57 \/ c = 46)).
  { destruct ip as [|c ip]; [|exists c, (ip ++ dot ++ fp ++ ex); split; [reflexivity|left; now inversion Hi]].
    destruct Hd as [->|[-> ->]]; [exists 46, (fp ++ ex); auto|now contradict Hn]. }
  destruct X as (c & r & X & Hc). rewrite X in *.
  assert (L : to_lower c = c) by (unfold to_lower; destruct (Z.leb_spec 65 c), (Z.leb_spec c 90); cbn [andb]; lia).
  unfold read_word, word_inf, word_infinity, word_nan in E.
  assert (T : map to_lower (sg ++ c :: r) = sg ++ c :: map to_lower r) by (rewrite map_app; cbn [map]; rewrite L; f_equal; destruct Hs; reflexivity).
  rewrite T in E.
  assert (Y : forall x, x = 105 \/ x = 110 -> (c =? x) = false) by (intros x [->| ->]; apply Z.eqb_neq; lia).
  assert (Y' : (c =? 43) = false /\ (c =? 45) = false) by (split; apply Z.eqb_neq; lia). destruct Y' as [Y1 Y2].
  destruct Hs; cbn [app] in E.
  all: cbn [beqb] in E. all: rewrite ?(Y 105), ?(Y 110), ?Y1, ?Y2 in E by auto. all: cbn in E; discriminate E.
Qed.
