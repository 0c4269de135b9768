(** Property C46: the CDF estimate. *)
From Coq Require Import ZArith List Bool Lia.
From Coq Require Import Floats.SpecFloat.
From Verif Require Import Base Float FloatProofs Merge DrawSpec Cdf CdfSpec.
Import ListNotations.
Open Scope Z_scope.

Definition sfsame (a b : spec_float) : bool :=
  match a, b with
  | S754_zero s, S754_zero s' => Bool.eqb s s'
  | S754_infinity s, S754_infinity s' => Bool.eqb s s'
  | S754_nan, S754_nan => true
  | S754_finite s m e, S754_finite s' m' e' => Bool.eqb s s' && Pos.eqb m m' && (e =? e')
  | _, _ => false
  end.
Lemma sfsame_eq a b : sfsame a b = true -> a = b.
Proof.
  destruct a, b; cbn; try discriminate; try reflexivity.
  - intros H. apply eqb_prop in H. now subst.
  - intros H. apply eqb_prop in H. now subst.
  - intros H. apply andb_true_iff in H. destruct H as [H H3]. apply andb_true_iff in H. destruct H as [H1 H2].
    apply eqb_prop in H1. apply Pos.eqb_eq in H2. apply Z.eqb_eq in H3. now subst.
Qed.
Definition upto n := map Z.of_nat (seq 0 n).
Lemma in_upto n k : 0 <= k < Z.of_nat n -> In k (upto n).
Proof. intros H. apply in_map_iff. exists (Z.to_nat k). split; [lia|apply in_seq; lia]. Qed.
Lemma table2 (f : Z -> Z -> bool) : forallb (fun a => forallb (f a) (upto 129)) (upto 129) = true ->
  forall a b, 0 <= a <= 128 -> 0 <= b <= 128 -> f a b = true.
Proof.
  intros A a b Ha Hb. rewrite forallb_forall in A. specialize (A a (in_upto 129 a ltac:(lia))). rewrite forallb_forall in A. exact (A b (in_upto 129 b ltac:(lia))).
Qed.
Lemma half_k128 a b : 0 <= a <= 128 -> 0 <= b <= 128 -> (a + b) mod 2 = 0 -> f_half (k128 a) (k128 b) = k128 ((a + b) / 2).
Proof.
  intros Ha Hb E.
  assert (A := table2 (fun a b => if (a + b) mod 2 =? 0 then sfsame (f_half (k128 a) (k128 b)) (k128 ((a + b) / 2)) else true) ltac:(vm_compute; reflexivity) a b Ha Hb).
  cbv beta in A. rewrite E in A. cbn match in A. now apply sfsame_eq in A.
Qed.
Lemma k128_order a b : 0 <= a <= 128 -> 0 <= b <= 128 -> SFeqb (k128 a) (k128 b) = (a =? b) /\ SFleb (k128 a) (k128 b) = (a <=? b).
Proof.
  intros Ha Hb.
  assert (A := table2 (fun a b => Bool.eqb (SFeqb (k128 a) (k128 b)) (a =? b) && Bool.eqb (SFleb (k128 a) (k128 b)) (a <=? b)) ltac:(vm_compute; reflexivity) a b Ha Hb).
  cbv beta in A. apply andb_true_iff in A. destruct A as [A B]. apply eqb_prop in A, B. auto.
Qed.

Lemma fle_not_nan a b : fle a b = true -> fnan a = false /\ fnan b = false.
Proof.
  unfold fle, SFleb, fnan. destruct (fdecode a), (fdecode b); cbn; try discriminate; auto.
Qed.
Lemma fle_trans a b c : fle a b = true -> fle b c = true -> fle a c = true.
Proof.
  intros H K. destruct (fle_not_nan _ _ H) as [Na Nb]. destruct (fle_not_nan _ _ K) as [_ Nc].
  rewrite fle_key in * by assumption. lia.
Qed.
Lemma fle_refl a : fnan a = false -> fle a a = true.
Proof. intros Na. rewrite fle_key by assumption. apply Z.leb_refl. Qed.

Section Fresh.
  Context {T : Type} (D : digest T) (td : T).
  Let Q q := dg_quantile D td q.
  Definition fresh (w : wrapper T) : Prop :=
    w_td w = td /\ Forall (fun e => exists k, 0 <= k <= 128 /\ fst e = k128 k /\ snd e = dg_quantile D td (k128 k)) (w_cache w).
  Lemma fresh_quan k w : 0 <= k <= 128 -> fresh w -> fst (w_quan D (k128 k) w) = Q (k128 k) /\ fresh (snd (w_quan D (k128 k) w)).
  Proof.
    intros Hk [E F]. unfold w_quan.
    assert (L : forall v, clookup (k128 k) (w_cache w) = Some v -> v = Q (k128 k)).
    { clear E. induction F as [|[q v] l (j & Hj & Ej & Ev) F IH]; cbn [clookup]; [discriminate|]. cbn [fst snd] in *. subst q.
      destruct (k128_order j k Hj Hk) as [O _]. rewrite O. destruct (Z.eqb_spec j k) as [->|]; [intros v' E; injection E as <-; exact Ev|exact IH]. }
    destruct (clookup (k128 k) (w_cache w)) as [v|]; cbn [fst snd].
    - split; [now apply L|split; assumption].
    - rewrite E. split; [reflexivity|]. split; [reflexivity|]. cbn [w_cache]. constructor; [exists k; auto|exact F].
  Qed.
  (** the bisection on fractions of 128 *)
  Fixpoint bis (n : nat) (x a b : Z) : Z :=
    match n with
    | O => (a + b) / 2
    | S n' => let m := (a + b) / 2 in if fle (Q (k128 m)) x then bis n' x m b else bis n' x a m
    end.
  Lemma bisect_bis n : forall x a b w, 0 <= a -> b <= 128 -> b - a = 2 ^ Z.of_nat (S n) -> fresh w ->
    fst (bisect D n x (k128 a) (k128 b) w) = k128 (bis n x a b) /\ fresh (snd (bisect D n x (k128 a) (k128 b) w)).
  Proof.
    induction n as [|n IH]; intros x a b w Ha Hb Hab F; cbn [bisect bis].
    - change (2 ^ Z.of_nat 1) with 2 in Hab. cbn [fst snd]. split; [apply half_k128; try lia|exact F].
      replace (a + b) with ((a + 1) * 2) by lia. apply Z.mod_mul. lia.
    - rewrite Nat2Z.inj_succ, Z.pow_succ_r in Hab by lia.
      assert (P : 2 <= 2 ^ Z.of_nat (S n)) by (rewrite Nat2Z.inj_succ, Z.pow_succ_r by lia; pose proof (Z.pow_pos_nonneg 2 (Z.of_nat n)); lia).
      assert (M : (a + b) / 2 = a + 2 ^ Z.of_nat (S n)) by (replace (a + b) with ((a + 2 ^ Z.of_nat (S n)) * 2) by lia; apply Z.div_mul; lia).
      rewrite half_k128 by (try lia; replace (a + b) with ((a + 2 ^ Z.of_nat (S n)) * 2) by lia; apply Z.mod_mul; lia).
      destruct (fresh_quan ((a + b) / 2) w ltac:(lia) F) as [E F']. destruct (w_quan D (k128 ((a + b) / 2)) w) as [v w']. cbn [fst snd] in *. subst v.
      destruct (fle (Q (k128 ((a + b) / 2))) x); apply IH; try assumption; lia.
  Qed.
  Definition cdf (x : Z) : Z := if fle x (Q (k128 0)) then 0 else if fle (Q (k128 128)) x then 128 else bis 6 x 0 128.
  Lemma cdf_eq x w : fresh w -> fst (w_cdf D x w) = k128 (cdf x) /\ fresh (snd (w_cdf D x w)).
  Proof.
    intros F. unfold w_cdf, cdf. change (S754_zero false) with (k128 0). change (f_of_int 1) with (k128 128).
    destruct (fresh_quan 0 w ltac:(lia) F) as [E1 F1]. destruct (w_quan D (k128 0) w) as [v1 w1]. cbn [fst snd] in *. subst v1.
    destruct (fresh_quan 128 w1 ltac:(lia) F1) as [E2 F2]. destruct (w_quan D (k128 128) w1) as [v2 w2]. cbn [fst snd] in *. subst v2.
    destruct (fle x (Q (k128 0))); [auto|]. destruct (fle (Q (k128 128)) x); [auto|]. apply bisect_bis; auto; lia.
  Qed.
  Lemma settled_fresh w : settled D td w -> fresh w.
  Proof. induction 1 as [|w x _ IH]; [split; [reflexivity|constructor]|]. now apply cdf_eq. Qed.
  Lemma bis_range n : forall x a b, 0 <= a -> b <= 128 -> b - a = 2 ^ Z.of_nat (S n) -> a < bis n x a b < b.
  Proof.
    induction n as [|n IH]; intros x a b Ha Hb Hab; cbn [bis].
    - change (2 ^ Z.of_nat 1) with 2 in Hab. replace (a + b) with ((a + 1) * 2) by lia. rewrite Z.div_mul; lia.
    - rewrite Nat2Z.inj_succ, Z.pow_succ_r in Hab by lia. pose proof (Z.pow_pos_nonneg 2 (Z.of_nat (S n)) ltac:(lia) ltac:(lia)) as P.
      assert (M : (a + b) / 2 = a + 2 ^ Z.of_nat (S n)) by (replace (a + b) with ((a + 2 ^ Z.of_nat (S n)) * 2) by lia; apply Z.div_mul; lia).
      destruct (fle (Q (k128 ((a + b) / 2))) x); [specialize (IH x ((a + b) / 2) b)|specialize (IH x a ((a + b) / 2))]; lia.
  Qed.
  (** the result [r] brackets [x]: quantile (r-1)/128 is at most [x] (or r-1 is
      the start) and quantile (r+1)/128 is not (or r+1 is the end) *)
  Lemma bis_bracket n : forall x a b, 0 <= a -> b <= 128 -> b - a = 2 ^ Z.of_nat (S n) ->
    (bis n x a b - 1 = a \/ fle (Q (k128 (bis n x a b - 1))) x = true) /\
    (bis n x a b + 1 = b \/ fle (Q (k128 (bis n x a b + 1))) x = false).
  Proof.
    induction n as [|n IH]; intros x a b Ha Hb Hab; cbn [bis].
    - change (2 ^ Z.of_nat 1) with 2 in Hab. replace (a + b) with ((a + 1) * 2) by lia. rewrite Z.div_mul by lia. split; left; lia.
    - rewrite Nat2Z.inj_succ, Z.pow_succ_r in Hab by lia. pose proof (Z.pow_pos_nonneg 2 (Z.of_nat (S n)) ltac:(lia) ltac:(lia)) as P.
      assert (M : (a + b) / 2 = a + 2 ^ Z.of_nat (S n)) by (replace (a + b) with ((a + 2 ^ Z.of_nat (S n)) * 2) by lia; apply Z.div_mul; lia).
      destruct (fle (Q (k128 ((a + b) / 2))) x) eqn:E.
      + destruct (IH x ((a + b) / 2) b ltac:(lia) ltac:(lia) ltac:(lia)) as [A B]. split; [|exact B]. right. destruct A as [A|A]; [now rewrite A|exact A].
      + destruct (IH x a ((a + b) / 2) ltac:(lia) ltac:(lia) ltac:(lia)) as [A B]. split; [exact A|]. right. destruct B as [B|B]; [now rewrite B|exact B].
  Qed.
  Lemma bis_odd n : forall x a b, 0 <= a -> b - a = 2 ^ Z.of_nat (S n) -> a mod 2 = 0 -> bis n x a b mod 2 = 1.
  Proof.
    induction n as [|n IH]; intros x a b Ha Hab E; cbn [bis].
    - change (2 ^ Z.of_nat 1) with 2 in Hab. replace (a + b) with ((a + 1) * 2) by lia. rewrite Z.div_mul by lia. rewrite Zplus_mod, E. reflexivity.
    - rewrite Nat2Z.inj_succ, Z.pow_succ_r in Hab by lia. pose proof (Z.pow_pos_nonneg 2 (Z.of_nat (S n)) ltac:(lia) ltac:(lia)) as P.
      assert (M : (a + b) / 2 = a + 2 ^ Z.of_nat (S n)) by (replace (a + b) with ((a + 2 ^ Z.of_nat (S n)) * 2) by lia; apply Z.div_mul; lia).
      destruct (fle (Q (k128 ((a + b) / 2))) x); apply IH; try lia. rewrite M. rewrite Nat2Z.inj_succ, Z.pow_succ_r by lia.
      rewrite Zplus_mod, E, (Z.mul_comm 2), Z.mod_mul by lia. reflexivity.
  Qed.
End Fresh.

(** * C46 *)
(** Whatever the digest, the estimate is k/128 for some k from 0 to 128. *)
Theorem C46_dyadic :
  forall T (D : digest T) td w x, settled D td w ->
  exists k, 0 <= k <= 128 /\ fst (w_cdf D x w) = k128 k.
Proof.
  intros T D td w x S. exists (cdf D td x). split; [|now apply cdf_eq, settled_fresh].
  unfold cdf. destruct (fle x _); [lia|]. destruct (fle _ x); [lia|]. pose proof (bis_range D td 6 x 0 128 ltac:(lia) ltac:(lia) eq_refl). lia.
Qed.
(** It is monotone when the quantile function is. *)
Theorem C46_monotone :
  forall T (D : digest T) td w w' x x', settled D td w -> settled D td w' ->
  monotone_quantile (dg_quantile D td) -> fle x x' = true ->
  SFleb (fst (w_cdf D x w)) (fst (w_cdf D x' w')) = true.
Proof.
  intros T D td w w' x x' S S' Mq L. destruct (cdf_eq D td x w (settled_fresh D td w S)) as [-> _]. destruct (cdf_eq D td x' w' (settled_fresh D td w' S')) as [-> _].
  assert (R : forall x, 0 <= cdf D td x <= 128).
  { intros y. unfold cdf. destruct (fle y _); [lia|]. destruct (fle _ y); [lia|]. pose proof (bis_range D td 6 y 0 128 ltac:(lia) ltac:(lia) eq_refl). lia. }
  destruct (k128_order (cdf D td x) (cdf D td x') (R x) (R x')) as [_ ->]. apply Z.leb_le.
  unfold cdf. destruct (fle x (dg_quantile D td (k128 0))) eqn:E1.
  { specialize (R x'). unfold cdf in R. lia. }
  destruct (fle x' (dg_quantile D td (k128 0))) eqn:E1'; [rewrite (fle_trans _ _ _ L E1') in E1; discriminate|].
  destruct (fle (dg_quantile D td (k128 128)) x') eqn:E2'.
  { specialize (R x). unfold cdf in R. rewrite E1 in R. lia. }
  destruct (fle (dg_quantile D td (k128 128)) x) eqn:E2; [rewrite (fle_trans _ _ _ E2 L) in E2'; discriminate|].
  destruct (Z.le_gt_cases (bis D td 6 x 0 128) (bis D td 6 x' 0 128)) as [K|K]; [exact K|exfalso].
  pose proof (bis_range D td 6 x 0 128 ltac:(lia) ltac:(lia) eq_refl) as B. pose proof (bis_range D td 6 x' 0 128 ltac:(lia) ltac:(lia) eq_refl) as B'.
  destruct (bis_bracket D td 6 x 0 128 ltac:(lia) ltac:(lia) eq_refl) as [[A|A] _]; [lia|].
  destruct (bis_bracket D td 6 x' 0 128 ltac:(lia) ltac:(lia) eq_refl) as [_ [A'|A']]; [lia|].
  pose proof (bis_odd D td 6 x 0 128 ltac:(lia) eq_refl eq_refl) as O. pose proof (bis_odd D td 6 x' 0 128 ltac:(lia) eq_refl eq_refl) as O'.
  set (k := bis D td 6 x 0 128) in *. set (k' := bis D td 6 x' 0 128) in *.
  assert (k' + 1 <= k - 1) by (pose proof (Z.div_mod k 2); pose proof (Z.div_mod k' 2); lia).
  assert (M1 : fle (dg_quantile D td (k128 (k' + 1))) (dg_quantile D td (k128 (k - 1))) = true).
  { apply Mq. destruct (k128_order (k' + 1) (k - 1) ltac:(lia) ltac:(lia)) as [_ ->]. lia. }
  rewrite (fle_trans _ _ _ (fle_trans _ _ _ M1 A) L) in A'. discriminate.
Qed.
(** It is accurate to 1/128: [x] lies between the quantiles at k-1 and k+1. *)
Theorem C46_accurate :
  forall T (D : digest T) td w x k, settled D td w -> 0 <= k <= 128 -> fst (w_cdf D x w) = k128 k ->
  (0 < k -> k < 128 -> k - 1 = 0 \/ fle (dg_quantile D td (k128 (k - 1))) x = true) /\
  (k < 128 -> 0 < k -> k + 1 = 128 \/ fle (dg_quantile D td (k128 (k + 1))) x = false) /\
  (k = 0 -> fle x (dg_quantile D td (k128 0)) = true) /\ (k = 128 -> fle (dg_quantile D td (k128 128)) x = true).
Proof.
  intros T D td w x k S Hk E. destruct (cdf_eq D td x w (settled_fresh D td w S)) as [E' _]. rewrite E in E'.
  assert (R : 0 <= cdf D td x <= 128).
  { unfold cdf. destruct (fle x _); [lia|]. destruct (fle _ x); [lia|]. pose proof (bis_range D td 6 x 0 128 ltac:(lia) ltac:(lia) eq_refl). lia. }
  assert (k = cdf D td x).
  { destruct (k128_order k (cdf D td x) Hk R) as [O _]. rewrite E' in O. destruct (k128_order (cdf D td x) (cdf D td x) R R) as [O' _]. rewrite O' in O. rewrite Z.eqb_refl in O. symmetry in O. now apply Z.eqb_eq in O. }
  pose proof (bis_range D td 6 x 0 128 ltac:(lia) ltac:(lia) eq_refl) as B. destruct (bis_bracket D td 6 x 0 128 ltac:(lia) ltac:(lia) eq_refl) as [A A'].
  unfold cdf in H. destruct (fle x (dg_quantile D td (k128 0))) eqn:E1; [|destruct (fle (dg_quantile D td (k128 128)) x) eqn:E2].
  - subst k. repeat split; intros; try lia; auto.
  - subst k. repeat split; intros; try lia; auto.
  - subst k. split; [intros; exact A|]. split; [intros; exact A'|]. split; lia.
Qed.
(** In every history of observations and estimates, a Query answers the quantile
    of the digest of exactly the values observed, in order: estimates, and the
    memo they leave, have no influence. *)
Lemma w_quan_td {T} (D : digest T) x w : w_td (snd (w_quan D x w)) = w_td w.
Proof. unfold w_quan. destruct (clookup x (w_cache w)); reflexivity. Qed.
Lemma bisect_td {T} (D : digest T) n : forall x a b w, w_td (snd (bisect D n x a b w)) = w_td w.
Proof.
  induction n as [|n IH]; intros x a b w; cbn [bisect]; [reflexivity|].
  pose proof (w_quan_td D (f_half a b) w) as E. destruct (w_quan D (f_half a b) w) as [v w']. cbn [snd] in E. destruct (fle v x); now rewrite IH.
Qed.
Lemma w_cdf_td {T} (D : digest T) x w : w_td (snd (w_cdf D x w)) = w_td w.
Proof.
  unfold w_cdf. pose proof (w_quan_td D (S754_zero false) w) as E. destruct (w_quan D (S754_zero false) w) as [v w1]. cbn [snd] in E.
  pose proof (w_quan_td D (f_of_int 1) w1) as E'. destruct (w_quan D (f_of_int 1) w1) as [v' w2]. cbn [snd] in E'.
  destruct (fle x v); [cbn [snd]; congruence|]. destruct (fle v' x); [cbn [snd]; congruence|]. rewrite bisect_td. congruence.
Qed.
Lemma uses_td {T} (D : digest T) l : forall w, w_td (uses D l w) = fold_left (dg_add D) (observed l) (w_td w).
Proof.
  induction l as [|u l IH]; intros w; [reflexivity|]. change (uses D (u :: l) w) with (uses D l (use1 D w u)). rewrite IH.
  destruct u as [v|x]; cbn [use1 observed flat_map app fold_left]; [reflexivity|]. now rewrite w_cdf_td.
Qed.
Theorem C46_query :
  forall T (D : digest T) td l q,
  w_query D q (uses D l (wrap td)) = dg_quantile D (fold_left (dg_add D) (observed l) td) q.
Proof. intros T D td l q. unfold w_query. now rewrite uses_td. Qed.
(** As long as every observation precedes every estimate, the wrapper is settled
    (the hypothesis of the theorems above) on the digest of all the values. *)
Theorem C46_observe_first :
  forall T (D : digest T) td vs xs,
  settled D (fold_left (dg_add D) vs td) (uses D (map UObserve vs ++ map UCdf xs) (wrap td)).
Proof.
  intros T D td vs xs. unfold uses. rewrite fold_left_app.
  assert (E : forall vs td, fold_left (use1 D) (map UObserve vs) (wrap td) = wrap (fold_left (dg_add D) vs td)).
  { clear. induction vs as [|v vs IH]; intros td; [reflexivity|]. cbn [map fold_left use1]. unfold w_observe, wrap at 1 2. cbn [w_td w_cache]. exact (IH _). }
  rewrite E. generalize (st_new D (fold_left (dg_add D) vs td)). generalize (wrap (fold_left (dg_add D) vs td)).
  induction xs as [|x xs IH]; intros w S; [exact S|]. cbn [map fold_left use1]. apply IH. now apply st_cdf.
Qed.
(** After an Observe the memoized quantiles are stale: an estimate can be 1 for a
    value far below the maximum. *)
Definition ex_digest : digest Z := Digest Z (fun t q => t) (fun _ v => v).
Theorem C46_stale_refuted :
  exists T (D : digest T) td x v,
  let w := w_observe D v (snd (w_cdf D x (wrap td))) in
  monotone_quantile (dg_quantile D td) /\ monotone_quantile (dg_quantile D (w_td w)) /\
  fst (w_cdf D x w) = f_of_int 1 /\ fst (w_cdf D x (wrap (w_td w))) = f_of_int 0 /\ flt x (dg_quantile D (w_td w) (f_of_int 0)) = true.
Proof.
  exists Z, ex_digest, 0x4008000000000000, 0x4010000000000000, 0x4059000000000000. cbn zeta. (* 3, 4, 100 *)
  split; [intros q q' _; vm_compute; reflexivity|]. split; [intros q q' _; vm_compute; reflexivity|]. vm_compute. auto.
Qed.
(** quantile 0 is 1, the other ones are 5: the CDF of 3 is 1/128 *)
Definition ex_digest2 : digest unit := Digest unit (fun _ q => if SFleb q (S754_zero false) then 0x3FF0000000000000 else 0x4014000000000000) (fun _ _ => tt).
Definition ex_digest3 : digest (list Z) := Digest (list Z) (fun l q => nth (if SFleb q (f_of_int 0) then 0 else 1) l 0) (fun l v => l ++ [v]).
Example C46_query_example :
  let w := uses ex_digest3 [UObserve 0x4008000000000000; UCdf 0x4008000000000000; UObserve 0x4059000000000000] (wrap []) in
  w_query ex_digest3 (f_of_int 0) w = 0x4008000000000000 /\ w_query ex_digest3 (f_of_int 1) w = 0x4059000000000000.
Proof. vm_compute. split; reflexivity. Qed.
Example C46_example : settled ex_digest2 tt (snd (w_cdf ex_digest2 0x4008000000000000 (wrap tt))) /\
  fst (w_cdf ex_digest2 0x4008000000000000 (wrap tt)) = k128 1 /\
  monotone_quantile (dg_quantile ex_digest2 tt).
Proof.
  split; [apply st_cdf, st_new|]. split; [vm_compute; reflexivity|]. intros q q' L. cbn [ex_digest2 dg_quantile].
  destruct (SFleb q (S754_zero false)) eqn:E, (SFleb q' (S754_zero false)) eqn:E'; try (vm_compute; reflexivity). exfalso.
  destruct q as [[]|[]| |[] ? ?], q' as [[]|[]| |[] ? ?]; discriminate.
Qed.

Print Assumptions C46_dyadic.
Print Assumptions C46_monotone.
Print Assumptions C46_accurate.
Print Assumptions C46_stale_refuted.
Print Assumptions C46_query.
Print Assumptions C46_observe_first.
