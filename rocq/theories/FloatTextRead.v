(** The texts of float64s in JSON answers as numbers (C86). *)
From Coq Require Import ZArith Reals List Bool Lia Lra.
From Coq Require Import Floats.SpecFloat.
From Flocq Require Import Core.Core IEEE754.BinarySingleNaN.
From Verif Require Import Base Float FloatReal Number NumberSpec NumberProofs NumberReal Merge JsonSpec Format FormatSpec FormatProofs FloatText FloatTextProofs.
Import ListNotations.
Open Scope Z_scope.

Lemma spelled_chars l : spelled (chars l) = num l.
Proof.
  induction l as [|d l IH]; [reflexivity|]. unfold chars in *. cbn [map spelled]. rewrite IH, num_cons, map_length. unfold len. ring.
Qed.
Lemma digits_chars l : Forall dig l -> NumberSpec.digits (chars l).
Proof. intros H. unfold chars. apply Forall_map. eapply Forall_impl; [|exact H]. unfold dig. cbv beta. lia. Qed.
Lemma chars_app a b : chars (a ++ b) = chars a ++ chars b.
Proof. apply map_app. Qed.
Lemma chars_len l : length (chars l) = length l.
Proof. apply map_length. Qed.

(** a sign, digits, a point and digits, an exponent *)
Definition frac_text (fp : list Z) : list Z := match fp with [] => [] | _ => 46 :: chars fp end.
Definition exp_text (ex : option (bool * list Z)) : list Z := match ex with None => [] | Some (eneg, ds) => 101 :: (if eneg then 45 else 43) :: chars ds end.
Definition exp_of (ex : option (bool * list Z)) : Z := match ex with None => 0 | Some (eneg, ds) => if eneg then - num ds else num ds end.
Definition number_text (neg : bool) (ip fp : list Z) (ex : option (bool * list Z)) : list Z := minus_sign neg ++ chars ip ++ frac_text fp ++ exp_text ex.
Definition text_ok (ip fp : list Z) (ex : option (bool * list Z)) : Prop :=
  Forall dig ip /\ Forall dig fp /\ (ip = [0] \/ hd 0 ip <> 0) /\ match ex with None => True | Some (_, ds) => Forall dig ds /\ ds <> [] end.

Lemma text_numeral neg ip fp ex : text_ok ip fp ex -> numeral (number_text neg ip fp ex) neg (num (ip ++ fp)) (exp_of ex) (exp_of ex - len fp).
Proof.
  intros (Hi & Hf & Hh & Hx). assert (N : ip <> []) by (intros ->; destruct Hh as [X|X]; [discriminate|now apply X]).
  replace (num (ip ++ fp)) with (spelled (chars ip ++ chars fp)) by (now rewrite <- chars_app, spelled_chars).
  replace (len fp) with (Z.of_nat (length (chars fp))) by (rewrite chars_len; reflexivity).
  unfold number_text, frac_text.
  assert (S : signed neg (minus_sign neg)) by (destruct neg; constructor).
  assert (X : NumberSpec.exponent (exp_of ex) (exp_text ex)).
  { destruct ex as [[eneg ds]|]; [|constructor]. destruct Hx as [Dd Nd]. cbn [exp_of exp_text]. rewrite <- (spelled_chars ds).
    change (101 :: (if eneg then 45 else 43) :: chars ds) with ([101] ++ [if eneg then 45 else 43] ++ chars ds). apply ex_some; [now left|destruct eneg; constructor|now apply digits_chars|].
    destruct ds; [easy|discriminate]. }
  assert (Q : chars ip ++ chars fp <> []) by (destruct ip; [easy|discriminate]).
  destruct fp as [|f fp].
  - apply (num_ neg _ (chars ip) [] [] _ _ S (digits_chars _ Hi) (digits_chars _ Hf) Q); [now right|exact X].
  - apply (num_ neg _ (chars ip) [46] (chars (f :: fp)) _ _ S (digits_chars _ Hi) (digits_chars _ Hf) Q); [now left|exact X].
Qed.
Lemma jdigit d : dig d -> digit (48 + d) = true.
Proof. unfold dig, digit. lia. Qed.
Lemma skip_chars l : Forall dig l -> forall r, (match r with c :: _ => digit c = false | [] => True end) -> skip_digits (chars l ++ r) = r.
Proof.
  unfold chars. induction 1 as [|d l Hd _ IH]; intros r Hr.
  - destruct r as [|c r]; [reflexivity|]. cbn [map app skip_digits]. now rewrite Hr.
  - cbn [map app skip_digits]. rewrite (jdigit d Hd). now apply IH.
Qed.
Lemma after_chars l : Forall dig l -> l <> [] -> forall r, (match r with c :: _ => digit c = false | [] => True end) -> after_digits (chars l ++ r) = Some r.
Proof.
  intros H N r Hr. destruct l as [|d l]; [easy|]. inversion H; subst. unfold chars. cbn [map app after_digits]. rewrite jdigit by assumption. f_equal. now apply skip_chars.
Qed.
Lemma text_json neg ip fp ex : text_ok ip fp ex -> is_json_number (number_text neg ip fp ex) = true.
Proof.
  intros (Hi & Hf & Hh & Hx). unfold number_text, is_json_number.
  assert (X : after_exponent (exp_text ex) = Some [] /\ match exp_text ex with c :: _ => digit c = false /\ (c =? 46) = false | [] => True end).
  { destruct ex as [[eneg ds]|]; [|split; [reflexivity|exact I]]. destruct Hx as [Dd Nd]. cbn [exp_text]. split; [|split; reflexivity].
    unfold after_exponent. change ((101 =? 101) || (101 =? 69)) with true. cbv iota.
    replace (((if eneg then 45 else 43) =? 43) || ((if eneg then 45 else 43) =? 45)) with true by (destruct eneg; reflexivity).
    rewrite <- (app_nil_r (chars ds)). now apply after_chars. }
  destruct X as [X1 X2].
  assert (Y : after_fraction (frac_text fp ++ exp_text ex) = Some (exp_text ex) /\ match frac_text fp ++ exp_text ex with c :: _ => digit c = false | [] => True end).
  { destruct fp as [|f fp].
    - cbn [frac_text app]. destruct (exp_text ex) as [|c r]; [split; [reflexivity|exact I]|]. destruct X2 as [A B]. unfold after_fraction. rewrite B. split; [reflexivity|exact A].
    - unfold frac_text. split; [|reflexivity]. cbn [app]. unfold after_fraction. change (46 =? 46) with true. cbv iota.
      apply after_chars; [assumption|discriminate|]. destruct (exp_text ex); [exact I|apply X2]. }
  destruct Y as [Y1 Y2].
  assert (W : after_whole (chars ip ++ frac_text fp ++ exp_text ex) = Some (frac_text fp ++ exp_text ex)).
  { destruct Hh as [->|Hh]; [reflexivity|]. destruct ip as [|d ip]; [now destruct Hh|]. cbn [hd] in Hh. pose proof (after_chars (d :: ip) Hi ltac:(discriminate) _ Y2) as A.
    unfold chars in *. cbn [map app] in *. unfold after_whole. assert (dig d) by (now inversion Hi). unfold dig in H. replace (48 + d =? 48) with false by lia. exact A. }
  assert (M : (match minus_sign neg ++ chars ip ++ frac_text fp ++ exp_text ex with c :: r => if c =? 45 then r else minus_sign neg ++ chars ip ++ frac_text fp ++ exp_text ex | [] => [] end) = chars ip ++ frac_text fp ++ exp_text ex).
  { destruct neg; [reflexivity|]. cbn [minus_sign app]. destruct ip as [|d ip]; [exfalso; destruct Hh as [Y|Y]; [discriminate|now apply Y]|].
    unfold chars. cbn [map app]. assert (dig d) by (now inversion Hi). unfold dig in H. replace (48 + d =? 45) with false by lia. reflexivity. }
  rewrite M, W, Y1, X1. reflexivity.
Qed.

(** without an exponent *)
Lemma plain_text neg d : good d -> dc_d d <> [] -> let prec := Z.max (len (dc_d d) - dc_dp d) 0 in
  exists ip fp, fmt_f neg d prec = number_text neg ip fp None /\ text_ok ip fp None /\ (IZR (num (ip ++ fp)) * bpow ten (- len fp) = dval d)%R.
Proof.
  intros G N prec. destruct (fmt_f_parts neg d prec G ltac:(lia) ltac:(lia)) as (ip & fp & Hi & Hf & Li & Lf & E & V).
  exists ip, fp. assert (Hp0 : len (dc_d d) - dc_dp d <= prec /\ 0 <= prec) by (unfold prec; lia). assert (Lp0 : 0 <= len (dc_d d)) by (unfold len; lia). clearbody prec. replace (0 <=? dc_dp d + prec) with true in V by (symmetry; apply Z.leb_le; lia). pose proof (gd_dig _ G) as Fd. pose proof (num_bound _ Fd) as Bd.
  assert (Ld : 1 <= len (dc_d d)) by (unfold len; destruct (dc_d d); [easy|cbn [length]; lia]).
  split; [|split].
  - rewrite E. unfold number_text, frac_text, exp_text. rewrite app_nil_r. f_equal. f_equal. destruct fp as [|f fp]; [replace (0 <? prec) with false by (unfold len in Lf; cbn in Lf; lia); reflexivity|].
    replace (0 <? prec) with true by (unfold len in Lf; cbn [length] in Lf; lia). reflexivity.
  - split; [exact Hi|]. split; [exact Hf|]. split; [|exact I].
    rewrite num_app in V. pose proof (num_bound _ Hf) as Bf. rewrite Lf in *. set (q := dc_dp d + prec - len (dc_d d)) in *. assert (Hq : 0 <= q) by (unfold q; lia).
    assert (P1 : 0 < 10 ^ q) by (apply pow_pos_; lia). assert (P2 : 0 < 10 ^ prec) by (apply pow_pos_; lia).
    destruct (Z_le_gt_dec (dc_dp d) 0) as [L|L].
    + left. destruct ip as [|i [|i2 ip]]; unfold len in Li; cbn [length] in Li; try lia. f_equal. change (num [i]) with i in V.
      assert (dig i) by (now inversion Hi). unfold dig in H.
      assert (num (dc_d d) * 10 ^ q < 10 ^ len (dc_d d) * 10 ^ q) by (apply Z.mul_lt_mono_pos_r; lia). rewrite <- Z.pow_add_r in H0 by (unfold len in *; lia).
      assert (10 ^ (len (dc_d d) + q) <= 10 ^ prec) by (apply Z.pow_le_mono_r; unfold q; lia). nia.
    + right. destruct ip as [|i ip]; [unfold len in Li; cbn in Li; lia|]. cbn [hd]. intros ->. rewrite num_cons in V.
      assert (Hip : Forall dig ip) by (now inversion Hi). pose proof (num_bound _ Hip) as Bi.
      assert (Lip : len ip = dc_dp d - 1) by (unfold len in *; cbn [length] in Li; lia).
      (* the digits of d begin with one that is not 0 *)
      assert (Ge : 10 ^ (len (dc_d d) - 1) <= num (dc_d d)).
      { pose proof (gd_hd _ G N) as Hh. destruct (dc_d d) as [|x r]; [easy|]. cbn [hd] in Hh. assert (dig x) by (now inversion Fd). assert (Fr : Forall dig r) by (now inversion Fd). unfold dig in H. rewrite num_cons. pose proof (num_bound _ Fr).
        replace (len (x :: r) - 1) with (len r) by (unfold len; cbn [length]; lia). assert (0 < 10 ^ len r) by (apply pow_pos_; unfold len; lia). nia. }
      assert (10 ^ (len (dc_d d) - 1) * 10 ^ q <= num (dc_d d) * 10 ^ q) by (apply Z.mul_le_mono_pos_r; lia). rewrite <- Z.pow_add_r in H by lia.
      replace (len (dc_d d) - 1 + q) with (len ip + prec) in H by (unfold q; lia). rewrite Z.pow_add_r in H by (unfold len; lia). nia.
  - rewrite V, mult_IZR, <- bpow_Z by lia. rewrite Rmult_assoc, <- bpow_plus. unfold dval. f_equal. f_equal. lia.
Qed.
(** with an exponent *)
Lemma clean4 pre a b c d : clean_exp (pre ++ [a; b; c; d]) = if (a =? 101) && (b =? 45) && (c =? 48) then pre ++ [a; b; d] else pre ++ [a; b; c; d].
Proof.
  unfold clean_exp. rewrite app_length. cbn [length].
  replace (length pre + 4 - 4)%nat with (length pre + 0)%nat by lia. replace (length pre + 4 - 3)%nat with (length pre + 1)%nat by lia.
  replace (length pre + 4 - 2)%nat with (length pre + 2)%nat by lia. replace (length pre + 4 - 1)%nat with (length pre + 3)%nat by lia.
  rewrite !app_nth2_plus. cbn [nth]. replace (4 <=? Z.of_nat (length pre + 4)) with true by (symmetry; apply Z.leb_le; lia). cbn [andb].
  destruct ((a =? 101) && (b =? 45) && (c =? 48)); [|reflexivity]. rewrite firstn_app_2. cbn [firstn]. rewrite <- app_assoc. reflexivity.
Qed.
Lemma exp_clean pre e : -1000 < e < 1000 -> exists ds, Forall dig ds /\ ds <> [] /\ num ds = Z.abs e /\ clean_exp (pre ++ fmt_exp e) = pre ++ exp_text (Some (e <? 0, ds)).
Proof.
  intros H. unfold fmt_exp, exp_text. destruct (exp_digits (Z.abs e) ltac:(lia)) as (A & B & C & _). cbv zeta in *.
  set (s := if e <? 0 then 45 else 43) in *. assert (Hs : s = 45 \/ s = 43) by (unfold s; destruct (e <? 0); auto).
  set (l := if Z.abs e <? 10 then _ else _) in *. destruct l as [|x [|y [|z [|w rest]]]] eqn:El; unfold len in C; cbn [length] in C; try lia.
  - unfold chars. cbn [map]. rewrite clean4. change (101 =? 101) with true. cbn [andb]. destruct ((s =? 45) && (48 + x =? 48)) eqn:K.
    + exists [y]. split; [constructor; [now inversion A as [|? ? ? A']; inversion A'|constructor]|]. split; [discriminate|]. apply andb_prop in K as [_ K].
      assert (x = 0) by lia. subst x. split; [exact B|reflexivity].
    + exists [x; y]. split; [exact A|]. split; [discriminate|]. split; [exact B|reflexivity].
  - exists [x; y; z]. split; [exact A|]. split; [discriminate|]. split; [exact B|]. unfold chars. cbn [map].
    change (pre ++ 101 :: s :: [48 + x; 48 + y; 48 + z]) with (pre ++ [101] ++ [s; 48 + x; 48 + y; 48 + z]). rewrite app_assoc, clean4.
    replace (s =? 101) with false by lia. reflexivity.
Qed.
Lemma exponent_text neg d : good d -> dc_d d <> [] -> -999 < dc_dp d <= 1000 ->
  exists ip fp ex, clean_exp (fmt_e neg d (len (dc_d d) - 1)) = number_text neg ip fp ex /\ text_ok ip fp ex /\ Z.abs (exp_of ex) < 1000 /\
  (IZR (num (ip ++ fp)) * bpow ten (exp_of ex - len fp) = dval d)%R.
Proof.
  intros G N Hd. destruct d as [l dp]. pose proof (gd_dig _ G) as F. pose proof (gd_hd _ G N) as Hh. cbn [dc_d dc_dp] in *. destruct l as [|x r]; [easy|]. cbn [hd] in Hh.
  assert (Dx : dig x) by (now inversion F). assert (Dr : Forall dig r) by (now inversion F).
  assert (L : len (x :: r) = len r + 1) by (unfold len; cbn [length]; lia).
  unfold fmt_e. cbn [dc_d dc_dp nth skipn].
  replace (if 0 <? len (x :: r) - 1 then _ else _) with (frac_text r).
  2:{ rewrite L. replace (len r + 1 - 1) with (len r) by lia. rewrite Z.sub_diag. cbn [Z.to_nat repeat]. rewrite app_nil_r.
      rewrite firstn_all2 by (unfold len; lia). destruct r as [|y r]; [reflexivity|]. replace (0 <? len (y :: r)) with true by reflexivity. reflexivity. }
  rewrite !app_assoc. destruct (exp_clean ((minus_sign neg ++ [48 + x]) ++ frac_text r) (dp - 1) ltac:(lia)) as (ds & A & B & C & E).
  exists [x], r, (Some (dp - 1 <? 0, ds)). split; [|split; [|split]].
  - rewrite E. unfold number_text. rewrite <- !app_assoc. reflexivity.
  - split; [constructor; auto|]. split; [exact Dr|]. split; [right; exact Hh|]. split; assumption.
  - cbn [exp_of]. destruct (Z.ltb_spec (dp - 1) 0); lia.
  - unfold dval. cbn [dc_d dc_dp app]. f_equal. f_equal. cbn [exp_of]. destruct (Z.ltb_spec (dp - 1) 0); lia.
Qed.

(** the point of the shortest digits *)
Lemma round_down_dp a nd : good a -> (1 <= nd < length (dc_d a))%nat -> dc_dp (round_down a nd) = dc_dp a.
Proof.
  intros G H. destruct (cut_ok a nd G H) as ((_ & N & _) & _). unfold round_down, trim in *. cbn [dc_d dc_dp] in *. destruct (trim_zeros (firstn nd (dc_d a))); [now destruct N|reflexivity].
Qed.
Lemma round_up_dp a nd : dc_dp a <= dc_dp (round_up a nd) <= dc_dp a + 1.
Proof. unfold round_up. destruct (bump _); cbn [dc_dp]; lia. Qed.
Lemma shortest_from_dp neg x a : good a -> forall n nd, (1 <= nd)%nat -> (nd + n = length (dc_d a))%nat -> dc_dp a <= dc_dp (shortest_from n neg x a nd) <= dc_dp a + 1.
Proof.
  intros G. induction n as [|n IH]; intros nd H1 H2; cbn [shortest_from]; [lia|].
  pose proof (round_up_dp a nd) as U. pose proof (round_down_dp a nd G ltac:(lia)) as D.
  destruct (reads_back neg (round_down a nd) x), (reads_back neg (round_up a nd) x); cbn [andb]; try lia; [|apply IH; lia].
  destruct (cut_cases a nd ltac:(lia)) as [E|E]; rewrite E; lia.
Qed.
Lemma shortest_dp neg m e : valid_binary 53 1024 (S754_finite neg m e) = true -> -999 < dc_dp (shortest neg m e) <= 1000.
Proof.
  intros V. destruct (assign_ok (Zpos m) e eq_refl) as (G & N & E). pose proof (float_range neg m e V) as R. pose proof (dval_mag _ G N) as M. rewrite E in M.
  assert (B1 : dc_dp (assign (Zpos m) e) - 1 < 310) by (apply (lt_bpow ten); pose proof (bpow_lt ten 309 310 ltac:(lia)); lra).
  assert (B2 : -324 < dc_dp (assign (Zpos m) e)) by (apply (lt_bpow ten); lra).
  pose proof (shortest_from_dp neg (S754_finite neg m e) _ G (length (dc_d (assign (Zpos m) e)) - 1) 1 ltac:(lia)) as X. unfold shortest. cbv zeta.
  assert (1 + (length (dc_d (assign (Zpos m) e)) - 1) = length (dc_d (assign (Zpos m) e)))%nat by (destruct (dc_d (assign (Zpos m) e)); [easy|cbn [length]; lia]). specialize (X H). lia.
Qed.

(** the text of a finite float64 *)
Definition digits_of (x : spec_float) : Format.decimal := match x with S754_finite neg m e => shortest neg m e | _ => Decimal [] 0 end.
Lemma text_parts x : float64 x -> exists ip fp ex, json_number_text x = number_text (sign_SF x) ip fp ex /\ text_ok ip fp ex /\ Z.abs (exp_of ex) < 1000 /\
  (IZR (num (ip ++ fp)) * bpow ten (exp_of ex - len fp) = dval (digits_of x))%R.
Proof.
  intros [V F]. destruct x as [s|s| |s m e]; try discriminate.
  - exists [0], [], None. cbn [sign_SF digits_of]. split; [destruct s; reflexivity|]. split; [split; [constructor; [unfold dig; lia|constructor]|]; split; [constructor|]; split; [now left|exact I]|].
    split; [cbn; lia|]. unfold dval. cbn [dc_d dc_dp app]. change (num [0]) with 0. change (num []) with 0. ring.
  - destruct (shortest_ok s m e V) as (G & N & _). cbv zeta in *. pose proof (shortest_dp s m e V) as D. cbn [json_number_text sign_SF digits_of].
    destruct (SFltb (S754_finite false m e) small_limit || SFleb large_limit (S754_finite false m e)).
    + destruct (exponent_text s _ G N D) as (ip & fp & ex & A). exists ip, fp, ex. exact A.
    + destruct (plain_text s _ G N) as (ip & fp & A & B & C). cbv zeta in A. exists ip, fp, None. split; [exact A|]. split; [exact B|]. split; [cbn; lia|]. cbn [exp_of]. exact C.
Qed.
