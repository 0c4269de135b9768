From Coq Require Import ZArith List Bool Lia String.
From Verif Require Import Base Convert Float Merge Server Json JsonSpec.
Import ListNotations.
Open Scope Z_scope.
Open Scope list_scope.

Lemma cons_inv {A} (a b : A) l m : a :: l = b :: m -> a = b /\ l = m.
Proof. intros H. injection H. auto. Qed.

(** * UTF-8 *)
Lemma lor_shift a n b : 0 <= n -> 0 <= b < 2 ^ n -> Z.lor (Z.shiftl a n) b = a * 2 ^ n + b.
Proof.
  intros Hn H.
  assert (L : Z.land (Z.shiftl a n) b = 0).
  { apply Z.bits_inj'. intros k Hk. rewrite Z.land_spec, Z.bits_0. destruct (Z_lt_le_dec k n).
    - rewrite Z.shiftl_spec_low by lia. reflexivity.
    - rewrite <- (Z.mod_small b (2 ^ n)) by lia. rewrite Z.mod_pow2_bits_high by lia. apply andb_false_r. }
  rewrite <- Z.lxor_lor by exact L. rewrite <- Z.add_nocarry_lxor by exact L. rewrite Z.shiftl_mul_pow2 by lia. reflexivity.
Qed.
Lemma cont_spec c : cont c = true <-> 0x80 <= c <= 0xBF.
Proof. unfold cont. lia. Qed.

Definition no_char (s : list Z) : Prop := forall c r, scalar c -> s <> utf8_of c ++ r.
(** the bytes of a character *)
Lemma utf8_cases c : scalar c ->
  (c < 128 /\ utf8_of c = [c]) \/
  (exists a b, c = a * 64 + b /\ 2 <= a <= 31 /\ 0 <= b < 64 /\ utf8_of c = [0xC0 + a; 0x80 + b]) \/
  (exists a b d, c = (a * 64 + b) * 64 + d /\ 0 <= a <= 15 /\ 0 <= b < 64 /\ 0 <= d < 64 /\ 32 <= a * 64 + b /\ ~ (864 <= a * 64 + b <= 895) /\ utf8_of c = [0xE0 + a; 0x80 + b; 0x80 + d]) \/
  (exists a b d e, c = ((a * 64 + b) * 64 + d) * 64 + e /\ 0 <= a <= 4 /\ 0 <= b < 64 /\ 0 <= d < 64 /\ 0 <= e < 64 /\ 16 <= a * 64 + b <= 271 /\ utf8_of c = [0xF0 + a; 0x80 + b; 0x80 + d; 0x80 + e]).
Proof.
  intros S. unfold scalar in S. unfold utf8_of. destruct (Z.ltb_spec c 0x80); [left; auto|right]. destruct (Z.ltb_spec c 0x800).
  - left. exists (c / 64), (c mod 64). repeat split; Z.div_mod_to_equations; lia.
  - right. destruct (Z.ltb_spec c 0x10000).
    + left. exists (c / 4096), (c / 64 mod 64), (c mod 64). repeat split; Z.div_mod_to_equations; lia.
    + right. exists (c / 262144), (c / 4096 mod 64), (c / 64 mod 64), (c mod 64). repeat split; Z.div_mod_to_equations; lia.
Qed.
Lemma utf8_2 a b : 2 <= a <= 31 -> 0 <= b < 64 -> utf8_of (a * 64 + b) = [0xC0 + a; 0x80 + b].
Proof.
  intros A B. unfold utf8_of. replace (a * 64 + b <? 0x80) with false by lia. replace (a * 64 + b <? 0x800) with true by lia.
  f_equal; [|f_equal]; Z.div_mod_to_equations; lia.
Qed.
Lemma utf8_3 a b d : 0 <= a <= 15 -> 0 <= b < 64 -> 0 <= d < 64 -> 32 <= a * 64 + b -> utf8_of ((a * 64 + b) * 64 + d) = [0xE0 + a; 0x80 + b; 0x80 + d].
Proof.
  intros A B D M. unfold utf8_of. replace ((a * 64 + b) * 64 + d <? 0x80) with false by lia. replace ((a * 64 + b) * 64 + d <? 0x800) with false by lia. replace ((a * 64 + b) * 64 + d <? 0x10000) with true by lia.
  f_equal; [|f_equal; [|f_equal]]; Z.div_mod_to_equations; lia.
Qed.
Lemma utf8_4 a b d e : 0 <= a <= 4 -> 0 <= b < 64 -> 0 <= d < 64 -> 0 <= e < 64 -> 16 <= a * 64 + b ->
  utf8_of (((a * 64 + b) * 64 + d) * 64 + e) = [0xF0 + a; 0x80 + b; 0x80 + d; 0x80 + e].
Proof.
  intros A B D F M. unfold utf8_of. replace (((a * 64 + b) * 64 + d) * 64 + e <? 0x80) with false by lia. replace (((a * 64 + b) * 64 + d) * 64 + e <? 0x800) with false by lia. replace (((a * 64 + b) * 64 + d) * 64 + e <? 0x10000) with false by lia.
  f_equal; [|f_equal; [|f_equal; [|f_equal]]]; Z.div_mod_to_equations; lia.
Qed.

Lemma rune_cases b s : 128 <= b ->
  (rune (b :: s) = (rune_error, 1%nat) /\ no_char (b :: s)) \/
  (exists c r, scalar c /\ 128 <= c /\ b :: s = utf8_of c ++ r /\ rune (b :: s) = (c, List.length (utf8_of c))).
Proof.
  intros Hb.
  assert (E : forall c r, scalar c -> b :: s = utf8_of c ++ r ->
    (exists a x t, 2 <= a <= 31 /\ 0 <= x < 64 /\ b = 0xC0 + a /\ s = 0x80 + x :: t) \/
    (exists a x y t, 0 <= a <= 15 /\ 0 <= x < 64 /\ 0 <= y < 64 /\ 32 <= a * 64 + x /\ ~ (864 <= a * 64 + x <= 895) /\ b = 0xE0 + a /\ s = 0x80 + x :: 0x80 + y :: t) \/
    (exists a x y z t, 0 <= a <= 4 /\ 0 <= x < 64 /\ 0 <= y < 64 /\ 0 <= z < 64 /\ 16 <= a * 64 + x <= 271 /\ b = 0xF0 + a /\ s = 0x80 + x :: 0x80 + y :: 0x80 + z :: t)).
  { intros c r Sc X. destruct (utf8_cases c Sc) as [[A B]|[(a & x & _ & A & B & U)|[(a & x & y & _ & A & B & C & D & F & U)|(a & x & y & z & _ & A & B & C & D & F & U)]]].
    - rewrite B in X. cbn [app] in X. assert (b = c) by congruence. lia.
    - rewrite U in X. cbn [app] in X. left. exists a, x, r. repeat split; try lia; congruence.
    - rewrite U in X. cbn [app] in X. right. left. exists a, x, y, r. repeat split; try lia; congruence.
    - rewrite U in X. cbn [app] in X. right. right. exists a, x, y, z, r. repeat split; try lia; congruence. }
  assert (Bad : forall P : Prop, P -> (forall c r, scalar c -> b :: s = utf8_of c ++ r -> False) -> P /\ no_char (b :: s)) by (intros P HP K; split; [exact HP|intros c r Sc X; eapply K; eauto]).
  destruct s as [|c1 r].
  { left. apply Bad; [reflexivity|]. intros c r Sc X. destruct (E c r Sc X) as [(a & x & t & _ & _ & _ & Y)|[(a & x & y & t & _ & _ & _ & _ & _ & _ & Y)|(a & x & y & z & t & _ & _ & _ & _ & _ & _ & Y)]]; discriminate. }
  cbn [rune]. destruct ((0xC2 <=? b) && (b <=? 0xDF)) eqn:B2.
  { destruct (cont c1) eqn:C1.
    - right. apply cont_spec in C1. exists ((b - 0xC0) * 64 + (c1 - 0x80)), r.
      assert (U := utf8_2 (b - 0xC0) (c1 - 0x80) ltac:(lia) ltac:(lia)).
      split; [unfold scalar; lia|]. split; [lia|]. rewrite U, (lor_shift _ 6) by lia. split; [|reflexivity].
      cbn [app]. f_equal; [lia|]. f_equal. lia.
    - left. apply Bad; [reflexivity|]. intros c r0 Sc X. unfold cont in C1. destruct (E c r0 Sc X) as [(a & x & t & A1 & A2 & A3 & Y)|[(a & x & y & t & A1 & A2 & A3 & A4 & A5 & A6 & Y)|(a & x & y & z & t & A1 & A2 & A3 & A4 & A5 & A6 & Y)]]; apply cons_inv in Y as [Y1 Y2]; lia. }
  destruct r as [|c2 r].
  { left. apply Bad; [reflexivity|]. intros c r Sc X. destruct (E c r Sc X) as [(a & x & t & A1 & A2 & A3 & Y)|[(a & x & y & t & _ & _ & _ & _ & _ & _ & Y)|(a & x & y & z & t & _ & _ & _ & _ & _ & _ & Y)]]; try discriminate. lia. }
  destruct ((0xE0 <=? b) && (b <=? 0xEF)) eqn:B3.
  { cbv zeta. destruct (_ && cont c2) eqn:C2.
    - right. apply andb_prop in C2 as [C1 C2]. apply cont_spec in C2. exists (((b - 0xE0) * 64 + (c1 - 0x80)) * 64 + (c2 - 0x80)), r.
      assert (X : 0x80 <= c1 <= 0xBF /\ (b = 0xE0 -> 0xA0 <= c1) /\ (b = 0xED -> c1 <= 0x9F)) by (destruct (b =? 0xE0) eqn:?, (b =? 0xED) eqn:?; lia).
      assert (U := utf8_3 (b - 0xE0) (c1 - 0x80) (c2 - 0x80) ltac:(lia) ltac:(lia) ltac:(lia) ltac:(lia)).
      split; [unfold scalar; lia|]. split; [lia|]. rewrite U. rewrite <- Z.lor_assoc, (lor_shift (c1 - 0x80) 6), (lor_shift _ 12) by lia. split.
      + cbn [app]. f_equal; [lia|]. f_equal; [lia|]. f_equal. lia.
      + f_equal. ring.
    - left. apply Bad; [reflexivity|]. intros c r0 Sc X. unfold cont in C2.
      destruct (E c r0 Sc X) as [(a & x & t & A1 & A2 & A3 & Y)|[(a & x & y & t & A1 & A2 & A3 & A4 & A5 & A6 & Y)|(a & x & y & z & t & A1 & A2 & A3 & A4 & A5 & A6 & Y)]]; apply cons_inv in Y as [Y1 Y2]; try lia.
      destruct (b =? 0xE0) eqn:?, (b =? 0xED) eqn:?; apply cons_inv in Y2 as [Y2 Y3]; try (apply cons_inv in Y3 as [Y3 _]); lia. }
  destruct r as [|c3 r].
  { left. apply Bad; [reflexivity|]. intros c r Sc X. destruct (E c r Sc X) as [(a & x & t & A1 & A2 & A3 & Y)|[(a & x & y & t & A1 & A2 & A3 & A4 & A5 & A6 & Y)|(a & x & y & z & t & _ & _ & _ & _ & _ & _ & Y)]]; try discriminate; lia. }
  destruct ((0xF0 <=? b) && (b <=? 0xF4)) eqn:B4.
  { cbv zeta. destruct (_ && cont c3) eqn:C3.
    - right. apply andb_prop in C3 as [C2 C3]. apply andb_prop in C2 as [C1 C2]. apply cont_spec in C2, C3.
      exists ((((b - 0xF0) * 64 + (c1 - 0x80)) * 64 + (c2 - 0x80)) * 64 + (c3 - 0x80)), r.
      assert (X : 0x80 <= c1 <= 0xBF /\ (b = 0xF0 -> 0x90 <= c1) /\ (b = 0xF4 -> c1 <= 0x8F)) by (destruct (b =? 0xF0) eqn:?, (b =? 0xF4) eqn:?; lia).
      assert (U := utf8_4 (b - 0xF0) (c1 - 0x80) (c2 - 0x80) (c3 - 0x80) ltac:(lia) ltac:(lia) ltac:(lia) ltac:(lia) ltac:(lia)).
      split; [unfold scalar; lia|]. split; [lia|]. rewrite U.
      rewrite <- Z.lor_assoc, (lor_shift (c2 - 0x80) 6), (lor_shift (c1 - 0x80) 12), (lor_shift _ 18) by lia. split.
      + cbn [app]. f_equal; [lia|]. f_equal; [lia|]. f_equal; [lia|]. f_equal. lia.
      + f_equal. ring.
    - left. apply Bad; [reflexivity|]. intros c r0 Sc X. unfold cont in C3.
      destruct (E c r0 Sc X) as [(a & x & t & A1 & A2 & A3 & Y)|[(a & x & y & t & A1 & A2 & A3 & A4 & A5 & A6 & Y)|(a & x & y & z & t & A1 & A2 & A3 & A4 & A5 & A6 & Y)]]; apply cons_inv in Y as [Y1 Y2]; try lia.
      destruct (b =? 0xF0) eqn:?, (b =? 0xF4) eqn:?; apply cons_inv in Y2 as [Y2 Y3]; try (apply cons_inv in Y3 as [Y3 _]); lia. }
  left. apply Bad; [reflexivity|]. intros c r0 Sc X.
  destruct (E c r0 Sc X) as [(a & x & t & A1 & A2 & A3 & Y)|[(a & x & y & t & A1 & A2 & A3 & A4 & A5 & A6 & Y)|(a & x & y & z & t & A1 & A2 & A3 & A4 & A5 & A6 & Y)]]; lia.
Qed.

(** * strings *)
Definition byte (b : Z) : Prop := 0 <= b <= 255.
(** the characters of some bytes; [true]: replaced *)
Fixpoint chars_ (fuel : nat) (s : list Z) : list (Z * bool) :=
  match fuel, s with
  | S fuel, b :: s' =>
      if b <? 0x80 then (b, false) :: chars_ fuel s'
      else let '(c, size) := rune s in (c, (c =? rune_error) && Nat.eqb size 1) :: chars_ fuel (skipn size s)
  | _, _ => []
  end.
Definition esc (x : Z * bool) : list Z :=
  let '(c, bad) := x in
  if bad then [92; 117; 102; 102; 102; 100]
  else if c <? 0x80 then escape c
  else if (c =? 0x2028) || (c =? 0x2029) then [92; 117; 50; 48; 50; hex (Z.land c 15)]
  else [c].
Definition ok_char (x : Z * bool) : Prop := scalar (fst x) /\ (snd x = true -> fst x = 0xFFFD).

Lemma utf8_nonempty c : exists b r, utf8_of c = b :: r.
Proof. unfold utf8_of. destruct (c <? 0x80), (c <? 0x800), (c <? 0x10000); eauto. Qed.
Lemma utf8_small c : c < 0x80 -> utf8_of c = [c].
Proof. intros H. unfold utf8_of. now replace (c <? 0x80) with true by lia. Qed.
Lemma utf8_smalls l : Forall (fun c => c < 0x80) l -> flat_map utf8_of l = l.
Proof. induction 1; [reflexivity|]. cbn [flat_map]. rewrite utf8_small by assumption. now rewrite IHForall. Qed.
Lemma escape_small c : 0 <= c < 0x80 -> Forall (fun c => 32 <= c < 0x80) (escape c).
Proof.
  intros H. unfold escape, html_safe. destruct (_ && _) eqn:A; [repeat (apply Forall_cons; [lia|]); constructor|].
  destruct ((c =? 92) || (c =? 34)) eqn:B; [repeat (apply Forall_cons; [lia|]); constructor|]. destruct (c =? 10); [repeat (apply Forall_cons; [lia|]); constructor|]. destruct (c =? 13); [repeat (apply Forall_cons; [lia|]); constructor|]. destruct (c =? 9); [repeat (apply Forall_cons; [lia|]); constructor|].
  assert (X : forall n, 0 <= n < 16 -> 48 <= hex n < 128) by (intros n Hn; unfold hex; destruct (n <? 10) eqn:?; lia).
  rewrite Z.shiftr_div_pow2 by lia. change 15 with (Z.ones 4). rewrite Z.land_ones by lia.
  pose proof (X (c / 2 ^ 4) ltac:(change (2 ^ 4) with 16; Z.div_mod_to_equations; lia)). pose proof (X (c mod 2 ^ 4) ltac:(change (2 ^ 4) with 16; Z.div_mod_to_equations; lia)).
  repeat (apply Forall_cons; [lia|]). constructor.
Qed.
Lemma small_weaken l : Forall (fun c => 32 <= c < 0x80) l -> Forall (fun c => c < 0x80) l.
Proof. intros H. eapply Forall_impl; [|exact H]. intros a Ha. cbv beta in *. lia. Qed.

Lemma firstn_app_len {A} (a b : list A) : firstn (List.length a) (a ++ b) = a.
Proof. rewrite firstn_app, Nat.sub_diag, firstn_all, firstn_O. apply app_nil_r. Qed.
Lemma skipn_app_len {A} (a b : list A) : skipn (List.length a) (a ++ b) = b.
Proof. rewrite skipn_app, Nat.sub_diag, skipn_all. reflexivity. Qed.

(** the encoder's loop by characters *)
Lemma quote_chars f : forall s, (List.length s <= f)%nat -> Forall byte s ->
  quote_ f s = flat_map utf8_of (flat_map esc (chars_ f s)) /\ shown_as s (map fst (chars_ f s)) /\ Forall ok_char (chars_ f s).
Proof.
  induction f as [|f IH]; intros s L B.
  - destruct s; [|cbn in L; lia]. repeat split; constructor.
  - destruct s as [|b s]; [repeat split; constructor|]. inversion B as [|? ? Bb Bs]; subst. unfold byte in Bb. cbn in L.
    cbn [quote_ chars_]. destruct (Z.ltb_spec b 0x80).
    + destruct (IH s ltac:(lia) Bs) as (E1 & E2 & E3). cbn [flat_map map fst esc]. replace (b <? 0x80) with true by lia.
      rewrite flat_map_app, <- E1, utf8_smalls by (apply small_weaken, escape_small; lia). split; [reflexivity|]. split.
      * change (b :: s) with ([b] ++ s). rewrite <- (utf8_small b) by lia. apply sh_char; [unfold scalar; lia|exact E2].
      * constructor; [|exact E3]. split; [unfold scalar; cbn; lia|discriminate].
    + destruct (rune_cases b s ltac:(lia)) as [[R N]|(c & r & Sc & Hc & Es & R)]; rewrite R.
      * cbn [Nat.eqb skipn]. rewrite Z.eqb_refl. cbn [andb]. destruct (IH s ltac:(lia) Bs) as (E1 & E2 & E3). cbn [flat_map map fst esc].
        rewrite flat_map_app, <- E1. split; [reflexivity|]. split.
        { apply sh_bad; [exact N|exact E2]. }
        { constructor; [|exact E3]. split; [unfold scalar, rune_error; cbn; lia|reflexivity]. }
      * assert (Br : Forall byte r) by (rewrite Es in B; apply Forall_app in B; apply B).
        assert (Lr : (List.length r <= f)%nat).
        { destruct (utf8_nonempty c) as (x & y & U). apply (f_equal (@List.length Z)) in Es. rewrite app_length, U in Es. cbn in Es. lia. }
        destruct (IH r Lr Br) as (E1 & E2 & E3). rewrite Es, skipn_app_len, firstn_app_len.
        assert (NB : (c =? rune_error) && Nat.eqb (List.length (utf8_of c)) 1 = false).
        { destruct (Z.eqb_spec c rune_error) as [->|]; reflexivity. }
        rewrite NB. cbn [flat_map map fst esc]. replace (c <? 0x80) with false by lia. rewrite flat_map_app, <- E1. split; [|split].
        { destruct ((c =? 0x2028) || (c =? 0x2029)) eqn:U.
          - f_equal. rewrite utf8_smalls; [reflexivity|]. assert (c = 0x2028 \/ c = 0x2029) as [->| ->] by lia; repeat constructor; lia.
          - f_equal. cbn [flat_map]. now rewrite app_nil_r. }
        { apply sh_char; assumption. }
        { constructor; [|exact E3]. split; [exact Sc|discriminate]. }
Qed.
(** reading it again *)
Lemma read_ascii c x : 0 <= c < 0x80 -> read_str (escape c ++ x) = add_char c (read_str x).
Proof.
  intros H. unfold escape. destruct (html_safe c) eqn:S.
  - unfold html_safe in S. cbn [app read_str]. replace (c =? 34) with false by lia. replace (c <? 32) with false by lia. replace (c =? 92) with false by lia. reflexivity.
  - unfold html_safe in S. destruct ((c =? 92) || (c =? 34)) eqn:Q.
    { assert (c = 92 \/ c = 34) as [->| ->] by lia; reflexivity. }
    destruct (Z.eqb_spec c 10) as [->|]; [reflexivity|]. destruct (Z.eqb_spec c 13) as [->|]; [reflexivity|]. destruct (Z.eqb_spec c 9) as [->|]; [reflexivity|].
    assert (I : In c [0;1;2;3;4;5;6;7;8;11;12;14;15;16;17;18;19;20;21;22;23;24;25;26;27;28;29;30;31;38;60;62]) by (cbn [In]; lia).
    cbn [In] in I. repeat (destruct I as [<-|I]; [reflexivity|]). destruct I.
Qed.
Lemma read_esc l rest : Forall ok_char l -> read_str (flat_map esc l ++ 34 :: rest) = Some (map fst l, rest).
Proof.
  induction 1 as [|[c bad] l [Sc B] F IH]; [reflexivity|]. cbn [fst snd] in *. cbn [flat_map map fst esc]. rewrite <- app_assoc. destruct bad.
  - rewrite (B eq_refl). cbn [app]. change (read_str (92 :: 117 :: 102 :: 102 :: 102 :: 100 :: flat_map esc l ++ 34 :: rest)) with (add_char 0xFFFD (read_str (flat_map esc l ++ 34 :: rest))). now rewrite IH.
  - destruct (Z.ltb_spec c 0x80).
    + rewrite read_ascii by (unfold scalar in Sc; lia). now rewrite IH.
    + destruct ((c =? 0x2028) || (c =? 0x2029)) eqn:U.
      * assert (c = 0x2028 \/ c = 0x2029) as [->| ->] by lia; cbn [app].
        { change (read_str (92 :: 117 :: 50 :: 48 :: 50 :: hex (Z.land 8232 15) :: flat_map esc l ++ 34 :: rest)) with (add_char 0x2028 (read_str (flat_map esc l ++ 34 :: rest))). now rewrite IH. }
        { change (read_str (92 :: 117 :: 50 :: 48 :: 50 :: hex (Z.land 8233 15) :: flat_map esc l ++ 34 :: rest)) with (add_char 0x2029 (read_str (flat_map esc l ++ 34 :: rest))). now rewrite IH. }
      * cbn [app read_str]. replace (c =? 34) with false by lia. replace (c <? 32) with false by lia. replace (c =? 92) with false by lia. now rewrite IH.
Qed.
Lemma esc_scalar l : Forall ok_char l -> Forall scalar (flat_map esc l).
Proof.
  induction 1 as [|[c bad] l [Sc B] F IH]; [constructor|]. cbn [flat_map]. apply Forall_app. split; [|exact IH]. cbn [fst snd] in *. unfold esc.
  destruct bad; [repeat (apply Forall_cons; [left; lia|]); constructor|]. destruct (Z.ltb_spec c 0x80).
  - eapply Forall_impl; [|apply (escape_small c); unfold scalar in Sc; lia]. intros a Ha. cbv beta in Ha. unfold scalar. lia.
  - destruct ((c =? 0x2028) || (c =? 0x2029)) eqn:U; [|apply Forall_cons; [exact Sc|constructor]].
    assert (c = 0x2028 \/ c = 0x2029) as [->| ->] by lia; repeat (apply Forall_cons; [left; cbn; lia|]); constructor.
Qed.
Definition chars (s : list Z) := chars_ (List.length s) s.
Definition quotec (s : list Z) : list Z := 34 :: flat_map esc (chars s) ++ [34].
Lemma quote_utf8 s : Forall byte s -> quote s = flat_map utf8_of (quotec s).
Proof.
  intros B. destruct (quote_chars (List.length s) s (le_n _) B) as (E & _). unfold quote, quotec, chars. cbn [flat_map]. rewrite flat_map_app, <- E. reflexivity.
Qed.
