(** ParseDuration on its grammar (C87). *)
From Coq Require Import ZArith Reals List Bool Lia Lra.
From Coq Require Import Floats.SpecFloat.
From Verif Require Import Base Merge Draw Number NumberSpec NumberProofs Duration DurationSpec DurationFloat.
Import ListNotations.
Open Scope Z_scope.

Definition head_not (P : Z -> bool) (s : list Z) : Prop := match s with c :: _ => P c = false | [] => True end.
Lemma leading_int_ok ds : digits ds -> forall x rest, 0 <= x <= max_i64 -> head_not is_digit rest ->
  leading_int x (ds ++ rest) = if x * 10 ^ Z.of_nat (length ds) + spelled ds <=? max_i64 then Some (x * 10 ^ Z.of_nat (length ds) + spelled ds, rest) else None.
Proof.
  induction 1 as [|c ds Hc Hd IH]; intros x rest Hx Hr.
  - cbn [app length spelled]. change (10 ^ Z.of_nat 0) with 1. replace (x * 1 + 0) with x by ring. replace (x <=? max_i64) with true by lia.
    destruct rest as [|c r]; [reflexivity|]. cbn [leading_int]. cbn [head_not] in Hr. now rewrite Hr.
  - cbn [app leading_int spelled length]. rewrite (proj2 (is_digit_true c) Hc). pose proof (spelled_bound ds Hd) as B. assert (T : 0 < 10 ^ Z.of_nat (length ds)) by (apply Z.pow_pos_nonneg; lia).
    rewrite Nat2Z.inj_succ, Z.pow_succ_r by lia. set (t := 10 ^ Z.of_nat (length ds)) in *.
    replace (x * (10 * t) + ((c - 48) * t + spelled ds)) with ((x * 10 + (c - 48)) * t + spelled ds) by ring.
    assert (M : max_i64 = 10 * (max_i64 / 10) + 7) by reflexivity.
    destruct (Z.ltb_spec (max_i64 / 10) x) as [L|L].
    + replace (_ <=? max_i64) with false; [reflexivity|]. symmetry. apply Z.leb_gt. assert (max_i64 < x * 10 + (c - 48)) by lia. nia.
    + destruct (Z.ltb_spec max_i64 (x * 10 + (c - 48))) as [L2|L2].
      * replace (_ <=? max_i64) with false; [reflexivity|]. symmetry. apply Z.leb_gt. nia.
      * apply IH; [lia|exact Hr].
Qed.
Lemma leading_fraction_over s : forall x scale, exists a b, s = a ++ b /\ digits a /\ head_not is_digit b /\ leading_fraction true x scale s = (x, scale, b).
Proof.
  induction s as [|c s IH]; intros x scale; [exists [], []; repeat split; constructor|]. cbn [leading_fraction]. destruct (is_digit c) eqn:E.
  - destruct (IH x scale) as (a & b & -> & A & B & C). exists (c :: a), b. split; [reflexivity|]. split; [constructor; [now apply is_digit_true|exact A]|]. split; [exact B|exact C].
  - exists [], (c :: s). split; [reflexivity|]. split; [constructor|]. split; [exact E|reflexivity].
Qed.
Lemma split_unique a b a' b' : digits a -> digits a' -> head_not is_digit b -> head_not is_digit b' -> a ++ b = a' ++ b' -> a = a' /\ b = b'.
Proof.
  intros A. revert a'. induction A as [|c a Hc A IH]; intros a' A' B B' E.
  - destruct A' as [|c' a' Hc' A']; [split; [reflexivity|exact E]|]. cbn [app] in E. subst b. cbn [head_not] in B. rewrite (proj2 (is_digit_true c') Hc') in B. discriminate.
  - destruct A' as [|c' a' Hc' A']; cbn [app] in E.
    + subst b'. cbn [head_not] in B'. rewrite (proj2 (is_digit_true c) Hc) in B'. discriminate.
    + injection E as <- E. destruct (IH a' A' B B' E) as [-> ->]. now split.
Qed.
(** the digits that are kept *)
Lemma leading_fraction_ok ds : digits ds -> forall x j rest, 0 <= x <= max_i64 -> head_not is_digit rest ->
  exists d1 d2, ds = d1 ++ d2 /\ leading_fraction false x (scale_at j) (ds ++ rest) = (x * 10 ^ Z.of_nat (length d1) + spelled d1, scale_at (j + length d1), rest) /\
    x * 10 ^ Z.of_nat (length d1) + spelled d1 <= max_i64 /\ (d2 = [] \/ max_i64 / 10 <= x * 10 ^ Z.of_nat (length d1) + spelled d1).
Proof.
  induction 1 as [|c ds Hc Hd IH]; intros x j rest Hx Hr.
  - exists [], []. split; [reflexivity|]. cbn [app length spelled]. change (10 ^ Z.of_nat 0) with 1. rewrite Nat.add_0_r. replace (x * 1 + 0) with x by ring.
    split; [|split; [lia|now left]]. destruct rest as [|c r]; [reflexivity|]. cbn [leading_fraction]. cbn [head_not] in Hr. now rewrite Hr.
  - cbn [app leading_fraction]. rewrite (proj2 (is_digit_true c) Hc).
    assert (Over : max_i64 / 10 <= x -> exists d1 d2, c :: ds = d1 ++ d2 /\ leading_fraction true x (scale_at j) (ds ++ rest) = (x * 10 ^ Z.of_nat (length d1) + spelled d1, scale_at (j + length d1), rest) /\
      x * 10 ^ Z.of_nat (length d1) + spelled d1 <= max_i64 /\ (d2 = [] \/ max_i64 / 10 <= x * 10 ^ Z.of_nat (length d1) + spelled d1)).
    { intros L. exists [], (c :: ds). split; [reflexivity|]. cbn [length spelled]. change (10 ^ Z.of_nat 0) with 1. rewrite Nat.add_0_r. replace (x * 1 + 0) with x by ring.
      split; [|split; [lia|now right]]. destruct (leading_fraction_over (ds ++ rest) x (scale_at j)) as (a & b & E & A & B & ->). destruct (split_unique _ _ _ _ Hd A Hr B E) as [_ <-]. reflexivity. }
    assert (M : max_i64 = 10 * (max_i64 / 10) + 7) by reflexivity.
    destruct (Z.ltb_spec (max_i64 / 10) x) as [L|L]; [apply Over; lia|].
    destruct (Z.ltb_spec max_i64 (x * 10 + (c - 48))) as [L2|L2]; [apply Over; lia|].
    change (f_mul (scale_at j) (f_of_int 10)) with (scale_at (S j)). destruct (IH (x * 10 + (c - 48)) (S j) rest ltac:(lia) Hr) as (d1 & d2 & -> & E & B & C).
    exists (c :: d1), d2. split; [reflexivity|]. cbn [length spelled]. rewrite Nat2Z.inj_succ, Z.pow_succ_r by lia.
    replace (x * (10 * 10 ^ Z.of_nat (length d1)) + ((c - 48) * 10 ^ Z.of_nat (length d1) + spelled d1)) with ((x * 10 + (c - 48)) * 10 ^ Z.of_nat (length d1) + spelled d1) by ring.
    replace (j + S (length d1))%nat with (S j + length d1)%nat by lia. split; [exact E|]. split; assumption.
Qed.

(** units *)
Definition unit_end (c : Z) : bool := (c =? 46) || is_digit c.
Definition starts (s : list Z) : Prop := match s with c :: _ => unit_end c = true | [] => True end.
Lemma unit_then_ok u : Forall (fun c => unit_end c = false) u -> forall rest, starts rest -> unit_then (u ++ rest) = (u, rest).
Proof.
  induction 1 as [|c u Hc Hu IH]; intros rest R; cbn [app unit_then].
  - destruct rest as [|c r]; [reflexivity|]. cbn [unit_then]. cbn [starts] in R. unfold unit_end in R. now rewrite R.
  - unfold unit_end in Hc. now rewrite Hc, IH.
Qed.
Lemma unit_then_split s : forall u r, unit_then s = (u, r) -> s = u ++ r /\ Forall (fun c => unit_end c = false) u /\ starts r.
Proof.
  induction s as [|c s IH]; intros u r E; cbn [unit_then] in E.
  - injection E as <- <-. repeat split. constructor.
  - fold (unit_end c) in E. destruct (unit_end c) eqn:D.
    + injection E as <- <-. split; [reflexivity|]. split; [constructor|exact D].
    + destruct (unit_then s) as [a b] eqn:F. injection E as <- <-. destruct (IH a b eq_refl) as (-> & A & B). split; [reflexivity|]. split; [now constructor|exact B].
Qed.
Lemma unit_of_iff u n : unit_of u = Some n <-> unit_name u n.
Proof.
  split.
  - unfold unit_of, unit_map. cbn [find fst snd option_map]. intros H.
    repeat match type of H with context [beqb ?a u] => destruct (beqb a u) eqn:E; [apply beqb_eq in E; subst u; cbv iota in H; assert (En := f_equal (fun o => match o with Some x => x | None => 0 end) H); cbv beta iota in En; subst n; constructor|clear E] end. discriminate.
  - intros H. destruct H; reflexivity.
Qed.
Lemma unit_name_ok u n : unit_name u n -> Forall (fun c => unit_end c = false) u /\ u <> [] /\ 0 < n <= 2 ^ 42.
Proof.
  intros H. destruct H; (split; [repeat (apply Forall_cons; [reflexivity|]); apply Forall_nil|]); (split; [intros X; inversion X|]); (split; [reflexivity|apply Z.leb_le; vm_compute; reflexivity]).
Qed.

(** * a part *)
(** the nanoseconds of the fraction *)
Definition fraction_ns (fp : list Z) (n : Z) : Z :=
  let '(f, scale, _) := leading_fraction false 0 (f_of_int 1) fp in if 0 <? f then f_int (f_mul (f_of_int f) (f_div (f_of_int n) scale)) else 0.
Definition part_value (p : part) : Z := spelled (p_whole p) * p_unit p + fraction_ns (p_fraction p) (p_unit p).
Lemma fraction_ns_0 n : fraction_ns [] n = 0.
Proof. reflexivity. Qed.
Lemma leading_fraction_app fp rest : digits fp -> head_not is_digit rest ->
  exists f scale, leading_fraction false 0 (f_of_int 1) (fp ++ rest) = (f, scale, rest) /\ leading_fraction false 0 (f_of_int 1) fp = (f, scale, []).
Proof.
  intros D R. change (f_of_int 1) with (scale_at 0). assert (X : 0 <= 0 <= max_i64) by (unfold max_i64; lia).
  (* the rest has no influence *)
  assert (G : forall ov x sc rest, head_not is_digit rest -> exists f s, leading_fraction ov x sc (fp ++ rest) = (f, s, rest) /\ leading_fraction ov x sc fp = (f, s, [])).
  { clear X R rest. induction D as [|c ds Hc Hd IH]; intros ov x sc rest R.
    - exists x, sc. split; [|destruct ov; reflexivity]. destruct rest as [|c r]; [destruct ov; reflexivity|]. cbn [app leading_fraction]. cbn [head_not] in R. now rewrite R.
    - cbn [app leading_fraction]. rewrite (proj2 (is_digit_true c) Hc). destruct ov; [now apply IH|]. destruct (_ <? x); [now apply IH|]. cbv zeta. destruct (_ <? _); now apply IH. }
  now apply G.
Qed.
Lemma part_head t p rest : part_text t p -> starts (t ++ rest) /\ t <> [].
Proof.
  intros H. destruct H as [ip dot fp u n Hi Hf Hn Hd Hu]. destruct Hi as [|c ip Hc Hi].
  - destruct Hd as [->|[_ ->]]; [split; [reflexivity|discriminate]|]. now destruct Hn.
  - split; [|discriminate]. cbn [app starts]. unfold unit_end. rewrite (proj2 (is_digit_true c) Hc). apply orb_true_r.
Qed.
Lemma nat_neq_true (a b : nat) : a <> b -> negb (Nat.eqb a b) = true.
Proof. intros H. apply Nat.eqb_neq in H. now rewrite H. Qed.
Definition fraction_nonneg (p : part) : Prop := 0 <= fraction_ns (p_fraction p) (p_unit p).
(** one round of the loop *)
Definition body (next : Z -> list Z -> option Z) (d : Z) (s : list Z) : option Z :=
  match leading_int 0 s with
  | None => None
  | Some (v, s1) =>
      let pre := negb (Nat.eqb (length s1) (length s)) in
      let '(f, scale, s3, post) :=
        match s1 with
        | c :: s2 =>
            if c =? 46 then
              let '(f, scale, s3) := leading_fraction false 0 (f_of_int 1) s2 in (f, scale, s3, negb (Nat.eqb (length s3) (length s2)))
            else (0, f_of_int 1, s1, false)
        | [] => (0, f_of_int 1, s1, false)
        end in
      if negb pre && negb post then None else
      let '(u, s4) := unit_then s3 in
      match unit_of u with
      | None => None
      | Some unit =>
          if max_i64 / unit <? v then None else
          let v := v * unit + (if 0 <? f then f_int (f_mul (f_of_int f) (f_div (f_of_int unit) scale)) else 0) in
          if max_i64 <? v then None else
          if max_i64 <? d + v then None else
          next (d + v) s4
      end
  end.
Lemma parse_body fuel d s : s <> [] -> starts s -> parse_parts (S fuel) d s = body (parse_parts fuel) d s.
Proof. intros N H. destruct s as [|c s]; [easy|]. cbn [starts] in H. unfold unit_end in H. cbn [parse_parts]. rewrite H. reflexivity. Qed.
Lemma div_lt v u : 0 < u -> (max_i64 / u <? v) = (max_i64 <? v * u).
Proof. intros H. destruct (Z.ltb_spec (max_i64 / u) v), (Z.ltb_spec max_i64 (v * u)); auto; exfalso; Z.div_mod_to_equations; nia. Qed.
Lemma round_gen t p rest fuel d : part_text t p -> starts rest ->
  parse_parts (S fuel) d (t ++ rest) =
    if max_i64 <? spelled (p_whole p) * p_unit p then None else
    if max_i64 <? part_value p then None else if max_i64 <? d + part_value p then None else parse_parts fuel (d + part_value p) rest.
Proof.
  intros H R. destruct (part_head t p rest H) as [St Nt]. rewrite parse_body; [|destruct t; [easy|discriminate]|exact St].
  destruct H as [ip dot fp u n Hi Hf Hn Hd Hu]. unfold part_value. cbn [p_whole p_fraction p_unit] in *.
  destruct (unit_name_ok u n Hu) as (Uu & Nu & Bn). pose proof (spelled_bound ip Hi) as Bi.
  assert (Hu1 : head_not unit_end (u ++ rest)).
  { destruct u as [|c u]; [easy|]. cbn [app head_not]. now inversion Uu. }
  assert (Hu2 : head_not is_digit (u ++ rest)).
  { destruct (u ++ rest) as [|c r]; [exact I|]. cbn [head_not] in *. unfold unit_end in Hu1. now apply orb_false_iff in Hu1. }
  rewrite <- !app_assoc in *. unfold body.
  assert (Hd1 : head_not is_digit (dot ++ fp ++ u ++ rest)) by (destruct Hd as [->|[-> ->]]; [reflexivity|exact Hu2]).
  rewrite (leading_int_ok ip Hi 0 _ ltac:(unfold max_i64; lia) Hd1). rewrite Z.mul_0_l, Z.add_0_l.
  destruct (Z.leb_spec (spelled ip) max_i64) as [Li|Li].
  2:{ replace (max_i64 <? spelled ip * n) with true; [reflexivity|]. symmetry. apply Z.ltb_lt. nia. }
  destruct (leading_fraction_app fp (u ++ rest) Hf Hu2) as (f & scale & E1 & E2).
  assert (X : exists post, (match dot ++ fp ++ u ++ rest with
        | c :: s2 =>
            if c =? 46 then
              let '(f, scale, s3) := leading_fraction false 0 (f_of_int 1) s2 in (f, scale, s3, negb (Nat.eqb (length s3) (length s2)))
            else (0, f_of_int 1, dot ++ fp ++ u ++ rest, false)
        | [] => (0, f_of_int 1, dot ++ fp ++ u ++ rest, false)
        end) = (f, scale, u ++ rest, post) /\ negb (negb (Nat.eqb (length (dot ++ fp ++ u ++ rest)) (length (ip ++ dot ++ fp ++ u ++ rest)))) && negb post = false).
  { destruct Hd as [->|[-> ->]].
    - cbn [app]. change (46 =? 46) with true. cbv iota. rewrite E1. eexists. split; [reflexivity|]. rewrite !app_length. cbn [length].
      destruct ip as [|c ip]; [|apply andb_false_iff; left; rewrite nat_neq_true; [reflexivity|cbn [length]; rewrite ?app_length; cbn [length]; lia]].
      destruct fp as [|c fp]; [easy|]. apply andb_false_iff. right. rewrite nat_neq_true; [reflexivity|cbn [length]; rewrite ?app_length; lia].
    - rewrite app_nil_r in Hn. cbn [app]. cbn [leading_fraction] in E2. injection E2 as <- <-. exists false. split.
      + destruct (u ++ rest) as [|c r]; [reflexivity|]. cbn [head_not] in Hu1. unfold unit_end in Hu1. apply orb_false_iff in Hu1 as [-> _]. reflexivity.
      + apply andb_false_iff. left. rewrite nat_neq_true; [reflexivity|]. rewrite !app_length. destruct ip; [easy|cbn [length]; lia]. }
  destruct X as (post & -> & Y). cbv zeta. rewrite Y. rewrite (unit_then_ok u Uu rest R). rewrite (proj2 (unit_of_iff u n) Hu).
  rewrite div_lt by lia.
  assert (V : (if 0 <? f then f_int (f_mul (f_of_int f) (f_div (f_of_int n) scale)) else 0) = fraction_ns fp n) by (unfold fraction_ns; rewrite E2; reflexivity).
  rewrite V. reflexivity.
Qed.
Lemma round_ok t p rest fuel d : part_text t p -> starts rest -> fraction_nonneg p ->
  parse_parts (S fuel) d (t ++ rest) =
    if max_i64 <? part_value p then None else if max_i64 <? d + part_value p then None else parse_parts fuel (d + part_value p) rest.
Proof.
  intros H R P. rewrite (round_gen t p rest fuel d H R). unfold fraction_nonneg in P. destruct (Z.ltb_spec max_i64 (spelled (p_whole p) * p_unit p)) as [L|L]; [|reflexivity].
  replace (max_i64 <? part_value p) with true; [reflexivity|]. symmetry. apply Z.ltb_lt. unfold part_value. lia.
Qed.
(** whatever is accepted begins with a part *)
Lemma round_sound fuel d s r : s <> [] -> parse_parts fuel d s = Some r -> exists t p rest, s = t ++ rest /\ part_text t p /\ starts rest.
Proof.
  intros N H. destruct fuel as [|fuel]; [destruct s; [easy|discriminate]|].
  destruct s as [|c0 s0] eqn:Es; [easy|]. cbn [parse_parts] in H. rewrite <- Es in *. clear N.
  destruct (negb ((c0 =? 46) || is_digit c0)); [discriminate|].
  destruct (digits_then s) as [ip b] eqn:D. apply digits_then_split in D as (E & Hi & Hb).
  rewrite E in H at 1. rewrite (leading_int_ok ip Hi 0 b ltac:(unfold max_i64; lia) Hb) in H. rewrite Z.mul_0_l, Z.add_0_l in H. destruct (_ <=? max_i64); [|discriminate].
  cbv zeta in H.
  assert (K : forall dot fp s3 post, b = dot ++ fp ++ s3 -> digits fp -> (dot = [46] \/ dot = [] /\ fp = []) -> (post = true -> fp <> []) ->
    negb (negb (Nat.eqb (length b) (length s))) && negb post = false -> (let '(u, s4) := unit_then s3 in unit_of u <> None) -> exists t p rest, s = t ++ rest /\ part_text t p /\ starts rest).
  { intros dot fp s3 post Eb Hf Hd Hp Y U. destruct (unit_then s3) as [u s4] eqn:F. apply unit_then_split in F as (-> & Uu & R). destruct (unit_of u) as [n|] eqn:G; [|easy]. apply unit_of_iff in G.
    exists (ip ++ dot ++ fp ++ u), (Part ip fp n), s4. split; [rewrite E, Eb, <- !app_assoc; reflexivity|]. split; [|exact R]. constructor; auto.
    intros X. apply app_eq_nil in X as [-> ->]. cbn [app] in E. rewrite E, Nat.eqb_refl in Y. cbn [negb andb] in Y. destruct post; [now apply Hp|discriminate]. }
  destruct b as [|c b'] eqn:Eb'.
  - destruct (negb _ && negb false) eqn:Y; [discriminate|]. apply (K [] [] [] false); auto; [constructor|discriminate|]. destruct (unit_then []) as [u s4]. destruct (unit_of u); [discriminate|discriminate H].
  - destruct (Z.eqb_spec c 46) as [->|Nc].
    + destruct (digits_then b') as [fp s3] eqn:D2. apply digits_then_split in D2 as (-> & Hf & Hs). destruct (leading_fraction_app fp s3 Hf Hs) as (f & scale & E1 & _). rewrite E1 in H.
      destruct (negb _ && negb (negb (Nat.eqb (length s3) _))) eqn:Y; [discriminate|]. apply (K [46] fp s3 (negb (Nat.eqb (length s3) (length (fp ++ s3))))); auto.
      * intros X -> . cbn [app] in X. rewrite Nat.eqb_refl in X. discriminate.
      * destruct (unit_then s3) as [u s4]. destruct (unit_of u); [discriminate|discriminate H].
    + destruct (negb _ && negb false) eqn:Y; [discriminate|]. apply (K [] [] (c :: b') false); auto; [constructor|discriminate|]. destruct (unit_then (c :: b')) as [u s4]. destruct (unit_of u); [discriminate|discriminate H].
Qed.
Lemma parts_start s l : parts_text s l -> starts s.
Proof. intros H. destruct H; [exact I|]. now apply (part_head s p t). Qed.
(** the whole text *)
Fixpoint value (d : Z) (l : list part) : option Z :=
  match l with
  | [] => Some d
  | p :: l => if max_i64 <? part_value p then None else if max_i64 <? d + part_value p then None else value (d + part_value p) l
  end.
Lemma parse_value s l : parts_text s l -> Forall fraction_nonneg l -> forall fuel d, (length s <= fuel)%nat -> parse_parts fuel d s = value d l.
Proof.
  induction 1 as [|s p t l H P IH]; intros F fuel d L.
  - destruct fuel; reflexivity.
  - inversion F; subst. destruct (part_head s p t H) as [_ N]. rewrite app_length in L. destruct fuel as [|fuel]; [destruct s; [easy|cbn in L; lia]|].
    rewrite (round_ok s p t fuel d H (parts_start _ _ P) ltac:(assumption)). cbn [value]. destruct (_ <? _); [reflexivity|]. destruct (_ <? _); [reflexivity|]. apply IH; [assumption|]. destruct s; [easy|cbn [length] in L; lia].
Qed.
