From Coq Require Import ZArith List Bool Lia String.
From Verif Require Import Base Convert Float Merge Server Json JsonSpec JsonProofs.
Import ListNotations.
Open Scope Z_scope.
Open Scope list_scope.

(** * values *)
Section Ind.
  Variable P : jvalue -> Prop.
  Hypothesis Pnull : P JNull.
  Hypothesis Pnum : forall t, P (JNum t).
  Hypothesis Pstr : forall s, P (JStr s).
  Hypothesis Parr : forall l, Forall P l -> P (JArr l).
  Hypothesis Pobj : forall l, Forall (fun m => P (snd m)) l -> P (JObj l).
  Fixpoint jvalue_rec' (v : jvalue) : P v :=
    match v with
    | JNull => Pnull
    | JNum t => Pnum t
    | JStr s => Pstr s
    | JArr l => Parr l ((fix go l : Forall P l := match l with [] => Forall_nil _ | v :: l => Forall_cons v (jvalue_rec' v) (go l) end) l)
    | JObj l => Pobj l ((fix go l : Forall (fun m => P (snd m)) l := match l with [] => Forall_nil _ | m :: l => Forall_cons m (jvalue_rec' (snd m)) (go l) end) l)
    end.
End Ind.

Fixpoint commas (l : list (list Z)) : list Z := match l with [] => [] | [t] => t | t :: l => t ++ 44 :: commas l end.
Lemma commas_cons t l : l <> [] -> commas (t :: l) = t ++ 44 :: commas l.
Proof. destruct l; [congruence|reflexivity]. Qed.
Lemma encode_arr l : encode (JArr l) = 91 :: commas (map encode l) ++ [93].
Proof.
  cbn [encode]. f_equal. f_equal. induction l as [|v [|w l] IH]; [reflexivity..|]. cbn [map]. rewrite commas_cons by discriminate. f_equal. f_equal. exact IH.
Qed.
Definition member (q : list Z -> list Z) (e : jvalue -> list Z) (m : list Z * jvalue) : list Z := q (fst m) ++ 58 :: e (snd m).
Lemma encode_obj l : encode (JObj l) = 123 :: commas (map (member quote encode) l) ++ [125].
Proof.
  cbn [encode]. f_equal. f_equal. induction l as [|[k v] [|w l] IH]; [reflexivity..|]. cbn [map]. rewrite commas_cons by discriminate. unfold member at 1. cbn [fst snd]. rewrite <- app_assoc. cbn [app]. f_equal. f_equal. f_equal. f_equal. exact IH.
Qed.
(** the same in characters *)
Fixpoint encc (v : jvalue) : list Z :=
  match v with
  | JNull => [110; 117; 108; 108]
  | JNum t => t
  | JStr s => quotec s
  | JArr l => 91 :: commas (map encc l) ++ [93]
  | JObj l => 123 :: commas (map (fun m => quotec (fst m) ++ 58 :: encc (snd m)) l) ++ [125]
  end.
Lemma encc_obj l : encc (JObj l) = 123 :: commas (map (member quotec encc) l) ++ [125].
Proof. reflexivity. Qed.
(** what a reader finds *)
Fixpoint sem (v : jvalue) : json :=
  match v with
  | JNull => NNull
  | JNum t => NNum t
  | JStr s => NStr (map fst (chars s))
  | JArr l => NArr (map sem l)
  | JObj l => NObj (map (fun m => (map fst (chars (fst m)), sem (snd m))) l)
  end.
Fixpoint wf (v : jvalue) : Prop :=
  match v with
  | JNull => True
  | JNum t => is_json_number t = true
  | JStr s => Forall byte s
  | JArr l => fold_right and True (map wf l)
  | JObj l => fold_right and True (map (fun m => Forall byte (fst m) /\ wf (snd m)) l)
  end.
Lemma wf_arr l : wf (JArr l) <-> Forall wf l.
Proof. cbn [wf]. induction l; cbn [map fold_right]; [split; constructor|]. rewrite IHl. split; [intros [A B]; constructor; assumption|inversion 1; auto]. Qed.
Lemma wf_obj l : wf (JObj l) <-> Forall (fun m => Forall byte (fst m) /\ wf (snd m)) l.
Proof. cbn [wf]. induction l; cbn [map fold_right]; [split; constructor|]. rewrite IHl. split; [intros [A B]; constructor; assumption|inversion 1; auto]. Qed.

(** numbers *)
Lemma skip_digits_split l : exists p, l = p ++ skip_digits l /\ forallb digit p = true.
Proof.
  induction l as [|c l [p [E D]]]; [exists []; auto|]. cbn [skip_digits]. destruct (digit c) eqn:Hc.
  - exists (c :: p). cbn [app forallb]. rewrite Hc, D. split; [now f_equal|reflexivity].
  - exists []. auto.
Qed.
Lemma digit_number p : forallb digit p = true -> forallb number_char p = true.
Proof. rewrite !forallb_forall. intros H x Hx. unfold number_char. now rewrite (H x Hx). Qed.
Lemma after_digits_split l r : after_digits l = Some r -> exists p, l = p ++ r /\ p <> [] /\ forallb digit p = true.
Proof.
  destruct l as [|c l]; [discriminate|]. cbn [after_digits]. destruct (digit c) eqn:Hc; [|discriminate]. intros H. injection H as <-.
  destruct (skip_digits_split l) as (p & E & D). exists (c :: p). cbn [app forallb]. rewrite Hc, D. split; [now f_equal|]. split; [discriminate|reflexivity].
Qed.
Lemma number_chars t : is_json_number t = true -> forallb number_char t = true /\ exists c r, t = c :: r /\ (c = 45 \/ digit c = true).
Proof.
  unfold is_json_number. intros H.
  set (u := match t with [] => [] | c :: r => if c =? 45 then r else t end) in H.
  assert (T : t = u \/ t = 45 :: u).
  { unfold u. destruct t as [|c r]; [auto|]. destruct (Z.eqb_spec c 45) as [->|]; auto. }
  clearbody u. destruct (after_whole u) as [a|] eqn:A; [|discriminate]. destruct (after_fraction a) as [b|] eqn:B; [|discriminate]. destruct (after_exponent b) as [e|] eqn:C; [|discriminate]. destruct e; [|discriminate]. clear H.
  assert (X1 : exists p, u = p ++ a /\ p <> [] /\ forallb digit p = true).
  { unfold after_whole in A. destruct u as [|c r]; [discriminate|]. destruct (Z.eqb_spec c 48) as [->|]; [|now apply after_digits_split]. injection A as <-. exists [48]. split; [reflexivity|]. split; [discriminate|reflexivity]. }
  assert (X2 : exists p, a = p ++ b /\ forallb number_char p = true).
  { unfold after_fraction in B. destruct a as [|c r]; [injection B as <-; exists []; auto|]. destruct (Z.eqb_spec c 46) as [->|]; [|injection B as <-; exists []; auto].
    apply after_digits_split in B as (p & -> & _ & D). exists (46 :: p). split; [reflexivity|]. apply digit_number in D. cbn [forallb]. now rewrite D. }
  assert (X3 : forallb number_char b = true).
  { unfold after_exponent in C. destruct b as [|c r]; [reflexivity|]. destruct ((c =? 101) || (c =? 69)) eqn:Ec; [|discriminate].
    assert (Nc : number_char c = true) by (unfold number_char, digit; lia). cbn [forallb]. rewrite Nc. destruct r as [|s r]; [discriminate|].
    destruct ((s =? 43) || (s =? 45)) eqn:Es.
    - apply after_digits_split in C as (p & -> & _ & D). rewrite app_nil_r. apply digit_number in D. cbn [forallb]. rewrite D. unfold number_char, digit. lia.
    - apply after_digits_split in C as (p & E & _ & D). rewrite E, app_nil_r. now apply digit_number in D. }
  destruct X1 as (p1 & -> & N1 & D1), X2 as (p2 & -> & D2).
  assert (D : forallb number_char (p1 ++ p2 ++ b) = true) by (rewrite !forallb_app, D2, X3, (digit_number _ D1); reflexivity).
  destruct p1 as [|d p1]; [congruence|]. cbn [forallb] in D1. apply andb_prop in D1 as [D1 _].
  destruct T as [->| ->]; (split; [exact D|]) || (split; [cbn [forallb]; now rewrite D|]); cbn [app]; eauto.
Qed.
Definition ends (rest : list Z) : Prop := match rest with c :: _ => number_char c = false | [] => True end.
Lemma span_ok t rest : forallb number_char t = true -> ends rest -> span_number (t ++ rest) = (t, rest).
Proof.
  intros H E. induction t as [|c t IH]; cbn [app].
  - destruct rest as [|c rest]; [reflexivity|]. cbn [ends] in E. cbn [span_number]. now rewrite E.
  - cbn [forallb] in H. apply andb_prop in H as [H1 H2]. cbn [span_number]. now rewrite H1, IH.
Qed.

(** first characters *)
Definition starts (t : list Z) : Prop := exists c r, t = c :: r /\ blank c = false /\ c <> 93 /\ c <> 125 /\ c <> 44.
Lemma encc_starts v : wf v -> starts (encc v).
Proof.
  destruct v; intros W; cbn [encc].
  - exists 110. eexists. repeat split; lia.
  - apply number_chars in W as (_ & c & r & -> & [->|D]); eexists _, _; (split; [reflexivity|]); unfold blank, digit in *; lia.
  - unfold quotec. eexists _, _. split; [reflexivity|]. unfold blank. lia.
  - eexists _, _. split; [reflexivity|]. unfold blank. lia.
  - eexists _, _. split; [reflexivity|]. unfold blank. lia.
Qed.
Lemma skip_starts t rest : starts t -> skip (t ++ rest) = t ++ rest.
Proof. intros (c & r & -> & B & _). cbn [app skip]. now rewrite B. Qed.
Lemma commas_starts l : l <> [] -> (forall t, In t l -> starts t) -> starts (commas l).
Proof.
  destruct l as [|t l]; [congruence|]. intros _ H. destruct (H t (or_introl eq_refl)) as (c & r & E & X). destruct l as [|u l].
  - cbn [commas]. rewrite E. exists c, r. auto.
  - rewrite commas_cons by discriminate. rewrite E. exists c. eexists. split; [reflexivity|]. exact X.
Qed.
Lemma member_starts m : starts (member quotec encc m).
Proof. unfold member, quotec. eexists _, _. split; [reflexivity|]. unfold blank. lia. Qed.
Lemma read_quotec s rest : Forall byte s -> exists r, quotec s ++ rest = 34 :: r /\ read_str r = Some (map fst (chars s), rest).
Proof.
  intros B. destruct (quote_chars (List.length s) s (le_n _) B) as (_ & _ & O). unfold quotec. cbn [app]. eexists. split; [reflexivity|]. rewrite <- app_assoc. now apply read_esc.
Qed.

Definition reads (v : jvalue) : Prop := forall n rest, (List.length (encc v) <= n)%nat -> ends rest -> read_value n (encc v ++ rest) = Some (sem v, rest).
Lemma elems_ok l : Forall reads l -> Forall wf l -> l <> [] -> forall n rest, (S (List.length (commas (map encc l))) <= n)%nat ->
  read_elems n (commas (map encc l) ++ 93 :: rest) = Some (map sem l, rest).
Proof.
  induction l as [|v l IH]; intros R W N n rest H; [congruence|]. inversion R as [|? ? Rv Rl]; subst. inversion W as [|? ? Wv Wl]; subst.
  destruct n as [|n]; [lia|]. cbn [map] in *. destruct l as [|w l].
  - cbn [map commas] in *. cbn [read_elems]. rewrite (Rv n) by (reflexivity || lia). reflexivity.
  - rewrite commas_cons in * by discriminate. rewrite app_length in H. cbn [List.length] in H.
    rewrite <- app_assoc. cbn [app]. cbn [read_elems]. rewrite (Rv n) by (reflexivity || lia). cbn [skip blank Z.eqb orb Pos.eqb].
    rewrite IH; [reflexivity|exact Rl|exact Wl|discriminate|lia].
Qed.
Lemma members_ok l : Forall (fun m => reads (snd m)) l -> Forall (fun m => Forall byte (fst m) /\ wf (snd m)) l -> l <> [] ->
  forall n rest, (S (List.length (commas (map (member quotec encc) l))) <= n)%nat ->
  read_members n (commas (map (member quotec encc) l) ++ 125 :: rest) = Some (map (fun m => (map fst (chars (fst m)), sem (snd m))) l, rest).
Proof.
  induction l as [|[k v] l IH]; intros R W N n rest H; [congruence|]. inversion R as [|? ? Rv Rl]; subst. inversion W as [|? ? [Wk Wv] Wl]; subst. cbn [fst snd] in *.
  destruct n as [|n]; [lia|].
  assert (K : forall rest', (List.length (encc v) <= n)%nat -> exists r, member quotec encc (k, v) ++ rest' = 34 :: r /\ read_str r = Some (map fst (chars k), 58 :: encc v ++ rest')).
  { intros rest' _. destruct (read_quotec k (58 :: encc v ++ rest') Wk) as (r & E1 & E2). exists r. split; [|exact E2]. rewrite <- E1. unfold member. cbn [fst snd]. rewrite <- app_assoc. reflexivity. }
  assert (Lm : (List.length (encc v) <= List.length (member quotec encc (k, v)))%nat) by (unfold member; cbn [fst snd]; rewrite app_length; cbn [List.length]; lia).
  cbn [map]. cbn [map] in H. destruct l as [|w l].
  - cbn [map commas] in *. destruct (K (125 :: rest)) as (r & E1 & E2); [lia|]. rewrite E1.
    cbn [read_members skip blank Z.eqb orb Pos.eqb]. rewrite E2. cbn [skip blank Z.eqb orb Pos.eqb].
    rewrite (Rv n) by (reflexivity || lia). reflexivity.
  - rewrite commas_cons in * by discriminate. rewrite app_length in H. cbn [List.length] in H.
    rewrite <- app_assoc. cbn [app]. destruct (K (44 :: commas (map (member quotec encc) (w :: l)) ++ 125 :: rest)) as (r & E1 & E2); [lia|]. rewrite E1.
    cbn [read_members skip blank Z.eqb orb Pos.eqb]. rewrite E2. cbn [skip blank Z.eqb orb Pos.eqb].
    rewrite (Rv n) by (reflexivity || lia). cbn [skip blank Z.eqb orb Pos.eqb]. rewrite IH; [reflexivity|exact Rl|exact Wl|discriminate|lia].
Qed.
Lemma reads_all v : wf v -> reads v.
Proof.
  induction v as [|t|s|l IH|l IH] using jvalue_rec'; intros W n rest L E.
  - destruct n; [cbn in L; lia|]. reflexivity.
  - destruct (number_chars t W) as (D & c & r & Et & Hc). cbn [encc] in *. subst t. destruct n; [cbn in L; lia|].
    cbn [app read_value skip]. replace (blank c) with false by (unfold blank, digit in *; lia).
    replace (c =? 34) with false by (unfold digit in *; lia). replace (c =? 91) with false by (unfold digit in *; lia). replace (c =? 123) with false by (unfold digit in *; lia).
    replace (c =? 110) with false by (unfold digit in *; lia). replace (c =? 116) with false by (unfold digit in *; lia). replace (c =? 102) with false by (unfold digit in *; lia).
    unfold read_number. change (c :: r ++ rest) with ((c :: r) ++ rest). rewrite span_ok by assumption. cbn [wf] in W. now rewrite W.
  - destruct n; [cbn in L; lia|]. cbn [encc wf] in *. destruct (read_quotec s rest W) as (r & E1 & E2). rewrite E1. cbn [read_value skip blank Z.eqb orb Pos.eqb]. now rewrite E2.
  - apply wf_arr in W. cbn [encc] in *. cbn [List.length] in L. rewrite app_length in L. cbn [List.length] in L. destruct n; [lia|].
    assert (R : Forall reads l) by (rewrite Forall_forall in *; auto). cbn [app]. rewrite <- app_assoc. cbn [app].
    cbn [read_value skip blank Z.eqb orb Pos.eqb]. destruct l as [|v l]; [reflexivity|].
    assert (St : starts (commas (map encc (v :: l)))).
    { apply commas_starts; [discriminate|]. intros t Ht. apply in_map_iff in Ht as (w & <- & Hw). apply encc_starts. rewrite Forall_forall in W. auto. }
    rewrite skip_starts by exact St. pose proof (elems_ok (v :: l) R W ltac:(discriminate) n rest ltac:(lia)) as X. 
    destruct St as (c & r & Ec & _ & Hc & _). rewrite Ec in *. cbn [app] in *. replace (c =? 93) with false by lia. rewrite X. reflexivity.
  - apply wf_obj in W. rewrite encc_obj in *. cbn [List.length] in L. rewrite app_length in L. cbn [List.length] in L. destruct n; [lia|].
    assert (R : Forall (fun m => reads (snd m)) l) by (rewrite Forall_forall in *; intros m Hm; apply IH; [exact Hm|now apply W]). cbn [app]. rewrite <- app_assoc. cbn [app].
    cbn [read_value skip blank Z.eqb orb Pos.eqb]. destruct l as [|v l]; [reflexivity|].
    assert (St : starts (commas (map (member quotec encc) (v :: l)))).
    { apply commas_starts; [discriminate|]. intros t Ht. apply in_map_iff in Ht as (w & <- & Hw). apply member_starts. }
    rewrite skip_starts by exact St. pose proof (members_ok (v :: l) R W ltac:(discriminate) n rest ltac:(lia)) as X. 
    destruct St as (c & r & Ec & _ & _ & Hc & _). rewrite Ec in *. cbn [app] in *. replace (c =? 125) with false by lia. rewrite X. reflexivity.
Qed.

(** bytes *)
Lemma commas_utf8 l : flat_map utf8_of (commas l) = commas (map (flat_map utf8_of) l).
Proof.
  induction l as [|t [|u l] IH]; [reflexivity..|]. cbn [map]. rewrite !commas_cons by discriminate. rewrite flat_map_app. cbn [flat_map]. rewrite IH. reflexivity.
Qed.
Lemma number_ascii t : forallb number_char t = true -> Forall (fun c => 32 <= c < 0x80) t.
Proof. intros H. rewrite forallb_forall in H. apply Forall_forall. intros c Hc. apply H in Hc. unfold number_char, digit in Hc. lia. Qed.
Lemma encode_utf8 v : wf v -> encode v = flat_map utf8_of (encc v).
Proof.
  induction v as [|t|s|l IH|l IH] using jvalue_rec'; intros W.
  - reflexivity.
  - cbn [encode encc wf] in *. apply number_chars in W as [D _]. symmetry. apply utf8_smalls, small_weaken, number_ascii, D.
  - now apply quote_utf8.
  - apply wf_arr in W. rewrite encode_arr. cbn [encc flat_map]. rewrite flat_map_app, commas_utf8, map_map. cbn [flat_map app]. change (utf8_of 91) with [91]. change (utf8_of 93) with [93]. cbn [app]. f_equal. f_equal. f_equal.
    apply map_ext_in. intros v Hv. rewrite Forall_forall in *. auto.
  - apply wf_obj in W. rewrite encode_obj, encc_obj. cbn [flat_map]. rewrite flat_map_app, commas_utf8, map_map. cbn [flat_map app]. change (utf8_of 123) with [123]. change (utf8_of 125) with [125]. cbn [app]. f_equal. f_equal. f_equal.
    apply map_ext_in. intros m Hm. rewrite Forall_forall in *. destruct (W m Hm) as [Wk Wv]. unfold member. rewrite flat_map_app. cbn [flat_map]. change (utf8_of 58) with [58]. rewrite quote_utf8 by exact Wk. cbn [app]. now rewrite IH.
Qed.
Lemma quotec_scalar s : Forall byte s -> Forall scalar (quotec s).
Proof.
  intros B. destruct (quote_chars (List.length s) s (le_n _) B) as (_ & _ & O). unfold quotec. apply Forall_cons; [left; lia|]. apply Forall_app. split; [now apply esc_scalar|]. apply Forall_cons; [left; lia|constructor].
Qed.
Lemma commas_forall (P : Z -> Prop) l : P 44 -> Forall (Forall P) l -> Forall P (commas l).
Proof.
  intros H. induction 1 as [|t [|u l] Ft Fl IH]; [constructor|exact Ft|]. rewrite commas_cons by discriminate. apply Forall_app. split; [exact Ft|]. constructor; assumption.
Qed.
Lemma encc_scalar v : wf v -> Forall scalar (encc v).
Proof.
  induction v as [|t|s|l IH|l IH] using jvalue_rec'; intros W.
  - cbn [encc]. repeat (apply Forall_cons; [left; lia|]). constructor.
  - cbn [encc wf] in *. apply number_chars in W as [D _]. eapply Forall_impl; [|apply number_ascii, D]. intros a Ha. cbv beta in Ha. left. lia.
  - now apply quotec_scalar.
  - apply wf_arr in W. cbn [encc]. apply Forall_cons; [left; lia|]. apply Forall_app. split; [|apply Forall_cons; [left; lia|constructor]].
    apply commas_forall; [left; lia|]. rewrite Forall_forall in *. intros t Ht. apply in_map_iff in Ht as (v & <- & Hv). auto.
  - apply wf_obj in W. rewrite encc_obj. apply Forall_cons; [left; lia|]. apply Forall_app. split; [|apply Forall_cons; [left; lia|constructor]].
    apply commas_forall; [left; lia|]. rewrite Forall_forall in *. intros t Ht. apply in_map_iff in Ht as (m & <- & Hm). destruct (W m Hm) as [Wk Wv]. unfold member. apply Forall_app. split; [now apply quotec_scalar|].
    apply Forall_cons; [left; lia|]. auto.
Qed.
(** a whole answer *)
Lemma answer v : wf v -> is_utf8 (encode v ++ [10]) (encc v ++ [10]) /\ read_json (encc v ++ [10]) = Some (sem v).
Proof.
  intros W. split; [split|].
  - apply Forall_app. split; [now apply encc_scalar|]. apply Forall_cons; [left; lia|constructor].
  - rewrite flat_map_app, encode_utf8 by exact W. reflexivity.
  - unfold read_json. rewrite (reads_all v W); [reflexivity|rewrite app_length; cbn; lia|reflexivity].
Qed.
(** the bytes of a whole answer *)
Lemma utf8_bytes c : scalar c -> Forall (fun b => c = b \/ 0x80 <= b) (utf8_of c).
Proof.
  intros S. destruct (utf8_cases c S) as [[A ->]|[(a & x & _ & A & B & ->)|[(a & x & y & _ & A & B & C & D & F & ->)|(a & x & y & z & _ & A & B & C & D & F & ->)]]];
    repeat (apply Forall_cons; [lia|]); constructor.
Qed.
