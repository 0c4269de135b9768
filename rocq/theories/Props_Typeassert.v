(** Property C49: typed access to decoded configuration. *)
From Coq Require Import ZArith List Lia Bool.
From Verif Require Import Base Maps Typeassert TypeassertSpec.
Import ListNotations.
Open Scope Z_scope.

Lemma stands_fun x p y y' : stands x p y -> stands x p y' -> y = y'.
Proof.
  intros H. revert y'. induction H; intros y' H'; inversion H'; subst; auto; try congruence.
  - assert (v0 = v) by congruence. subst. auto.
  - assert (v0 = v) by congruence. subst. auto.
Qed.
Lemma stands_app x p y q z : stands x p y -> stands y q z -> stands x (p ++ q) z.
Proof.
  induction 1; cbn [app]; intros H'; auto.
  - econstructor 2; eauto.
  - constructor 3; auto.
  - constructor 4; auto.
  - econstructor 5; eauto.
Qed.
Lemma stands_app_inv p : forall x q z, stands x (p ++ q) z -> exists y, stands x p y /\ stands y q z.
Proof.
  induction p as [|s p IH]; intros x q z H; cbn [app] in H.
  - exists x. split; [constructor|assumption].
  - inversion H; subst; match goal with K : stands _ (p ++ q) _ |- _ => apply IH in K as (w & A & B) end; exists w; split; auto.
    + econstructor 2; eauto.
    + constructor 3; auto.
    + constructor 4; auto.
    + econstructor 5; eauto.
Qed.

(** one step without an earlier error *)
Lemma aI_spec k a : match aI k a None with
  | (b, None) => exists v, b = achild a v (Key k) /\ stands (ax a) [Key k] v
  | (b, Some e) => b = a /\ e = EType TMap (ax a) (apath a) /\ ax a <> VNil /\ (forall m, ax a <> VMap m) /\ forall v, ~ stands (ax a) [Key k] v
  end.
Proof.
  unfold aI. destruct a as [x pa]; cbn [ax apath]. destruct x.
  1:{ eexists; split; [reflexivity|]. constructor. constructor. }
  1:{ eexists; split; [reflexivity|]. destruct (mget beqb k m) eqn:E; [econstructor 2; eauto; constructor|constructor 3; [auto|constructor]]. }
  all: split; [reflexivity|]; split; [reflexivity|]; split; [discriminate|]; split; [discriminate|]; intros v H; inversion H.
Qed.
Lemma aN_spec n a : 0 <= n -> exists b e, aN n a None = Ok (b, e) /\ match e with
  | None => exists v, b = achild a v (Idx n) /\ stands (ax a) [Idx n] v
  | Some e => b = a /\ (e = EBounds \/ e = EType TList (ax a) (apath a) /\ ax a <> VNil /\ forall l, ax a <> VList l) /\ forall v, ~ stands (ax a) [Idx n] v
  end.
Proof.
  intros Hn. unfold aN. destruct a as [x pa]; cbn [ax apath]. destruct x.
  1:{ do 2 eexists; split; [reflexivity|]. eexists; split; [reflexivity|]. constructor. constructor. }
  2:{ destruct (Z.geb_spec n (len l)).
      - do 2 eexists; split; [reflexivity|]. split; [reflexivity|]. split; [now left|]. intros v H'. inversion H'; subst.
        assert (nth_error l (Z.to_nat n) = None) by (apply nth_error_None; unfold len in H; lia). congruence.
      - destruct (Z.ltb_spec n 0); [lia|]. do 2 eexists; split; [reflexivity|]. eexists; split; [reflexivity|].
        econstructor 5; [assumption| |constructor]. apply nth_error_nth'. unfold len in H; lia. }
  all: do 2 eexists; split; [reflexivity|]; split; [reflexivity|]; split; [right; split; [reflexivity|]; split; discriminate|];
       intros v H; inversion H.
Qed.

Lemma walk_err p : forall a e, walk p a (Some e) = Ok (a, Some e).
Proof. induction p as [|[k|n] p IH]; intros; cbn; auto. Qed.

(** what an error says about the value [x] *)
Definition tells (x : value) (e : aerr) : Prop :=
  match e with
  | EBounds => exists p l n, stands x p (VList l) /\ len l <= n
  | EType t y p => stands x p y /\ y <> VNil /\ ~ of_type t y
  end.

Lemma walk_spec p : no_negative p -> forall x q a, stands x q (ax a) -> apath a = q ->
  exists b e, walk p a None = Ok (b, e) /\ match e with
  | None => stands x (q ++ p) (ax b) /\ apath b = q ++ p
  | Some e => (forall y, ~ stands x (q ++ p) y) /\ tells x e
  end.
Proof.
  induction p as [|s p IH]; intros Hp x q a Hs Ha; cbn [walk].
  - exists a, None. rewrite app_nil_r. auto.
  - assert (Hp' : no_negative p) by (intros n Hn; apply Hp; now right).
    assert (Hsub : forall v, stands (ax a) [s] v -> apath (achild a v s) = q ++ [s] /\ stands x (q ++ [s]) v).
    { intros v Hv. split; [cbn; now rewrite Ha|]. eapply stands_app; eauto. }
    assert (Hnone : (forall v, ~ stands (ax a) [s] v) -> forall y, ~ stands x (q ++ s :: p) y).
    { intros Hn y Hy. apply stands_app_inv in Hy as (w & A & B). rewrite (stands_fun _ _ _ _ A Hs) in B.
      change (s :: p) with ([s] ++ p) in B. apply stands_app_inv in B as (w' & C & D). eapply Hn; eauto. }
    replace (q ++ s :: p) with ((q ++ [s]) ++ p) in * by (rewrite <- app_assoc; reflexivity).
    destruct s as [k|n].
    + pose proof (aI_spec k a) as H. destruct (aI k a None) as [b [e|]].
      * destruct H as (-> & -> & N1 & N2 & N3). rewrite walk_err. do 2 eexists; split; [reflexivity|]. split; [auto|].
        cbn [tells]. rewrite Ha. split; [assumption|]. split; [assumption|]. intros [m Hm]. eapply N2; eauto.
      * destruct H as (v & -> & Hv). destruct (Hsub v Hv). apply (IH Hp' x (q ++ [Key k]) _); auto.
    + destruct (aN_spec n a) as (b & e & E & H). { apply Hp. now left. }
      rewrite E. cbn [bind fst snd]. destruct e as [e|].
      * destruct H as (-> & H & N3). rewrite walk_err. do 2 eexists; split; [reflexivity|]. split; [auto|].
        destruct H as [->|(-> & N1 & N2)]; cbn [tells].
        -- unfold aN in E. destruct (ax a) eqn:Ex; try discriminate.
           destruct (n >=? len l) eqn:En; [|destruct (n <? 0); discriminate]. exists q, l, n. rewrite Z.geb_leb, Z.leb_le in En. auto.
        -- rewrite Ha. split; [assumption|]. split; [assumption|]. intros [l Hl]. eapply N2; eauto.
      * destruct H as (v & -> & Hv). destruct (Hsub v Hv). apply (IH Hp' x (q ++ [Idx n]) _); auto.
Qed.

Lemma getter_spec A is zero get : @getter A is zero get -> forall a,
  (forall v, is (ax a) v -> get a None = (v, None)) /\
  (ax a = VNil -> get a None = (zero, None)) /\
  ((forall v, ~ is (ax a) v) -> ax a <> VNil -> exists t, get a None = (zero, Some (EType t (ax a) (apath a))) /\ ~ of_type t (ax a)) /\
  (forall e, get a (Some e) = (zero, Some e)) /\
  (forall v v', is (ax a) v -> is (ax a) v' -> v = v') /\ (forall v, ~ is VNil v) /\ ((exists v, is (ax a) v) \/ forall v, ~ is (ax a) v).
Proof.
  intros G a. destruct G; destruct a as [x q]; cbn [ax apath];
    unfold is_int, is_int64, is_str, is_bool, is_float, aInt, aInt64, aStr, aBool, aFloat; cbn [ax apath].
  all: repeat split; try (intros ? ->; reflexivity); try (intros ->; reflexivity); try congruence; try discriminate.
  all: try (destruct x; try (right; intros ? ?; discriminate); left; eexists; reflexivity).
  all: intros Hn H0; destruct x; try congruence; try (exfalso; eapply Hn; reflexivity);
    eexists; (split; [reflexivity|]); intros [? ?]; discriminate.
Qed.

(** * C49: a chain of I and N calls followed by a getter, on any decoded value:
    it succeeds iff what stands at the path has the right type or is absent,
    and then gives that value or the zero value; otherwise it gives the zero
    value and an error that says which value, at which path, had the wrong type
    or which list was too short. *)
Theorem C49_access : forall A (is : value -> A -> Prop) zero get, getter is zero get ->
  forall x p, no_negative p -> exists a e v e',
  walk p (aroot x) None = Ok (a, e) /\ get a e = (v, e') /\
  (e' = None <-> exists w, reads is zero x p w) /\
  (forall w, reads is zero x p w -> v = w) /\
  (forall er, e' = Some er -> v = zero /\ tells x er).
Proof.
  intros A is zero get G x p Hp.
  destruct (walk_spec p Hp x [] (aroot x)) as (a & e & E & H); [constructor|reflexivity|].
  cbn [app] in H. destruct (getter_spec _ _ _ _ G a) as (G1 & G2 & G3 & G4 & G5 & G6 & G7).
  destruct e as [er|].
  - destruct H as [H T]. exists a, (Some er), zero, (Some er). repeat split.
    + exact E.
    + apply G4.
    + discriminate.
    + intros (w & y & S1 & _). exfalso. eapply H; eauto.
    + intros w (y & S1 & _). exfalso. eapply H; eauto.
    + injection H0 as <-. exact T.
  - destruct H as [H Hpa].
    destruct G7 as [[v Hv]|Hno].
    + exists a, None, v, None. repeat split; auto; try discriminate.
      * intros _. exists v, (ax a). split; [assumption|now right].
      * intros w (y & S1 & F). rewrite (stands_fun _ _ _ _ S1 H) in F. destruct F as [[F _]|F]; [|eauto].
        rewrite F in Hv. exfalso. eapply G6; eauto.
    + assert (D : ax a = VNil \/ ax a <> VNil) by (destruct (ax a); auto; right; discriminate). destruct D as [D|D].
      * exists a, None, zero, None. repeat split; auto; try discriminate.
        -- intros _. exists zero, (ax a). split; [assumption|now left].
        -- intros w (y & S1 & F). rewrite (stands_fun _ _ _ _ S1 H) in F. destruct F as [[_ F]|F]; [auto|]. exfalso. eapply Hno; eauto.
      * destruct (G3 Hno D) as (t & Et & Ht). exists a, None, zero, (Some (EType t (ax a) (apath a))). repeat split; auto; try discriminate.
        -- intros (w & y & S1 & F). rewrite (stands_fun _ _ _ _ S1 H) in F. destruct F as [[F _]|F]; [congruence|]. exfalso. eapply Hno; eauto.
        -- intros w (y & S1 & F). rewrite (stands_fun _ _ _ _ S1 H) in F. destruct F as [[F _]|F]; [congruence|]. exfalso. eapply Hno; eauto.
        -- injection H0 as <-. cbn [tells]. rewrite Hpa. auto.
Qed.
Print Assumptions C49_access.

(** a map with an int64, a list and a nested map; a wrong type; an absence *)
Definition ex_val : value := VMap [([97], VInt64 7); ([98], VList [VStr [120]; VBool true]); ([99], VMap [([100], VFloat 42)])].
Example C49_access_ex :
  reads is_int64 0 ex_val [Key [97]] 7 /\ reads is_str [] ex_val [Key [98]; Idx 0] [120] /\
  reads is_float 0 ex_val [Key [99]; Key [100]] 42 /\ reads is_int 0 ex_val [Key [120]; Key [121]; Idx 3] 0 /\
  (forall w, ~ reads is_str [] ex_val [Key [97]] w) /\
  walk [Key [98]; Idx 1] (aroot ex_val) None = Ok ({| ax := VBool true; apath := [Key [98]; Idx 1] |}, None).
Proof.
  repeat split.
  - exists (VInt64 7). split; [econstructor 2; [reflexivity|constructor]|right; reflexivity].
  - exists (VStr [120]). split; [econstructor 2; [reflexivity|econstructor 5; [lia|reflexivity|constructor]]|right; reflexivity].
  - exists (VFloat 42). split; [econstructor 2; [reflexivity|econstructor 2; [reflexivity|constructor]]|right; reflexivity].
  - exists VNil. split; [econstructor 3; [reflexivity|do 3 constructor]|left; auto].
  - intros w (y & S & F). inversion S as [|m k v p y' Hk Hs|m k p y' Hk Hs| |]; subst; [|discriminate]. cbn in Hk. injection Hk as <-. inversion Hs; subst.
    destruct F as [[F _]|F]; discriminate.
Qed.

(** ** any program of calls on any asserters of one root *)
Definition never_negative (l : list call) : Prop := forall h n, In (CN h n) l -> 0 <= n.
Definition zero_got (g : got) : Prop :=
  match g with GHandle => True | GInt n => n = 0 | GStr s => s = [] | GBool b => b = false | GVal _ => True end.

Lemma call1_err c hs e : exists g hs', call1 c (hs, Some e) = Ok (g, (hs', Some e)) /\ zero_got g /\
  (match c with CI h _ | CN h _ => hs' = hs ++ [nth h hs ad] | _ => hs' = hs end).
Proof. destruct c; cbn; do 2 eexists; (split; [reflexivity|]); cbn; auto. Qed.

(** after the first error every later call, whatever it is, reports that error,
    gives the zero value, and cannot panic *)
Theorem C49_sticky : forall l hs e, exists gs hs', calls l (hs, Some e) = Ok (gs, (hs', Some e)) /\
  Forall zero_got gs /\ length gs = length l.
Proof.
  induction l as [|c l IH]; intros hs e; cbn [calls].
  - do 2 eexists; split; [reflexivity|]. auto.
  - destruct (call1_err c hs e) as (g & hs1 & E & Z1 & _). rewrite E. cbn [bind snd fst].
    destruct (IH hs1 e) as (gs & hs2 & E2 & Z2 & L). rewrite E2. cbn [bind fst snd].
    do 2 eexists; split; [reflexivity|]. split; [constructor; auto|cbn; auto].
Qed.
Print Assumptions C49_sticky.

Lemma calls_app l1 l2 s : calls (l1 ++ l2) s =
  do x <- calls l1 s; do y <- calls l2 (snd x); Ok (fst x ++ fst y, snd y).
Proof.
  revert s. induction l1 as [|c l1 IH]; intros s; cbn [app calls bind fst snd].
  - destruct (calls l2 s) as [[? ?]| | |]; reflexivity.
  - destruct (call1 c s) as [[g s1]| | |]; cbn [bind fst snd]; auto. rewrite IH.
    destruct (calls l1 s1) as [[g1 s2]| | |]; cbn [bind fst snd]; auto.
    destruct (calls l2 s2) as [[g2 s3]| | |]; cbn [bind fst snd]; auto.
Qed.

Definition handles_ok (x : value) (hs : list asserter) : Prop :=
  hs <> [] /\ Forall (fun a => stands x (apath a) (ax a)) hs.
Definition used (c : call) : nat :=
  match c with CI h _ | CN h _ | CInt h | CInt64 h | CStr h | CBool h | CFloat h | CV h => h end.


Lemma call1_ok x c hs : handles_ok x hs -> (used c < length hs)%nat -> (forall h n, c = CN h n -> 0 <= n) ->
  exists g hs' e, call1 c (hs, None) = Ok (g, (hs', e)) /\
  (e = None -> handles_ok x hs') /\ (forall er, e = Some er -> zero_got g /\ tells x er).
Proof.
  intros [H0 H1] Hu Hn.
  assert (Hh : forall h, (h < length hs)%nat -> stands x (apath (nth h hs ad)) (ax (nth h hs ad))).
  { intros h Hh. rewrite Forall_forall in H1. apply H1. now apply nth_In. }
  assert (Hg : forall A (is : value -> A -> Prop) zero get h, getter is zero get -> (h < length hs)%nat ->
     exists v e, get (nth h hs ad) None = (v, e) /\ (e = None -> handles_ok x hs) /\
       (forall er, e = Some er -> v = zero /\ tells x er)).
  { intros A is zero get h G Lh. destruct (getter_spec _ _ _ _ G (nth h hs ad)) as (G1 & G2 & G3 & _ & _ & G6 & G7).
    destruct G7 as [[v Hv]|Hno].
    - exists v, None. split; [auto|]. split; [split; auto|discriminate].
    - assert (D : ax (nth h hs ad) = VNil \/ ax (nth h hs ad) <> VNil) by (destruct (ax (nth h hs ad)); auto; right; discriminate).
      destruct D as [D|D].
      + exists zero, None. split; [auto|]. split; [split; auto|discriminate].
      + destruct (G3 Hno D) as (t & Et & Ht). rewrite Et. do 2 eexists; split; [reflexivity|]. split; [discriminate|].
        intros er Er. injection Er as <-. split; [reflexivity|]. cbn. auto. }
  destruct c as [h k|h n|h|h|h|h|h|h]; cbn [used] in Hu; cbn [call1].
  - pose proof (aI_spec k (nth h hs ad)) as S. destruct (aI k (nth h hs ad) None) as [b [e|]].
    + destruct S as (-> & -> & N1 & N2 & _). do 3 eexists; split; [reflexivity|]. split; [discriminate|].
      intros er Er. injection Er as <-. split; [exact I|]. cbn. split; [auto|]. split; [auto|]. intros [m Hm]. eapply N2; eauto.
    + destruct S as (v & -> & Sv). do 3 eexists; split; [reflexivity|]. split; [|discriminate]. intros _. split; [destruct hs; discriminate|].
      apply Forall_app; split; [assumption|]. constructor; [|constructor]. cbn. eapply stands_app; eauto.
  - destruct (aN_spec n (nth h hs ad) (Hn h n eq_refl)) as (b & e & E & S). rewrite E. cbn [bind fst snd]. destruct e as [e|].
    + destruct S as (-> & S & _). do 3 eexists; split; [reflexivity|]. split; [discriminate|].
      intros er Er. injection Er as <-. split; [exact I|]. destruct S as [->|(-> & N1 & N2)]; cbn.
      * unfold aN in E. destruct (ax (nth h hs ad)) eqn:Ex; try discriminate.
        destruct (n >=? len l) eqn:En; [|destruct (n <? 0); discriminate]. exists (apath (nth h hs ad)), l, n.
        rewrite Z.geb_leb, Z.leb_le in En. rewrite <- Ex. auto.
      * split; [auto|]. split; [auto|]. intros [l Hl]. eapply N2; eauto.
    + destruct S as (v & -> & Sv). do 3 eexists; split; [reflexivity|]. split; [|discriminate]. intros _. split; [destruct hs; discriminate|].
      apply Forall_app; split; [assumption|]. constructor; [|constructor]. cbn. eapply stands_app; eauto.
  - destruct (Hg _ _ _ _ h g_int Hu) as (v & e & E & O & Er). rewrite E. do 3 eexists; split; [reflexivity|]. split; [auto|]. intros er R. apply Er in R as [-> R]. cbn; auto.
  - destruct (Hg _ _ _ _ h g_int64 Hu) as (v & e & E & O & Er). rewrite E. do 3 eexists; split; [reflexivity|]. split; [auto|]. intros er R. apply Er in R as [-> R]. cbn; auto.
  - destruct (Hg _ _ _ _ h g_str Hu) as (v & e & E & O & Er). rewrite E. do 3 eexists; split; [reflexivity|]. split; [auto|]. intros er R. apply Er in R as [-> R]. cbn; auto.
  - destruct (Hg _ _ _ _ h g_bool Hu) as (v & e & E & O & Er). rewrite E. do 3 eexists; split; [reflexivity|]. split; [auto|]. intros er R. apply Er in R as [-> R]. cbn; auto.
  - destruct (Hg _ _ _ _ h g_float Hu) as (v & e & E & O & Er). rewrite E. do 3 eexists; split; [reflexivity|]. split; [auto|]. intros er R. apply Er in R as [-> R]. cbn; auto.
  - do 3 eexists; split; [reflexivity|]. split; [split; auto|discriminate].
Qed.

(** programs only use handles they already have *)
Fixpoint handles_exist (n : nat) (l : list call) : Prop :=
  match l with
  | [] => True
  | c :: r => (used c < n)%nat /\ handles_exist (match c with CI _ _ | CN _ _ => S n | _ => n end) r
  end.

Lemma call1_len c hs e g hs' e' : call1 c (hs, e) = Ok (g, (hs', e')) ->
  length hs' = match c with CI _ _ | CN _ _ => S (length hs) | _ => length hs end.
Proof.
  destruct c; cbn.
  - destruct (aI _ _ _). intros H; injection H as <- <- <-. rewrite app_length. cbn. lia.
  - destruct (aN _ _ _) as [[? ?]| | |]; cbn; try discriminate. intros H; injection H as <- <- <-. rewrite app_length. cbn. lia.
  - destruct (aInt _ _). intros H; injection H as <- <- <-. reflexivity.
  - destruct (aInt64 _ _). intros H; injection H as <- <- <-. reflexivity.
  - destruct (aStr _ _). intros H; injection H as <- <- <-. reflexivity.
  - destruct (aBool _ _). intros H; injection H as <- <- <-. reflexivity.
  - destruct (aFloat _ _). intros H; injection H as <- <- <-. reflexivity.
  - intros H; injection H as <- <- <-. reflexivity.
Qed.

(** a program never panics without negative indexes, and every handle it holds
    while there is no error is what stands at its path of the root value; an
    error tells something true about the root value *)
Theorem C49_programs : forall x l, never_negative l -> handles_exist 1 l ->
  exists gs hs e, calls l (hstart x) = Ok (gs, (hs, e)) /\
  (e = None -> Forall (fun a => stands x (apath a) (ax a)) hs) /\ (forall er, e = Some er -> tells x er).
Proof.
  intros x l Hn He.
  enough (G : forall l hs, handles_ok x hs -> never_negative l -> handles_exist (length hs) l ->
    exists gs hs' e, calls l (hs, None) = Ok (gs, (hs', e)) /\
    (e = None -> handles_ok x hs') /\ (forall er, e = Some er -> tells x er)).
  { destruct (G l [aroot x]) as (gs & hs & e & E & A & B); auto.
    - split; [discriminate|]. constructor; [constructor|constructor].
    - exists gs, hs, e. split; [exact E|]. split; [|exact B]. intros H. apply A in H as [_ H]. exact H. }
  clear. induction l as [|c l IH]; intros hs Hh Hn He; cbn [calls].
  - do 3 eexists; split; [reflexivity|]. split; [auto|discriminate].
  - destruct He as [Hu He]. destruct (call1_ok x c hs Hh Hu) as (g & hs1 & e & E & A & B).
    { intros h n ->. apply (Hn h). now left. }
    pose proof (call1_len _ _ _ _ _ _ E) as L. rewrite E. cbn [bind snd fst]. destruct e as [e|].
    + destruct (C49_sticky l hs1 e) as (gs & hs2 & E2 & _). rewrite E2. cbn [bind fst snd].
      do 3 eexists; split; [reflexivity|]. split; [discriminate|]. intros er Er. injection Er as <-. now apply B.
    + destruct (IH hs1) as (gs & hs2 & e2 & E2 & A2 & B2); auto.
      * intros h n Hin. apply (Hn h). now right.
      * rewrite L. exact He.
      * rewrite E2. cbn [bind fst snd]. do 3 eexists; split; [reflexivity|]. auto.
Qed.
Print Assumptions C49_programs.

(** the error reported at the end is the one the first failing call made *)
Theorem C49_first_error : forall x l1 c l2 gs hs g hs' e,
  calls l1 (hstart x) = Ok (gs, (hs, None)) -> call1 c (hs, None) = Ok (g, (hs', Some e)) ->
  exists gs2 hs2, calls (l1 ++ c :: l2) (hstart x) = Ok (gs ++ g :: gs2, (hs2, Some e)) /\ Forall zero_got gs2.
Proof.
  intros x l1 c l2 gs hs g hs' e E1 E2. rewrite calls_app, E1. cbn [bind fst snd calls]. rewrite E2. cbn [bind fst snd].
  destruct (C49_sticky l2 hs' e) as (gs2 & hs2 & E3 & Z3 & _). rewrite E3. cbn [bind fst snd].
  do 2 eexists; split; [reflexivity|]. assumption.
Qed.
Print Assumptions C49_first_error.

Example C49_programs_ex :
  let l := [CI 0 [98]; CN 1 1; CBool 2; CI 0 [97]; CStr 3; CI 0 [99]; CI 4 [100]; CFloat 5; CInt64 3] in
  never_negative l /\ handles_exist 1 l /\
  match calls l (hstart ex_val) with
  | Ok (gs, (_, e)) => gs = [GHandle; GHandle; GBool true; GHandle; GStr []; GHandle; GHandle; GInt 0; GInt 0] /\
       e = Some (EType TStr (VInt64 7) [Key [97]])
  | _ => False end.
Proof.
  split; [|split].
  - intros h n [H|[H|[H|[H|[H|[H|[H|[H|[H|H]]]]]]]]]; try discriminate H; [|contradiction H]. injection H as <- <-. lia.
  - repeat (split; [apply PeanoNat.Nat.ltb_lt; reflexivity|]). exact I.
  - vm_compute. auto.
Qed.

(** the one gap: a negative list index panics instead of reporting an error *)
Theorem C49_negative_index_refuted : exists x p, walk p (aroot x) None = Panic.
Proof. exists (VList [VInt 1]), [Idx (-1)]. reflexivity. Qed.
Print Assumptions C49_negative_index_refuted.

(** * the makers of the three kinds of components *)
Lemma field2 A (is : value -> A -> Prop) zero get x p e : getter is zero get -> no_negative p ->
  exists a e1 v e2, walk p (aroot x) e = Ok (a, e1) /\ get a e1 = (v, e2) /\
  match e with
  | Some er => e2 = Some er
  | None => (e2 = None <-> exists w, reads is zero x p w) /\ (forall w, reads is zero x p w -> v = w)
  end.
Proof.
  intros G Hp. destruct e as [er|].
  - rewrite walk_err. destruct (getter_spec _ _ _ _ G (aroot x)) as (_ & _ & _ & G4 & _).
    exists (aroot x), (Some er), zero, (Some er). auto.
  - destruct (C49_access _ _ _ _ G x p Hp) as (a & e & v & e' & A1 & A2 & A3 & A4 & _).
    exists a, e, v, e'. auto.
Qed.

Definition keys (l : list (list Z)) : list step := map Key l.
Lemma keys_ok l : no_negative (keys l).
Proof. intros n H. apply in_map_iff in H as (k & E & _). discriminate. Qed.

Lemma walk1 k a e : walk (keys [k]) a e = Ok (aI k a e).
Proof. cbn. destruct (aI k a e). reflexivity. Qed.
Lemma walk2 k k' a e : walk (keys [k; k']) a e = Ok (aI k' (fst (aI k a e)) (snd (aI k a e))).
Proof. cbn. destruct (aI k a e) as [b e1]. cbn. destruct (aI k' b e1). reflexivity. Qed.

(** the fields of a files database configuration *)
Definition files_fields (c : value) (dir : list Z) (o : fopts) : Prop :=
  reads is_str [] c (keys [k_directory]) dir /\
  reads is_int64 0 c (keys [k_size]) (fo_size o) /\
  reads is_int64 0 c (keys [k_cap]) (fo_cap o) /\
  reads is_int64 0 c (keys [k_files]) (fo_files o) /\
  reads is_int64 0 c (keys [k_tuning; k_buffer]) (fo_buffer o) /\
  reads is_bool false c (keys [k_tuning; k_drop]) (fo_drop o) /\
  reads is_int64 0 c (keys [k_tuning; k_handles]) (fo_handles o) /\
  reads is_int64 0 c (keys [k_tuning; k_workers]) (fo_workers o).

(** the files database is made from a configuration iff every field is absent
    or of its type, with exactly those fields; otherwise there is an error *)
Theorem C49_files_config : forall c,
  (forall dir o, files_maker c = Ok (dir, o) <-> files_fields c dir o) /\
  ((forall dir o, ~ files_fields c dir o) <-> files_maker c = Err).
Proof.
  intros c.
  assert (S1 : forall A (is : value -> A -> Prop) zero get k e, getter is zero get ->
    exists a e1 v e2, aI k (aroot c) e = (a, e1) /\ get a e1 = (v, e2) /\
    match e with Some er => e2 = Some er
    | None => (e2 = None <-> exists w, reads is zero c (keys [k]) w) /\ (forall w, reads is zero c (keys [k]) w -> v = w) end).
  { intros A is zero get k e G. destruct (field2 A is zero get c (keys [k]) e G (keys_ok _)) as (a & e1 & v & e2 & W & R).
    rewrite walk1 in W. injection W as W. exists a, e1, v, e2. auto. }
  assert (S2 : forall A (is : value -> A -> Prop) zero get k k' e, getter is zero get ->
    exists b e0 a e1 v e2, aI k (aroot c) e = (b, e0) /\ aI k' b e0 = (a, e1) /\ get a e1 = (v, e2) /\
    match e with Some er => e2 = Some er
    | None => (e2 = None <-> exists w, reads is zero c (keys [k; k']) w) /\ (forall w, reads is zero c (keys [k; k']) w -> v = w) end).
  { intros A is zero get k k' e G. destruct (field2 A is zero get c (keys [k; k']) e G (keys_ok _)) as (a & e1 & v & e2 & W & R).
    rewrite walk2 in W. injection W as W. destruct (aI k (aroot c) e) as [b e0] eqn:E0. cbn [fst snd] in W.
    exists b, e0, a, e1, v, e2. auto. }
  assert (K : forall A (is : value -> A -> Prop) zero p v (e2 : option aerr),
     (e2 = None <-> exists w, reads is zero c p w) -> (forall w, reads is zero c p w -> v = w) ->
     match e2 with None => reads is zero c p v | Some _ => forall w, ~ reads is zero c p w end).
  { intros A is zero p v e2 H1 H2. destruct e2 as [er|].
    - intros w Hw. destruct H1 as [_ H1]. assert (Some er = None) by (apply H1; eauto). discriminate.
    - destruct H1 as [H1 _]. destruct (H1 eq_refl) as [w Hw]. rewrite (H2 w Hw). exact Hw. }
  assert (L : forall A (is : value -> A -> Prop) zero p v, reads is zero c p v ->
    (forall w, reads is zero c p w -> v = w) -> forall w, reads is zero c p w -> w = v) by (intros; symmetry; auto).
  assert (Main : (exists dir o, files_maker c = Ok (dir, o) /\ files_fields c dir o /\
      forall d' o', files_fields c d' o' -> d' = dir /\ o' = o) \/
     (files_maker c = Err /\ forall dir o, ~ files_fields c dir o)).
  { unfold files_maker.
    destruct (S1 _ _ _ _ k_directory None g_str) as (a1 & f1 & dir & e1 & X1 & Y1 & R1). rewrite X1; cbv beta iota; rewrite Y1; cbv beta iota. destruct R1 as [P1 Q1].
    pose proof (K _ _ _ _ _ _ P1 Q1) as K1.
    destruct (S1 _ _ _ _ k_size e1 g_int64) as (a2 & f2 & size & e2 & X2 & Y2 & R2). rewrite X2; cbv beta iota; rewrite Y2; cbv beta iota.
    destruct (S1 _ _ _ _ k_cap e2 g_int64) as (a3 & f3 & cap & e3 & X3 & Y3 & R3). rewrite X3; cbv beta iota; rewrite Y3; cbv beta iota.
    destruct (S1 _ _ _ _ k_files e3 g_int64) as (a4 & f4 & files & e4 & X4 & Y4 & R4). rewrite X4; cbv beta iota; rewrite Y4; cbv beta iota.
    destruct (S2 _ _ _ _ k_tuning k_buffer e4 g_int64) as (b5 & h5 & a5 & f5 & buffer & e5 & W5 & X5 & Y5 & R5). rewrite W5; cbv beta iota; rewrite X5; cbv beta iota; rewrite Y5; cbv beta iota.
    destruct (S2 _ _ _ _ k_tuning k_drop e5 g_bool) as (b6 & h6 & a6 & f6 & drop & e6 & W6 & X6 & Y6 & R6). rewrite W6; cbv beta iota; rewrite X6; cbv beta iota; rewrite Y6; cbv beta iota.
    destruct (S2 _ _ _ _ k_tuning k_handles e6 g_int64) as (b7 & h7 & a7 & f7 & handles & e7 & W7 & X7 & Y7 & R7). rewrite W7; cbv beta iota; rewrite X7; cbv beta iota; rewrite Y7; cbv beta iota.
    destruct (S2 _ _ _ _ k_tuning k_workers e7 g_int64) as (b8 & h8 & a8 & f8 & workers & e8 & W8 & X8 & Y8 & R8). rewrite W8; cbv beta iota; rewrite X8; cbv beta iota; rewrite Y8; cbv beta iota.
    clear X1 Y1 X2 Y2 X3 Y3 X4 Y4 W5 X5 Y5 W6 X6 Y6 W7 X7 Y7 W8 X8 Y8.
    destruct e1; [right; subst; split; [reflexivity|]; intros d o F; destruct F as (F & _); eapply K1; eauto|].
    destruct R2 as [P2 Q2]; pose proof (K _ _ _ _ _ _ P2 Q2) as K2.
    destruct e2; [right; subst; split; [reflexivity|]; intros d o F; destruct F as (_ & F & _); eapply K2; eauto|].
    destruct R3 as [P3 Q3]; pose proof (K _ _ _ _ _ _ P3 Q3) as K3.
    destruct e3; [right; subst; split; [reflexivity|]; intros d o F; destruct F as (_ & _ & F & _); eapply K3; eauto|].
    destruct R4 as [P4 Q4]; pose proof (K _ _ _ _ _ _ P4 Q4) as K4.
    destruct e4; [right; subst; split; [reflexivity|]; intros d o F; destruct F as (_ & _ & _ & F & _); eapply K4; eauto|].
    destruct R5 as [P5 Q5]; pose proof (K _ _ _ _ _ _ P5 Q5) as K5.
    destruct e5; [right; subst; split; [reflexivity|]; intros d o F; destruct F as (_ & _ & _ & _ & F & _); eapply K5; eauto|].
    destruct R6 as [P6 Q6]; pose proof (K _ _ _ _ _ _ P6 Q6) as K6.
    destruct e6; [right; subst; split; [reflexivity|]; intros d o F; destruct F as (_ & _ & _ & _ & _ & F & _); eapply K6; eauto|].
    destruct R7 as [P7 Q7]; pose proof (K _ _ _ _ _ _ P7 Q7) as K7.
    destruct e7; [right; subst; split; [reflexivity|]; intros d o F; destruct F as (_ & _ & _ & _ & _ & _ & F & _); eapply K7; eauto|].
    destruct R8 as [P8 Q8]; pose proof (K _ _ _ _ _ _ P8 Q8) as K8.
    destruct e8; [right; split; [reflexivity|]; intros d o F; destruct F as (_ & _ & _ & _ & _ & _ & _ & F); eapply K8; eauto|].
    left. do 2 eexists; split; [reflexivity|]. split.
    - unfold files_fields. cbn [fo_size fo_cap fo_files fo_buffer fo_drop fo_handles fo_workers]. tauto.
    - intros d' o' (F1 & F2 & F3 & F4 & F5 & F6 & F7 & F8). split; [symmetry; auto|].
      apply Q2 in F2; apply Q3 in F3; apply Q4 in F4; apply Q5 in F5; apply Q6 in F6; apply Q7 in F7; apply Q8 in F8.
      destruct o'; cbn in *. congruence. }
  destruct Main as [(dir & o & E & F & U)|(E & F)].
  - rewrite E. split.
    + intros d' o'. split; [intros X; injection X as <- <-; assumption|]. intros X. apply U in X as [-> ->]. reflexivity.
    + split; [intros X; exfalso; eapply X; eauto|discriminate].
  - rewrite E. split.
    + intros d' o'. split; [discriminate|]. intros X. exfalso; eapply F; eauto.
    + tauto.
Qed.
Print Assumptions C49_files_config.

Example C49_files_config_ex : exists o,
  files_maker (VMap [(k_directory, VStr [100]); (k_size, VInt64 256); (k_tuning, VMap [(k_drop, VBool true)])]) = Ok ([100], o) /\
  fo_size o = 256 /\ fo_drop o = true /\ fo_cap o = 0 /\ files_maker (VMap [(k_size, VStr [])]) = Err.
Proof. eexists. split; [reflexivity|]. cbn. auto. Qed.

(** the tdigest parameters and the graphite listener: same for their one field *)
Theorem C49_tdigest_config : forall c,
  (forall v, tdigest_maker c = Ok v <-> reads is_float 0 c (keys [k_compression]) v) /\
  ((forall v, ~ reads is_float 0 c (keys [k_compression]) v) <-> tdigest_maker c = Err).
Proof.
  intros c.
  destruct (field2 _ _ _ _ c (keys [k_compression]) None g_float (keys_ok _)) as (a & e1 & v & e2 & W & R & P & Q).
  rewrite walk1 in W. assert (W' : aI k_compression (aroot c) None = (a, e1)) by congruence. clear W. rename W' into W.
  assert (M : tdigest_maker c = match e2 with Some _ => Err | None => Ok v end).
  { unfold tdigest_maker. destruct c; cbv beta iota; try (rewrite W; cbv beta iota; rewrite R; reflexivity).
    cbn in W. injection W as <- <-. cbn in R. injection R as <- <-. reflexivity. }
  rewrite M. destruct e2 as [er|].
  - assert (N : forall w, ~ reads is_float 0 c (keys [k_compression]) w) by (intros w Hw; destruct P as [_ P]; assert (Some er = None) by (apply P; eauto); discriminate).
    split; [|tauto]. intros w. split; [discriminate|]. intros Hw. exfalso. eapply N; eauto.
  - destruct P as [P _]. destruct (P eq_refl) as [w Hw]. pose proof (Q w Hw); subst w. split.
    + intros w. split; [intros X; injection X as <-; assumption|]. intros X. apply Q in X. congruence.
    + split; [intros X; exfalso; eapply X; eauto|discriminate].
Qed.
Print Assumptions C49_tdigest_config.

Theorem C49_graphite_config : forall c,
  (forall v, graphite_maker c = Ok v <-> reads is_str [] c (keys [k_address]) v) /\
  ((forall v, ~ reads is_str [] c (keys [k_address]) v) <-> graphite_maker c = Err).
Proof.
  intros c.
  destruct (field2 _ _ _ _ c (keys [k_address]) None g_str (keys_ok _)) as (a & e1 & v & e2 & W & R & P & Q).
  rewrite walk1 in W. assert (W' : aI k_address (aroot c) None = (a, e1)) by congruence. clear W. rename W' into W.
  assert (M : graphite_maker c = match e2 with Some _ => Err | None => Ok v end).
  { unfold graphite_maker. rewrite W. cbv beta iota. rewrite R. reflexivity. }
  rewrite M. destruct e2 as [er|].
  - assert (N : forall w, ~ reads is_str [] c (keys [k_address]) w) by (intros w Hw; destruct P as [_ P]; assert (Some er = None) by (apply P; eauto); discriminate).
    split; [|tauto]. intros w. split; [discriminate|]. intros Hw. exfalso. eapply N; eauto.
  - destruct P as [P _]. destruct (P eq_refl) as [w Hw]. pose proof (Q w Hw); subst w. split.
    + intros w. split; [intros X; injection X as <-; assumption|]. intros X. apply Q in X. congruence.
    + split; [intros X; exfalso; eapply X; eauto|discriminate].
Qed.
Print Assumptions C49_graphite_config.
Example C49_makers_ex : tdigest_maker (VMap [(k_compression, VFloat 5)]) = Ok 5 /\ tdigest_maker (VMap [(k_compression, VInt64 5)]) = Err /\
  graphite_maker (VMap [(k_address, VStr [58])]) = Ok [58] /\ graphite_maker (VInt 3) = Err.
Proof. repeat split. Qed.
