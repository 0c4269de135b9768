(** Property C48: the plugin registry. *)
From Coq Require Import ZArith List Lia Bool.
From Verif Require Import Base Maps Registry.
Import ListNotations.
Open Scope Z_scope.

(** ** specification *)
(** [m] is the most recent registration of [name] for [k] in [l] *)
Definition latest {C T} (l : list (rop C T)) (k : kind) (name : list Z) (m : maker C T) : Prop :=
  exists l1 l2, l = l1 ++ Reg k name m :: l2 /\ forall m', ~ In (Reg k name m') l2.
Definition never {C T} (l : list (rop C T)) (k : kind) (name : list Z) : Prop := forall m, ~ In (Reg k name m) l.
(** makers return (a value, an error or a panic) without using the registry *)
Definition returns {C T} (m : maker C T) : Prop := forall c, exists x, m c = Ret x /\ x <> Diverge.
Definition makers_return {C T} (l : list (rop C T)) : Prop := forall k n m, In (Reg k n m) l -> returns m.

Lemma kind_eq_dec (k k' : kind) : {k = k'} + {k <> k'}.
Proof. decide equality. Defined.

Lemma table_register {C T} k n (m : maker C T) r : held r = false -> exists r', register k n m r = Ok r' /\ held r' = false /\
  forall k' n', mget beqb n' (table k' r') = if kind_eq_dec k k' then (if beqb n n' then Some m else mget beqb n' (table k' r)) else mget beqb n' (table k' r).
Proof.
  intros H. unfold register. rewrite H. destruct k; eexists; (split; [reflexivity|]; split; [reflexivity|]);
    intros k' n'; destruct k'; cbn [table listeners databases distributions]; try (rewrite (mget_put _ eqb_ok_bytes)); reflexivity.
Qed.

Lemma inv {C T} (l : list (rop C T)) : makers_return l -> forall r,
  held r = false -> (forall k n m, mget beqb n (table k r) = Some m -> returns m) ->
  held (rrun l r) = false /\ (forall k n m, mget beqb n (table k (rrun l r)) = Some m -> returns m) /\
  forall k n, (forall m, latest l k n m -> mget beqb n (table k (rrun l r)) = Some m) /\
              (never l k n -> mget beqb n (table k (rrun l r)) = mget beqb n (table k r)).
Proof.
  induction l as [|o l IH]; intros Hm r Hh Hr.
  - cbn. split; [assumption|]. split; [assumption|]. intros k n. split; [|auto]. intros m (l1 & l2 & E & _). destruct l1; discriminate.
  - assert (Hm' : makers_return l) by (intros k n m Hin; eapply Hm; right; eauto). cbn [rrun].
    assert (Later : forall k n m, latest (o :: l) k n m -> latest l k n m \/ (o = Reg k n m /\ never l k n)).
    { intros k n m (l1 & l2 & E & N). destruct l1 as [|o1 l1]; cbn in E; injection E as -> ->.
      - right. split; [reflexivity|exact N].
      - left. exists l1, l2. auto. }
    destruct o as [k0 n0 m0|k0 n0 c0]; cbn [rstep].
    + destruct (table_register k0 n0 m0 r Hh) as (r1 & E1 & H1 & G1). rewrite E1. cbn [snd].
      destruct (IH Hm' r1 H1) as (A & B & D).
      { intros k n m E. rewrite G1 in E. destruct (kind_eq_dec k0 k); [destruct (beqb n0 n)|]; [|eauto|eauto].
        injection E as <-. eapply Hm. left. reflexivity. }
      split; [assumption|]. split; [assumption|]. intros k n. destruct (D k n) as [D1 D2]. split.
      * intros m Hl. apply Later in Hl as [Hl|[Eo Hn]]; [auto|]. injection Eo as -> -> ->. rewrite D2 by assumption. rewrite G1.
        destruct (kind_eq_dec k k); [|congruence]. now rewrite beqb_refl.
      * intros Hn. rewrite D2 by (intros m Hin; apply (Hn m); now right). rewrite G1.
        destruct (kind_eq_dec k0 k) as [->|]; [|reflexivity]. destruct (beqb n0 n) eqn:En; [|reflexivity].
        apply beqb_eq in En. subst n0. exfalso. apply (Hn m0). now left.
    + assert (E1 : snd (new k0 n0 c0 r) = r).
      { unfold new. rewrite Hh. destruct (mget beqb n0 (table k0 r)) as [m|] eqn:E; [|reflexivity].
        destruct (Hr _ _ _ E c0) as (x & Ex & Nx). rewrite Ex. destruct x; try reflexivity. congruence. }
      destruct (new k0 n0 c0 r) as [x r1]. cbn [snd] in *. subst r1.
      destruct (IH Hm' r Hh Hr) as (A & B & D). split; [assumption|]. split; [assumption|]. intros k n. destruct (D k n) as [D1 D2]. split.
      * intros m Hl. apply Later in Hl as [Hl|[Eo _]]; [auto|discriminate].
      * intros Hn. apply D2. intros m Hin. apply (Hn m). now right.
Qed.

(** * C48: after any history of registrations and constructions, constructing a
    component gives what the most recently registered maker of that kind and
    name returns for the given configuration, and an error when none was
    registered.  Makers must return without calling the registry. *)
Theorem C48_latest_wins : forall C T (l : list (rop C T)) k name c, makers_return l ->
  (forall m, latest l k name m -> Ret (fst (new k name c (rrun l reg0))) = m c) /\
  (never l k name -> fst (new k name c (rrun l reg0)) = Err).
Proof.
  intros C T l k name c Hm. destruct (inv l Hm reg0 eq_refl) as (A & B & D).
  { intros k' n m. destruct k'; discriminate. }
  destruct (D k name) as [D1 D2]. unfold new. rewrite A. split.
  - intros m Hl. rewrite (D1 m Hl). destruct (B _ _ _ (D1 m Hl) c) as (x & Ex & _). rewrite Ex. reflexivity.
  - intros Hn. rewrite (D2 Hn). destruct k; reflexivity.
Qed.
Print Assumptions C48_latest_wins.

(** one of the two cases applies to every history *)
Theorem C48_cases : forall C T (l : list (rop C T)) k name, never l k name \/ exists m, latest l k name m.
Proof.
  intros C T l k name. induction l as [|o l IH] using rev_ind.
  - left. intros m [].
  - assert (D : (exists m, o = Reg k name m) \/ forall m, o <> Reg k name m).
    { destruct o as [k' n' m'|]; [|right; discriminate]. destruct (kind_eq_dec k' k) as [->|]; [|right; congruence].
      destruct (bytes_eq_dec n' name) as [->|]; [left; eauto|right; congruence]. }
    destruct D as [[m ->]|D].
    + right. exists m, l, []. split; [reflexivity|]. intros m' [].
    + destruct IH as [IH|(m & l1 & l2 & -> & Hn)].
      * left. intros m Hin. apply in_app_or in Hin as [Hin|[->|[]]]; [eapply IH; eauto|eapply D; eauto].
      * right. exists m, l1, (l2 ++ [o]). split; [now rewrite <- app_assoc|]. intros m' Hin.
        apply in_app_or in Hin as [Hin|[->|[]]]; [eapply Hn; eauto|eapply D; eauto].
Qed.
Print Assumptions C48_cases.

(** constructing does not change what later constructions give *)
Theorem C48_new_pure : forall C T (l : list (rop C T)) k name c, makers_return l ->
  snd (new k name c (rrun l reg0)) = rrun l reg0.
Proof.
  intros C T l k name c Hm. destruct (inv l Hm reg0 eq_refl) as (A & B & _).
  { intros k' n m. destruct k'; discriminate. }
  unfold new. rewrite A. destruct (mget beqb name (table k (rrun l reg0))) as [m|] eqn:E; [|reflexivity].
  destruct (B _ _ _ E c) as (x & Ex & Nx). rewrite Ex. destruct x; try reflexivity. congruence.
Qed.
Print Assumptions C48_new_pure.

Definition mk_const (v : Z) : maker Z Z := fun c => Ret (if c <? 0 then Err else Ok (v + c)).
Definition ex_hist : list (rop Z Z) :=
  [Reg KDatabase [1] (mk_const 10); Reg KListener [1] (mk_const 20); New KDatabase [1] 5; Reg KDatabase [1] (mk_const 30); Reg KDatabase [2] (mk_const 40)].
Example C48_ex : makers_return ex_hist /\ latest ex_hist KDatabase [1] (mk_const 30) /\ never ex_hist KDist [1] /\
  fst (new KDatabase [1] 5 (rrun ex_hist reg0)) = Ok 35 /\ fst (new KListener [1] 5 (rrun ex_hist reg0)) = Ok 25 /\
  fst (new KDist [1] 5 (rrun ex_hist reg0)) = Err /\ fst (new KDatabase [1] (-1) (rrun ex_hist reg0)) = Err.
Proof.
  assert (R : forall v, returns (mk_const v)) by (intros v c; eexists; split; [reflexivity|]; destruct (c <? 0); discriminate).
  split; [|split; [|split]].
  - intros k n m H. repeat (destruct H as [H|H]; [try discriminate; injection H as <- <- <-; apply R|]). contradiction.
  - exists [Reg KDatabase [1] (mk_const 10); Reg KListener [1] (mk_const 20); New KDatabase [1] 5], [Reg KDatabase [2] (mk_const 40)].
    split; [reflexivity|]. intros m' [H|[]]. discriminate.
  - intros m H. repeat (destruct H as [H|H]; [discriminate|]). contradiction.
  - repeat split.
Qed.

(** the restriction is real: a maker that uses the registry (for example one
    database that wraps another, made through registry.NewDatabase) never
    returns, and neither does any later call on the registry *)
Theorem C48_reentrant_maker_refuted : exists (l : list (rop Z Z)) k name c m, latest l k name m /\
  (exists k' n' c' f, m c = CallNew k' n' c' f) /\
  fst (new k name c (rrun l reg0)) = Diverge /\
  forall k2 n2 c2, fst (new k2 n2 c2 (rrun (l ++ [New k name c]) reg0)) = Diverge.
Proof.
  set (m := (fun c => CallNew KDatabase [1] c (fun r => Ret r)) : maker Z Z).
  exists [Reg KDatabase [1] (mk_const 1); Reg KDatabase [2] m], KDatabase, [2], 7, m.
  split; [|split; [|split]].
  - exists [Reg KDatabase [1] (mk_const 1)], []. split; [reflexivity|]. intros ? [].
  - do 4 eexists. reflexivity.
  - reflexivity.
  - intros. reflexivity.
Qed.
Print Assumptions C48_reentrant_maker_refuted.
