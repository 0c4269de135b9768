(** Invariant of WriterConc.v. *)
From Coq Require Import ZArith List Bool Arith Lia Permutation.
From Verif Require Import Base Cache LockPoolProofs QueueProofs WriterConc.
Import ListNotations.
Open Scope nat_scope.

Definition held (t : wthread) : list nat :=
  match t with TAdd k _ => [k] | TPage k _ _ => [k] | TAgg k _ => [k] | _ => [] end.
Definition heldl (l : list wthread) : list nat := flat_map held l.

Lemma held_set n t l y : nth_error l n = Some y -> Permutation (heldl (set_nth n t l) ++ held y) (held t ++ heldl l).
Proof.
  revert n. induction l as [|z l IH]; intros [|n] H; cbn [nth_error] in H; try discriminate.
  - injection H as ->. cbn [set_nth heldl flat_map]. rewrite <- app_assoc. apply Permutation_app_head. apply Permutation_app_comm.
  - cbn [set_nth]. unfold heldl. cbn [flat_map]. fold (heldl (set_nth n t l)). fold (heldl l).
    rewrite <- app_assoc, (IH n H), !app_assoc. apply Permutation_app_tail. apply Permutation_app_comm.
Qed.

Lemma in_set_nth {A} n (t : A) l x y : nth_error l n = Some y -> In x (set_nth n t l) -> x = t \/ In x l.
Proof.
  intros Hy H. apply In_nth_error in H. destruct H as (k & H). destruct (Nat.eq_dec k n) as [->|Hne].
  - rewrite (nth_error_set_same _ _ _ _ Hy) in H. left. congruence.
  - rewrite nth_error_set_other in H by auto. right. eapply nth_error_In; eauto.
Qed.

Record cinv (s : wstate) : Prop := {
  ci_tok : NoDup (map snd (c_obs s) ++ heldl (c_threads s));
  ci_lt : forall k, In k (map snd (c_obs s) ++ heldl (c_threads s)) -> k < c_next s;
  ci_caps : NoDup (c_caps s);
  ci_caplt : forall p, In p (c_caps s) -> p < c_pages s;
  ci_cur : forall p, c_cur s = Some p -> p < c_pages s /\ ~ In p (c_caps s);
  ci_range : forall n p seen, nth_error (c_threads s) n = Some (TRange p seen) -> In p (c_caps s);
  ci_range1 : forall n n' p seen seen', nth_error (c_threads s) n = Some (TRange p seen) ->
     nth_error (c_threads s) n' = Some (TRange p seen') -> n = n';
  ci_seen : forall n p seen m l, nth_error (c_threads s) n = Some (TRange p seen) -> In ((p, m), l) (c_out s) -> In m seen;
  ci_outcap : forall p m l, In ((p, m), l) (c_out s) -> In p (c_caps s);
  ci_out : forall k l, In (k, l) (c_out s) -> NoDup l /\ forall x, In x l -> In (k, x) (c_obs s);
  ci_outkeys : NoDup (map fst (c_out s))
}.

Lemma wkey_eqb_eq a b : wkey_eqb a b = true <-> a = b.
Proof.
  destruct a as [p m], b as [q k]. unfold wkey_eqb. cbn. rewrite andb_true_iff, Nat.eqb_eq, beqb_eq. split.
  - intros [-> ->]. reflexivity.
  - intros H. injection H as -> ->. auto.
Qed.

Lemma agg_obs_in k s x : In x (agg_obs k s) -> In (k, x) (c_obs s).
Proof.
  unfold agg_obs. rewrite in_map_iff. intros ([k' y] & E & H). cbn in E. subst y. apply filter_In in H. destruct H as [H E].
  apply wkey_eqb_eq in E. cbn in E. now subst.
Qed.
Lemma nodup_app_left {A} (l l' : list A) : NoDup (l ++ l') -> NoDup l.
Proof. induction l; cbn; intros H; [constructor|]. inversion H; subst. constructor; auto. intros X. apply H2. apply in_or_app. now left. Qed.
Lemma agg_obs_nodup k s : NoDup (map snd (c_obs s)) -> NoDup (agg_obs k s).
Proof.
  unfold agg_obs. induction (c_obs s) as [|[k' y] l IH]; cbn; intros H; [constructor|]. inversion H; subst.
  destruct (wkey_eqb k k'); cbn; auto. constructor; auto. intros X. apply H2. apply in_map_iff in X. destruct X as (o & E & X).
  apply filter_In in X. apply in_map_iff. exists o. tauto.
Qed.

Lemma cinv_init n : cinv (c_init n).
Proof.
  assert (H : heldl (repeat TIdle n) = []) by (induction n; cbn; auto).
  constructor; cbn [c_init c_obs c_threads c_next c_caps c_pages c_cur c_out map]; rewrite ?H; cbn; try constructor; try contradiction; try discriminate.
  - intros k p seen E. apply nth_error_In in E. apply repeat_spec in E. discriminate.
  - intros k k' p seen seen' E. apply nth_error_In in E. apply repeat_spec in E. discriminate.
Qed.

Lemma some_eq {A} (a b : A) : Some a = Some b -> a = b.
Proof. congruence. Qed.
Ltac thr X := match type of X with
  | nth_error (set_nth ?n ?t ?l) ?k = Some _ =>
    match goal with E : nth_error l n = Some _ |- _ =>
    destruct (Nat.eq_dec k n) as [->|];
    [rewrite (nth_error_set_same _ _ _ _ E) in X; apply some_eq in X
    |rewrite nth_error_set_other in X by auto] end
  end.

(** a step that only changes the state of a thread, not to or within a TRange *)
Lemma cinv_thread s n t y : cinv s -> nth_error (c_threads s) n = Some y ->
  (forall p seen, t <> TRange p seen) -> Permutation (held t) (held y) -> cinv (setT s n t).
Proof.
  intros [A B C D E F G H I J K] Hy Ht Hh.
  assert (P : Permutation (heldl (set_nth n t (c_threads s))) (heldl (c_threads s))).
  { apply (Permutation_app_inv_r (held y)). rewrite (held_set _ t _ _ Hy). rewrite Hh. apply Permutation_app_comm. }
  constructor; cbn [setT c_obs c_threads c_next c_caps c_pages c_cur c_out]; auto.
  - rewrite P. exact A.
  - intros k Hk. apply B. rewrite <- P. exact Hk.
  - intros k p seen X. thr X; [now apply Ht in X|eauto].
  - intros k k' p seen seen' X Y. thr X; [now apply Ht in X|]. thr Y; [now apply Ht in Y|]. eauto.
  - intros k p seen m l X Y. thr X; [now apply Ht in X|eauto].
Qed.

Lemma cinv_step s s' : cinv s -> c_step s s' -> cinv s'.
Proof.
  intros HI St. pose proof HI as [A B C D E F G H I J K].
  destruct St as [s n m En|s n k m p En Ec|s n k m En Ec|s n k m p En Hk|s n k m p En Hk|s n k key En|s n p En Ec
                 |s n p En Ec|s n p En Ec|s n p seen m En Hk Hs Ho|s n p seen m En Hk Hs Ho|s n p seen En].
  - (* add *)
    pose proof (held_set n (TAdd (c_next s) m) _ _ En) as P. cbn [held app] in P. rewrite app_nil_r in P.
    constructor; cbn [c_obs c_threads c_next c_caps c_pages c_cur c_out]; auto.
    + rewrite P. apply (Permutation_NoDup (l := c_next s :: map snd (c_obs s) ++ heldl (c_threads s))); [apply Permutation_middle|].
      constructor; [|assumption]. intros X. apply B in X. lia.
    + intros k Hk. rewrite P in Hk. apply in_app_or in Hk. destruct Hk as [Hk|[<-|Hk]]; [| lia |];
        (enough (k < c_next s) by lia; apply B; apply in_or_app; auto).
    + intros k p seen X. thr X; [discriminate|eauto].
    + intros k k' p seen seen' X Y. thr X; [discriminate|]. thr Y; [discriminate|]. eauto.
    + intros k p seen m' l X Y. thr X; [discriminate|eauto].
  - eapply cinv_thread; [eassumption|eassumption|discriminate|reflexivity].
  - (* create *)
    pose proof (cinv_thread s n (TPage k m (c_pages s)) _ HI En ltac:(discriminate) ltac:(reflexivity)) as [A' B' C' D' E' F' G' H' I' J' K'].
    cbn [setT c_obs c_threads c_next c_caps c_pages c_cur c_out] in *.
    constructor; cbn [c_obs c_threads c_next c_caps c_pages c_cur c_out]; auto.
    + intros p X. specialize (D p X). lia.
    + intros p X. injection X as <-. split; [lia|]. intros X. specialize (D _ X). lia.
  - pose proof (cinv_thread s n (TAgg k (p, m)) _ HI En ltac:(discriminate) ltac:(reflexivity)) as [A' B' C' D' E' F' G' H' I' J' K'].
    cbn [setT c_obs c_threads c_next c_caps c_pages c_cur c_out] in *.
    constructor; cbn [c_obs c_threads c_next c_caps c_pages c_cur c_out]; auto.
  - eapply cinv_thread; [eassumption|eassumption|discriminate|reflexivity].
  - (* observe *)
    pose proof (held_set n TIdle _ _ En) as P. cbn [held app] in P.
    assert (Q : Permutation (map snd (c_obs s ++ [(key, k)]) ++ heldl (set_nth n TIdle (c_threads s))) (map snd (c_obs s) ++ heldl (c_threads s))).
    { rewrite map_app, <- app_assoc. apply Permutation_app_head. cbn [map snd]. rewrite <- P. apply Permutation_app_comm. }
    constructor; cbn [c_obs c_threads c_next c_caps c_pages c_cur c_out]; auto.
    + rewrite Q. exact A.
    + intros k' X. rewrite Q in X. auto.
    + intros k' p seen X. thr X; [discriminate|eauto].
    + intros k' k'' p seen seen' X Y. thr X; [discriminate|]. thr Y; [discriminate|]. eauto.
    + intros k' p seen m' l X Y. thr X; [discriminate|eauto].
    + intros k' l X. destruct (J k' l X) as [J1 J2]. split; [assumption|]. intros x Hx. apply in_or_app. left. auto.
  - eapply cinv_thread; [eassumption|eassumption|discriminate|reflexivity].
  - (* swap *)
    destruct (E p Ec) as [E1 E2].
    pose proof (held_set n (TRange p []) _ _ En) as P. cbn [held app] in P. rewrite app_nil_r in P.
    constructor; cbn [c_obs c_threads c_next c_caps c_pages c_cur c_out]; auto.
    + rewrite P. exact A.
    + intros k X. rewrite P in X. auto.
    + apply (Permutation_NoDup (l := p :: c_caps s)); [apply Permutation_cons_append|]. now constructor.
    + intros q X. apply in_app_or in X. destruct X as [X|[<-|[]]]; [specialize (D q X)|]; lia.
    + intros q X. injection X as <-. split; [lia|]. intros X. apply in_app_or in X. destruct X as [X|[X|[]]]; [specialize (D _ X)|]; lia.
    + intros k q seen X. thr X.
      * injection X as <- <-. apply in_or_app. right. now left.
      * apply in_or_app. left. eauto.
    + intros k k' q seen seen' X Y. thr X; thr Y; auto.
      * injection X as <- <-. exfalso. apply E2. eauto.
      * injection Y as <- <-. exfalso. apply E2. eauto.
      * eauto.
    + intros k q seen m l X Y. thr X; [|eauto]. injection X as <- <-. exfalso. apply E2. eauto.
    + intros q m l X. apply in_or_app. left. eauto.
  - eapply cinv_thread; [eassumption|eassumption|discriminate|reflexivity].
  - (* visit *)
    pose proof (held_set n (TRange p (m :: seen)) _ _ En) as P. cbn [held app] in P. rewrite app_nil_r in P.
    constructor; cbn [c_obs c_threads c_next c_caps c_pages c_cur c_out]; auto.
    + rewrite P. exact A.
    + intros k X. rewrite P in X. auto.
    + intros k q seen' X. thr X; [injection X as <- <-|]; eauto.
    + intros k k' q seen' seen'' X Y. thr X; thr Y; auto; try (injection X as <- <-); try (injection Y as <- <-); eauto.
    + intros k q seen' m' l X Y. apply in_app_or in Y. thr X.
      * injection X as <- <-. destruct Y as [Y|[Y|[]]]; [right; eauto|]. injection Y as <- _. now left.
      * destruct Y as [Y|[Y|[]]]; [eauto|]. injection Y as <- <- _. exfalso. specialize (G _ _ _ _ _ En X). congruence.
    + intros q m' l X. apply in_app_or in X. destruct X as [X|[X|[]]]; [eauto|]. injection X as <- _ _. eauto.
    + intros k l X. apply in_app_or in X. destruct X as [X|[X|[]]]; [auto|]. injection X as <- <-. split.
      * apply agg_obs_nodup. eapply nodup_app_left; eauto.
      * intros x. apply agg_obs_in.
    + rewrite map_app. cbn [map fst]. apply (Permutation_NoDup (l := (p, m) :: map fst (c_out s))); [apply Permutation_cons_append|].
      constructor; [|assumption]. intros X. apply in_map_iff in X. destruct X as ([k l] & X & Y). cbn in X. subst k.
      apply Hs. eapply H; eauto.
  - eapply cinv_thread; [eassumption|eassumption|discriminate|reflexivity].
  - eapply cinv_thread; [eassumption|eassumption|discriminate|reflexivity].
Qed.

Lemma cinv_reach n s : c_reach n s -> cinv s.
Proof. induction 1; [apply cinv_init|eapply cinv_step; eauto]. Qed.

Lemma snd_unique {A B} (l : list (A * B)) a a' b : NoDup (map snd l) -> In (a, b) l -> In (a', b) l -> a = a'.
Proof.
  induction l as [|[x y] l IH]; cbn; intros H; [contradiction|]. inversion H; subst. intros [X|X] [Y|Y].
  - congruence.
  - injection X as -> ->. exfalso. apply H2. apply (in_map snd) in Y. exact Y.
  - injection Y as -> ->. exfalso. apply H2. apply (in_map snd) in X. exact X.
  - auto.
Qed.

Lemma nodup_flat {A B} (l : list (A * list B)) :
  NoDup (map fst l) -> (forall k x, In (k, x) l -> NoDup x) ->
  (forall k x k' x' b, In (k, x) l -> In (k', x') l -> In b x -> In b x' -> k = k') ->
  NoDup (flat_map snd l).
Proof.
  induction l as [|[k x] l IH]; cbn [flat_map map fst snd]; intros N H1 H2; [constructor|]. inversion N; subst.
  assert (IH' : NoDup (flat_map snd l)).
  { apply IH; [assumption| |]. - intros k' x' X. apply (H1 k' x'). now right. - intros k1 x1 k2 x2 b X Y. apply (H2 k1 x1 k2 x2 b); now right. }
  assert (Nx : NoDup x) by (apply (H1 k x); now left).
  assert (Dis : forall b, In b x -> ~ In b (flat_map snd l)).
  { intros b Hb X. apply in_flat_map in X. destruct X as ([k' x'] & Y & Z). cbn in Z.
    assert (k = k') by (apply (H2 k x k' x' b); [now left|now right|assumption|assumption]). subst k'.
    apply H3. apply (in_map fst) in Y. exact Y. }
  clear - IH' Nx Dis. induction x as [|b x IHx]; cbn; [assumption|]. inversion Nx; subst. constructor.
  - intros X. apply in_app_or in X. destruct X as [X|X]; [contradiction|]. apply (Dis b); [now left|assumption].
  - apply IHx; [assumption|]. intros c Hc. apply Dis. now right.
Qed.

Lemma out_nodup n s : c_reach n s -> NoDup (flat_map snd (c_out s)).
Proof.
  intros H. apply cinv_reach in H. destruct H as [A B C D E F G Hs I J K].
  apply nodup_flat; [assumption| |].
  - intros k x X. apply (J k x X).
  - intros k x k' x' b X Y Hx Hy.
    apply (snd_unique (c_obs s) k k' b (nodup_app_left _ _ A)); [apply (proj2 (J k x X) b Hx)|apply (proj2 (J k' x' Y) b Hy)].
Qed.

(** ** pages *)
Inductive c_steps : wstate -> wstate -> Prop :=
| c_steps_refl s : c_steps s s
| c_steps_more s s' s'' : c_steps s s' -> c_step s' s'' -> c_steps s s''.
Lemma c_steps_reach n s s' : c_reach n s -> c_steps s s' -> c_reach n s'.
Proof. intros H G. induction G as [s|s s1 s2 G IH St]; [exact H|]. exact (c_reach_step _ _ _ (IH H) St). Qed.

Definition page_of (t : wthread) : option nat :=
  match t with TPage _ _ p => Some p | TAgg _ k => Some (fst k) | _ => None end.
Record pinv (s : wstate) : Prop := {
  pi_all : forall p, p < c_pages s -> c_cur s = Some p \/ In p (c_caps s);
  pi_cur : forall p, c_cur s = Some p -> p < c_pages s;
  pi_th : forall t p, In t (c_threads s) -> page_of t = Some p -> p < c_pages s;
  pi_obs : forall k x, In (k, x) (c_obs s) -> fst k < c_pages s
}.
Lemma pinv_reach n s : c_reach n s -> pinv s.
Proof.
  induction 1 as [|s s' H IH St].
  - constructor; cbn; try (intros; lia); try discriminate; try (intros ? ? []; fail).
    intros t p Hin. apply repeat_spec in Hin. subst t. discriminate.
  - destruct IH as [A B C D].
    assert (Cs : forall n t y, nth_error (c_threads s) n = Some y -> forall q, c_pages s <= q -> (forall p, page_of t = Some p -> p < q) ->
      forall u p, In u (set_nth n t (c_threads s)) -> page_of u = Some p -> p < q).
    { intros k t y Hy q Hq Ht u p Hu Hp. destruct (in_set_nth _ _ _ _ _ Hy Hu) as [->|Hin]; [now apply Ht|]. specialize (C u p Hin Hp). lia. }
    assert (Ch : forall n t p, nth_error (c_threads s) n = Some t -> page_of t = Some p -> p < c_pages s).
    { intros k t p Ht. apply C. eapply nth_error_In; eauto. }
    destruct St; constructor; unfold setT; cbn [c_pages c_cur c_caps c_threads c_obs]; auto.
    all: try (eapply Cs; eauto; intros q Hq; cbn in Hq; try discriminate; try (injection Hq as <-); eauto; lia).
    + intros p Hp. destruct (Nat.eq_dec p (c_pages s)) as [->|Hne]; [now left|]. destruct (A p ltac:(lia)) as [X|X]; [congruence|now right].
    + intros p [= <-]. lia.
    + intros k' x Hin. specialize (D k' x Hin). lia.
    + intros k' x Hin. apply in_app_or in Hin. destruct Hin as [Hin|[[= <- <-]|[]]]; [now apply (D k' x)|]. eapply Ch; eauto.
    + intros q Hq. destruct (Nat.eq_dec q (c_pages s)) as [->|Hne]; [now left|]. right. apply in_or_app.
      destruct (A q ltac:(lia)) as [X|X]; [right; left; congruence|now left].
    + intros q [= <-]. lia.
    + intros k' x Hin. specialize (D k' x Hin). lia.
Qed.
Lemma caps_grow s s' : c_step s s' -> forall p, In p (c_caps s) -> In p (c_caps s').
Proof. destruct 1; unfold setT; cbn [c_caps]; auto. intros q Hq. apply in_or_app. now left. Qed.
Lemma caps_grows s s' : c_steps s s' -> forall p, In p (c_caps s) -> In p (c_caps s').
Proof. induction 1; eauto using caps_grow. Qed.
Lemma next_grow s s' : c_step s s' -> c_next s <= c_next s'.
Proof. destruct 1; unfold setT; cbn [c_next]; lia. Qed.
Lemma next_grows s s' : c_steps s s' -> c_next s <= c_next s'.
Proof. induction 1 as [|s s' s'' H IH St]; [lia|]. pose proof (next_grow _ _ St). lia. Qed.
(** an Add begun after a page was taken does not use it *)
Definition later (s : wstate) (t : wthread) : Prop :=
  match t with
  | TPage k _ p => c_next s <= k -> ~ In p (c_caps s)
  | TAgg k key => c_next s <= k -> ~ In (fst key) (c_caps s)
  | _ => True
  end.
Lemma later_steps n s s' : c_reach n s -> c_steps s s' ->
  (forall t, In t (c_threads s') -> later s t) /\ (forall key k, In (key, k) (c_obs s') -> c_next s <= k -> ~ In (fst key) (c_caps s)).
Proof.
  intros HR. induction 1 as [s|s s' s'' H IH St].
  - pose proof (cinv_reach _ _ HR) as I.
    assert (L : forall t k, In t (c_threads s) -> In k (held t) -> k < c_next s).
    { intros t k Ht Hk. apply (ci_lt _ I). apply in_or_app. right. unfold heldl. apply in_flat_map. eauto. }
    split.
    + intros t Ht. destruct t; cbn; auto; intros Hk; specialize (L _ serial Ht (or_introl eq_refl)); lia.
    + intros key k Hin Hk. assert (k < c_next s); [|lia]. apply (ci_lt _ I). apply in_or_app. left. apply in_map_iff. exists (key, k). auto.
  - destruct (IH HR) as [A B]. pose proof (c_steps_reach _ _ _ HR H) as HR'. pose proof (cinv_reach _ _ HR') as I'. pose proof (caps_grows _ _ H) as G.
    assert (Ts : forall n t y, nth_error (c_threads s') n = Some y -> later s t -> forall u, In u (set_nth n t (c_threads s')) -> later s u).
    { intros k t y Hy Ht u Hu. destruct (in_set_nth _ _ _ _ _ Hy Hu) as [->|Hin]; auto. }
    assert (Tn : forall n t, nth_error (c_threads s') n = Some t -> later s t) by (intros k t Ht; apply A; eapply nth_error_In; eauto).
    destruct St; unfold setT; cbn [c_threads c_obs]; (split; [|try exact B]).
    all: try (eapply Ts; [eassumption|exact Logic.I]).
    + eapply Ts; eauto. cbn. intros _ X. apply G in X. now apply (ci_cur _ I' p).
    + eapply Ts; eauto. cbn. intros _ X. apply G, (ci_caplt _ I') in X. lia.
    + eapply Ts; eauto. exact (Tn _ _ H0).
    + eapply Ts; eauto. exact (Tn _ _ H0).
    + intros key' k' Hin Hk. apply in_app_or in Hin. destruct Hin as [Hin|[[= <- <-]|[]]]; [eapply B; eauto|]. exact (Tn _ _ H0 Hk).
Qed.
Lemma obs_grow s s' : c_step s s' -> forall x, In x (c_obs s) -> In x (c_obs s').
Proof. destruct 1; unfold setT; cbn [c_obs]; auto. intros x Hx. apply in_or_app. now left. Qed.
Lemma obs_grows s s' : c_steps s s' -> forall x, In x (c_obs s) -> In x (c_obs s').
Proof. induction 1; eauto using obs_grow. Qed.
(** what was observed before its aggregate was finished is in the record *)
Lemma delivered s s' k x : c_steps s s' -> In (k, x) (c_obs s) -> (forall l, ~ In (k, l) (c_out s)) ->
  forall l, In (k, l) (c_out s') -> In x l.
Proof.
  intros H. induction H as [|s s' s'' H IH St]; intros Hx Hn l Hl; [now apply Hn in Hl|].
  specialize (IH Hx Hn). pose proof (obs_grows _ _ H _ Hx) as Hx'.
  destruct St; unfold setT in Hl; cbn [c_out] in Hl; auto.
  apply in_app_or in Hl. destruct Hl as [Hl|[Hl|[]]]; [auto|]. injection Hl as <- <-. unfold agg_obs. apply in_map_iff.
  exists ((p, m), x). split; [reflexivity|]. apply filter_In. split; [exact Hx'|]. apply wkey_eqb_eq. reflexivity.
Qed.
