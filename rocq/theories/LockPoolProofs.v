From Coq Require Import ZArith List Bool Lia.
From Verif Require Import Base Maps Cache LockPool.
Import ListNotations.
Open Scope Z_scope.

Fixpoint cnt {A} (f : A -> bool) (l : list A) : Z :=
  match l with [] => 0 | x :: l => (if f x then 1 else 0) + cnt f l end.

Lemma cnt_nonneg {A} (f : A -> bool) l : 0 <= cnt f l.
Proof. induction l; cbn; [lia|]. destruct (f a); lia. Qed.
Lemma cnt_set {A} (f : A -> bool) n x y l : nth_error l n = Some x ->
  cnt f (set_nth n y l) = cnt f l - (if f x then 1 else 0) + (if f y then 1 else 0).
Proof.
  revert n; induction l as [|a l IH]; intros [|n] H; try discriminate; cbn in *.
  - injection H as ->. lia.
  - rewrite (IH n H). lia.
Qed.
Lemma cnt_pos {A} (f : A -> bool) l n x : nth_error l n = Some x -> f x = true -> 1 <= cnt f l.
Proof.
  revert n; induction l as [|a l IH]; intros [|n] H Hf; try discriminate; cbn in *.
  - injection H as ->. rewrite Hf. pose proof (cnt_nonneg f l). lia.
  - specialize (IH n H Hf). destruct (f a); lia.
Qed.
Lemma cnt_two {A} (f : A -> bool) l n m x y : nth_error l n = Some x -> nth_error l m = Some y ->
  f x = true -> f y = true -> n <> m -> 2 <= cnt f l.
Proof.
  revert n m; induction l as [|a l IH]; intros [|n] [|m] H1 H2 F1 F2 Hne; try discriminate; try contradiction; cbn in *.
  - injection H1 as ->. rewrite F1. pose proof (cnt_pos f l m y H2 F2). lia.
  - injection H2 as ->. rewrite F2. pose proof (cnt_pos f l n x H1 F1). lia.
  - specialize (IH n m H1 H2 F1 F2 ltac:(lia)). destruct (f a); lia.
Qed.
Lemma cnt_zero {A} (f : A -> bool) l : cnt f l <= 0 -> forall n x, nth_error l n = Some x -> f x = false.
Proof. intros H n x E. destruct (f x) eqn:F; [|reflexivity]. pose proof (cnt_pos f l n x E F). lia. Qed.
Lemma cnt_ex {A} (f : A -> bool) l : 1 <= cnt f l -> exists n x, nth_error l n = Some x /\ f x = true.
Proof.
  induction l as [|a l IH]; cbn; [lia|]. destruct (f a) eqn:F; intros H.
  - exists 0%nat, a. auto.
  - destruct (IH ltac:(lia)) as (n & x & H1 & H2). exists (S n), x. auto.
Qed.

Lemma nth_error_set {A} n (y : A) l m x : nth_error (set_nth n y l) m = Some x ->
  (m = n /\ x = y) \/ (m <> n /\ nth_error l m = Some x).
Proof.
  revert n m; induction l as [|a l IH]; intros [|n] [|m] H; cbn in *; try discriminate; auto.
  - injection H as ->. auto.
  - destruct (IH n m H) as [[-> ->]|[? ?]]; auto.
Qed.

Definition uses (i : Z) (t : lthread) : bool :=
  match t with LWait _ j | LIn _ j => j =? i | _ => false end.
Definition holds (i : Z) (t : lthread) : bool :=
  match t with LIn _ j | LOut _ j => j =? i | _ => false end.

Record linv (p : lpool) (ts : list lthread) : Prop := LInv {
  li_panic : forall n, nth_error ts n <> Some LPanic;
  li_key : forall n k i, nth_error ts n = Some (LWait k i) \/ nth_error ts n = Some (LIn k i) ->
           mget beqb k (lp_locks p) = Some i;
  li_ref : forall k i, mget beqb k (lp_locks p) = Some i ->
           lp_ref p i = cnt (uses i) ts /\ 0 < lp_ref p i /\ i < lp_next p;
  li_mu : forall i, cnt (holds i) ts = if lp_mu p i then 1 else 0;
  li_new : forall i, lp_next p <= i -> lp_mu p i = false /\ cnt (uses i) ts = 0;
  li_inj : forall k k' i, mget beqb k (lp_locks p) = Some i -> mget beqb k' (lp_locks p) = Some i -> k = k'
}.

Lemma cnt_repeat_idle f n : f LIdle = false -> cnt f (repeat LIdle n) = 0.
Proof. intros H. induction n; cbn; [reflexivity|]. now rewrite H, IHn. Qed.

Lemma linv_init n : linv lp_new (repeat LIdle n).
Proof.
  assert (forall m t, nth_error (repeat LIdle n) m = Some t -> t = LIdle).
  { intros m t H. apply nth_error_In in H. now apply repeat_spec in H. }
  split.
  - intros m E. apply H in E. discriminate.
  - intros m k i [E|E]; apply H in E; discriminate.
  - cbn. discriminate.
  - intros i. cbn. apply cnt_repeat_idle. reflexivity.
  - intros i _. split; [reflexivity|]. apply cnt_repeat_idle. reflexivity.
  - cbn. discriminate.
Qed.

Lemma upd_same {A} (f : Z -> A) i x : upd f i x i = x.
Proof. unfold upd. now rewrite Z.eqb_refl. Qed.
Lemma upd_other {A} (f : Z -> A) i x j : j <> i -> upd f i x j = f j.
Proof. intros H. unfold upd. now rewrite (proj2 (Z.eqb_neq j i) H). Qed.

Lemma eqb_case (i j : Z) : {i = j /\ (i =? j) = true} + {i <> j /\ (i =? j) = false}.
Proof. destruct (Z.eqb_spec i j); [left|right]; auto. Qed.

Lemma linv_step p ts n k t p' t' : linv p ts -> nth_error ts n = Some t ->
  lp_step k p t = Some (p', t') -> linv p' (set_nth n t' ts).
Proof.
  intros HI Ht Hs. pose proof HI as [Ip Ik Ir Im In Ij].
  destruct t as [|k0 i|k0 i|k0 i|]; cbn [lp_step] in Hs; [..|discriminate].
  - (* Lock, first section *)
    destruct (mget beqb k (lp_locks p)) as [i|] eqn:E.
    + injection Hs as <- <-. destruct (Ir k i E) as (R1 & R2 & R3).
      split; cbn [lp_locks lp_ref lp_mu lp_next].
      * intros m X. apply nth_error_set in X. destruct X as [[_ X]|[_ X]]; [discriminate|exact (Ip m X)].
      * intros m k1 j [X|X]; apply nth_error_set in X; destruct X as [[_ X]|[_ X]]; try discriminate; try (injection X as -> ->; exact E); eauto.
      * intros k1 j Ej. destruct (Ir k1 j Ej) as (Q1 & Q2 & Q3). rewrite (cnt_set _ _ _ _ _ Ht). cbn [uses].
        destruct (eqb_case i j) as [[<- ->]|[Hne ->]].
        -- rewrite upd_same. lia.
        -- rewrite upd_other by auto. lia.
      * intros j. rewrite (cnt_set _ _ _ _ _ Ht). cbn [holds]. rewrite Im. lia.
      * intros j Hj. rewrite (cnt_set _ _ _ _ _ Ht). cbn [uses]. destruct (In j Hj) as [N1 N2].
        split; [exact N1|]. destruct (Z.eqb_spec i j); lia.
      * exact Ij.
    + injection Hs as <- <-. cbn [lp_locks lp_ref lp_mu lp_next]. set (i := lp_next p) in *.
      destruct (In i ltac:(lia)) as [N1 N2].
      split; cbn [lp_locks lp_ref lp_mu lp_next].
      * intros m X. apply nth_error_set in X. destruct X as [[_ X]|[_ X]]; [discriminate|exact (Ip m X)].
      * intros m k1 j X. rewrite mget_put by apply eqb_ok_bytes.
        destruct X as [X|X]; apply nth_error_set in X; destruct X as [[_ X]|[_ X]]; try discriminate.
        -- injection X as -> ->. now rewrite (eqb_refl_ _ eqb_ok_bytes).
        -- destruct (beqb k k1) eqn:Ek; [|eauto]. apply beqb_eq in Ek. subst k1.
           rewrite (Ik m k j (or_introl X)) in E. discriminate.
        -- destruct (beqb k k1) eqn:Ek; [|eauto]. apply beqb_eq in Ek. subst k1.
           rewrite (Ik m k j (or_intror X)) in E. discriminate.
      * intros k1 j Ej. rewrite mget_put in Ej by apply eqb_ok_bytes. rewrite (cnt_set _ _ _ _ _ Ht). cbn [uses].
        destruct (beqb k k1) eqn:Ek.
        -- injection Ej as <-. rewrite upd_same, Z.eqb_refl, upd_same. lia.
        -- destruct (Ir k1 j Ej) as (Q1 & Q2 & Q3). fold i in Q3. rewrite !upd_other by lia.
           destruct (Z.eqb_spec i j); lia.
      * intros j. rewrite (cnt_set _ _ _ _ _ Ht). cbn [holds]. rewrite Im.
        destruct (eqb_case i j) as [[<- _]|[Hne _]]; [rewrite upd_same, N1; lia|rewrite upd_other by auto; lia].
      * intros j Hj. rewrite (cnt_set _ _ _ _ _ Ht). cbn [uses]. destruct (In j ltac:(lia)) as [M1 M2].
        rewrite upd_other by lia. split; [exact M1|]. destruct (Z.eqb_spec i j); lia.
      * intros k1 k2 j E1 E2. rewrite mget_put in E1, E2 by apply eqb_ok_bytes.
        destruct (beqb k k1) eqn:K1, (beqb k k2) eqn:K2.
        -- apply beqb_eq in K1, K2. congruence.
        -- injection E1 as <-. destruct (Ir k2 i E2) as (_ & _ & X). unfold i in X. lia.
        -- injection E2 as <-. destruct (Ir k1 i E1) as (_ & _ & X). unfold i in X. lia.
        -- eauto.
  - (* Lock, st.mu.Lock *)
    destruct (lp_mu p i) eqn:Emu; [discriminate|]. injection Hs as <- <-.
    split; cbn [lp_locks lp_ref lp_mu lp_next].
    + intros m X. apply nth_error_set in X. destruct X as [[_ X]|[_ X]]; [discriminate|exact (Ip m X)].
    + intros m k1 j [X|X]; apply nth_error_set in X; destruct X as [[_ X]|[_ X]]; try discriminate; eauto.
      injection X as -> ->. exact (Ik n k0 i (or_introl Ht)).
    + intros k1 j Ej. destruct (Ir k1 j Ej) as (Q1 & Q2 & Q3). rewrite (cnt_set _ _ _ _ _ Ht). cbn [uses].
      split; [lia|auto].
    + intros j. rewrite (cnt_set _ _ _ _ _ Ht). cbn [holds]. rewrite Im.
      destruct (eqb_case i j) as [[<- ->]|[Hne ->]]; [rewrite upd_same, Emu; lia|rewrite upd_other by auto; lia].
    + intros j Hj. destruct (In j Hj) as [N1 N2]. rewrite (cnt_set _ _ _ _ _ Ht). cbn [uses].
      destruct (Ir k0 i (Ik n k0 i (or_introl Ht))) as (_ & _ & X). rewrite upd_other by lia. split; [exact N1|lia].
    + exact Ij.
  - (* Unlock, first section *)
    pose proof (Ik n k0 i (or_intror Ht)) as E. rewrite E in Hs. injection Hs as <- <-.
    destruct (Ir k0 i E) as (R1 & R2 & R3).
    assert (Huses : forall j, cnt (uses j) (set_nth n (LOut k0 i) ts) = cnt (uses j) ts - if i =? j then 1 else 0).
    { intros j. rewrite (cnt_set _ _ _ _ _ Ht). cbn [uses]. lia. }
    assert (Hkeep : forall m k1 j, nth_error (set_nth n (LOut k0 i) ts) m = Some (LWait k1 j) \/
                                   nth_error (set_nth n (LOut k0 i) ts) m = Some (LIn k1 j) ->
              mget beqb k1 (lp_locks p) = Some j /\ (k1 = k0 -> j = i /\ 1 <= cnt (uses i) ts - 1)).
    { intros m k1 j X.
      assert (Y : nth_error ts m = Some (LWait k1 j) \/ nth_error ts m = Some (LIn k1 j)).
      { destruct X as [X|X]; apply nth_error_set in X; destruct X as [[_ X]|[_ X]]; try discriminate; auto. }
      pose proof (Ik m k1 j Y) as Z1. split; [exact Z1|]. intros ->. rewrite E in Z1. injection Z1 as <-.
      split; [reflexivity|].
      assert (1 <= cnt (uses i) (set_nth n (LOut k0 i) ts)).
      { destruct X as [X|X]; eapply cnt_pos; try exact X; cbn; apply Z.eqb_refl. }
      rewrite Huses, Z.eqb_refl in H. exact H. }
    split; cbn [lp_locks lp_ref lp_mu lp_next].
    + intros m X. apply nth_error_set in X. destruct X as [[_ X]|[_ X]]; [discriminate|exact (Ip m X)].
    + intros m k1 j X. destruct (Hkeep m k1 j X) as [Z1 Z2].
      destruct (Z.eqb_spec (lp_ref p i - 1) 0) as [Hz|Hz]; [|exact Z1].
      rewrite mget_del by apply eqb_ok_bytes. destruct (beqb k0 k1) eqn:Ek; [|exact Z1].
      apply beqb_eq in Ek. subst k1. destruct (Z2 eq_refl) as [_ Z3]. lia.
    + intros k1 j Ej. 
      assert (Ej' : mget beqb k1 (lp_locks p) = Some j /\ (lp_ref p i - 1 = 0 -> k1 <> k0)).
      { destruct (Z.eqb_spec (lp_ref p i - 1) 0) as [Hz|Hz]; [|tauto].
        rewrite mget_del in Ej by apply eqb_ok_bytes. destruct (beqb k0 k1) eqn:Ek; [discriminate|].
        split; [exact Ej|]. intros _ ->. rewrite (eqb_refl_ _ eqb_ok_bytes) in Ek. discriminate. }
      destruct Ej' as [Ej' Hd]. destruct (Ir k1 j Ej') as (Q1 & Q2 & Q3). rewrite Huses.
      destruct (eqb_case i j) as [[<- ->]|[Hne ->]].
      * rewrite upd_same. assert (k1 = k0) by eauto. assert (lp_ref p i - 1 <> 0) by tauto. lia.
      * rewrite upd_other by auto. lia.
    + intros j. rewrite (cnt_set _ _ _ _ _ Ht). cbn [holds]. rewrite Im. lia.
    + intros j Hj. rewrite Huses. destruct (In j Hj) as [N1 N2]. split; [exact N1|]. destruct (Z.eqb_spec i j); lia.
    + intros k1 k2 j E1 E2. destruct (lp_ref p i - 1 =? 0); [|eauto].
      rewrite mget_del in E1, E2 by apply eqb_ok_bytes.
      destruct (beqb k0 k1); [discriminate|]. destruct (beqb k0 k2); [discriminate|]. eauto.
  - (* Unlock, st.mu.Unlock *)
    pose proof (Im i) as Hm. assert (1 <= cnt (holds i) ts) as Hc by (eapply cnt_pos; [exact Ht|cbn; apply Z.eqb_refl]).
    destruct (lp_mu p i) eqn:Emu; [|lia]. injection Hs as <- <-.
    split; cbn [lp_locks lp_ref lp_mu lp_next].
    + intros m X. apply nth_error_set in X. destruct X as [[_ X]|[_ X]]; [discriminate|exact (Ip m X)].
    + intros m k1 j [X|X]; apply nth_error_set in X; destruct X as [[_ X]|[_ X]]; try discriminate; eauto.
    + intros k1 j Ej. destruct (Ir k1 j Ej) as (Q1 & Q2 & Q3). rewrite (cnt_set _ _ _ _ _ Ht). cbn [uses]. lia.
    + intros j. rewrite (cnt_set _ _ _ _ _ Ht). cbn [holds]. rewrite Im.
      destruct (eqb_case i j) as [[<- ->]|[Hne ->]]; [rewrite upd_same, Emu; lia|rewrite upd_other by auto; lia].
    + intros j Hj. destruct (In j Hj) as [N1 N2]. rewrite (cnt_set _ _ _ _ _ Ht). cbn [uses].
      unfold upd. destruct (j =? i); split; try reflexivity; try exact N1; lia.
    + exact Ij.
Qed.

Lemma linv_reach n p ts : lp_reach n (p, ts) -> linv p ts.
Proof.
  intros H. remember (p, ts) as s. revert p ts Heqs. induction H as [|s s' H IH T]; intros p ts E.
  - injection E as <- <-. apply linv_init.
  - subst s'. inversion T; subst. eapply linv_step; eauto.
Qed.

Lemma mget_all_none {V} (m : list (key * V)) : (forall k, mget beqb k m = None) -> m = [].
Proof.
  destruct m as [|[k v] m]; [reflexivity|]. intros H. specialize (H k). cbn in H.
  rewrite (eqb_refl_ _ eqb_ok_bytes) in H. discriminate.
Qed.
