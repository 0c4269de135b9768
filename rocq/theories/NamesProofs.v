From Coq Require Import ZArith List Bool Lia Sorted.
From Verif Require Import Base Maps Cache CacheProofs LockPoolProofs QueueProofs Sset SsetProofs Names.
Import ListNotations.

Definition hin (h : list sset) (p : nat) (x : mname) : Prop := In x (s_order (nth p h s_new)).
Definition in_names (s : nsys) (x : mname) : Prop :=
  match n_names s with Some q => hin (n_heap s) q x | None => False end.
(** x is in the set of some worker with index at least i *)
Definition in_w (s : nsys) (i : nat) (x : mname) : Prop :=
  exists j p, (i <= j)%nat /\ nth_error (n_w s) j = Some p /\ hin (n_heap s) p x.

Definition loc_ok (s : nsys) (l : mloc) : Prop :=
  (ml_names l < length (n_heap s))%nat /\ (n_mu s = ml_locked l) /\ ~ In (ml_names l) (n_w s) /\
  (if ml_copied l then
     (forall x, in_names s x -> hin (n_heap s) (ml_names l) x) /\
     (forall x, In x (ml_start l) -> hin (n_heap s) (ml_names l) x \/ in_w s (ml_i l) x) /\
     (forall x, In x (n_known s) -> in_names s x \/ in_w s 0 x \/ hin (n_heap s) (ml_names l) x)
   else
     (forall q, n_names s = Some q -> ml_names l = q) /\
     (forall x, In x (ml_start l) -> in_names s x \/ in_w s (ml_i l) x) /\
     (forall x, In x (n_known s) -> in_names s x \/ in_w s 0 x)).

Definition maint_ok (s : nsys) (m : maint) : Prop :=
  match m with
  | MIdle => n_mu s = false /\ (forall x, In x (n_known s) -> in_names s x \/ in_w s 0 x)
  | MAt l => loc_ok s l
  | MPtr l p => loc_ok s l /\ nth_error (n_w s) (ml_i l) = Some p
  | MLock l p => loc_ok s l /\ nth_error (n_w s) (ml_i l) = Some p
  | MMerge l p => loc_ok s l /\ nth_error (n_w s) (ml_i l) = Some p
  | MGot start res => n_mu s = false /\ (forall x, In x (n_known s) -> in_names s x \/ in_w s 0 x) /\
      incl start res /\ StronglySorted lt_b res /\ incl res (n_known s)
  | PScan out => n_mu s = false /\ (forall x, In x (n_known s) -> In x out \/ in_w s 0 x) /\
      (forall x, in_names s x -> In x out)
  end.

Record ninv (s : nsys) : Prop := NInv {
  ni_wf : Forall swf (n_heap s);
  ni_known : forall p x, hin (n_heap s) p x -> In x (n_known s);
  ni_names : forall q, n_names s = Some q -> (q < length (n_heap s))%nat;
  ni_sep : forall q, n_names s = Some q -> ~ In q (n_w s);
  ni_w : Forall (fun p => (p < length (n_heap s))%nat) (n_w s);
  ni_maint : exists m, n_maint s = [m] /\ maint_ok s m
}.

Lemma hin_new h x p : (length h <= p)%nat -> ~ hin h p x.
Proof. intros H. unfold hin. rewrite nth_overflow by lia. cbn. tauto. Qed.
Lemma hin_app h e p x : (p < length h)%nat -> (hin (h ++ e) p x <-> hin h p x).
Proof. intros H. unfold hin. now rewrite app_nth1. Qed.
Lemma hin_last h e x : hin (h ++ [e]) (length h) x <-> In x (s_order e).
Proof. unfold hin. rewrite app_nth2, Nat.sub_diag by lia. reflexivity. Qed.
Lemma hin_lt h p x : hin h p x -> (p < length h)%nat.
Proof. intros H. destruct (Nat.lt_ge_cases p (length h)); [assumption|]. exfalso. now apply (hin_new h x p). Qed.
Lemma nth_set_nth_heap p h (e : sset) q : (p < length h)%nat ->
  nth q (set_nth p e h) s_new = if Nat.eqb p q then e else nth q h s_new.
Proof. intros H. now apply nth_set_nth. Qed.
Lemma swf_nth h p : Forall swf h -> swf (nth p h s_new).
Proof.
  intros H. destruct (Nat.lt_ge_cases p (length h)).
  - rewrite Forall_forall in H. apply H. now apply nth_In.
  - rewrite nth_overflow by lia. apply new_wf.
Qed.
Lemma Forall_set {A} (P : A -> Prop) n x l : Forall P l -> P x -> Forall P (set_nth n x l).
Proof. intros H Hx. revert n. induction H; intros [|n]; cbn; auto. Qed.

Lemma add_all_wf l : forall s, swf s -> swf (fold_left (fun s x => s_add x s) l s) /\
  forall y, In y (s_order (fold_left (fun s x => s_add x s) l s)) <-> In y l \/ In y (s_order s).
Proof.
  induction l as [|x l IH]; intros s H; cbn [fold_left]; [split; [exact H|cbn; tauto]|].
  destruct (add_wf x s H) as [H1 H2]. destruct (IH _ H1) as [H3 H4]. split; [exact H3|].
  intros y. rewrite H4, H2. cbn [In]. intuition.
Qed.

Lemma incl_b_spec a b : incl_b a b = true -> incl a b.
Proof.
  unfold incl_b. rewrite forallb_forall. intros H x Hx. specialize (H x Hx). apply existsb_exists in H.
  destruct H as (y & Hy & E). apply beqb_eq in E. now subst.
Qed.

(** the maintenance part of the invariant survives when the sets grow, the
    known names grow by something covered, and the rest stays *)
Lemma maint_mono s s' m :
  n_names s' = n_names s -> n_w s' = n_w s -> n_mu s' = n_mu s ->
  length (n_heap s') = length (n_heap s) ->
  (forall p x, hin (n_heap s) p x -> hin (n_heap s') p x) ->
  (forall x, in_names s' x -> in_names s x) ->
  incl (n_known s) (n_known s') ->
  (forall x, In x (n_known s') -> In x (n_known s) \/ in_names s x \/ in_w s' 0 x) ->
  maint_ok s m -> maint_ok s' m.
Proof.
  intros E1 E2 E3 El Hg N2 Hk Hk' H.
  assert (N1 : forall x, in_names s x -> in_names s' x).
  { intros x. unfold in_names. rewrite E1. destruct (n_names s); [apply Hg|tauto]. }
  assert (W : forall i x, in_w s i x -> in_w s' i x).
  { intros i x (j & p & A & B & C). exists j, p. rewrite E2. auto. }
  assert (L : forall l, loc_ok s l -> loc_ok s' l).
  { intros l (A & B & B' & C). unfold loc_ok. rewrite El, E3, E1, E2. split; [exact A|]. split; [exact B|].
    split; [exact B'|].
    destruct (ml_copied l).
    - destruct C as (C1 & C2 & C3). split; [auto|]. split.
      + intros x X. destruct (C2 x X); auto.
      + intros x X. destruct (Hk' x X) as [Y|[Y|Y]]; auto. destruct (C3 x Y) as [?|[?|?]]; auto.
    - destruct C as (C1 & C2 & C3). split; [exact C1|]. split.
      + intros x X. destruct (C2 x X); auto.
      + intros x X. destruct (Hk' x X) as [Y|[Y|Y]]; auto. destruct (C3 x Y); auto. }
  destruct m as [|l|l p|l p|l p|start res|out]; cbn in *; rewrite ?E2, ?E3.
  - destruct H as [A B]. split; [exact A|]. intros x X. destruct (Hk' x X) as [Y|[Y|Y]]; auto. destruct (B x Y); auto.
  - auto.
  - destruct H; auto.
  - destruct H; auto.
  - destruct H; auto.
  - destruct H as (A & B & C & D & F). split; [exact A|]. split.
    + intros x X. destruct (Hk' x X) as [Y|[Y|Y]]; auto. destruct (B x Y); auto.
    + split; [exact C|]. split; [exact D|]. intros x X. apply Hk, F, X.
  - destruct H as (A & B & C). split; [exact A|]. split; [|auto].
    intros x X. destruct (Hk' x X) as [Y|[Y|Y]]; auto. destruct (B x Y); auto.
Qed.

Lemma ninv_init workers : ninv (n_init workers 1).
Proof.
  assert (H0 : forall p x, ~ hin (repeat s_new workers) p x).
  { intros p x. unfold hin. destruct (Nat.lt_ge_cases p workers).
    - assert (In (nth p (repeat s_new workers) s_new) (repeat s_new workers)) by (apply nth_In; rewrite repeat_length; lia).
      apply repeat_spec in H0. rewrite H0. cbn. tauto.
    - rewrite nth_overflow by (rewrite repeat_length; lia). cbn. tauto. }
  constructor; cbn [n_init n_heap n_known n_names n_w n_maint repeat].
  - apply Forall_forall. intros s Hs. apply repeat_spec in Hs. subst. apply new_wf.
  - intros p x X. exfalso. eapply H0, X.
  - discriminate.
  - discriminate.
  - rewrite repeat_length. apply Forall_forall. intros p Hp. apply in_seq in Hp. lia.
  - exists MIdle. split; [reflexivity|]. cbn. split; [reflexivity|]. tauto.
Qed.

Lemma set_nth_one {A} m (x y z : A) : nth_error [x] m = Some y -> set_nth m z [x] = [z] /\ y = x /\ m = 0%nat.
Proof. destruct m as [|m]; cbn; [intros [= ->]; auto|]. destruct m; discriminate. Qed.

(** a worker step that leaves the heap and only moves the worker *)
Lemma ninv_worker s num w k : ninv s -> (forall x, In x k -> in_names s x) ->
  ninv (n_know (n_setw s num w) k).
Proof.
  intros [Iwf Ik Inm Isep Iw (m0 & Im & Iok)] Hk.
  constructor; cbn [n_know n_setw n_heap n_known n_names n_w n_maint]; auto.
  - intros p y Y. apply in_app_iff. right. eauto.
  - exists m0. split; [exact Im|].
    eapply maint_mono; [..|exact Iok]; cbn [n_know n_setw n_heap n_known n_names n_w n_maint n_mu]; auto.
    + intros y Y. apply in_app_iff. now right.
    + intros y Y. apply in_app_iff in Y. destruct Y; auto.
Qed.
Lemma n_know_nil s : n_know s [] = s.
Proof. now destruct s. Qed.

Lemma ninv_add s num p x : ninv s -> nth_error (n_w s) num = Some p ->
  ninv (n_know (n_setw (n_with s (set_nth p (s_add x (hget s p)) (n_heap s)) (n_names s) (n_w s) (n_mu s)) num WIdle) [x]).
Proof.
  intros [Iwf Ik Inm Isep Iw (m0 & Im & Iok)] Ep.
  assert (Hp : (p < length (n_heap s))%nat).
  { rewrite Forall_forall in Iw. apply Iw. eapply nth_error_In; eauto. }
  destruct (add_wf x (hget s p) (swf_nth _ p Iwf)) as [W1 W2].
  set (heap := set_nth p (s_add x (hget s p)) (n_heap s)).
  assert (Hh : forall q y, hin heap q y <-> hin (n_heap s) q y \/ (q = p /\ y = x)).
  { intros q y. unfold hin, heap. rewrite nth_set_nth_heap by exact Hp.
    destruct (Nat.eqb_spec p q) as [<-|Hne].
    - rewrite W2. unfold hget. intuition.
    - split; [auto|]. intros [Y|[-> _]]; [exact Y|congruence]. }
  assert (HL : length heap = length (n_heap s)) by apply set_nth_len.
  constructor; cbn [n_know n_setw n_with n_heap n_known n_names n_w n_maint app]; auto.
  - apply Forall_set; assumption.
  - intros q y Y. apply Hh in Y. destruct Y as [Y|[_ ->]]; [right; eauto|now left].
  - intros q Hq. rewrite HL. auto.
  - rewrite HL. exact Iw.
  - exists m0. split; [exact Im|].
    eapply maint_mono; [..|exact Iok]; cbn [n_know n_setw n_with n_heap n_known n_names n_w n_maint n_mu app]; auto.
    + intros q y Y. apply Hh. now left.
    + intros y. unfold in_names. cbn [n_know n_setw n_with n_heap n_names]. destruct (n_names s) as [q|] eqn:E; [|tauto].
      rewrite Hh. intros [Y|[-> _]]; [exact Y|]. exfalso. apply (Isep p eq_refl). eapply nth_error_In; eauto.
    + intros y Y. now right.
    + intros y [<-|Y]; [|auto]. right. right. exists num, p. split; [lia|]. split; [exact Ep|]. apply Hh. now right.
Qed.

Lemma len0_nil s x : swf s -> (s_len s =? 0)%Z = true -> ~ In x (s_order s).
Proof. intros _ H. apply Z.eqb_eq in H. unfold s_len, len in H. destruct (s_order s); [cbn; tauto|cbn in H; lia]. Qed.

Lemma in_w_next s i x p : nth_error (n_w s) i = Some p -> ~ hin (n_heap s) p x -> in_w s i x -> in_w s (S i) x.
Proof.
  intros E N (j & r & A & B & C). exists j, r. split; [|auto].
  destruct (Nat.eq_dec i j) as [->|]; [|lia]. rewrite E in B. injection B as <-. contradiction.
Qed.

Lemma loc_next s l p : loc_ok s l -> nth_error (n_w s) (ml_i l) = Some p -> (forall x, ~ hin (n_heap s) p x) ->
  loc_ok s (MLoc (ml_names l) (ml_copied l) (ml_locked l) (S (ml_i l)) (ml_start l)).
Proof.
  intros (A & B & B' & C) E N. unfold loc_ok. cbn [ml_names ml_copied ml_locked ml_i ml_start].
  split; [exact A|]. split; [exact B|]. split; [exact B'|].
  destruct (ml_copied l); destruct C as (C1 & C2 & C3); split; auto; split; auto;
    intros x X; destruct (C2 x X) as [Y|Y]; auto; right; eapply in_w_next; eauto.
Qed.


Definition mmerge_heap (s : nsys) (l : mloc) : list sset * nat :=
  if ml_copied l then (n_heap s, ml_names l)
  else match n_names s with
       | Some q => if (0 <? s_len (hget s q))%Z
                   then (n_heap s ++ [s_copy (hget s q)], length (n_heap s))
                   else (n_heap s, ml_names l)
       | None => (n_heap s, ml_names l)
       end.

(** what the copy step establishes *)
Lemma mmerge_heap_ok s l : ninv s -> loc_ok s l ->
  let heap := fst (mmerge_heap s l) in let nm := snd (mmerge_heap s l) in
  Forall swf heap /\ (length (n_heap s) <= length heap)%nat /\ (nm < length heap)%nat /\ ~ In nm (n_w s) /\
  (forall p x, (p < length (n_heap s))%nat -> (hin heap p x <-> hin (n_heap s) p x)) /\
  (forall p x, hin heap p x -> In x (n_known s)) /\
  (forall x, in_names s x -> hin heap nm x) /\
  (forall x, ml_copied l = true -> hin (n_heap s) (ml_names l) x -> hin heap nm x).
Proof.
  intros [Iwf Ik Inm Isep Iw _] (A & B & B' & C). unfold mmerge_heap.
  destruct (ml_copied l) eqn:Ec.
  { destruct C as (C1 & C2 & C3). cbn [fst snd]. cbn zeta. repeat (split; auto). }
  destruct C as (C1 & C2 & C3).
  destruct (n_names s) as [q|] eqn:En.
  - destruct (Z.ltb_spec 0 (s_len (hget s q))) as [Hl|Hl]; cbn [fst snd]; cbn zeta.
    + destruct (copy_wf (hget s q) (swf_nth _ q Iwf)) as [W1 W2].
      split. { apply Forall_app. split; [exact Iwf|]. constructor; [exact W1|constructor]. }
      rewrite app_length. cbn [length]. split; [lia|]. split; [lia|].
      split. { intros X. rewrite Forall_forall in Iw. apply Iw in X. lia. }
      split. { intros p x Hp. now apply hin_app. }
      split.
      { intros p x X. pose proof (hin_lt _ _ _ X) as Hp. rewrite app_length in Hp. cbn in Hp.
        destruct (Nat.eq_dec p (length (n_heap s))) as [->|].
        - apply hin_last in X. rewrite W2 in X. apply (Ik q). exact X.
        - apply (Ik p). apply hin_app in X; [exact X|lia]. }
      split; [|discriminate].
      intros x. unfold in_names. rewrite En. intros X. apply hin_last. rewrite W2. exact X.
    + specialize (C1 q eq_refl). split; [exact Iwf|]. split; [lia|]. split; [exact A|]. split; [exact B'|].
      split; [tauto|]. split; [exact Ik|]. split; [|discriminate].
      intros x. unfold in_names. rewrite En, C1. auto.
  - cbn [fst snd]; cbn zeta. split; [exact Iwf|]. split; [lia|]. split; [exact A|]. split; [exact B'|].
    split; [tauto|]. split; [exact Ik|]. split; [|discriminate].
    intros x. unfold in_names. rewrite En. tauto.
Qed.

Lemma ninv_merge s l p m : ninv s -> loc_ok s l -> nth_error (n_w s) (ml_i l) = Some p -> n_maint s = [m] ->
  let heap := fst (mmerge_heap s l) in let nm := snd (mmerge_heap s l) in
  let heap1 := set_nth nm (s_merge (nth nm heap s_new) (nth p heap s_new)) heap in
  ninv (n_setm (n_with s (heap1 ++ [s_new]) (n_names s) (set_nth (ml_i l) (length heap1) (n_w s)) (n_mu s)) 0
          (MAt (MLoc nm true (ml_locked l) (S (ml_i l)) (ml_start l)))).
Proof.
  intros HI HL Ep Em. pose proof (mmerge_heap_ok s l HI HL) as H.
  pose proof HI as [Iwf Ik Inm Isep Iw _]. destruct HL as (A & B & B' & C).
  destruct (mmerge_heap s l) as [heap nm] eqn:EH. cbn [fst snd] in *. cbn zeta in *.
  destruct H as (H1 & H2 & H3 & H4 & H5 & H6 & H7 & H8).
  assert (Hp : (p < length (n_heap s))%nat).
  { rewrite Forall_forall in Iw. apply Iw. eapply nth_error_In; eauto. }
  assert (Hpn : p <> nm).
  { intros ->. apply H4. eapply nth_error_In; eauto. }
  destruct (merge_wf (nth nm heap s_new) (nth p heap s_new) (swf_nth _ nm H1)) as [W1 W2].
  set (heap1 := set_nth nm (s_merge (nth nm heap s_new) (nth p heap s_new)) heap).
  assert (L1 : length heap1 = length heap) by apply set_nth_len.
  assert (Hh : forall q y, hin (heap1 ++ [s_new]) q y <-> hin heap q y \/ (q = nm /\ hin (n_heap s) p y)).
  { intros q y. destruct (Nat.lt_ge_cases q (length heap)) as [Hq|Hq].
    - rewrite hin_app by lia. unfold hin at 1, heap1. rewrite nth_set_nth_heap by exact H3.
      rewrite <- (H5 p y Hp). destruct (Nat.eqb_spec nm q) as [<-|Hne].
      + rewrite W2. unfold hin. intuition.
      + unfold hin. split; [auto|]. intros [Y|[-> _]]; [exact Y|congruence].
    - split.
      + intros X. exfalso. destruct (Nat.eq_dec q (length heap1)) as [->|].
        * now apply hin_last in X.
        * apply hin_lt in X. rewrite app_length in X. cbn in X. lia.
      + intros [X|[-> _]]; [|lia]. exfalso. now apply (hin_new heap y q). }
  assert (Hle : forall q y, hin (n_heap s) q y -> hin (heap1 ++ [s_new]) q y).
  { intros q y Y. apply Hh. left. apply H5; [|exact Y]. now apply hin_lt in Y. }
  assert (HW : forall i y, in_w s i y -> i <> ml_i l ->
     exists j r, (i <= j)%nat /\ nth_error (n_w s) j = Some r /\ hin (n_heap s) r y).
  { intros i y (j & r & X). eauto. }
  assert (HwS : forall i x, in_w s i x -> hin (heap1 ++ [s_new]) nm x \/
     exists j r, (i <= j)%nat /\ j <> ml_i l /\ nth_error (set_nth (ml_i l) (length heap1) (n_w s)) j = Some r /\
       hin (heap1 ++ [s_new]) r x).
  { intros i x (j & r & X & Y & Z). destruct (Nat.eq_dec j (ml_i l)) as [->|Hne].
    - left. rewrite Ep in Y. injection Y as <-. apply Hh. now right.
    - right. exists j, r. rewrite nth_error_set_other by congruence. auto. }
  constructor; cbn [n_setm n_with n_heap n_known n_names n_w n_maint n_mu].
  - apply Forall_app. split; [apply Forall_set; assumption|]. constructor; [apply new_wf|constructor].
  - intros q y Y. apply Hh in Y. destruct Y as [Y|[-> Y]]; [apply (H6 q y Y)|apply (Ik p y Y)].
  - intros q Hq. rewrite app_length. specialize (Inm q Hq). cbn. lia.
  - intros q Hq X. apply In_nth_error in X. destruct X as [j X]. apply nth_error_set in X.
    destruct X as [[_ X]|[_ X]].
    + specialize (Inm q Hq). lia.
    + apply (Isep q Hq). eapply nth_error_In; eauto.
  - rewrite app_length. cbn. apply Forall_set; [|lia]. eapply Forall_impl; [|exact Iw]. cbn. intros r Hr. lia.
  - exists (MAt (MLoc nm true (ml_locked l) (S (ml_i l)) (ml_start l))). rewrite Em. split; [reflexivity|].
    cbn [maint_ok]. unfold loc_ok. cbn [n_setm n_with n_heap n_known n_names n_w n_maint n_mu ml_names ml_copied ml_locked ml_i ml_start].
    split; [rewrite app_length; lia|]. split; [exact B|]. split; [|split; [|split]].
    + intros X. apply In_nth_error in X. destruct X as [j X]. apply nth_error_set in X.
      destruct X as [[_ X]|[_ X]]; [lia|]. apply H4. eapply nth_error_In; eauto.
    + intros x X. unfold in_names in X. cbn [n_setm n_with n_heap n_names] in X.
      destruct (n_names s) as [q|] eqn:En; [|contradiction]. apply Hh in X. apply Hh.
      destruct X as [X|[-> X]]; [|auto]. left. apply H7. unfold in_names. rewrite En. apply H5; [apply Inm; reflexivity|exact X].
    + intros x X. assert (Y : (hin heap nm x) \/ in_w s (ml_i l) x).
      { destruct (ml_copied l) eqn:Ec; destruct C as (C1 & C2 & C3); destruct (C2 x X); auto. }
      destruct Y as [Y|Y]; [left; apply Hh; now left|]. destruct (HwS _ _ Y) as [Z|(j & r & Z1 & Z2 & Z3 & Z4)]; [auto|].
      right. exists j, r. cbn. split; [lia|]. auto.
    + intros x X. assert (Y : in_names s x \/ (hin heap nm x) \/ in_w s 0 x).
      { destruct (ml_copied l) eqn:Ec; destruct C as (C1 & C2 & C3).
        - destruct (C3 x X) as [Y|[Y|Y]]; auto.
        - destruct (C3 x X) as [Y|Y]; auto. }
      destruct Y as [Y|[Y|Y]].
      * right; right. apply Hh. left. now apply H7.
      * right; right. apply Hh. now left.
      * destruct (HwS _ _ Y) as [Z|(j & r & Z1 & Z2 & Z3 & Z4)]; [auto|]. right. left. exists j, r. auto.
Qed.

Lemma ninv_step s a s' : ninv s -> n_do a s = Some s' -> ninv s'.
Proof.
  intros HI Hd. pose proof HI as [Iwf Ik Inm Isep Iw (m0 & Im & Iok)].
  destruct a as [num x|num|num|m|m|m out|m|m]; cbn [n_do] in Hd.
  - (* write *)
    destruct (nth_error (n_workers s) num) as [[| |]|]; try discriminate. injection Hd as <-.
    rewrite <- (n_know_nil (n_setw _ _ _)). apply ninv_worker; [exact HI|cbn; tauto].
  - (* check *)
    destruct (nth_error (n_workers s) num) as [[|x|]|]; try discriminate.
    destruct (n_names s) as [q|] eqn:En.
    + destruct (s_has x (hget s q)) eqn:Eh; injection Hd as <-.
      * apply ninv_worker; [exact HI|]. intros y [<-|[]].
        unfold in_names. rewrite En. unfold hin. apply (swf_nth (n_heap s) q Iwf). now apply has_in.
      * rewrite <- (n_know_nil (n_setw _ _ _)). apply ninv_worker; [exact HI|cbn; tauto].
    + injection Hd as <-. rewrite <- (n_know_nil (n_setw _ _ _)). apply ninv_worker; [exact HI|cbn; tauto].
  - (* add *)
    destruct (nth_error (n_workers s) num) as [[| |x]|]; try discriminate.
    destruct (nth_error (n_w s) num) as [p|] eqn:Ep; [|discriminate]. injection Hd as <-.
    now apply ninv_add.
  - (* metrics *)
    rewrite Im in Hd. destruct (nth_error [m0] m) as [[]|] eqn:Em; try discriminate.
    destruct (set_nth_one _ _ _ MIdle Em) as (_ & <- & ->). cbn in Iok. destruct Iok as [I1 I2].
    destruct (n_names s) as [q|] eqn:En; injection Hd as <-.
    + constructor; cbn [n_setm n_heap n_known n_names n_w n_maint]; rewrite ?En; auto.
      eexists. rewrite Im. split; [reflexivity|]. cbn [maint_ok]. unfold loc_ok.
      cbn [n_setm n_with n_heap n_known n_names n_w n_maint n_mu ml_names ml_copied ml_locked ml_i ml_start].
      rewrite En. split; [auto|]. split; [auto|]. split; [auto|]. split; [intros ? [= <-]; reflexivity|].
      unfold in_names in *. cbn [n_setm n_heap n_names]. rewrite En in *. split; intros x X; destruct (I2 x X); auto.
    + assert (Hin : forall p x, hin (n_heap s ++ [s_new]) p x <-> hin (n_heap s) p x).
      { intros p x. destruct (Nat.lt_ge_cases p (length (n_heap s))); [now apply hin_app|].
        split; intros X; exfalso.
        - destruct (Nat.eq_dec p (length (n_heap s))) as [->|]; [now apply hin_last in X|].
          apply hin_lt in X. rewrite app_length in X. cbn in X. lia.
        - apply hin_lt in X. lia. }
      constructor; cbn [n_setm n_with n_heap n_known n_names n_w n_maint].
      * apply Forall_app. split; [exact Iwf|]. constructor; [apply new_wf|constructor].
      * intros p x X. apply Hin in X. eauto.
      * discriminate.
      * discriminate.
      * rewrite app_length. eapply Forall_impl; [|exact Iw]. cbn. lia.
      * eexists. rewrite Im. split; [reflexivity|]. cbn [maint_ok]. unfold loc_ok.
        cbn [n_setm n_with n_heap n_known n_names n_w n_maint n_mu ml_names ml_copied ml_locked ml_i ml_start].
        rewrite app_length. cbn [length]. split; [lia|]. split; [exact I1|].
        split. { intros X. rewrite Forall_forall in Iw. apply Iw in X. lia. }
        split; [discriminate|].
        assert (G : forall x, In x (n_known s) -> in_names (n_setm (n_with s (n_heap s ++ [s_new]) None (n_w s) (n_mu s)) 0
             (MAt (MLoc (length (n_heap s)) false false 0 (n_known s)))) x \/ 
             in_w (n_setm (n_with s (n_heap s ++ [s_new]) None (n_w s) (n_mu s)) 0
             (MAt (MLoc (length (n_heap s)) false false 0 (n_known s)))) 0 x).
        { intros x X. destruct (I2 x X) as [Y|(j & r & Y1 & Y2 & Y3)].
          - unfold in_names in Y. rewrite En in Y. contradiction.
          - right. exists j, r. split; [exact Y1|]. split; [exact Y2|]. cbn. now apply Hin. }
        split; exact G.
  - (* step *)
    rewrite Im in Hd. destruct (nth_error [m0] m) as [pc|] eqn:Em; [|discriminate].
    destruct (set_nth_one _ _ _ MIdle Em) as (_ & -> & ->).
    destruct m0 as [|l|l p|l p|l p|start res|out]; cbn [metrics_step] in Hd; try discriminate.
    + destruct (nth_error (n_w s) (ml_i l)) as [p|] eqn:Ep.
      * injection Hd as <-. constructor; cbn [n_setm n_heap n_known n_names n_w n_maint]; auto.
        exists (MPtr l p). rewrite Im. split; [reflexivity|]. cbn. split; assumption.
      * injection Hd as <-. cbn in Iok. destruct Iok as (A & B & B' & C).
        assert (Hnw : forall x, ~ in_w s (ml_i l) x).
        { intros x (j & r & X & Y & _). apply nth_error_None in Ep.
          assert (j < length (n_w s))%nat by (apply nth_error_Some; congruence). lia. }
        assert (Hmu : (if ml_locked l then false else n_mu s) = false) by (rewrite B; now destruct (ml_locked l)).
        assert (Hres : incl (s_order (nth (ml_names l) (n_heap s) s_new)) (n_known s)) by (intros x X; apply (Ik (ml_names l)); exact X).
        assert (Hsort : StronglySorted lt_b (s_order (nth (ml_names l) (n_heap s) s_new))) by (apply (swf_nth _ _ Iwf)).
        destruct (ml_copied l) eqn:Ec; destruct C as (C1 & C2 & C3);
          (constructor; cbn [n_setm n_with n_heap n_known n_names n_w n_maint]; auto;
           [..|eexists; rewrite Im; split; [reflexivity|]; cbn [maint_ok];
               unfold hget; cbn [n_setm n_with n_heap n_known n_names n_w n_maint n_mu];
               split; [exact Hmu|split; [|split; [|split; [exact Hsort|exact Hres]]]]]).
        -- intros q [= <-]. exact A.
        -- intros q [= <-]. exact B'.
        -- intros x X. unfold in_names. cbn [n_setm n_with n_heap n_names].
           destruct (C3 x X) as [Y|[Y|Y]]; auto.
        -- intros x X. destruct (C2 x X) as [Y|Y]; [exact Y|]. now apply Hnw in Y.
        -- intros x X. destruct (C3 x X) as [Y|Y]; auto.
        -- intros x X. destruct (C2 x X) as [Y|Y]; [|now apply Hnw in Y].
           unfold in_names in Y. destruct (n_names s) as [q|] eqn:En; [|contradiction].
           rewrite (C1 q eq_refl). exact Y.
    + cbn in Iok. destruct Iok as [Lo Ep].
      destruct (s_len (hget s p) =? 0)%Z eqn:El.
      * injection Hd as <-. constructor; cbn [n_setm n_heap n_known n_names n_w n_maint]; auto.
        eexists. rewrite Im. split; [reflexivity|]. cbn [maint_ok].
        apply (loc_next s l p Lo Ep). intros x. unfold hin. apply len0_nil; [apply swf_nth; exact Iwf|exact El].
      * destruct (ml_locked l) eqn:Elk; injection Hd as <-;
          (constructor; cbn [n_setm n_heap n_known n_names n_w n_maint]; auto;
           eexists; rewrite Im; split; [reflexivity|]; split; assumption).
    + cbn in Iok. destruct Iok as [Lo Ep]. destruct (n_mu s) eqn:Emu; [discriminate|]. injection Hd as <-.
      constructor; cbn [n_setm n_with n_heap n_known n_names n_w n_maint]; auto.
      eexists. rewrite Im. split; [reflexivity|]. cbn [maint_ok]. split; [|exact Ep].
      destruct Lo as (A & B & B' & C). unfold loc_ok in *.
      cbn [n_setm n_with n_heap n_known n_names n_w n_maint n_mu ml_names ml_copied ml_locked ml_i ml_start].
      split; [exact A|]. split; [reflexivity|]. split; [exact B'|]. exact C.
    + cbn in Iok. destruct Iok as [Lo Ep]. pose proof (ninv_merge s l p _ HI Lo Ep Im) as G. unfold mmerge_heap in G.
      cbn zeta in G. cbn zeta in Hd.
      destruct (ml_copied l); [cbn [fst snd] in G; injection Hd as <-; exact G|].
      destruct (n_names s) as [q|]; [destruct (0 <? s_len (hget s q))%Z|]; cbn [fst snd] in G; injection Hd as <-; exact G.
  - (* populate *)
    rewrite Im in Hd. destruct (nth_error [m0] m) as [[]|] eqn:Em; try discriminate.
    destruct (set_nth_one _ _ _ MIdle Em) as (_ & <- & ->). cbn in Iok. destruct Iok as [I1 I2].
    destruct (incl_b (n_known s) out) eqn:Eo; [|discriminate]. injection Hd as <-. apply incl_b_spec in Eo.
    constructor; cbn [n_setm n_heap n_known n_names n_w n_maint]; auto.
    exists (PScan out). rewrite Im. split; [reflexivity|]. cbn. split; [exact I1|]. split.
    + intros x X. left. now apply Eo.
    + intros x X. apply Eo. unfold in_names in X. cbn in X. destruct (n_names s) as [q|]; [|contradiction]. eauto.
  - (* store *)
    rewrite Im in Hd. destruct (nth_error [m0] m) as [[]|] eqn:Em; try discriminate.
    destruct (set_nth_one _ _ _ MIdle Em) as (_ & <- & ->). cbn in Iok. destruct Iok as (I1 & I2 & I3).
    rewrite I1 in Hd. injection Hd as <-.
    destruct (add_all_wf out s_new new_wf) as [W1 W2].
    constructor; cbn [n_know n_setm n_with n_heap n_known n_names n_w n_maint].
    + apply Forall_app. split; [exact Iwf|]. constructor; [exact W1|constructor].
    + intros p x X. apply in_app_iff. destruct (Nat.lt_ge_cases p (length (n_heap s))).
      * right. apply hin_app in X; [eauto|assumption].
      * left. destruct (Nat.eq_dec p (length (n_heap s))) as [->|].
        -- apply hin_last, W2 in X. destruct X as [X|[]]. exact X.
        -- apply hin_lt in X. rewrite app_length in X. cbn in X. lia.
    + intros q [= <-]. rewrite app_length. cbn. lia.
    + intros q [= <-] X. rewrite Forall_forall in Iw. apply Iw in X. lia.
    + rewrite app_length. eapply Forall_impl; [|exact Iw]. cbn. lia.
    + exists MIdle. rewrite Im. split; [reflexivity|]. cbn [maint_ok n_know n_setm n_with n_mu n_known].
      split; [reflexivity|]. intros x X.
      assert (Y : In x out \/ in_w s 0 x) by (apply in_app_iff in X; destruct X; auto).
      destruct Y as [Y|(j & r & Y1 & Y2 & Y3)].
      * left. unfold in_names. cbn [n_know n_setm n_with n_heap n_names]. apply hin_last, W2. now left.
      * right. exists j, r. split; [exact Y1|]. split; [exact Y2|]. cbn. apply hin_app; [now apply hin_lt in Y3|exact Y3].
  - (* done *)
    rewrite Im in Hd. destruct (nth_error [m0] m) as [[]|] eqn:Em; try discriminate.
    destruct (set_nth_one _ _ _ MIdle Em) as (_ & <- & ->). injection Hd as <-.
    constructor; cbn [n_setm n_heap n_known n_names n_w n_maint]; auto.
    exists MIdle. rewrite Im. split; [reflexivity|]. cbn in *. split; [tauto|]. tauto.
Qed.

Lemma ninv_reach workers s : n_reach workers 1 s -> ninv s.
Proof. induction 1; [apply ninv_init|eapply ninv_step; eauto]. Qed.
