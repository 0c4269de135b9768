From Coq Require Import ZArith List Bool Lia Sorted.
From Verif Require Import Base Maps Cache CacheProofs Sset.
Import ListNotations.
Open Scope Z_scope.

Lemma blt_irrefl a : blt a a = false.
Proof. induction a as [|x a IH]; cbn; [reflexivity|]. now rewrite Z.ltb_irrefl, Z.eqb_refl, IH. Qed.
Lemma blt_trans a b c : blt a b = true -> blt b c = true -> blt a c = true.
Proof.
  revert b c; induction a as [|x a IH]; intros [|y b] [|z c]; cbn; try discriminate; auto.
  rewrite !orb_true_iff, !andb_true_iff, !Z.ltb_lt, !Z.eqb_eq.
  intros [H1|[-> H1]] [H2|[-> H2]]; [left; lia|left; lia|left; lia|right; split; [reflexivity|eauto]].
Qed.
Lemma blt_total a b : blt a b = false -> a <> b -> blt b a = true.
Proof.
  revert b; induction a as [|x a IH]; intros [|y b]; cbn; intros H Hne; auto; try discriminate; try contradiction.
  apply orb_false_iff in H. destruct H as [H1 H2]. apply Z.ltb_ge in H1.
  apply orb_true_iff. destruct (Z.eqb_spec x y) as [->|Hxy].
  - right. rewrite Z.eqb_refl. cbn in *. apply IH; [exact H2|congruence].
  - left. apply Z.ltb_lt. lia.
Qed.

Definition lt_b (a b : list Z) : Prop := blt a b = true.
(** sorted strictly, and the map has the same keys as the slice *)
Definition swf (s : sset) : Prop :=
  StronglySorted lt_b (s_order s) /\ (forall x, In x (s_set s) <-> In x (s_order s)).

Lemma has_in x s : s_has x s = true <-> In x (s_set s).
Proof.
  unfold s_has. rewrite existsb_exists. split.
  - intros (y & Hy & E). apply beqb_eq in E. now subst.
  - intros H. exists x. split; [exact H|]. now apply beqb_eq.
Qed.

Lemma sorted_nth order : StronglySorted lt_b order -> forall i j, (i < j < length order)%nat ->
  blt (nth i order []) (nth j order []) = true.
Proof.
  induction 1 as [|a l H IH F]; intros i j Hij; cbn in Hij; [lia|].
  destruct j; [lia|]. destruct i; cbn [nth].
  - rewrite Forall_forall in F. apply F. apply nth_In. lia.
  - apply IH. lia.
Qed.

(** the search finds the first position whose element is not below x *)
Lemma search_spec order x : StronglySorted lt_b order ->
  forall fuel i j, 0 <= i <= j -> j <= len order -> (Z.to_nat (j - i) < fuel)%nat ->
  (forall k, 0 <= k < i -> blt (nth (Z.to_nat k) order []) x = true) ->
  (forall k, j <= k < len order -> blt (nth (Z.to_nat k) order []) x = false) ->
  let r := s_search fuel order x i j in
  0 <= r <= len order /\
  (forall k, 0 <= k < r -> blt (nth (Z.to_nat k) order []) x = true) /\
  (forall k, r <= k < len order -> blt (nth (Z.to_nat k) order []) x = false).
Proof.
  intros HS. induction fuel as [|fuel IH]; intros i j Hij Hj Hf H1 H2; [lia|]. cbn [s_search].
  destruct (Z.ltb_spec i j) as [Hlt|Hge].
  - cbn zeta. set (h := (i + j) / 2).
    assert (Hh : i <= h < j).
    { unfold h. split; [apply Z.div_le_lower_bound; lia|apply Z.div_lt_upper_bound; lia]. }
    destruct (blt (nth (Z.to_nat h) order []) x) eqn:E.
    + apply IH; try lia; [|exact H2]. intros k Hk. destruct (Z.eq_dec k h) as [->|]; [exact E|].
      destruct (Z.lt_ge_cases k i); [apply H1; lia|].
      apply blt_trans with (nth (Z.to_nat h) order []); [|exact E]. apply sorted_nth; [exact HS|]. unfold len in *. lia.
    + apply IH; try lia; [exact H1|]. intros k Hk. destruct (Z.lt_ge_cases k j); [|apply H2; lia].
      destruct (Z.eq_dec k h) as [->|]; [exact E|].
      destruct (blt (nth (Z.to_nat k) order []) x) eqn:E2; [|reflexivity].
      rewrite <- E. symmetry. apply blt_trans with (nth (Z.to_nat k) order []); [|exact E2].
      apply sorted_nth; [exact HS|]. unfold len in *. lia.
  - assert (i = j) by lia. subst j. cbn zeta. split; [lia|]. auto.
Qed.

Lemma insert_eq k x order : (k <= length order)%nat ->
  s_insert (Z.of_nat k) x order = firstn k order ++ x :: skipn k order.
Proof.
  intros Hk. unfold s_insert. rewrite Nat2Z.id. cbn zeta.
  assert (E : firstn (length (order ++ [x]) - S k) (skipn k (order ++ [x])) = skipn k order).
  { rewrite app_length. cbn [length]. rewrite skipn_app. replace (k - length order)%nat with 0%nat by lia.
    cbn [skipn]. rewrite firstn_app, skipn_length.
    replace (length order + 1 - S k - (length order - k))%nat with 0%nat by lia. cbn [firstn]. rewrite app_nil_r.
    apply firstn_all2. rewrite skipn_length. lia. }
  rewrite E.
  revert order Hk E. induction k as [|k IH]; intros order Hk _.
  - destruct order; reflexivity.
  - destruct order as [|a order]; [cbn in Hk; lia|]. cbn [app firstn set_nth skipn].
    f_equal. cbn in Hk. 
    specialize (IH order ltac:(lia)).
    assert (E : firstn (length (order ++ [x]) - S k) (skipn k (order ++ [x])) = skipn k order).
    { rewrite app_length. cbn [length]. rewrite skipn_app. replace (k - length order)%nat with 0%nat by lia.
      cbn [skipn]. rewrite firstn_app, skipn_length.
      replace (length order + 1 - S k - (length order - k))%nat with 0%nat by lia. cbn [firstn]. rewrite app_nil_r.
      apply firstn_all2. rewrite skipn_length. lia. }
    apply IH. exact E.
Qed.

Lemma sorted_app (a b : list (list Z)) :
  StronglySorted lt_b a -> StronglySorted lt_b b ->
  (forall x y, In x a -> In y b -> lt_b x y) -> StronglySorted lt_b (a ++ b).
Proof.
  induction 1 as [|x a H IH F]; intros Hb Hc; [exact Hb|]. cbn. constructor.
  - apply IH; [exact Hb|]. intros y z Hy Hz. apply Hc; [now right|exact Hz].
  - apply Forall_app. split; [exact F|]. apply Forall_forall. intros y Hy. apply Hc; [now left|exact Hy].
Qed.
Lemma sorted_split a b : StronglySorted lt_b (a ++ b) ->
  StronglySorted lt_b a /\ StronglySorted lt_b b.
Proof.
  induction a as [|x a IH]; cbn; intros H; [split; [constructor|exact H]|].
  inversion H; subst. destruct (IH H2) as [A B]. split; [|exact B]. constructor; [exact A|].
  apply Forall_app in H3. tauto.
Qed.

Lemma add_wf x s : swf s -> swf (s_add x s) /\ (forall y, In y (s_order (s_add x s)) <-> y = x \/ In y (s_order s)).
Proof.
  intros [HS HM]. unfold s_add. destruct (s_has x s) eqn:E.
  - split; [split; assumption|]. intros y. split; [auto|]. intros [->|H]; [|exact H]. now apply HM, has_in.
  - assert (Hx : ~ In x (s_order s)) by (intros X; apply HM, has_in in X; congruence).
    pose proof (search_spec (s_order s) x HS (S (length (s_order s))) 0 (len (s_order s))
      ltac:(unfold len; lia) ltac:(lia) ltac:(unfold len; lia) ltac:(intros; lia) ltac:(intros; lia)) as H.
    cbn zeta in H. set (i := s_search _ _ _ _ _) in *. destruct H as (Hi & Hlo & Hhi).
    cbn zeta. cbn [s_order s_set].
    assert (Ei : s_insert i x (s_order s) = firstn (Z.to_nat i) (s_order s) ++ x :: skipn (Z.to_nat i) (s_order s)).
    { rewrite <- insert_eq by (unfold len in Hi; lia). f_equal. lia. }
    assert (Hin : forall y, In y (s_insert i x (s_order s)) <-> y = x \/ In y (s_order s)).
    { intros y. rewrite Ei. rewrite in_app_iff. cbn [In]. rewrite <- (firstn_skipn (Z.to_nat i) (s_order s)) at 3.
      rewrite in_app_iff. intuition. }
    split; [|exact Hin]. split.
    + cbn [s_order]. rewrite Ei.
      pose proof HS as HS'. rewrite <- (firstn_skipn (Z.to_nat i) (s_order s)) in HS'.
      destruct (sorted_split _ _ HS') as [Ha Hb].
      assert (Hbelow : forall y, In y (firstn (Z.to_nat i) (s_order s)) -> lt_b y x).
      { intros y Hy. apply In_nth with (d := []) in Hy. destruct Hy as (k & Hk & <-).
        rewrite firstn_length in Hk. rewrite nth_firstn_lt by lia.
        specialize (Hlo (Z.of_nat k) ltac:(lia)). rewrite Nat2Z.id in Hlo. exact Hlo. }
      assert (Habove : forall y, In y (skipn (Z.to_nat i) (s_order s)) -> lt_b x y).
      { intros y Hy. assert (Hy0 : In y (s_order s)).
        { rewrite <- (firstn_skipn (Z.to_nat i) (s_order s)). apply in_app_iff. now right. }
        apply In_nth with (d := []) in Hy. destruct Hy as (k & Hk & Ek).
        rewrite skipn_length in Hk.
        assert (En : nth (Z.to_nat (i + Z.of_nat k)) (s_order s) [] = y).
        { rewrite <- Ek. rewrite <- (firstn_skipn (Z.to_nat i) (s_order s)) at 1.
          rewrite app_nth2; rewrite firstn_length; [|lia]. f_equal. lia. }
        specialize (Hhi (i + Z.of_nat k) ltac:(unfold len; lia)). rewrite En in Hhi.
        apply blt_total; [exact Hhi|]. intros ->. contradiction. }
      apply sorted_app; [exact Ha| |].
      * constructor; [exact Hb|]. apply Forall_forall. exact Habove.
      * intros y z Hy [<-|Hz]; [now apply Hbelow|]. apply blt_trans with x; [now apply Hbelow|now apply Habove].
    + cbn [s_set s_order In]. intros y. rewrite Hin, HM. intuition.
Qed.

Lemma merge_wf s o : swf s -> swf (s_merge s o) /\
  (forall y, In y (s_order (s_merge s o)) <-> In y (s_order o) \/ In y (s_order s)).
Proof.
  unfold s_merge. generalize (s_order o). intros l. revert s.
  induction l as [|x l IH]; intros s H; cbn [fold_left]; [split; [exact H|cbn; tauto]|].
  destruct (add_wf x s H) as [H1 H2]. destruct (IH _ H1) as [H3 H4]. split; [exact H3|].
  intros y. rewrite H4, H2. cbn [In]. intuition.
Qed.

Lemma copy_eq s : s_copy s = SSet (rev (s_order s)) (s_order s).
Proof.
  unfold s_copy.
  assert (G : forall l o, fold_left (fun o x => SSet (x :: s_set o) (s_order o ++ [x])) l o =
              SSet (rev l ++ s_set o) (s_order o ++ l)).
  { induction l as [|x l IH]; intros o; cbn [fold_left]; [rewrite app_nil_r; now destruct o|].
    rewrite IH. cbn [s_set s_order rev]. now rewrite <- !app_assoc. }
  rewrite G. cbn. now rewrite app_nil_r.
Qed.
Lemma copy_wf s : swf s -> swf (s_copy s) /\ s_order (s_copy s) = s_order s.
Proof.
  intros [H1 H2]. rewrite copy_eq. split; [|reflexivity]. split; [exact H1|].
  cbn [s_set s_order]. intros x. symmetry. apply in_rev.
Qed.

Lemma new_wf : swf s_new.
Proof. split; [constructor|]. cbn. tauto. Qed.

Lemma sorted_unique a b : StronglySorted lt_b a -> StronglySorted lt_b b -> (forall x, In x a <-> In x b) -> a = b.
Proof.
  intros Ha. revert b. induction Ha as [|x a Ha IH Fa]; intros b Hb H.
  - destruct b as [|y b]; [reflexivity|]. exfalso. apply (H y). now left.
  - destruct Hb as [|y b Hb Fb]; [exfalso; apply (H x); now left|].
    rewrite Forall_forall in Fa, Fb.
    assert (x = y) as ->.
    { destruct (H x) as [Hx _]. destruct (Hx (or_introl eq_refl)) as [E|Hx']; [auto|].
      destruct (H y) as [_ Hy]. destruct (Hy (or_introl eq_refl)) as [E|Hy']; [auto|].
      pose proof (blt_trans _ _ _ (Fa y Hy') (Fb x Hx')). rewrite blt_irrefl in H0. discriminate. }
    f_equal. apply IH; [exact Hb|]. intros z. split; intros Hz.
    + destruct (H z) as [Hz' _]. destruct (Hz' (or_intror Hz)) as [<-|G]; [|exact G].
      pose proof (Fa y Hz) as G. unfold lt_b in G. rewrite blt_irrefl in G. discriminate.
    + destruct (H z) as [_ Hz']. destruct (Hz' (or_intror Hz)) as [<-|G]; [|exact G].
      pose proof (Fb y Hz) as G. unfold lt_b in G. rewrite blt_irrefl in G. discriminate.
Qed.

(** programs *)
Definition srel (s : sset) (l : list (list Z)) : Prop :=
  swf s /\ forall x, In x (s_order s) <-> In x l.

Lemma srel_nth a b k : Forall2 srel a b -> srel (s_get a k) (nth k b []).
Proof.
  intros H. revert k. induction H as [|x y a b H1 H2 IH]; intros k.
  - unfold s_get. destruct k; split; try apply new_wf; cbn; tauto.
  - destruct k; [exact H1|]. exact (IH k).
Qed.
Lemma srel_set a b k s l : Forall2 srel a b -> srel s l -> Forall2 srel (set_nth k s a) (set_nth k l b).
Proof.
  intros H Hs. revert k. induction H as [|x y a b H1 H2 IH]; intros k; [destruct k; constructor|].
  destruct k; cbn; constructor; auto.
Qed.
Lemma srel_step a b o : Forall2 srel a b -> Forall2 srel (s_step a o) (n_step b o).
Proof.
  intros H. destruct o as [|k x|k j|k]; cbn [s_step n_step].
  - apply Forall2_app; [exact H|]. constructor; [|constructor]. split; [apply new_wf|]. cbn. tauto.
  - apply srel_set; [exact H|]. destruct (srel_nth a b k H) as [W E]. destruct (add_wf x _ W) as [W' E'].
    split; [exact W'|]. intros y. rewrite E', E. cbn [In]. intuition.
  - apply srel_set; [exact H|]. destruct (srel_nth a b k H) as [W E]. destruct (srel_nth a b j H) as [_ Ej].
    destruct (merge_wf _ (s_get a j) W) as [W' E']. split; [exact W'|]. intros y. now rewrite E', in_app_iff, E, Ej.
  - apply Forall2_app; [exact H|]. constructor; [|constructor]. destruct (srel_nth a b k H) as [W E].
    destruct (copy_wf _ W) as [W' E']. split; [exact W'|]. intros y. now rewrite E', E.
Qed.
Lemma srel_run ops : forall a b, Forall2 srel a b -> Forall2 srel (fold_left s_step ops a) (fold_left n_step ops b).
Proof. induction ops as [|o ops IH]; intros a b H; [exact H|]. cbn. apply IH, srel_step, H. Qed.
