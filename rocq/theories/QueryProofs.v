(** Proofs about Query.v. *)
From Coq Require Import ZArith List Lia Bool.
From Verif Require Import Base Query QuerySpec.
Import ListNotations.
Open Scope Z_scope.

(** ** glob *)
(** what the loop decides: like [matches], except that a star needs something
    left of the name *)
Fixpoint R (p n : list Z) : Prop :=
  match p with
  | [] => True
  | c :: p =>
      match n with
      | [] => False
      | x :: n' =>
          if c =? ch_quest then R p n'
          else if c =? ch_star then exists k, R p (skipn k n)
          else lower x = c /\ R p n'
      end
  end.
Lemma R_nil p : p <> [] -> R p [] -> False.
Proof. destruct p; cbn; auto. Qed.
Lemma skipn_skipn_ {A} a b (l : list A) : skipn a (skipn b l) = skipn (b + a) l.
Proof. revert l. induction b; intros l; [reflexivity|]. destruct l; [now rewrite !skipn_nil|]. apply IHb. Qed.
Lemma R_star p n : n <> [] -> (R (ch_star :: p) n <-> exists k, R p (skipn k n)).
Proof. intros H. destruct n; [contradiction|]. reflexivity. Qed.
Lemma R_star_later p n a : R (ch_star :: p) (skipn a n) -> R (ch_star :: p) n.
Proof.
  intros H. destruct n as [|x n]; [now rewrite skipn_nil in H|].
  destruct (skipn a (x :: n)) as [|y l] eqn:E; [contradiction|].
  apply (R_star p (y :: l)) in H; [|discriminate]. destruct H as [k H].
  apply R_star; [discriminate|]. exists (a + k)%nat. rewrite <- skipn_skipn_, E. exact H.
Qed.
Lemma R_seg seg : forall q n, ~ In ch_star seg -> R (seg ++ q) n -> R q (skipn (length seg) n).
Proof.
  induction seg as [|c seg IH]; intros q n Hs H; [exact H|].
  cbn [app length] in *. destruct n as [|x n]; [contradiction|]. cbn [R skipn] in *.
  assert (Hc : (c =? ch_star) = false) by (apply Z.eqb_neq; intros ->; apply Hs; now left).
  rewrite Hc in H. destruct (c =? ch_quest); [|destruct H as [_ H]]; apply IH; auto; intros X; apply Hs; now right.
Qed.

Lemma nth_error_skipn {A} (l : list A) i x : nth_error l i = Some x -> skipn i l = x :: skipn (S i) l.
Proof. revert l. induction i; intros [|y l] H; try discriminate; cbn in *; [congruence|]. now apply IHi. Qed.
Lemma nth_error_skipn_none {A} (l : list A) i : nth_error l i = None -> skipn i l = [].
Proof. intros H. apply skipn_all2. now apply nth_error_None. Qed.

Definition nonstars (l : list Z) : nat := length (filter (fun c => negb (c =? ch_star)) l).
Lemma nonstars_S pat px c : nth_error pat px = Some c ->
  nonstars (firstn (S px) pat) = (nonstars (firstn px pat) + (if (c =? ch_star)%Z then 0 else 1))%nat.
Proof.
  revert pat. induction px as [|px IH]; intros [|y pat] H; try discriminate.
  - cbn in H. injection H as ->. cbn. unfold nonstars. cbn. destruct (c =? ch_star); reflexivity.
  - cbn [nth_error] in H. change (firstn (S (S px)) (y :: pat)) with (y :: firstn (S px) pat).
    change (firstn (S px) (y :: pat)) with (y :: firstn px pat).
    specialize (IH _ H). unfold nonstars in *. cbn [filter]. destruct (negb (y =? ch_star)); cbn [length]; lia.
Qed.
Lemma firstn_skipn_len {A} (l : list A) i : (i <= length l)%nat -> length (firstn i l) = i.
Proof. intros. rewrite firstn_length. lia. Qed.

(** the backtracking state: no star seen yet, or the last star is at [npx],
    the characters after it up to [px] matched from [nnx - 1] on *)
Definition back_ok (pat name : list Z) (px nx npx nnx : nat) : Prop :=
  (nnx = 0%nat) \/
  (nth_error pat npx = Some ch_star /\
   ((px = npx /\ nx = nnx /\ (0 < nnx)%nat /\ (nnx < length name)%nat) \/
    exists seg, skipn (S npx) pat = seg ++ skipn px pat /\ ~ In ch_star seg /\ (0 < nnx)%nat /\
      (px = S npx + length seg)%nat /\ (nx + 1 = nnx + length seg)%nat)).
Definition reach (pat name : list Z) (px nx npx nnx : nat) : Prop :=
  R (skipn px pat) (skipn nx name) \/ ((0 < nnx)%nat /\ exists k, R (skipn (S npx) pat) (skipn (nnx + k) name)).

Lemma seg_ahead pat name px nx npx nnx seg k :
  skipn (S npx) pat = seg ++ skipn px pat -> ~ In ch_star seg -> (nx + 1 = nnx + length seg)%nat ->
  R (skipn (S npx) pat) (skipn (nnx + k) name) -> R (skipn px pat) (skipn (S nx + k) name).
Proof.
  intros E Hs Hn H. rewrite E in H. apply R_seg in H; [|assumption]. rewrite skipn_skipn_ in H.
  replace (S nx + k)%nat with (nnx + k + length seg)%nat by lia. exact H.
Qed.

Definition weight (pat name : list Z) (px nx : nat) : nat :=
  (((length name + 1) - (nx - nonstars (firstn px pat))) * (length pat + 1) + (length pat - px))%nat.

Lemma nonstars_le l : (nonstars l <= length l)%nat.
Proof. unfold nonstars. induction l; cbn; [lia|]. destruct (negb _); cbn; lia. Qed.
Lemma nonstars_app a b : nonstars (a ++ b) = (nonstars a + nonstars b)%nat.
Proof. unfold nonstars. rewrite filter_app, app_length. reflexivity. Qed.
Lemma nonstars_none l : ~ In ch_star l -> nonstars l = length l.
Proof.
  unfold nonstars. induction l as [|c l IH]; intros H; [reflexivity|]. cbn.
  destruct (Z.eqb_spec c ch_star) as [->|]; [exfalso; apply H; now left|]. cbn. rewrite IH; [reflexivity|]. intros X. apply H. now right.
Qed.
Lemma firstn_add {A} (l : list A) a b : firstn (a + b) l = firstn a l ++ firstn b (skipn a l).
Proof. revert l. induction a; intros l; [reflexivity|]. destruct l; cbn; [now rewrite !firstn_nil|]. now rewrite IHa. Qed.

Lemma glob_loop_ok pat name : forall fuel px nx npx nnx,
  (px <= length pat)%nat -> (nx <= length name)%nat -> (nonstars (firstn px pat) <= nx)%nat ->
  back_ok pat name px nx npx nnx ->
  (weight pat name px nx < fuel)%nat ->
  exists b, glob_loop pat name fuel px nx npx nnx = Ok b /\ (b = true <-> reach pat name px nx npx nnx).
Proof.
  induction fuel as [|fuel IH]; intros px nx npx nnx Hpx Hnx Hns Hb Hw; [lia|].
  cbn [glob_loop]. destruct (nth_error pat px) as [c|] eqn:Ec.
  2:{ exists true. split; [reflexivity|]. split; [|reflexivity]. intros _. left. rewrite nth_error_skipn_none by assumption. exact I. }
  assert (Hpx' : (px < length pat)%nat) by (apply nth_error_Some; congruence).
  pose proof (nth_error_skipn _ _ _ Ec) as Sp.
  pose proof (nonstars_S _ _ _ Ec) as Sn.
  destruct (nth_error name nx) as [x|] eqn:En.
  2:{ exists false. split; [reflexivity|]. split; [discriminate|]. intros [H|(Hpos & k & H)].
      - rewrite (nth_error_skipn_none _ _ En), Sp in H. contradiction.
      - apply nth_error_None in En. destruct Hb as [->|(Hst & [(-> & -> & _ & L)|(seg & E & Hs & _ & L1 & L2)])]; [lia|lia|].
        pose proof (seg_ahead _ name _ _ _ _ _ k E Hs L2 H) as H'. rewrite (skipn_all2 name) in H' by lia. rewrite Sp in H'. contradiction. }
  assert (Hnx' : (nx < length name)%nat) by (apply nth_error_Some; congruence).
  pose proof (nth_error_skipn _ _ _ En) as Sx.
  (* one character consumed *)
  assert (Step : (c =? ch_star) = false -> (R (skipn px pat) (skipn nx name) <-> R (skipn (S px) pat) (skipn (S nx) name)) ->
    exists b, glob_loop pat name fuel (S px) (S nx) npx nnx = Ok b /\ (b = true <-> reach pat name px nx npx nnx)).
  { intros Hc HR. rewrite Hc in Sn. destruct (IH (S px) (S nx) npx nnx) as (b & E & B); try lia.
    - destruct Hb as [->|(Hst & [(-> & -> & _ & L)|(seg & E & Hs & Hp & L1 & L2)])]; [now left| |].
      + rewrite Ec in Hst. injection Hst as ->. rewrite Z.eqb_refl in Hc. discriminate.
      + right. split; [assumption|]. right. exists (seg ++ [c]). split; [rewrite E, Sp, <- app_assoc; reflexivity|].
        split; [|rewrite app_length; cbn [length]; lia].
        intros X. apply in_app_or in X. destruct X as [X|[->|[]]]; [contradiction|]. rewrite Z.eqb_refl in Hc. discriminate.
    - unfold weight in *. rewrite Sn. replace (S nx - (nonstars (firstn px pat) + 1))%nat with (nx - nonstars (firstn px pat))%nat by lia. lia.
    - exists b. split; [exact E|]. rewrite B. unfold reach. tauto. }
  destruct (c =? ch_quest) eqn:Eq.
  { apply Step; [apply Z.eqb_eq in Eq; subst c; reflexivity|]. rewrite Sp, Sx. cbn [R]. rewrite Eq. reflexivity. }
  destruct (c =? ch_star) eqn:Es.
  - apply Z.eqb_eq in Es. subst c. clear Step.
    destruct (IH (S px) nx px (S nx)) as (b & E & B); try lia.
    + right. split; [assumption|]. right. exists []. cbn [app length]. repeat split; auto; lia.
    + unfold weight in *. rewrite Sn. rewrite Nat.add_0_r. lia.
    + exists b. split; [exact E|]. rewrite B.
      assert (Hst : R (skipn px pat) (skipn nx name) <-> exists k, R (skipn (S px) pat) (skipn (nx + k) name)).
      { rewrite Sp, R_star by (rewrite Sx; discriminate). split; intros [k H]; exists k; rewrite skipn_skipn_ in *; exact H. }
      unfold reach. rewrite Hst. split.
      * intros [H|(_ & k & H)]; left; [exists 0%nat; rewrite Nat.add_0_r; exact H|].
        exists (S k). replace (nx + S k)%nat with (S nx + k)%nat by lia. exact H.
      * intros [(k & H)|(Hpos & k & H)].
        -- destruct k as [|k]; [left; rewrite Nat.add_0_r in H; exact H|]. right. split; [lia|]. exists k.
           replace (S nx + k)%nat with (nx + S k)%nat by lia. exact H.
        -- assert (H' : R (skipn px pat) (skipn (S nx + k) name) \/ (px = npx /\ nx = nnx)).
           { destruct Hb as [->|(Hst2 & [(-> & -> & _ & L)|(seg & E2 & Hs & Hp & L1 & L2)])]; [lia|right; auto|].
             left. eapply seg_ahead; eauto. }
           destruct H' as [H'|(-> & ->)].
           ++ rewrite Sp in H'. replace (S nx + k)%nat with (nx + S k)%nat in H' by lia. rewrite <- skipn_skipn_ in H'.
              apply R_star_later in H'. rewrite R_star in H' by (rewrite Sx; discriminate). destruct H' as [j H'].
              rewrite skipn_skipn_ in H'. destruct j as [|j]; [left; rewrite Nat.add_0_r in H'; exact H'|].
              right. split; [lia|]. exists j. replace (S nx + j)%nat with (nx + S j)%nat by lia. exact H'.
           ++ destruct k as [|k]; [left; rewrite Nat.add_0_r in H; exact H|]. right. split; [lia|]. exists k.
              replace (S nnx + k)%nat with (nnx + S k)%nat by lia. exact H.
  - destruct (lower x =? c) eqn:El.
    { apply Step; [reflexivity|]. rewrite Sp, Sx. cbn [R]. rewrite Eq, Es. apply Z.eqb_eq in El. tauto. }
    clear Step. assert (HR : ~ R (skipn px pat) (skipn nx name)).
    { rewrite Sp, Sx. cbn [R]. rewrite Eq, Es. apply Z.eqb_neq in El. tauto. }
    destruct (Nat.ltb 0 nnx && Nat.ltb nnx (length name)) eqn:Eb.
    + apply andb_true_iff in Eb. destruct Eb as [Eb1 Eb2]. apply Nat.ltb_lt in Eb1, Eb2.
      assert (Hst : nth_error pat npx = Some ch_star) by (destruct Hb as [->|(Hst & _)]; [lia|assumption]).
      assert (Hnpx : (npx < length pat)%nat) by (apply nth_error_Some; congruence).
      assert (Hseg : exists seg, skipn (S npx) pat = seg ++ skipn px pat /\ ~ In ch_star seg /\ (px = S npx + length seg)%nat /\ (nx + 1 = nnx + length seg)%nat).
      { destruct Hb as [->|(_ & [(-> & -> & _ & L)|(seg & E2 & Hs & Hp & L1 & L2)])]; [lia| |eauto].
        rewrite Ec in Hst. injection Hst as ->. discriminate. }
      destruct Hseg as (seg & E2 & Hs & L1 & L2).
      assert (Hcount : nonstars (firstn px pat) = (nonstars (firstn npx pat) + length seg)%nat).
      { rewrite L1, firstn_add, E2, nonstars_app, firstn_app, Nat.sub_diag, firstn_O, app_nil_r, firstn_all.
        rewrite (nonstars_S _ _ _ Hst), Z.eqb_refl, (nonstars_none seg Hs). lia. }
      destruct (IH npx nnx npx nnx) as (b & E & B); try lia.
      * right. split; [assumption|]. left. auto.
      * unfold weight in *.
        replace (nnx - nonstars (firstn npx pat))%nat with (nx - nonstars (firstn px pat) + 1)%nat by lia.
        assert (nx - nonstars (firstn px pat) < length name + 1)%nat by lia.
        set (a := (nx - nonstars (firstn px pat))%nat) in *.
        replace (length name + 1 - a)%nat with (S (length name + 1 - (a + 1))) in Hw by lia. cbn [Nat.mul] in Hw. lia.
      * exists b. split; [exact E|]. rewrite B. unfold reach.
        assert (HRs : R (skipn npx pat) (skipn nnx name) <-> exists k, R (skipn (S npx) pat) (skipn (nnx + k) name)).
        { rewrite (nth_error_skipn _ _ _ Hst), R_star.
          - split; intros [k H]; exists k; rewrite skipn_skipn_ in *; exact H.
          - intros X. apply (f_equal (@length Z)) in X. rewrite skipn_length in X. cbn in X. lia. }
        rewrite HRs. tauto.
    + exists false. split; [reflexivity|]. split; [discriminate|]. intros [H|(Hpos & k & H)]; [contradiction|].
      apply andb_false_iff in Eb. destruct Eb as [Eb|Eb]; apply Nat.ltb_ge in Eb; [lia|].
      destruct Hb as [->|(_ & [(-> & -> & _ & L)|(seg & E2 & Hs & Hp & L1 & L2)])]; [lia|lia|].
      pose proof (seg_ahead _ name _ _ _ _ _ k E2 Hs L2 H) as H'. rewrite (skipn_all2 name) in H' by lia. rewrite Sp in H'. contradiction.
Qed.

Theorem glob_R pat name : exists b, glob pat name = Ok b /\ (b = true <-> R pat name).
Proof.
  destruct (glob_loop_ok pat name (glob_fuel pat name) 0 0 0 0) as (b & E & B).
  - lia.
  - lia.
  - cbn. lia.
  - now left.
  - unfold weight, glob_fuel. cbn [firstn nonstars filter length]. lia.
  - exists b. split; [exact E|]. rewrite B. unfold reach. rewrite !skipn_O. split; [intros [H|[H _]]; [exact H|lia]|auto].
Qed.

(** ** the loop and the specification *)
Lemma lower_same c x : ~ (65 <= c <= 90) -> (lower x = c <-> same_letter c x).
Proof.
  intros Hc. unfold lower, same_letter. destruct ((65 <=? x) && (x <=? 90)) eqn:E.
  - apply andb_true_iff in E. lia.
  - apply andb_false_iff in E. lia.
Qed.
Lemma R_written p : forall n, lowered p -> R p n -> exists t rest, n = t ++ rest /\ written p t.
Proof.
  induction p as [|c p IH]; intros n Hl H; [exists [], n; split; [reflexivity|constructor]|].
  assert (Hl' : lowered p) by (intros y Hy; apply Hl; now right).
  destruct n as [|x n]; [contradiction|]. cbn [R] in H.
  destruct (Z.eqb_spec c ch_quest) as [->|Hq].
  - destruct (IH n Hl' H) as (t & rest & -> & W). exists (x :: t), rest. split; [reflexivity|]. now constructor.
  - destruct (Z.eqb_spec c ch_star) as [->|Hs].
    + destruct H as [k H]. destruct (IH _ Hl' H) as (t & rest & E & W). exists (firstn k (x :: n) ++ t), rest.
      split; [|now constructor]. rewrite <- app_assoc, <- E. symmetry. apply firstn_skipn.
    + destruct H as [L H]. destruct (IH n Hl' H) as (t & rest & -> & W). exists (x :: t), rest. split; [reflexivity|].
      constructor; auto. apply lower_same; auto. apply Hl. now left.
Qed.
Lemma written_nil_stars p : written p [] -> forall c, In c p -> c = ch_star.
Proof.
  remember [] as t. induction 1 as [|c x p t|x p t|s p t W IH]; try discriminate; [contradiction|].
  apply app_eq_nil in Heqt. destruct Heqt as [-> ->]. intros c [<-|Hc]; [reflexivity|]. now apply IH.
Qed.
Lemma written_R p t : written p t -> forall rest, lowered p -> last p 0 <> ch_star -> R p (t ++ rest).
Proof.
  induction 1 as [|c x p t H1 H2 Hx W IH|x p t W IH|s p t W IH]; intros rest Hl Hlast; [exact I| | |].
  - assert (Hl' : lowered p) by (intros y Hy; apply Hl; now right).
    cbn [app R]. replace (c =? ch_quest) with false by (symmetry; now apply Z.eqb_neq). replace (c =? ch_star) with false by (symmetry; now apply Z.eqb_neq).
    split; [apply lower_same; auto; apply Hl; now left|]. destruct p; [exact I|]. apply IH; auto.
  - assert (Hl' : lowered p) by (intros y Hy; apply Hl; now right).
    cbn [app R]. rewrite Z.eqb_refl. destruct p; [exact I|]. apply IH; auto.
  - assert (Hl' : lowered p) by (intros y Hy; apply Hl; now right).
    destruct p as [|c p]; [now contradiction Hlast|].
    specialize (IH rest Hl' Hlast).
    apply R_star.
    + intros X. apply app_eq_nil in X. destruct X as [X ->]. apply app_eq_nil in X. destruct X as [-> ->].
      cbn in IH. contradiction.
    + exists (length s). rewrite <- app_assoc, skipn_app, skipn_all, Nat.sub_diag, skipn_O. exact IH.
Qed.
Lemma R_trailing p : forall n, R (p ++ [ch_star]) n <-> R (p ++ [ch_quest]) n.
Proof.
  induction p as [|c p IH]; intros n.
  - destruct n as [|x n]; cbn; [reflexivity|]. split; auto. intros _. exists 0%nat. exact I.
  - cbn [app]. destruct n as [|x n]; [reflexivity|]. cbn [R]. destruct (c =? ch_quest); [apply IH|].
    destruct (c =? ch_star); [|rewrite IH; reflexivity]. split; intros [k H]; exists k; now apply IH.
Qed.

(** ** specs *)
Lemma index_byte_spec d s : match index_byte d s with
  | None => ~ In d s
  | Some i => ~ In d (firstn i s) /\ s = firstn i s ++ d :: skipn (S i) s /\ (i < length s)%nat
  end.
Proof.
  induction s as [|c s IH]; cbn [index_byte]; [auto|]. destruct (Z.eqb_spec c d) as [->|H].
  - cbn. repeat split; auto. lia.
  - destruct (index_byte d s) as [i|]; cbn [option_map].
    + destruct IH as (A & B & C). cbn [firstn skipn app length] in *. split; [intros [X|X]; auto|]. split; [f_equal; exact B|lia].
    + intros [X|X]; auto.
Qed.
Lemma split_on_eq d s : forall cur, split_on d cur s =
  match index_byte d s with None => [rev cur ++ s] | Some i => (rev cur ++ firstn i s) :: split_on d [] (skipn (S i) s) end.
Proof.
  induction s as [|c s IH]; intros cur; cbn [split_on index_byte]; [now rewrite app_nil_r|].
  destruct (c =? d); [cbn; now rewrite app_nil_r|]. rewrite IH. destruct (index_byte d s) as [i|]; cbn [option_map].
  - cbn [firstn skipn rev]. rewrite <- app_assoc. reflexivity.
  - cbn [rev]. rewrite <- app_assoc. reflexivity.
Qed.
Definition comps (m : list Z) : list (list Z) := split_on ch_dot [] m.
Lemma comps_ne m : comps m <> [].
Proof. unfold comps. rewrite split_on_eq. destruct (index_byte ch_dot m); discriminate. Qed.
Lemma joined_cons c l : l <> [] -> joined (c :: l) = c ++ 46 :: joined l.
Proof. destruct l; [contradiction|reflexivity]. Qed.
Lemma comps_ok : forall n m, (length m <= n)%nat -> components m (comps m).
Proof.
  induction n as [|n IH]; intros m Hn.
  - destruct m; [|cbn in Hn; lia]. split; [discriminate|]. split; [reflexivity|]. intros c [<-|[]] X. destruct X.
  - unfold comps. rewrite split_on_eq. pose proof (index_byte_spec ch_dot m) as S. destruct (index_byte ch_dot m) as [i|].
    + destruct S as (A & B & C). cbn [rev app]. destruct (IH (skipn (S i) m)) as (X & Y & Z); [rewrite skipn_length; lia|].
      split; [discriminate|]. split.
      * rewrite joined_cons by exact X. fold (comps (skipn (S i) m)). rewrite Y. symmetry. exact B.
      * intros c [<-|Hc]; [exact A|]. apply Z. exact Hc.
    + split; [discriminate|]. split; [reflexivity|]. intros c [<-|[]]. exact S.
Qed.
Lemma app_dot_inj a b x y : ~ In 46 a -> ~ In 46 b -> a ++ 46 :: x = b ++ 46 :: y -> a = b /\ x = y.
Proof.
  revert b. induction a as [|c a IH]; intros [|d b] Ha Hb E; cbn in E.
  - injection E as ->. auto.
  - injection E as <- _. exfalso. apply Hb. now left.
  - injection E as -> _. exfalso. apply Ha. now left.
  - injection E as -> E. destruct (IH b) as [-> ->]; auto; intros X; [apply Ha|apply Hb]; now right.
Qed.
Lemma components_unique l : forall m l', components m l -> components m l' -> l = l'.
Proof.
  induction l as [|c l IH]; intros m l' (N & J & D) (N' & J' & D'); [contradiction|].
  destruct l' as [|c' l']; [contradiction|].
  assert (Hc : ~ In 46 c) by (apply D; now left). assert (Hc' : ~ In 46 c') by (apply D'; now left).
  assert (Hno : forall a b x, ~ In 46 a -> a = b ++ 46 :: x -> False).
  { intros a b x Ha ->. apply Ha. apply in_or_app. right. now left. }
  destruct l as [|d l]; destruct l' as [|d' l'].
  - cbn in J, J'. congruence.
  - rewrite joined_cons in J' by discriminate. cbn [joined] in J. exfalso. rewrite <- J' in J. eapply Hno; [exact Hc|exact J].
  - rewrite joined_cons in J by discriminate. cbn [joined] in J'. exfalso. rewrite <- J in J'. eapply Hno; [exact Hc'|exact J'].
  - rewrite joined_cons in J, J' by discriminate. rewrite <- J' in J.
    apply app_dot_inj in J; [|assumption|assumption]. destruct J as [-> J].
    f_equal. apply (IH (joined (d' :: l'))).
    + split; [discriminate|]. split; [exact J|]. intros x Hx. apply D. now right.
    + split; [discriminate|]. split; [reflexivity|]. intros x Hx. apply D'. now right.
Qed.

(** the components, without a last empty one *)
Definition fcomps (m : list Z) : list (list Z) := match last (comps m) [] with [] => removelast (comps m) | _ => comps m end.
Lemma fcomps_nil : fcomps [] = [].
Proof. reflexivity. Qed.
Lemma fcomps_cons m : m <> [] -> fcomps m = fst (split_metric m) :: fcomps (snd (split_metric m)).
Proof.
  intros H. unfold fcomps at 1, comps, split_metric. rewrite split_on_eq. destruct (index_byte ch_dot m) as [i|]; cbn [rev app fst snd].
  - pose proof (comps_ne (skipn (S i) m)) as N. fold (comps (skipn (S i) m)). unfold fcomps.
    destruct (comps (skipn (S i) m)) as [|c l]; [contradiction|]. 
    replace (last (firstn i m :: c :: l) []) with (last (c :: l) []) by reflexivity.
    replace (removelast (firstn i m :: c :: l)) with (firstn i m :: removelast (c :: l)) by reflexivity.
    destruct (last (c :: l) []); reflexivity.
  - cbn [last]. destruct m; [contradiction|]. reflexivity.
Qed.
Lemma split_metric_shorter m : m <> [] -> (length (snd (split_metric m)) < length m)%nat.
Proof.
  intros H. unfold split_metric. destruct (index_byte ch_dot m); cbn [snd]; [rewrite skipn_length|]; destruct m; try contradiction; cbn; lia.
Qed.
Lemma fcomps_comps m : comps m = fcomps m \/ comps m = fcomps m ++ [[]].
Proof.
  unfold fcomps. destruct (last (comps m) []) eqn:E; [|now left]. right.
  rewrite (app_removelast_last [] (comps_ne m)) at 1. rewrite E. reflexivity.
Qed.

Definition gok (g c : list Z) : Prop := glob g c = Ok true.
Lemma glob_total g c : exists b, glob g c = Ok b.
Proof. destruct (glob_R g c) as (b & E & _). eauto. Qed.
Lemma glob_empty g : g <> [] -> glob g [] = Ok false.
Proof.
  intros H. destruct (glob_R g []) as (b & E & B). rewrite E. f_equal. destruct b; [|reflexivity].
  exfalso. apply (R_nil g H). now apply B.
Qed.

Lemma globs_match_ok gs : (forall g, In g gs -> g <> []) -> forall part tail,
  exists b, globs_match gs part tail = Ok b /\
  (b = true <-> exists run post, part :: fcomps tail = run ++ post /\ Forall2 gok gs run).
Proof.
  induction gs as [|g gs IH]; intros Hg part tail; cbn [globs_match].
  - exists true. split; [reflexivity|]. split; [|reflexivity]. intros _. exists [], (part :: fcomps tail). split; [reflexivity|constructor].
  - destruct (glob_total g part) as [b Eb]. rewrite Eb. cbn [bind]. destruct b.
    + destruct (split_metric tail) as [p t] eqn:Es.
      destruct (IH (fun g Hin => Hg g (or_intror Hin)) p t) as (b & E & B). exists b. split; [exact E|]. rewrite B. clear B E.
      destruct tail as [|x tail].
      * cbn in Es. injection Es as <- <-. rewrite fcomps_nil. split.
        -- intros (run & post & L & F). destruct gs as [|g' gs].
           ++ inversion F; subst. exists [part], []. split; [reflexivity|]. constructor; [exact Eb|constructor].
           ++ inversion F as [|? c ? run' G F']; subst. cbn in L. injection L as <- L.
              unfold gok in G. rewrite glob_empty in G; [discriminate|]. apply Hg. right. now left.
        -- intros (run & post & L & F). inversion F as [|? c ? run' G F']; subst. injection L as <- L.
           destruct run'; [|discriminate]. inversion F'; subst. exists [], [[]]. split; [reflexivity|constructor].
      * assert (Ef : fcomps (x :: tail) = p :: fcomps t) by (rewrite fcomps_cons, Es by discriminate; reflexivity).
        rewrite Ef. split.
        -- intros (run & post & L & F). exists (part :: run), post. split; [cbn; now rewrite L|]. constructor; [exact Eb|exact F].
        -- intros (run & post & L & F). inversion F as [|? c ? run' G F']; subst. injection L as <- L. exists run', post. auto.
    + exists false. split; [reflexivity|]. split; [discriminate|]. intros (run & post & L & F).
      inversion F as [|? c ? run' G F']; subst. injection L as <- L. unfold gok in G. congruence.
Qed.
Lemma spec_loop_ok gs : gs <> [] -> (forall g, In g gs -> g <> []) -> forall fuel m, (length m < fuel)%nat ->
  exists b, spec_loop fuel gs m = Ok b /\
  (b = true <-> exists pre run post, fcomps m = pre ++ run ++ post /\ Forall2 gok gs run).
Proof.
  intros Hne Hg. induction fuel as [|fuel IH]; intros m Hm; [lia|]. cbn [spec_loop].
  destruct m as [|x m'].
  - exists false. split; [reflexivity|]. split; [discriminate|]. rewrite fcomps_nil. intros (pre & run & post & E & F).
    symmetry in E. apply app_eq_nil in E. destruct E as [_ E]. apply app_eq_nil in E. destruct E as [-> _]. inversion F; subst. contradiction.
  - set (m := x :: m') in *. assert (Hm0 : m <> []) by discriminate.
    pose proof (split_metric_shorter m Hm0) as Hs. pose proof (fcomps_cons m Hm0) as Hf.
    destruct (split_metric m) as [part rest]. cbn [fst snd] in *.
    destruct (globs_match_ok gs Hg part rest) as (b & -> & B). cbn [bind]. rewrite Hf. destruct b.
    + exists true. split; [reflexivity|]. split; [|reflexivity]. intros _. destruct (proj1 B eq_refl) as (run & post & E & F).
      exists [], run, post. auto.
    + destruct (IH rest ltac:(lia)) as (b & E & B2). exists b. split; [exact E|]. rewrite B2. split.
      * intros (pre & run & post & -> & F). exists (part :: pre), run, post. auto.
      * intros (pre & run & post & L & F). destruct pre as [|p pre].
        -- exfalso. enough (false = true) by discriminate. apply B. exists run, post. auto.
        -- injection L as <- L. exists pre, run, post. auto.
Qed.
Lemma forall2_ne gs run : (forall g, In g gs -> g <> []) -> Forall2 gok gs run -> ~ In [] run.
Proof.
  intros Hg F. induction F as [|g c gs run G F IH]; [auto|]. intros [->|X].
  - unfold gok in G. rewrite glob_empty in G; [discriminate|]. apply Hg. now left.
  - apply IH; [|assumption]. intros g' Hin. apply Hg. now right.
Qed.
Theorem spec_match_ok gs m l : gs <> [] -> (forall g, In g gs -> g <> []) -> components m l ->
  exists b, spec_match gs m = Ok b /\
  (b = true <-> exists pre run post, l = pre ++ run ++ post /\ Forall2 gok gs run).
Proof.
  intros Hne Hg Hl. destruct (spec_loop_ok gs Hne Hg (S (length m)) m ltac:(lia)) as (b & E & B).
  exists b. split; [exact E|]. rewrite B. rewrite (components_unique _ _ _ Hl (comps_ok _ m (le_n _))).
  destruct (fcomps_comps m) as [-> | ->]; [reflexivity|]. split.
  - intros (pre & run & post & -> & F). exists pre, run, (post ++ [[]]). rewrite <- !app_assoc. auto.
  - intros (pre & run & post & L & F). pose proof (forall2_ne _ _ Hg F) as Hn.
    assert (Hrun : run <> []) by (intros ->; inversion F; subst; contradiction).
    destruct post as [|p post].
    + exfalso. apply Hn. rewrite app_nil_r in L. destruct (exists_last Hrun) as (r & y & ->). rewrite app_assoc in L.
      apply app_inj_tail in L. destruct L as [_ <-]. apply in_or_app. right. now left.
    + destruct (exists_last (l := p :: post)) as (r & y & Er); [discriminate|]. rewrite Er, !app_assoc in L.
      apply app_inj_tail in L. destruct L as [L _]. exists pre, run, r. rewrite L, <- app_assoc. auto.
Qed.
Lemma new_spec_ne s : new_spec s <> [] /\ forall g, In g (new_spec s) -> g <> [].
Proof.
  unfold new_spec. fold (comps s). split.
  - pose proof (comps_ne s). destruct (comps s); [contradiction|discriminate].
  - intros g Hg. apply in_map_iff in Hg. destruct Hg as (p & <- & _). discriminate.
Qed.

(** ** plain query parts *)
Definition plain (q : list Z) : Prop := ~ In 42 q /\ ~ In 63 q.
Lemma lower_lowered q : lowered (map lower q).
Proof.
  intros c Hc. apply in_map_iff in Hc. destruct Hc as (x & <- & _). unfold lower. destruct ((65 <=? x) && (x <=? 90)) eqn:E; [apply andb_true_iff in E|apply andb_false_iff in E]; lia.
Qed.
Lemma lower_lower_same a b : lower a = lower b <-> same_letter a b.
Proof.
  unfold lower, same_letter. destruct ((65 <=? a) && (a <=? 90)) eqn:A; [apply andb_true_iff in A|apply andb_false_iff in A];
  destruct ((65 <=? b) && (b <=? 90)) eqn:B; [apply andb_true_iff in B|apply andb_false_iff in B|apply andb_true_iff in B|apply andb_false_iff in B]; lia.
Qed.
Lemma lower_special c : lower c = 42 \/ lower c = 63 -> c = 42 \/ c = 63.
Proof. unfold lower. destruct ((65 <=? c) && (c <=? 90)) eqn:E; [apply andb_true_iff in E|]; lia. Qed.
Lemma R_plain q : plain q -> forall n, R (map lower q) n <-> exists t rest, n = t ++ rest /\ Forall2 same_letter q t.
Proof.
  induction q as [|c q IH]; intros [P1 P2] n.
  - cbn. split; [|auto]. intros _. exists [], n. split; [reflexivity|constructor].
  - assert (Hp : plain q) by (split; intros X; [apply P1|apply P2]; now right).
    cbn [map R]. destruct n as [|x n].
    + split; [contradiction|]. intros (t & rest & E & F). inversion F; subst. discriminate.
    + destruct (Z.eqb_spec (lower c) ch_quest) as [X|X].
      { exfalso. destruct (lower_special c (or_intror X)) as [->| ->]; [apply P1|apply P2]; now left. }
      destruct (Z.eqb_spec (lower c) ch_star) as [Y|Y].
      { exfalso. destruct (lower_special c (or_introl Y)) as [->| ->]; [apply P1|apply P2]; now left. }
      rewrite (IH Hp). split.
      * intros [L (t & rest & -> & F)]. exists (x :: t), rest. split; [reflexivity|]. constructor; [|exact F]. apply lower_lower_same. congruence.
      * intros (t & rest & E & F). inversion F as [|? y ? t' S F']; subst. injection E as <- ->. split; [symmetry; now apply lower_lower_same|]. eauto.
Qed.
Lemma glob_plain q c : plain q -> (gok (globify q) c <-> c <> [] /\ contains c q).
Proof.
  intros Hq. unfold gok. destruct (glob_R (globify q) c) as (b & E & B). rewrite E.
  transitivity (R (globify q) c); [rewrite <- B; split; [now intros [= ->]|now intros ->]|].
  unfold globify. destruct c as [|x c].
  - cbn. split; [contradiction|]. now intros [H _].
  - rewrite R_star by discriminate. split.
    + intros [k H]. apply (R_plain q Hq) in H. destruct H as (t & rest & H & F). split; [discriminate|].
      exists (firstn k (x :: c)), t, rest. rewrite <- H. split; [symmetry; apply firstn_skipn|exact F].
    + intros [_ (a & t & z & -> & F)]. exists (length a). rewrite skipn_app, skipn_all, Nat.sub_diag, skipn_O. cbn [app].
      apply (R_plain q Hq). exists t, z. auto.
Qed.

(** ** search *)
Definition smatch (sp : list (list (list Z))) (n : list Z) : bool :=
  forallb (fun s => match spec_match s n with Ok true => true | _ => false end) sp.
Definition good_specs (sp : list (list (list Z))) : Prop := forall s, In s sp -> s <> [] /\ forall g, In g s -> g <> [].
Lemma spec_total gs m : gs <> [] -> (forall g, In g gs -> g <> []) -> exists b, spec_match gs m = Ok b.
Proof. intros A B. destruct (spec_match_ok gs m _ A B (comps_ok _ m (le_n _))) as (b & E & _). eauto. Qed.
Lemma specs_match_ok sp n : good_specs sp -> specs_match sp n = Ok (smatch sp n).
Proof.
  induction sp as [|s sp IH]; intros Hg; [reflexivity|]. cbn [specs_match smatch forallb].
  destruct (Hg s (or_introl eq_refl)) as [A B]. destruct (spec_total s n A B) as [b ->]. cbn [bind].
  destruct b; [|reflexivity]. cbn [andb]. apply IH. intros s' Hs. apply Hg. now right.
Qed.
Lemma good_new q : good_specs (map new_spec q).
Proof. intros s Hs. apply in_map_iff in Hs. destruct Hs as (p & <- & _). apply new_spec_ne. Qed.
Lemma search_run_ok names : forall s, good_specs (se_specs s) -> len (se_matched s) <= se_cap s ->
  exists go s', search_run names s = Ok (go, s') /\ se_specs s' = se_specs s /\ se_cap s' = se_cap s /\
   se_matched s' = se_matched s ++ firstn (Z.to_nat (se_cap s) - length (se_matched s)) (filter (smatch (se_specs s)) names).
Proof.
  induction names as [|n names IH]; intros s Hg Hc; cbn [search_run].
  - exists true, s. cbn [filter]. rewrite firstn_nil, app_nil_r. auto.
  - unfold search_add. unfold len in *. destruct (Z.eqb_spec (Z.of_nat (length (se_matched s))) (se_cap s)) as [E|E]; cbn [bind].
    + exists false, s. replace (Z.to_nat (se_cap s) - length (se_matched s))%nat with 0%nat by lia. rewrite firstn_O, app_nil_r. auto.
    + rewrite specs_match_ok by assumption. cbn [bind filter]. destruct (smatch (se_specs s) n) eqn:M.
      * destruct (IH (Search (se_specs s) (se_cap s) (se_matched s ++ [n]))) as (go & s' & E1 & E2 & E3 & E4); cbn [se_specs se_cap se_matched] in *; auto.
        { rewrite app_length. cbn [length]. lia. }
        exists go, s'. split; [exact E1|]. split; [assumption|]. split; [assumption|]. rewrite E4, app_length, <- app_assoc. cbn [length app].
        replace (Z.to_nat (se_cap s) - length (se_matched s))%nat with (S (Z.to_nat (se_cap s) - (length (se_matched s) + 1))) by lia. reflexivity.
      * apply IH; assumption.
Qed.
(** all names added, whatever Add answers *)
Fixpoint search_adds (names : list (list Z)) (s : search) : res search :=
  match names with
  | [] => Ok s
  | n :: names => do r <- search_add n s; search_adds names (snd r)
  end.
Lemma search_adds_ok names : forall s, good_specs (se_specs s) -> len (se_matched s) <= se_cap s ->
  exists s', search_adds names s = Ok s' /\ se_specs s' = se_specs s /\ se_cap s' = se_cap s /\
   se_matched s' = se_matched s ++ firstn (Z.to_nat (se_cap s) - length (se_matched s)) (filter (smatch (se_specs s)) names).
Proof.
  induction names as [|n names IH]; intros s Hg Hc; cbn [search_adds].
  - exists s. cbn [filter]. rewrite firstn_nil, app_nil_r. auto.
  - unfold search_add. unfold len in *. destruct (Z.eqb_spec (Z.of_nat (length (se_matched s))) (se_cap s)) as [E|E]; cbn [bind snd].
    + destruct (IH s) as (s' & E1 & E2 & E3 & E4); auto. exists s'. split; [exact E1|]. split; [assumption|]. split; [assumption|].
      rewrite E4. replace (Z.to_nat (se_cap s) - length (se_matched s))%nat with 0%nat by lia. reflexivity.
    + rewrite specs_match_ok by assumption. cbn [bind filter]. destruct (smatch (se_specs s) n) eqn:M; cbn [snd].
      * destruct (IH (Search (se_specs s) (se_cap s) (se_matched s ++ [n]))) as (s' & E1 & E2 & E3 & E4); cbn [se_specs se_cap se_matched] in *; auto.
        { rewrite app_length. cbn [length]. lia. }
        exists s'. split; [exact E1|]. split; [assumption|]. split; [assumption|]. rewrite E4, app_length, <- app_assoc. cbn [length app].
        replace (Z.to_nat (se_cap s) - length (se_matched s))%nat with (S (Z.to_nat (se_cap s) - (length (se_matched s) + 1))) by lia. reflexivity.
      * apply IH; assumption.
Qed.

(** ** words *)
Definition word (w : list Z) : Prop := w <> [] /\ Forall (fun c => 33 <= c <= 126) w.
Lemma space_len_char c s : 33 <= c <= 126 -> space_len (c :: s) = 0%nat.
Proof.
  intros H. unfold space_len. replace ((9 <=? c) && (c <=? 13) || (c =? 32)) with false by (symmetry; lia).
  replace (c =? 0xC2) with false by lia. replace (c =? 0xE1) with false by lia. replace (c =? 0xE2) with false by lia. replace (c =? 0xE3) with false by lia.
  cbn [andb orb]. destruct s as [|d [|e s]]; reflexivity.
Qed.
Lemma fields_word w : Forall (fun c => 33 <= c <= 126) w -> forall cur rest, fields_ 0 cur (w ++ rest) = fields_ 0 (rev w ++ cur) rest.
Proof.
  induction 1 as [|c w Hc Hw IH]; intros cur rest; [reflexivity|].
  cbn [app]. cbn [fields_]. rewrite space_len_char by exact Hc. rewrite IH. cbn [rev]. rewrite <- app_assoc. reflexivity.
Qed.
Fixpoint spaced (ws : list (list Z)) : list Z :=
  match ws with
  | [] => []
  | [w] => w
  | w :: ws => w ++ 32 :: spaced ws
  end.
Lemma fields_words ws : Forall word ws -> fields (spaced ws) = ws.
Proof.
  unfold fields. induction ws as [|w ws IH]; intros H; [reflexivity|].
  apply Forall_cons_iff in H. destruct H as [[Hne Hw] H].
  assert (Hr : rev w <> []) by (intros X; apply Hne; rewrite <- (rev_involutive w), X; reflexivity).
  destruct ws as [|v ws].
  - cbn [spaced]. rewrite <- (app_nil_r w) at 1. rewrite fields_word by assumption. rewrite app_nil_r. cbn [fields_].
    destruct (rev w) eqn:E; [contradiction|]. rewrite <- E, rev_involutive. reflexivity.
  - change (spaced (w :: v :: ws)) with (w ++ 32 :: spaced (v :: ws)). rewrite fields_word by assumption. rewrite app_nil_r.
    cbn [fields_]. change (space_len (32 :: spaced (v :: ws))) with 1%nat. cbn match. rewrite IH by assumption.
    destruct (rev w) eqn:E; [contradiction|]. rewrite <- E, rev_involutive. reflexivity.
Qed.

(** ** strings.Fields *)
Lemma space_cases s : space s ->
  (exists c, s = [c] /\ (9 <= c <= 13 \/ c = 32)) \/
  (exists d, s = [0xC2; d] /\ (d = 0x85 \/ d = 0xA0)) \/
  (exists e, s = [0xE2; 0x80; e] /\ (0x80 <= e <= 0x8A \/ e = 0xA8 \/ e = 0xA9 \/ e = 0xAF)) \/
  s = [0xE1; 0x9A; 0x80] \/ s = [0xE2; 0x81; 0x9F] \/ s = [0xE3; 0x80; 0x80].
Proof.
  intros (cp & W & ->). unfold white in W.
  destruct W as [W|[W|[W|[W|[W|[W|[W|[W|[W|[W|W]]]]]]]]]].
  5, 10, 11: subst cp; vm_compute; auto 10.
  - left. exists cp. unfold utf8. replace (cp <? 0x80) with true by lia. auto.
  - left. exists 32. subst cp. split; [reflexivity|]. auto.
  - right. left. exists 0x85. subst cp. split; [reflexivity|auto].
  - right. left. exists 0xA0. subst cp. split; [reflexivity|auto].
  - right. right. left. exists (0x80 + cp mod 64). unfold utf8. replace (cp <? 0x80) with false by lia. replace (cp <? 0x800) with false by lia.
    replace (cp / 4096) with 2 by (apply Z.div_unique with (cp - 8192); lia).
    replace (cp / 64) with 128 by (apply Z.div_unique with (cp - 8192); lia).
    replace (cp mod 64) with (cp - 8192) by (apply Z.mod_unique with 128; lia). split; [reflexivity|]. lia.
  - right. right. left. exists 0xA8. subst cp. split; [reflexivity|lia].
  - right. right. left. exists 0xA9. subst cp. split; [reflexivity|lia].
  - right. right. left. exists 0xAF. subst cp. split; [reflexivity|lia].
Qed.
Lemma space_intro2 d : d = 0x85 \/ d = 0xA0 -> space [0xC2; d].
Proof. intros [-> | ->]; [exists 0x85|exists 0xA0]; (split; [unfold white; lia|reflexivity]). Qed.
Lemma space_intro3 e : 0x80 <= e <= 0x8A \/ e = 0xA8 \/ e = 0xA9 \/ e = 0xAF -> space [0xE2; 0x80; e].
Proof.
  intros H. exists (0x2000 + (e - 0x80)). split; [unfold white; lia|]. unfold utf8.
  replace (_ <? 0x80) with false by lia. replace (_ <? 0x800) with false by lia.
  replace ((0x2000 + (e - 0x80)) / 4096) with 2 by (apply Z.div_unique with (e - 0x80); lia).
  replace ((0x2000 + (e - 0x80)) / 64) with 128 by (apply Z.div_unique with (e - 0x80); lia).
  replace ((0x2000 + (e - 0x80)) mod 64) with (e - 0x80) by (apply Z.mod_unique with 128; lia).
  change (128 mod 64) with 0. f_equal. f_equal. f_equal. lia.
Qed.
Lemma space_len_space s r : space s -> space_len (s ++ r) = length s.
Proof.
  intros H. apply space_cases in H.
  destruct H as [(c & -> & H)|[(d & -> & H)|[(e & -> & H)|[->|[->| ->]]]]]; try reflexivity; cbn [app length space_len].
  - replace ((9 <=? c) && (c <=? 13) || (c =? 32)) with true by lia. reflexivity.
  - destruct H as [-> | ->]; reflexivity.
  - replace ((0x80 <=? e) && (e <=? 0x8A) || (e =? 0xA8) || (e =? 0xA9) || (e =? 0xAF)) with true by lia. reflexivity.
Qed.
Lemma space_len_inv q k : space_len q = S k -> exists s r, space s /\ q = s ++ r /\ length s = S k.
Proof.
  destruct q as [|c q]; cbn [space_len]; [discriminate|].
  destruct ((9 <=? c) && (c <=? 13) || (c =? 32)) eqn:E1.
  { intros [= <-]. exists [c], q. split; [|auto]. exists c. split; [unfold white; lia|]. unfold utf8. replace (c <? 0x80) with true by lia. reflexivity. }
  destruct q as [|d q]; [discriminate|].
  destruct ((c =? 0xC2) && ((d =? 0x85) || (d =? 0xA0))) eqn:E2.
  { intros [= <-]. exists [c; d], q. split; [|auto]. assert (c = 0xC2) as -> by lia. apply space_intro2. lia. }
  destruct q as [|e q]; [discriminate|].
  match goal with |- context [if ?b then _ else _] => destruct b eqn:E3 end; [|discriminate].
  intros [= <-]. exists [c; d; e], q. split; [|auto].
  apply orb_true_iff in E3. destruct E3 as [E3|E3]; [apply orb_true_iff in E3; destruct E3 as [E3|E3]; [apply orb_true_iff in E3; destruct E3 as [E3|E3]|]|].
  - exists 0x1680. split; [unfold white; lia|]. assert (c = 0xE1) as -> by lia. assert (d = 0x9A) as -> by lia. assert (e = 0x80) as -> by lia. reflexivity.
  - assert (c = 0xE2) as -> by lia. assert (d = 0x80) as -> by lia. apply space_intro3. lia.
  - exists 0x205F. split; [unfold white; lia|]. assert (c = 0xE2) as -> by lia. assert (d = 0x81) as -> by lia. assert (e = 0x9F) as -> by lia. reflexivity.
  - exists 0x3000. split; [unfold white; lia|]. assert (c = 0xE3) as -> by lia. assert (d = 0x80) as -> by lia. assert (e = 0x80) as -> by lia. reflexivity.
Qed.
(** only the first byte of a space is not a continuation byte *)
Lemma space_shape s : space s -> exists c r, s = c :: r /\ (c < 0x80 \/ 0xC0 <= c) /\ Forall (fun x => 0x80 <= x < 0xC0) r.
Proof.
  intros H. apply space_cases in H.
  destruct H as [(c & -> & H)|[(d & -> & H)|[(e & -> & H)|[->|[->| ->]]]]]; eexists; eexists; (split; [reflexivity|]); (split; [lia|]);
    repeat (apply Forall_cons; [lia|]); apply Forall_nil.
Qed.
Lemma fields_skip s : forall q, fields_ (length s) [] (s ++ q) = fields_ 0 [] q.
Proof. induction s as [|c s IH]; intros q; [reflexivity|]. cbn [app length fields_]. apply IH. Qed.
Lemma fields_space cur s q : space s -> fields_ 0 cur (s ++ q) = match cur with [] => [] | _ => [rev cur] end ++ fields_ 0 [] q.
Proof.
  intros H. pose proof (space_len_space s q H) as L. destruct (space_shape s H) as (c & r & -> & _ & _). cbn [app fields_] in *.
  rewrite L. cbn [length]. f_equal. apply fields_skip.
Qed.
(** [rest] is empty or starts with a space *)
Definition bounded (rest : list Z) : Prop := rest = [] \/ exists s q, space s /\ rest = s ++ q.
Lemma free_len w rest : w <> [] -> free w -> bounded rest -> space_len (w ++ rest) = O.
Proof.
  intros Hw Hf Hb. destruct (space_len (w ++ rest)) as [|k] eqn:E; [reflexivity|]. exfalso.
  apply space_len_inv in E. destruct E as (s & r & Hs & E & _). destruct (app_eq_app _ _ _ _ E) as (l & [[E1 E2]|[E1 E2]]).
  - apply (Hf [] s l Hs). exact E1.
  - destruct Hb as [Hb|(s2 & q & Hs2 & Hb)].
    + rewrite Hb in E2. symmetry in E2. apply app_eq_nil in E2. destruct E2 as [-> ->]. rewrite app_nil_r in E1. apply (Hf [] s [] Hs). rewrite app_nil_r. auto.
    + destruct l as [|x l]; [rewrite app_nil_r in E1; apply (Hf [] s [] Hs); rewrite app_nil_r; auto|].
      destruct (space_shape s2 Hs2) as (c & r2 & -> & Hc & _). rewrite Hb in E2. cbn [app] in E2. injection E2 as <- _.
      destruct (space_shape s Hs) as (c1 & r1 & -> & _ & Hall). destruct w as [|y w]; [contradiction|]. cbn [app] in E1. injection E1 as -> ->.
      apply Forall_app in Hall. destruct Hall as [_ Hall]. inversion Hall; subst. lia.
Qed.
Lemma free_tail c w : free (c :: w) -> free w.
Proof. intros Hf a s b Hs E. apply (Hf (c :: a) s b Hs). cbn. now rewrite E. Qed.
Lemma fields_free w : forall cur rest, free w -> bounded rest -> fields_ 0 cur (w ++ rest) = fields_ 0 (rev w ++ cur) rest.
Proof.
  induction w as [|c w IH]; intros cur rest Hf Hb; [reflexivity|].
  pose proof (free_len (c :: w) rest ltac:(discriminate) Hf Hb) as L. cbn [app] in *. cbn [fields_]. rewrite L.
  rewrite IH by (eauto using free_tail). cbn [rev]. rewrite <- app_assoc. reflexivity.
Qed.
Lemma worded_fields q ws : worded q ws -> fields q = ws.
Proof.
  unfold fields. induction 1 as [|s q ws Hs H IH|w Hw Hf|w s q ws Hw Hf Hs H IH]; [reflexivity|..].
  - rewrite fields_space by assumption. exact IH.
  - rewrite <- (app_nil_r w) at 1. rewrite fields_free by (try left; auto). rewrite app_nil_r. cbn [fields_].
    destruct (rev w) eqn:E; [apply (f_equal (@rev Z)) in E; rewrite rev_involutive in E; contradiction|]. rewrite <- E, rev_involutive. reflexivity.
  - rewrite fields_free by (try (right; eauto); auto). rewrite app_nil_r, fields_space, IH by assumption.
    destruct (rev w) eqn:E; [apply (f_equal (@rev Z)) in E; rewrite rev_involutive in E; contradiction|]. rewrite <- E, rev_involutive. reflexivity.
Qed.
Lemma worded_ex : forall n q, (length q <= n)%nat -> exists ws, worded q ws.
Proof.
  induction n as [|n IH]; intros q Hn; [destruct q; [exists []; constructor|cbn in Hn; lia]|].
  destruct (space_len q) as [|k] eqn:E.
  - destruct q as [|c q]; [exists []; constructor|]. destruct (IH q) as (ws & H); [cbn in Hn; lia|].
    assert (F : forall w r, q = w ++ r -> free w -> free (c :: w)).
    { intros w r Eq Hf a s b Hs Ea. destruct a as [|x a].
      - cbn [app] in Ea. pose proof (space_len_space s (b ++ r) Hs) as L. rewrite app_assoc, <- Ea in L. cbn [app] in L. rewrite <- Eq, E in L.
        destruct (space_shape s Hs) as (? & ? & -> & _). discriminate.
      - cbn [app] in Ea. injection Ea as _ Ea. exact (Hf a s b Hs Ea). }
    assert (F0 : free []).
    { intros a s b Hs Ea. destruct (space_shape s Hs) as (? & ? & -> & _). destruct a; discriminate. }
    inversion H; subst.
    + exists [[c]]. apply wo_last; [discriminate|]. apply (F [] []); auto.
    + exists ([c] :: ws). apply (wo_word [c]); auto; [discriminate|]. apply (F [] (s ++ q0)); auto.
    + exists [c :: q]. apply wo_last; [discriminate|]. apply (F q []); [now rewrite app_nil_r|assumption].
    + exists ((c :: w) :: ws0). apply (wo_word (c :: w)); auto; [discriminate|]. apply (F w (s ++ q0)); auto.
  - apply space_len_inv in E. destruct E as (s & r & Hs & -> & L). destruct (IH r) as (ws & H); [rewrite app_length in Hn; lia|].
    exists ws. now constructor.
Qed.
Lemma fields_worded q ws : fields q = ws <-> worded q ws.
Proof.
  split; [|apply worded_fields]. intros <-. destruct (worded_ex (length q) q (le_n _)) as (ws & H). rewrite (worded_fields _ _ H). exact H.
Qed.

(** Add said stop: a name was left after as many matches as asked for *)
Lemma search_run_stop names : forall s go s', good_specs (se_specs s) -> len (se_matched s) <= se_cap s ->
  search_run names s = Ok (go, s') ->
  (go = false <-> exists a n b, names = a ++ n :: b /\ se_cap s <= len (se_matched s) + Z.of_nat (length (filter (smatch (se_specs s)) a))).
Proof.
  induction names as [|n names IH]; intros s go s' Hg Hc; cbn [search_run].
  - intros [= <- <-]. split; [discriminate|]. intros (a & n & b & E & _). destruct a; discriminate.
  - unfold search_add. unfold len in *. destruct (Z.eqb_spec (Z.of_nat (length (se_matched s))) (se_cap s)) as [E|E]; cbn [bind].
    + intros [= <- <-]. split; [|reflexivity]. intros _. exists [], n, names. cbn. split; [reflexivity|lia].
    + rewrite specs_match_ok by assumption. cbn [bind]. destruct (smatch (se_specs s) n) eqn:M.
      * intros H. apply IH in H; cbn [se_specs se_cap se_matched] in *; [|assumption|rewrite app_length; cbn [length]; lia].
        rewrite H. rewrite app_length. cbn [length]. split.
        -- intros (a & m & b & -> & L). exists (n :: a), m, b. cbn [filter]. rewrite M. cbn [app length]. split; [reflexivity|lia].
        -- intros (a & m & b & X & L). destruct a as [|x a]; cbn [app] in X; injection X as -> ->.
           ++ cbn in L. lia.
           ++ exists a, m, b. cbn [filter] in L. rewrite M in L. cbn [length] in L. split; [reflexivity|lia].
      * intros H. apply IH in H; auto. rewrite H. split.
        -- intros (a & m & b & -> & L). exists (n :: a), m, b. cbn [filter]. rewrite M. split; [reflexivity|exact L].
        -- intros (a & m & b & X & L). destruct a as [|x a]; cbn [app] in X; injection X as -> ->.
           ++ cbn in L. lia.
           ++ exists a, m, b. cbn [filter] in L. rewrite M in L. split; [reflexivity|exact L].
Qed.
