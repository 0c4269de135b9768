(** Proofs about Agg.v. *)
From Coq Require Import ZArith List Lia Bool Permutation.
From Verif Require Import Base Pb PbRecord Float FloatProofs Agg AggSpec.
Import ListNotations.
Open Scope Z_scope.

(** a sequence of complete Observe calls *)
Fixpoint agg_run (p : params) (log : list (Z * list Z)) (a : agg) : res agg :=
  match log with
  | [] => Ok a
  | (v, i) :: log => do a' <- agg_observe p v i a; agg_run p log a'
  end.

Definition all_finite (log : list (Z * list Z)) : Prop := Forall (fun x => finite (fst x)) log.
Definition fits (log : list (Z * list Z)) : Prop := Z.of_nat (length log) < 2 ^ 63.

Lemma finite_nan v : finite v -> fnan v = false.
Proof. intros (_ & H & _). exact H. Qed.
Lemma zero_finite : finite 0.
Proof. unfold finite, is_f64. split; [lia|]. split; reflexivity. Qed.

Lemma fits_app l x : fits (l ++ [x]) -> fits l.
Proof. unfold fits. rewrite app_length. cbn. lia. Qed.
Lemma obs_i64 l : fits l -> i64 (Z.of_nat (length l)) = Z.of_nat (length l).
Proof. unfold fits. intros H. apply i64_id. unfold is_i64. lia. Qed.

(** the record after the updates of an observation that sees the state *)
Lemma update_least v i o a (log : list (Z * list Z)) :
  (forall w j, In (w, j) log -> finite w) -> finite v ->
  (o = 0 \/ (exists j, In (d_min (a_rec a), j) log) /\ exists j, In (d_max (a_rec a), j) log) ->
  let r := a_rec a in let r' := a_rec (obs_update v i o a) in
  flt v (d_min r') = false /\ flt (d_max r') v = false /\
  (o <> 0 -> (forall w j, In (w, j) log -> flt w (d_min r) = false -> flt w (d_min r') = false) /\
             (forall w j, In (w, j) log -> flt (d_max r) w = false -> flt (d_max r') w = false)) /\
  (((d_min r', d_minid r') = (v, i)) \/ (o <> 0 /\ d_min r' = d_min r /\ d_minid r' = d_minid r)) /\
  (((d_max r', d_maxid r') = (v, i)) \/ (o <> 0 /\ d_max r' = d_max r /\ d_maxid r' = d_maxid r)) /\
  d_obs r' = d_obs r /\ d_start r' = d_start r /\ d_merged r' = d_merged r.
Proof.
  intros Hf Hv Ho r r'. subst r r'. unfold obs_update. cbn [a_rec].
  destruct (Z.eqb_spec o 0) as [E|E]; cbn [orb].
  - cbn. rewrite !flt_irrefl. repeat split; auto; lia.
  - destruct Ho as [Ho|((j1 & H1) & j2 & H2)]; [contradiction|].
    apply Hf in H1. apply Hf in H2. apply finite_nan in H1. apply finite_nan in H2. pose proof (finite_nan v Hv) as Nv.
    destruct (flt v (d_min (a_rec a))) eqn:E1.
    + cbn [rec_min d_max d_min].
      destruct (flt (d_max (a_rec a)) v) eqn:E2; cbn; rewrite ?flt_irrefl; repeat split; auto;
      intros w j Hw HX; apply Hf in Hw; apply finite_nan in Hw; rewrite flt_key in E1, HX |- * by assumption; rewrite ?flt_key in E2 by assumption; lia.
    + destruct (flt (d_max (a_rec a)) v) eqn:E2; cbn; rewrite ?flt_irrefl; repeat split; auto;
      intros w j Hw HX; apply Hf in Hw; apply finite_nan in Hw; rewrite flt_key in E1, E2, HX |- * by assumption; lia.
Qed.

(** ** one call after another *)
Record aok (p : params) (now : Z) (log : list (Z * list Z)) (a : agg) : Prop := {
  ao_mu : a_mu a = false;
  ao_dist : a_dist a = match log with [] => None | _ => Some (map fst log) end;
  ao_start : d_start (a_rec a) = now;
  ao_merged : d_merged (a_rec a) = 1;
  ao_obs : d_obs (a_rec a) = Z.of_nat (length log);
  ao_rep : log <> [] -> reports (a_rec a) log
}.

Lemma aok_new p now : aok p now [] (agg_new now).
Proof. constructor; try reflexivity. intros H. contradiction. Qed.

Lemma enter_ok p a v : p_new p = true ->
  obs_enter p v a = (Agg false (rec_obs (a_rec a) (i64 (d_obs (a_rec a) + 1)))
                       (Some (match a_dist a with Some d => d | None => [] end ++ [v])),
                     Some (d_min (a_rec a), d_max (a_rec a), d_obs (a_rec a))).
Proof. intros Hp. unfold obs_enter. rewrite Hp. destruct (a_dist a); reflexivity. Qed.

Lemma aok_step p now log a v i :
  p_new p = true -> aok p now log a -> all_finite (log ++ [(v, i)]) -> fits (log ++ [(v, i)]) ->
  exists a', agg_observe p v i a = Ok a' /\ aok p now (log ++ [(v, i)]) a'.
Proof.
  intros Hp HA Hf Hn. destruct HA as [M D S G O R].
  unfold agg_observe. rewrite M, enter_ok by assumption.
  set (a1 := Agg _ _ _).
  assert (Hall : forall w j, In (w, j) (log ++ [(v, i)]) -> finite w)
    by (intros w j Hw; unfold all_finite in Hf; rewrite Forall_forall in Hf; apply (Hf _ Hw)).
  assert (Hv : finite v) by (apply (Hall v i); apply in_or_app; right; now left).
  assert (Hlog : forall w j, In (w, j) log -> finite w) by (intros w j Hw; apply (Hall w j); apply in_or_app; now left).
  assert (HD : a_dist a1 = Some (map fst (log ++ [(v, i)]))).
  { unfold a1. cbn. rewrite D, map_app. destruct log; reflexivity. }
  assert (HO : d_obs (a_rec a1) = Z.of_nat (length (log ++ [(v, i)]))).
  { unfold a1. cbn. rewrite O. rewrite <- (obs_i64 _ Hn). f_equal. rewrite app_length. cbn. lia. }
  assert (Hne : log ++ [(v, i)] <> []) by (destruct log; discriminate).
  assert (HDl : forall x : list Z, Some x = match log ++ [(v, i)] with [] => None | _ => Some x end)
    by (intros x; destruct (log ++ [(v, i)]); [contradiction|reflexivity]).
  destruct (obs_needs v (d_min (a_rec a)) (d_max (a_rec a)) (d_obs (a_rec a))) eqn:E.
  - eexists. split; [reflexivity|].
    assert (Hcond : d_obs (a_rec a) = 0 \/ (exists j, In (d_min (a_rec a1), j) log) /\ exists j, In (d_max (a_rec a1), j) log).
    { destruct log as [|x log]; [left; rewrite O; reflexivity|]. right.
      destruct R as (_ & (R1 & _) & R2 & _); [discriminate|]. unfold a1. cbn. eauto. }
    pose proof (update_least v i (d_obs (a_rec a)) a1 log Hlog Hv Hcond) as (U1 & U2 & U3 & U4 & U5 & U6 & U7 & U8).
    constructor.
    + reflexivity.
    + change (a_dist (obs_update v i (d_obs (a_rec a)) a1)) with (a_dist a1). rewrite HD. apply HDl.
    + rewrite U7. exact S.
    + rewrite U8. exact G.
    + rewrite U6. exact HO.
    + intros _. split; [rewrite U6; exact HO|].
      assert (Hold : forall w j, In (w, j) log -> flt w (d_min (a_rec (obs_update v i (d_obs (a_rec a)) a1))) = false
                /\ flt (d_max (a_rec (obs_update v i (d_obs (a_rec a)) a1))) w = false).
      { intros w j Hw. destruct log as [|x log]; [contradiction|].
        destruct R as (_ & (R1 & R1') & R2 & R2'); [discriminate|].
        destruct U3 as [A B]; [rewrite O; cbn; lia|]. split; [apply (A w j Hw)|apply (B w j Hw)]; unfold a1; cbn; eauto. }
      split; split.
      * destruct U4 as [U4|(N & X & Y)]; [rewrite U4; apply in_or_app; right; now left|].
        rewrite X, Y. apply in_or_app; left. destruct log as [|x log]; [rewrite O in N; cbn in N; lia|].
        destruct R as (_ & (R1 & _) & _); [discriminate|]. exact R1.
      * intros w j Hw. apply in_app_or in Hw. destruct Hw as [Hw|[Hw|[]]]; [apply (Hold w j Hw)|]. injection Hw as <- <-. exact U1.
      * destruct U5 as [U5|(N & X & Y)]; [rewrite U5; apply in_or_app; right; now left|].
        rewrite X, Y. apply in_or_app; left. destruct log as [|x log]; [rewrite O in N; cbn in N; lia|].
        destruct R as (_ & _ & (R1 & _)); [discriminate|]. exact R1.
      * intros w j Hw. apply in_app_or in Hw. destruct Hw as [Hw|[Hw|[]]]; [apply (Hold w j Hw)|]. injection Hw as <- <-. exact U2.
  - eexists. split; [reflexivity|]. unfold obs_needs in E. apply orb_false_iff in E. destruct E as [E E2].
    apply orb_false_iff in E. destruct E as [E E1]. apply Z.eqb_neq in E.
    destruct log as [|x log]; [rewrite O in E; cbn in E; lia|].
    destruct R as (_ & (R1 & R1') & R2 & R2'); [discriminate|].
    constructor; try assumption; try reflexivity.
    + intros _. split; [exact HO|]. unfold a1; cbn [a_rec rec_obs d_min d_minid d_max d_maxid].
      split; split; try (apply in_or_app; left; assumption);
      intros w j Hw; apply in_app_or in Hw; (destruct Hw as [Hw|[Hw|[]]]; [eauto|injection Hw as <- <-; assumption]).
Qed.

Lemma aok_run p now : p_new p = true -> forall log2 log1 a,
  aok p now log1 a -> all_finite (log1 ++ log2) -> fits (log1 ++ log2) ->
  exists a', agg_run p log2 a = Ok a' /\ aok p now (log1 ++ log2) a'.
Proof.
  intros Hp. induction log2 as [|[v i] log2 IH]; intros log1 a HA Hf Hn.
  - exists a. rewrite app_nil_r. split; [reflexivity|assumption].
  - assert (Hs : log1 ++ (v, i) :: log2 = (log1 ++ [(v, i)]) ++ log2) by (rewrite <- app_assoc; reflexivity).
    rewrite Hs in *.
    destruct (aok_step p now log1 a v i Hp HA) as (a1 & E1 & HA1).
    + unfold all_finite in *. apply Forall_app in Hf. apply Hf.
    + unfold fits in *. rewrite app_length in Hn. lia.
    + destruct (IH _ _ HA1 Hf Hn) as (a2 & E2 & HA2). exists a2. split; [|assumption]. cbn [agg_run]. rewrite E1. exact E2.
Qed.

(** ** concurrent calls *)
Lemma oset_in n t l x : In x (oset n t l) -> x = t \/ In x l.
Proof.
  revert n. induction l as [|y l IH]; intros [|n] H; cbn in *; auto.
  - destruct H as [->|H]; auto.
  - destruct H as [->|H]; [auto|]. destruct (IH n H); auto.
Qed.
Lemma oset_keeps n t l x y : nth_error l n = Some y -> x <> y -> In x l -> In x (oset n t l).
Proof.
  revert n. induction l as [|z l IH]; intros [|n] H Hne Hin; cbn in *; try discriminate.
  - injection H as ->. destruct Hin as [->|Hin]; [contradiction|]. auto.
  - destruct Hin as [->|Hin]; [now left|]. right. eapply IH; eauto.
Qed.
Lemma oset_same n t l y : nth_error l n = Some y -> In t (oset n t l).
Proof. revert n. induction l as [|z l IH]; intros [|n] H; cbn in *; try discriminate; eauto. Qed.

(** the observations between their two critical sections *)
Definition pend (l : list othread) : list (Z * list Z) :=
  flat_map (fun t => match t with OSecond v i _ => [(v, i)] | _ => [] end) l.
Lemma pend_set n t l y : nth_error l n = Some y ->
  Permutation (pend (oset n t l) ++ pend [y]) (pend [t] ++ pend l).
Proof.
  revert n. induction l as [|z l IH]; intros [|n] H; cbn [nth_error] in H; try discriminate.
  - injection H as ->. cbn [oset pend flat_map]. rewrite !app_nil_r. rewrite <- app_assoc. apply Permutation_app_head.
    apply Permutation_app_comm.
  - cbn [oset]. change (pend (z :: oset n t l)) with (pend [z] ++ pend (oset n t l)) || idtac.
    unfold pend at 1. cbn [flat_map]. fold (pend (oset n t l)).
    unfold pend at 4. cbn [flat_map]. fold (pend l).
    rewrite <- app_assoc. rewrite (IH n H).
    rewrite !app_assoc. apply Permutation_app_tail. apply Permutation_app_comm.
Qed.
Lemma pend_in l v i : In (v, i) (pend l) <-> exists o, In (OSecond v i o) l.
Proof.
  unfold pend. rewrite in_flat_map. split.
  - intros (t & Ht & H). destruct t as [|? ?|w j o]; cbn in H; try contradiction. destruct H as [H|[]]. injection H as -> ->. eauto.
  - intros (o & H). exists (OSecond v i o). split; [assumption|]. now left.
Qed.
Lemma quiet_pend l : Forall (eq OIdle) l -> pend l = [].
Proof. induction 1 as [|x l <- _ IH]; cbn; auto. Qed.

(** invariant of every schedule *)
Record oinv (p : params) (s : ostate) : Prop := {
  oi_mu : a_mu (o_agg s) = false;
  oi_fin : all_finite (o_log s);
  oi_call : forall v i, In (OCalled v i) (o_threads s) -> finite v;
  oi_obs : fits (o_log s) -> d_obs (a_rec (o_agg s)) = Z.of_nat (length (o_log s));
  oi_dist : a_dist (o_agg s) = match o_log s with [] => None | _ => Some (map fst (o_log s)) end;
  oi_perm : Permutation (o_log s) (o_ret s ++ pend (o_threads s));
  oi_first : fits (o_log s) -> o_log s = [] \/ (exists v i, In (OSecond v i 0) (o_threads s)) \/
     (In (d_min (a_rec (o_agg s)), d_minid (a_rec (o_agg s))) (o_log s) /\
      In (d_max (a_rec (o_agg s)), d_maxid (a_rec (o_agg s))) (o_log s))
}.

Lemma oinv_init p a k log now : p_new p = true -> aok p now log a -> all_finite log -> oinv p (o_init a k log).
Proof.
  intros Hp [M D S G O R] Hf. unfold o_init. constructor; cbn [o_agg o_threads o_log o_ret]; auto.
  - intros v i H. apply repeat_spec in H. discriminate.
  - rewrite quiet_pend; [rewrite app_nil_r; reflexivity|]. clear. induction k; constructor; auto.
  - intros _. destruct log as [|x log]; [now left|]. right. right.
    destruct R as (_ & (R1 & _) & R2 & _); [discriminate|]. split; assumption.
Qed.

Lemma app_ne {A} (l : list A) x : l ++ [x] <> [].
Proof. destruct l; discriminate. Qed.
Lemma app_match {A B} (l : list A) x (y : option B) (z : option B) : match l ++ [x] with [] => y | _ => z end = z.
Proof. destruct l; reflexivity. Qed.

Lemma oinv_step p s s' n v id : p_new p = true -> oinv p s -> finite v -> o_next p n v id s = Some s' -> oinv p s'.
Proof.
  intros Hp [M F C O D P K] Hv E. unfold o_next in E.
  destruct (nth_error (o_threads s) n) as [[|w i|w i o]|] eqn:En; [| | |discriminate].
  - injection E as <-. constructor; cbn [o_agg o_threads o_log o_ret]; auto.
    + intros v' i' H. apply oset_in in H. destruct H as [H|H]; [injection H as -> ->; assumption|eauto].
    + pose proof (pend_set n (OCalled v id) _ _ En) as Hs. cbn in Hs. rewrite app_nil_r in Hs. rewrite Hs. exact P.
    + intros Hn. destruct (K Hn) as [K'|[(v' & i' & K')|K']]; auto. right; left. exists v', i'. eapply oset_keeps; eauto. discriminate.
  - rewrite M, enter_ok in E by assumption.
    assert (Hw : finite w) by (apply (C w i); eapply nth_error_In; eauto).
    assert (Hfin : all_finite (o_log s ++ [(w, i)])).
    { unfold all_finite in *. apply Forall_app. split; [assumption|]. constructor; [assumption|constructor]. }
    assert (HD : Some ((match a_dist (o_agg s) with Some d => d | None => [] end) ++ [w])
                 = match o_log s ++ [(w, i)] with [] => None | _ => Some (map fst (o_log s ++ [(w, i)])) end).
    { rewrite app_match, D, map_app. destruct (o_log s); reflexivity. }
    assert (HO : fits (o_log s ++ [(w, i)]) -> i64 (d_obs (a_rec (o_agg s)) + 1) = Z.of_nat (length (o_log s ++ [(w, i)]))).
    { intros Hn. rewrite (O (fits_app _ _ Hn)). rewrite <- (obs_i64 _ Hn). f_equal. rewrite app_length. cbn. lia. }
    destruct (obs_needs w _ _ _) eqn:N; injection E as <-; constructor; cbn [o_agg o_threads o_log o_ret a_mu a_rec a_dist rec_obs d_obs]; auto.
    + intros v' i' H. apply oset_in in H. destruct H as [H|H]; [discriminate|eauto].
    + pose proof (pend_set n (OSecond w i (d_obs (a_rec (o_agg s)))) _ _ En) as Hs. cbn in Hs. rewrite app_nil_r in Hs. rewrite Hs.
      rewrite P, <- app_assoc. apply Permutation_app_head. symmetry. apply Permutation_cons_append.
    + intros Hn. right. cbn [d_min d_max d_minid d_maxid].
      destruct (K (fits_app _ _ Hn)) as [K'|[(v' & i' & K')|[K1 K2]]].
      * left. exists w, i. replace 0 with (d_obs (a_rec (o_agg s))); [eapply oset_same; eauto|].
        rewrite (O (fits_app _ _ Hn)), K'. reflexivity.
      * left. exists v', i'. eapply oset_keeps; eauto. discriminate.
      * right. split; apply in_or_app; now left.
    + intros v' i' H. apply oset_in in H. destruct H as [H|H]; [discriminate|eauto].
    + pose proof (pend_set n OIdle _ _ En) as Hs. cbn in Hs. rewrite app_nil_r in Hs. rewrite Hs.
      rewrite P, <- !app_assoc. apply Permutation_app_head. apply Permutation_app_comm.
    + intros Hn. right. cbn [d_min d_max d_minid d_maxid].
      destruct (K (fits_app _ _ Hn)) as [K'|[(v' & i' & K')|[K1 K2]]].
      * exfalso. unfold obs_needs in N. rewrite (O (fits_app _ _ Hn)), K' in N. discriminate.
      * left. exists v', i'. eapply oset_keeps; eauto. discriminate.
      * right. split; apply in_or_app; now left.
  - rewrite M in E. injection E as <-.
    assert (Hin : In (w, i) (o_log s)).
    { rewrite P. apply in_or_app. right. apply pend_in. exists o. eapply nth_error_In; eauto. }
    assert (Hrec : d_obs (a_rec (obs_update w i o (o_agg s))) = d_obs (a_rec (o_agg s))).
    { unfold obs_update. cbn [a_rec]. destruct (_ || _); cbn; destruct (_ || _); reflexivity. }
    constructor; cbn [o_agg o_threads o_log o_ret]; auto.
    + intros v' i' H. apply oset_in in H. destruct H as [H|H]; [discriminate|eauto].
    + intros Hn. rewrite Hrec. auto.
    + pose proof (pend_set n OIdle _ _ En) as Hs. cbn in Hs. rewrite P.
      rewrite <- !app_assoc. apply Permutation_app_head. rewrite <- Hs. apply Permutation_app_comm.
    + intros Hn. right. destruct (Z.eq_dec o 0) as [->|Ho].
      * right. unfold obs_update. cbn. split; assumption.
      * destruct (K Hn) as [K'|[(v' & i' & K')|[K1 K2]]].
        { rewrite K' in Hin. contradiction. }
        { left. exists v', i'. eapply oset_keeps; eauto. intros H. apply Ho. congruence. }
        right. unfold obs_update. cbn [a_rec].
        destruct ((o =? 0) || flt w (d_min (a_rec (o_agg s)))); cbn;
        destruct ((o =? 0) || flt (d_max (a_rec (o_agg s))) w); cbn; split; assumption.
Qed.
Lemma oinv_reach p s0 s : p_new p = true -> oinv p s0 -> o_reach p s0 s -> oinv p s.
Proof. intros Hp H0 H. induction H; [assumption|]. eapply oinv_step; eauto. Qed.

(** invariant when the first observation completed before *)
Record oinv2 (s : ostate) : Prop := {
  o2_ne : o_log s <> [];
  o2_pend : forall v i, ~ In (OSecond v i 0) (o_threads s);
  o2_min : In (d_min (a_rec (o_agg s)), d_minid (a_rec (o_agg s))) (o_log s);
  o2_max : In (d_max (a_rec (o_agg s)), d_maxid (a_rec (o_agg s))) (o_log s);
  o2_le : forall v i, In (v, i) (o_ret s) ->
     flt v (d_min (a_rec (o_agg s))) = false /\ flt (d_max (a_rec (o_agg s))) v = false
}.

Lemma oinv2_step p s s' n v id : p_new p = true -> oinv p s -> fits (o_log s) -> oinv2 s -> finite v ->
  o_next p n v id s = Some s' -> oinv2 s'.
Proof.
  intros Hp [M F C O D P K] Hn [N Q A B L] Hv E. unfold o_next in E.
  destruct (nth_error (o_threads s) n) as [[|w i|w i o]|] eqn:En; [| | |discriminate].
  - injection E as <-. constructor; cbn [o_agg o_threads o_log o_ret]; auto.
    intros v' i' H. apply oset_in in H. destruct H as [H|H]; [discriminate|]. eapply Q; eauto.
  - rewrite M, enter_ok in E by assumption.
    destruct (obs_needs w _ _ _) eqn:X; injection E as <-;
      constructor; cbn [o_agg o_threads o_log o_ret a_rec rec_obs d_min d_max d_minid d_maxid];
      try (apply app_ne); try (apply in_or_app; left; assumption); auto.
    + intros v' i' H. apply oset_in in H. destruct H as [H|H]; [|eapply Q; eauto].
      injection H as _ _ H. rewrite (O Hn) in H. destruct (o_log s); [contradiction|]. cbn in H. lia.
    + intros v' i' H. apply oset_in in H. destruct H as [H|H]; [discriminate|]. eapply Q; eauto.
    + intros v' i' H. apply in_app_or in H. destruct H as [H|[H|[]]]; [eauto|]. injection H as <- <-.
      unfold obs_needs in X. apply orb_false_iff in X. destruct X as [X X2]. apply orb_false_iff in X. destruct X as [X X1]. auto.
  - rewrite M in E. injection E as <-.
    assert (Hall : forall x j, In (x, j) (o_log s) -> finite x)
      by (intros x j Hx; unfold all_finite in F; rewrite Forall_forall in F; apply (F _ Hx)).
    assert (Hin : In (w, i) (o_log s)).
    { rewrite P. apply in_or_app. right. apply pend_in. exists o. eapply nth_error_In; eauto. }
    assert (Ho : o <> 0) by (intros ->; apply (Q w i); eapply nth_error_In; eauto).
    destruct (update_least w i o (o_agg s) (o_log s) Hall (Hall _ _ Hin)) as (U1 & U2 & U3 & U4 & U5 & _); [right; eauto|].
    destruct (U3 Ho) as [U6 U7].
    constructor; cbn [o_agg o_threads o_log o_ret]; auto.
    + intros v' i' H. apply oset_in in H. destruct H as [H|H]; [discriminate|]. eapply Q; eauto.
    + destruct U4 as [U4|(_ & U4 & U4')]; [rewrite U4; assumption|rewrite U4, U4'; assumption].
    + destruct U5 as [U5|(_ & U5 & U5')]; [rewrite U5; assumption|rewrite U5, U5'; assumption].
    + intros v' i' H. apply in_app_or in H. destruct H as [H|[H|[]]]; [|injection H as <- <-; auto].
      assert (Hl : In (v', i') (o_log s)) by (rewrite P; apply in_or_app; now left).
      destruct (L _ _ H) as [L1 L2]. split; [eapply U6|eapply U7]; eauto.
Qed.

Lemma o_log_grows p s s' n v id : o_next p n v id s = Some s' -> fits (o_log s') -> fits (o_log s).
Proof.
  unfold o_next, fits. destruct (nth_error (o_threads s) n) as [[|w i|w i o]|]; [| | |discriminate].
  - intros E. injection E as <-. auto.
  - destruct (a_mu (o_agg s)); [discriminate|]. destruct (obs_enter p w (o_agg s)) as [a [[[mn mx] ob]|]].
    + destruct (obs_needs w mn mx ob); intros E; injection E as <-; cbn [o_log]; rewrite app_length; lia.
    + intros E. injection E as <-. auto.
  - destruct (a_mu (o_agg s)); [discriminate|]. intros E. injection E as <-. auto.
Qed.

Lemma oinv2_reach p s0 s : p_new p = true -> oinv p s0 -> oinv2 s0 -> o_reach p s0 s -> fits (o_log s) -> oinv2 s.
Proof.
  intros Hp I0 J0 H. induction H as [|s s' n v id H IH Hv E]; intros Hn; [assumption|].
  pose proof (o_log_grows _ _ _ _ _ _ E Hn) as Hn'.
  apply (oinv2_step p s s' n v id Hp (oinv_reach _ _ _ Hp I0 H) Hn' (IH Hn') Hv E).
Qed.
Lemma oinv2_init p a k log now : aok p now log a -> log <> [] -> oinv2 (o_init a k log).
Proof.
  intros [M D S G O R] Hne. destruct (R Hne) as (_ & (R1 & R1') & R2 & R2').
  unfold o_init. constructor; cbn [o_agg o_threads o_log o_ret]; auto.
  - intros v i H. apply repeat_spec in H. discriminate.
  - eauto.
Qed.
