(** Property C80: a whole process from SIGINT to its end. *)
From Coq Require Import ZArith List Bool Lia String.
From Verif Require Import Base Cache CacheProofs LockPool LockPoolProofs Queue QueueProofs Launcher LauncherProofs
  Shutdown Props_Shutdown Server Graphite Listener ListenerSpec ListenerProofs Props_Listener Serve Props_Serve Process.
Import ListNotations.
Open Scope nat_scope.
Open Scope list_scope.

(** ** services *)
Definition sv_ok (old : bool) (v : service) : Prop :=
  match v with SvListener g => g_reach g | SvDumper _ => True | SvApi v => v_reach old v end.
Lemma sv_start_ok old v : sv_start v = true -> sv_ok old v /\ sv_result v = None /\ (forall g, v = SvListener g -> g_log g = []).
Proof.
  destruct v as [g| |v]; cbn [sv_start sv_ok sv_result].
  - destruct g as [m a cs o d s x f l]. destruct m, a, cs, o, d, s, x, f, l; try discriminate. intros _.
    split; [constructor|]. split; [reflexivity|]. intros g E. injection E as <-. reflexivity.
  - destruct ret; [discriminate|]. repeat split. discriminate.
  - destruct v as [m w cs o t h d x k f r]. destruct m, w, cs, o, t, h, d, x, k, f, r; try discriminate. intros _.
    split; [constructor|]. split; [reflexivity|discriminate].
Qed.
Lemma sv_step_ok old ctx b v v' o : sv_ok old v -> sv_step old ctx b v v' o -> sv_ok old v'.
Proof. intros H T. destruct T; cbn in *; auto; econstructor; eauto. Qed.
Lemma sv_tell_ok old v v' : sv_ok old v -> sv_tell v = Some v' -> sv_ok old v'.
Proof.
  destruct v as [g| |v]; cbn; [|discriminate|].
  - destruct g as [m a cs o d s x f l]. destruct d; [discriminate|]. intros H E. injection E as <-. cbn. econstructor; [exact H|]. apply gs_ctx.
  - destruct v as [m w cs o t h d x k f r]. destruct d; [discriminate|]. intros H E. injection E as <-. cbn. econstructor; [exact H|]. apply vs_ctx.
Qed.
Lemma sv_result_step old ctx b v v' o e : sv_ok old v -> sv_step old ctx b v v' o -> sv_result v = Some e ->
  sv_result v' = Some e /\ o = None.
Proof.
  intros H T E. destruct T as [b g g' o T _ L|C|b v v' T _]; cbn [sv_result sv_ok] in *.
  - destruct (g_main g) eqn:M; try discriminate. injection E as ->.
    assert (later g g') as La by (econstructor; [constructor|exact T]).
    destruct (C78_nothing_after_return g e g' H M La) as (A & B & _). unfold returned in A. rewrite A. split; [reflexivity|].
    destruct o; [|reflexivity]. rewrite B in L. apply (f_equal (@List.length _)) in L. rewrite app_length in L. cbn in L. lia.
  - discriminate.
  - destruct (v_main v) eqn:M; try discriminate. injection E as ->.
    destruct (C79_closed old v e b v' H M T) as (_ & A & _). unfold server_returned in A. rewrite A. auto.
Qed.
Lemma sv_result_tell v v' e : sv_tell v = Some v' -> sv_result v = Some e -> sv_result v' = Some e.
Proof.
  destruct v as [g| |v]; cbn; [|discriminate|].
  - destruct g as [m a cs o d s x f l]. destruct d; [discriminate|]. intros E. injection E as <-. auto.
  - destruct v as [m w cs o t h d x k f r]. destruct d; [discriminate|]. intros E. injection E as <-. auto.
Qed.

(** ** the process *)
Definition log_of (k : nat) (l : list (nat * nat * list Z)) : list (nat * list Z) :=
  map (fun e => (snd (fst e), snd e)) (filter (fun e => Nat.eqb (fst (fst e)) k) l).
Lemma log_app k l a n t : log_of k (l ++ [(a, n, t)]) = log_of k l ++ (if Nat.eqb a k then [(n, t)] else []).
Proof. unfold log_of. rewrite filter_app, map_app. cbn. destruct (Nat.eqb a k); reflexivity. Qed.

Record pinv (old : bool) (svs : list service) (s : pstate) : Prop := PInv {
  pi_r : r_reach (List.length svs) (p_r s);
  pi_len : List.length (p_sv s) = List.length svs;
  pi_ok : forall k v, nth_error (p_sv s) k = Some v -> sv_ok old v;
  pi_task : forall k v, nth_error (p_sv s) k = Some v -> nth_error (l_tasks (inner (p_r s))) k <> Some TRun -> exists e, sv_result v = Some e;
  pi_tret : forall k v e, nth_error (p_sv s) k = Some v -> nth_error (l_tasks (inner (p_r s))) k = Some (TRet e) -> sv_result v = Some e;
  pi_sent : forall e, In e (l_sent (inner (p_r s))) -> exists k v, nth_error (p_sv s) k = Some v /\ sv_result v = Some e;
  pi_log : forall k g, nth_error (p_sv s) k = Some (SvListener g) -> g_log g = log_of k (p_lines s);
  pi_added : added (p_r s) = map Z.of_nat (seq 0 (List.length (p_lines s)))
}.
Lemma inner_gone n r : r_reach n r -> ph r <> PServices -> Forall (eq TGone) (l_tasks (inner r)) /\ exists e, l_main (inner r) = MDone e.
Proof.
  intros R P. destruct (r_inv n r R) as [A B C E F].
  assert (M : exists e, l_main (inner r) = MDone e) by (destruct (ph r) as [| |[e|]]; [congruence|destruct E; eauto|destruct E; eauto|destruct E; eauto]).
  destruct M as [e M]. destruct (done_facts _ _ _ B M) as (G & _). eauto.
Qed.
Lemma running n r k : r_reach n r -> nth_error (l_tasks (inner r)) k = Some TRun -> ph r = PServices.
Proof.
  intros R H. destruct (ph r) eqn:P; [reflexivity|exfalso..];
    (destruct (inner_gone n r R) as [G _]; [congruence|]); rewrite Forall_forall in G; apply nth_error_In, G in H; discriminate.
Qed.
Lemma task_some old svs s k v : pinv old svs s -> nth_error (p_sv s) k = Some v -> exists t, nth_error (l_tasks (inner (p_r s))) k = Some t.
Proof.
  intros I H. destruct I. destruct (r_inv _ _ pi_r0) as [_ B _ _ _]. destruct (laun_reach _ _ B) as [L _ _].
  destruct (nth_error (l_tasks (inner (p_r s))) k) eqn:E; [eauto|]. apply nth_error_None in E.
  assert (k < List.length (p_sv s)) by (apply nth_error_Some; congruence). lia.
Qed.
Lemma unreturned old svs s k v : pinv old svs s -> nth_error (p_sv s) k = Some v -> sv_result v = None ->
  nth_error (l_tasks (inner (p_r s))) k = Some TRun.
Proof.
  intros I H N. destruct (task_some old svs s k v I H) as [t E]. destruct t; auto; exfalso.
  all: destruct (pi_task _ _ _ I k v H) as [e1 X]; [rewrite E; discriminate|congruence].
Qed.
Lemma pinv_init old svs : Forall (fun v => sv_start v = true) svs -> pinv old svs (p_init svs).
Proof.
  intros H. rewrite Forall_forall in H. unfold p_init. split; cbn [p_r p_sv p_lines]; auto.
  - constructor.
  - intros k v E. apply nth_error_In, H in E. now apply sv_start_ok.
  - intros k v E X. exfalso. apply X. cbn. apply nth_error_repeat. apply nth_error_Some. congruence.
  - intros k v e E X. exfalso. cbn in X. assert (k < List.length svs) by (apply nth_error_Some; congruence).
    rewrite nth_error_repeat in X by assumption. discriminate.
  - intros e [].
  - intros k g E. apply nth_error_In, H in E. destruct (sv_start_ok old _ E) as (_ & _ & X). now apply X.
Qed.

(** replacing a service by a later state of itself *)
Lemma pinv_sv old svs s k v v' : pinv old svs s -> nth_error (p_sv s) k = Some v -> sv_ok old v' ->
  (forall e, sv_result v = Some e -> sv_result v' = Some e) ->
  (forall g, v' = SvListener g -> exists g0, v = SvListener g0 /\ g_log g = g_log g0) ->
  pinv old svs (PS (p_r s) (set_nth k v' (p_sv s)) (p_sig s) (p_lines s)).
Proof.
  intros I H O E L. destruct I as [I1 I2 I3 I4 I5 I6 I7 I8]. split; cbn [p_r p_sv p_lines]; auto.
  - now rewrite set_nth_length.
  - intros j w X. apply nth_error_set in X as [[-> ->]|[_ X]]; eauto.
  - intros j w X Y. apply nth_error_set in X as [[-> ->]|[_ X]]; [|eauto]. destruct (I4 _ _ H Y) as [e Z]. eauto.
  - intros j w e X Y. apply nth_error_set in X as [[-> ->]|[_ X]]; eauto.
  - intros e X. destruct (I6 e X) as (j & w & A & B). destruct (Nat.eq_dec k j) as [->|N].
    + exists j, v'. rewrite (nth_error_set_same _ _ _ _ A). split; [reflexivity|]. apply E. congruence.
    + exists j, w. rewrite nth_error_set_other by exact N. auto.
  - intros j g X. apply nth_error_set in X as [[-> X]|[_ X]]; [|eauto]. destruct (L g (eq_sym X)) as (g0 & -> & ->). eauto.
Qed.
Lemma inner_step_tasks i i' : l_step i i' -> (forall k, nth_error (l_tasks i) k = Some TRun -> nth_error (l_tasks i') k = Some TRun) ->
  (forall k, nth_error (l_tasks i') k = Some TRun -> nth_error (l_tasks i) k = Some TRun) /\
  (forall k e, nth_error (l_tasks i') k = Some (TRet e) -> nth_error (l_tasks i) k = Some (TRet e)) /\
  (forall e, In e (l_sent i') -> In e (l_sent i) \/ exists k, nth_error (l_tasks i) k = Some (TRet e)).
Proof.
  intros T K. destruct T; unfold ltask in *; cbn [l_tasks l_sent] in *; auto.
  - exfalso. specialize (K _ H). rewrite (nth_error_set_same _ _ _ _ H) in K. discriminate.
  - repeat split.
    + intros k X. apply nth_error_set in X as [[_ X]|[_ X]]; [discriminate|exact X].
    + intros k e' X. apply nth_error_set in X as [[_ X]|[_ X]]; [discriminate|exact X].
    + intros e' X. apply in_app_or in X as [X|[<-|[]]]; eauto.
  - repeat split; auto.
    + intros k X. apply nth_error_set in X as [[_ X]|[_ X]]; [discriminate|exact X].
    + intros k e' X. apply nth_error_set in X as [[_ X]|[_ X]]; [discriminate|exact X].
Qed.
Lemma r_after r r' : r_step r r' -> ph r = PServices -> ph r' <> PServices -> inner r' = inner r /\ added r' = added r.
Proof. intros T P N. destruct T; cbn in *; try congruence; auto. Qed.
Lemma tell_log v v' g : sv_tell v = Some v' -> v' = SvListener g -> exists g0, v = SvListener g0 /\ g_log g = g_log g0.
Proof.
  destruct v as [g0| |v]; cbn; [|discriminate|].
  - destruct g0 as [m a cs o d s x f l]. destruct d; [discriminate|]. intros E X. injection E as <-. injection X as <-. eauto.
  - destruct v as [m w cs o t h d x k f r]. destruct d; [discriminate|]. intros E X. injection E as <-. discriminate.
Qed.
Lemma pinv_step old svs b s s' : pinv old svs s -> p_step old b s s' -> pinv old svs s'.
Proof.
  intros I T. destruct T as [s|s k v v' H C E|b s k v v' H T|b s k v v' n t H T|s k r' H ->|s k v e K H E|s i T K|s r P T N|s r T Ei Ea Ep].
  - destruct I. split; auto.
  - eapply pinv_sv; eauto.
    + eapply sv_tell_ok; eauto. eapply pi_ok; eauto.
    + intros e. now apply sv_result_tell.
    + intros g. now apply tell_log.
  - eapply pinv_sv; eauto.
    + eapply sv_step_ok; eauto. eapply pi_ok; eauto.
    + intros e X. eapply sv_result_step; eauto. eapply pi_ok; eauto.
    + intros g X. subst v'. inversion T; subst. eexists. split; [reflexivity|]. match goal with L : g_log _ = _ |- _ => rewrite L end. apply app_nil_r.
  - assert (N : sv_result v = None).
    { destruct (sv_result v) eqn:E; [|reflexivity]. destruct (sv_result_step _ _ _ _ _ _ _ (pi_ok _ _ _ I _ _ H) T E). discriminate. }
    pose proof (unreturned old svs s k v I H N) as TR. pose proof (running _ _ _ (pi_r _ _ _ I) TR) as P.
    pose proof (sv_step_ok _ _ _ _ _ _ (pi_ok _ _ _ I _ _ H) T) as O.
    destruct I as [I1 I2 I3 I4 I5 I6 I7 I8]. split; cbn [p_r p_sv p_lines with_value inner added]; auto.
    + econstructor; [exact I1|]. apply (rs_add _ k (Z.of_nat (List.length (p_lines s)))); auto.
    + now rewrite set_nth_length.
    + intros j w X. apply nth_error_set in X as [[-> ->]|[_ X]]; eauto.
    + intros j w X Y. apply nth_error_set in X as [[-> ->]|[_ X]]; [congruence|eauto].
    + intros j w e X Y. apply nth_error_set in X as [[-> ->]|[_ X]]; [congruence|eauto].
    + intros e X. destruct (I6 e X) as (j & w & A & B). destruct (Nat.eq_dec k j) as [->|Ne].
      * congruence.
      * exists j, w. rewrite nth_error_set_other by exact Ne. auto.
    + intros j g X. rewrite log_app. apply nth_error_set in X as [[-> X]|[Ne X]].
      * rewrite Nat.eqb_refl. subst v'. inversion T; subst. match goal with L : g_log _ = _ |- _ => rewrite L end. f_equal. eauto.
      * replace (Nat.eqb k j) with false by (symmetry; apply Nat.eqb_neq; lia). rewrite app_nil_r. eauto.
    + rewrite I8, app_length. cbn [List.length]. rewrite Nat.add_1_r, seq_S, map_app. reflexivity.
  - pose proof (unreturned old svs s k _ I H eq_refl) as TR. pose proof (running _ _ _ (pi_r _ _ _ I) TR) as P.
    destruct I as [I1 I2 I3 I4 I5 I6 I7 I8]. split; cbn [p_r p_sv p_lines inner added]; auto.
    econstructor; [exact I1|]. eapply rs_periodic; eauto.
  - pose proof (running _ _ _ (pi_r _ _ _ I) K) as P.
    destruct I as [I1 I2 I3 I4 I5 I6 I7 I8]. split; cbn [p_r p_sv p_lines with_inner inner added ltask l_tasks l_sent]; auto.
    + econstructor; [exact I1|]. unfold with_inner. rewrite P. apply rs_inner; [exact P|]. now apply ls_return.
    + intros j w X Y. destruct (Nat.eq_dec k j) as [->|Ne]; [assert (w = v) by congruence; subst; eauto|].
      rewrite nth_error_set_other in Y by exact Ne. eauto.
    + intros j w e' X Y. apply nth_error_set in Y as [[-> Y]|[_ Y]]; [|eauto]. injection Y as ->. congruence.
  - assert (P : ph (p_r s) = PServices).
    { destruct (ph (p_r s)) eqn:P; [reflexivity|exfalso..].
      all: destruct (inner_gone _ _ (pi_r _ _ _ I)) as [G [e1 M]]; [congruence|]; rewrite Forall_forall in G.
      all: inversion T; subst; try congruence;
        match goal with X : nth_error _ _ = Some _ |- _ => apply nth_error_In, G in X; discriminate end. }
    destruct (inner_step_tasks _ _ T K) as (A & B & C).
    destruct I as [I1 I2 I3 I4 I5 I6 I7 I8]. split; cbn [p_r p_sv p_lines with_inner inner added]; auto.
    + econstructor; [exact I1|]. unfold with_inner. rewrite P. now apply rs_inner.
    + intros k v X Y. apply (I4 k v X). intros Z. apply Y. now apply K.
    + intros k v e X Y. apply (I5 k v e X). now apply B.
    + intros e X. destruct (C e X) as [Y|[k Y]]; [now apply I6|].
      assert (exists v, nth_error (p_sv s) k = Some v) as [v V].
      { destruct (nth_error (p_sv s) k) eqn:V; [eauto|]. apply nth_error_None in V.
        destruct (r_inv _ _ I1) as [_ Bb _ _ _]. destruct (laun_reach _ _ Bb) as [L _ _].
        assert (k < List.length (l_tasks (inner (p_r s)))) by (apply nth_error_Some; congruence). lia. }
      exists k, v. split; [exact V|]. eauto.
  - destruct (r_after _ _ T P N) as [Ei Ea].
    destruct I as [I1 I2 I3 I4 I5 I6 I7 I8]. split; cbn [p_r p_sv p_lines]; rewrite ?Ei, ?Ea; auto. econstructor; eauto.
  - destruct I as [I1 I2 I3 I4 I5 I6 I7 I8]. split; cbn [p_r p_sv p_lines]; rewrite ?Ei, ?Ea; auto. econstructor; eauto.
Qed.
Lemma pinv_reach old svs s : Forall (fun v => sv_start v = true) svs -> p_reach old svs s -> pinv old svs s.
Proof. intros F. induction 1; [now apply pinv_init|eapply pinv_step; eauto]. Qed.

(** ** C80 *)
(** nothing the process does was left out of C60: its launchers, last dump and database
    behave as Shutdown.v says *)
Theorem C80_refines : forall old svs s, Forall (fun v => sv_start v = true) svs -> p_reach old svs s ->
  r_reach (List.length svs) (p_r s).
Proof. intros old svs s F R. apply (pinv_reach old svs s F R). Qed.
Print Assumptions C80_refines.

(** the lines of a connection of a listener that were given to the writer, in order *)
Definition lines_given (s : pstate) (k n : nat) : list (list Z) :=
  map snd (filter (fun e => Nat.eqb (fst (fst e)) k && Nat.eqb (snd (fst e)) n) (p_lines s)).
(** the values that are stored, as lines *)
Definition lines_stored (s : pstate) : list (nat * nat * list Z) :=
  map (fun i => nth (Z.to_nat i) (p_lines s) (0, 0, [])) (stored (p_r s)).
Lemma lines_given_log s k n g : g_log g = log_of k (p_lines s) -> handled n g = lines_given s k n.
Proof.
  unfold handled, lines_given, log_of. intros ->. induction (p_lines s) as [|[[a b] l] ls IH]; [reflexivity|]. cbn [filter fst snd].
  destruct (Nat.eqb a k) eqn:E; cbn [map filter andb fst snd]; [|exact IH].
  destruct (Nat.eqb b n); cbn [map snd]; rewrite IH; reflexivity.
Qed.
(** when run has returned, every line that any listener read on any connection has been
    given to the writer, in order and once; and if it returned nil and the last dump was
    not cut short, exactly these lines have been handed to the database *)
Theorem C80_nothing_lost : forall old svs s e, Forall (fun v => sv_start v = true) svs -> p_reach old svs s ->
  run_returned (p_r s) e ->
  (forall k g n bytes, nth_error (p_sv s) k = Some (SvListener g) -> nth_error (received g) n = Some bytes ->
     lines_given s k n = fst (scan bytes)) /\
  (e = None -> cut (p_r s) = false -> lines_stored s = p_lines s).
Proof.
  intros old svs s e F R H. pose proof (pinv_reach old svs s F R) as I.
  destruct (C60_returns _ _ e (pi_r _ _ _ I) H) as (_ & G & _). split.
  - intros k g n bytes K B. rewrite <- (lines_given_log s k n g) by (eapply pi_log; eauto).
    destruct (task_some old svs s k _ I K) as [t T]. rewrite Forall_forall in G. pose proof (G _ (nth_error_In _ _ T)) as X. subst t.
    destruct (pi_task _ _ _ I k _ K) as [e1 X]; [rewrite T; discriminate|]. cbn in X.
    destruct (g_main g) eqn:M; try discriminate. injection X as ->.
    eapply C78_all_lines; eauto. exact (pi_ok _ _ _ I k _ K).
  - intros -> C. destruct (C60_nothing_lost _ _ (pi_r _ _ _ I) H) as [N _]. unfold lines_stored. rewrite (N C), (pi_added _ _ _ I), map_map.
    rewrite (map_ext _ (fun i => nth i (p_lines s) (0, 0, []))) by (intros; now rewrite Nat2Z.id).
    clear. induction (p_lines s) as [|x l IH]; [reflexivity|]. cbn [List.length seq map nth]. f_equal. rewrite <- seq_shift, map_map. exact IH.
Qed.
Print Assumptions C80_nothing_lost.

(** the last dump is left out only if a listener or the api server failed *)
Theorem C80_last_dump : forall svs s, Forall (fun v => sv_start v = true) svs -> p_reach false svs s ->
  Forall (fun v => sv_failed v = false) (p_sv s) -> forall e, ph (p_r s) = PRet e -> e = None.
Proof.
  intros svs s F R NF e P. pose proof (pinv_reach false svs s F R) as I. destruct e as [e|]; [exfalso|reflexivity].
  destruct (r_inv _ _ (pi_r _ _ _ I)) as [A B C E G]. rewrite P in E. destruct E as [E _].
  destruct (done_facts _ _ _ B E) as (_ & _ & X).
  assert (Y : In (Some e) (l_sent (inner (p_r s)))).
  { clear - X. induction (l_sent (inner (p_r s))) as [|[x|] l IH]; cbn in *; [discriminate|left; congruence|right; auto]. }
  destruct (pi_sent _ _ _ I _ Y) as (k & v & K & V). rewrite Forall_forall in NF. pose proof (NF _ (nth_error_In _ _ K)) as N.
  pose proof (pi_ok _ _ _ I k v K) as O. destruct v as [g|r|v]; cbn in V, N, O.
  - destruct (g_main g) eqn:M; try discriminate. injection V as ->. pose proof (C78_result g (Some e) O M) as W. cbn in W. congruence.
  - destruct r; discriminate.
  - destruct (v_main v) eqn:M; try discriminate. injection V as ->. destruct (C79_result false v (Some e) O M) as [W|[W _]]; congruence.
Qed.
Print Assumptions C80_last_dump.

(** ** SIGINT *)
Definition told (v : service) : nat := match sv_tell v with Some _ => 1 | None => 0 end.
Definition svweight (v : service) : nat :=
  told v + match v with SvListener g => gweight g | SvDumper r => if r then 0 else 1 | SvApi v => vweight v end.
Fixpoint svsum (l : list service) : nat := match l with [] => 0 | v :: l => svweight v + svsum l end.
Definition pweight_ (s : pstate) : nat := svsum (p_sv s) + rweight (p_r s).
Lemma svsum_set l k v v' : nth_error l k = Some v -> svsum (set_nth k v' l) + svweight v = svsum l + svweight v'.
Proof. revert k; induction l as [|x l IH]; intros [|k] H; cbn in *; try discriminate; [injection H as ->; lia|]. specialize (IH _ H). lia. Qed.
Lemma told_step old ctx v v' o : sv_step old ctx false v v' o -> told v' = told v.
Proof.
  intros T. inversion T as [b g g' o' T' D L|C|b w w' T' D]; subst; unfold told; cbn [sv_tell].
  - destruct (g_done_step _ _ T') as [E _]. destruct g as [? ? ? ? d ? ? ? ?], g' as [? ? ? ? d' ? ? ? ?]. cbn in E. subst. destruct d; reflexivity.
  - reflexivity.
  - assert (E : v_done w' = v_done w) by (inversion T'; subst; auto; destruct old; auto). destruct w as [? ? ? ? ? ? d ? ? ? ?], w' as [? ? ? ? ? ? d' ? ? ? ?]. cbn in E. subst. destruct d; reflexivity.
Qed.
Lemma svweight_step old ctx v v' o : sv_step old ctx false v v' o -> svweight v' < svweight v.
Proof.
  intros T. unfold svweight. rewrite (told_step _ _ _ _ _ T). inversion T as [b g g' o' T' D L|C|b w w' T' D]; subst.
  - apply gweight_step in T'. lia.
  - lia.
  - apply vweight_step in T'. lia.
Qed.
Lemma svweight_tell v v' : sv_tell v = Some v' -> svweight v' < svweight v.
Proof.
  unfold svweight, told. destruct v as [g| |v]; cbn [sv_tell]; [|discriminate|].
  - destruct g as [m a cs o d s x f l]. destruct d; [discriminate|]. intros E. injection E as <-. cbn [sv_tell]. unfold gweight. cbn [g_main g_acc g_conns]. lia.
  - destruct v as [m w cs o t h d x k f r]. destruct d; [discriminate|]. intros E. injection E as <-. cbn [sv_tell]. unfold vweight. cbn [v_main v_watch v_conns]. lia.
Qed.
Lemma pweight_step old s s' : p_step old false s s' -> pweight_ s' < pweight_ s.
Proof.
  intros T. inversion T; subst; unfold pweight_, with_value, with_inner in *; cbn [p_r p_sv].
  - match goal with A : nth_error _ _ = Some _, B : sv_tell _ = _ |- _ => pose proof (svsum_set _ _ _ v' A); apply svweight_tell in B end. lia.
  - match goal with A : nth_error _ _ = Some _, B : sv_step _ _ _ _ _ _ |- _ => pose proof (svsum_set _ _ _ v' A); apply svweight_step in B end. lia.
  - match goal with A : nth_error _ _ = Some _, B : sv_step _ _ _ _ _ _ |- _ => pose proof (svsum_set _ _ _ v' A); apply svweight_step in B end.
    unfold rweight in *. cbn [outer inner ph]. lia.
  - match goal with A : nth_error (l_tasks _) _ = Some TRun |- _ => pose proof (lweight_step _ _ (ls_return _ _ e A)) end.
    unfold rweight. cbn [outer inner ph]. lia.
  - match goal with A : l_step _ _ |- _ => apply lweight_step in A end. unfold rweight. cbn [outer inner ph]. lia.
  - match goal with A : r_step _ _ |- _ => apply (proj1 C60_terminates) in A end.
    match goal with A : _ \/ _ |- _ => destruct A as [A|(_ & _ & A)] end; [lia|congruence].
Qed.
Lemma sig_step old s s' : p_step old false s s' -> p_sig s' = p_sig s.
Proof. intros T. inversion T; subst; reflexivity. Qed.

Lemma p_progress svs s : pinv false svs s -> p_sig s = true -> ph (p_r s) = PServices -> exists s', p_step false false s s'.
Proof.
  intros I S P. assert (C : p_ctx s = true) by (unfold p_ctx; rewrite S; now rewrite orb_true_r).
  destruct (r_inv _ _ (pi_r _ _ _ I)) as [_ B _ _ _]. pose proof (laun_reach _ _ B) as La.
  destruct (In_dec (fun x y : task => ltac:(decide equality; decide equality; apply Z.eq_dec)) TRun (l_tasks (inner (p_r s)))) as [Hin|Hn].
  - apply In_nth_error in Hin as [k K].
    destruct (nth_error (p_sv s) k) as [v|] eqn:V.
    2:{ exfalso. apply nth_error_None in V. destruct La as [L _ _]. rewrite (pi_len _ _ _ I) in V.
        assert (k < List.length (l_tasks (inner (p_r s)))) by (apply nth_error_Some; congruence). lia. }
    destruct (sv_result v) as [e|] eqn:E; [eexists; eapply ps_return; eauto|].
    destruct (sv_tell v) as [v'|] eqn:Te; [eexists; eapply ps_tell; eauto|].
    pose proof (pi_ok _ _ _ I k v V) as O. destruct v as [g|r|v]; cbn in E, O.
    + destruct (g_progress g (ginv_reach g O)) as [g' T].
      * destruct g as [m a cs o d st x f l]. cbn in *. destruct d; [reflexivity|discriminate].
      * intros e X. rewrite X in E. discriminate.
      * assert (L : exists o, g_log g' = g_log g ++ match o with Some x => [x] | None => [] end).
        { inversion T; subst; cbn [g_log]; try (exists None; now rewrite app_nil_r).
          destruct t; [exists (Some (n, l0)); reflexivity|exists None; now rewrite app_nil_r]. }
        destruct L as [[[n t]|] L].
        { eexists. eapply ps_line; [exact V|]. eapply svs_listener; eauto. }
        { eexists. eapply ps_quiet; [exact V|]. eapply svs_listener; eauto. }
    + destruct r; [discriminate|]. eexists. eapply ps_quiet; [exact V|]. now apply svs_dumper.
    + destruct (C79_returns false v O) as [_ Pr].
      * destruct v as [m w cs o t h d x kk f r]. cbn in *. destruct d; [reflexivity|discriminate].
      * now left.
      * destruct (Pr 0 v (vr_refl _ _)) as [[e X]|[v' T]].
        { unfold server_returned in X. rewrite X in E. discriminate. }
        eexists. eapply ps_quiet; [exact V|]. eapply svs_api; eauto.
  - assert (Hr : forall k, nth_error (l_tasks (inner (p_r s))) k <> Some TRun) by (intros k X; apply Hn; eapply nth_error_In; eauto).
    destruct (l_main (inner (p_r s))) as [k|e|e|e] eqn:M.
    4:{ destruct e as [e|].
        - eexists. eapply ps_after; [exact P|eapply rs_fail; eauto|discriminate].
        - eexists. eapply ps_after; [exact P|eapply rs_dump; eauto|discriminate]. }
    all: destruct (launch_progress _ _ La Hr) as [i T]; [congruence|]; eexists; eapply ps_inner; [exact T|];
      intros j X; exfalso; eapply Hr; eauto.
Qed.
Lemma failed_step s s' : p_step false false s s' -> map sv_failed (p_sv s') = map sv_failed (p_sv s).
Proof.
  assert (K : forall l k v v', nth_error l k = Some v -> sv_failed v' = sv_failed v -> map sv_failed (set_nth k v' l) = map sv_failed l).
  { induction l as [|x l IH]; intros [|k] v v' H E; cbn in *; try discriminate; [injection H as ->; now rewrite E|]. now rewrite (IH k v v'). }
  intros T. inversion T; subst; cbn [p_sv]; try reflexivity.
  - eapply K; [eassumption|]. destruct v as [g| |v]; cbn in *; try discriminate.
    + destruct g as [m a cs o d st x f l]. destruct d; [discriminate|]. injection H1 as <-. reflexivity.
    + destruct v as [m w cs o t h d x kk f r]. destruct d; [discriminate|]. injection H1 as <-. reflexivity.
  - eapply K; [eassumption|]. inversion H0; subst; cbn; try reflexivity.
    + apply g_done_step. assumption.
    + match goal with A : v_step _ _ _ _ |- _ => inversion A; subst; reflexivity end.
  - eapply K; [eassumption|]. inversion H0; subst; cbn; try reflexivity. apply g_done_step. assumption.
Qed.

(** after a SIGINT the services are stopped by steps of the program alone, in a bounded
    number of steps in every schedule; and if none of them has failed the last dump
    begins *)
Theorem C80_sigint : forall svs s, Forall (fun v => sv_start v = true) svs -> p_reach false svs s -> p_sig s = true ->
  (exists bound, forall n t, p_runs false n s t -> n <= bound) /\
  (forall n t, p_runs false n s t -> ph (p_r t) <> PServices \/ exists u, p_step false false t u) /\
  (Forall (fun v => sv_failed v = false) (p_sv s) -> forall n t e, p_runs false n s t -> ph (p_r t) = PRet e -> e = None).
Proof.
  intros svs s F R S.
  assert (K : forall n s t, p_runs false n s t -> p_reach false svs s ->
    p_reach false svs t /\ p_sig t = p_sig s /\ n + pweight_ t <= pweight_ s /\ map sv_failed (p_sv t) = map sv_failed (p_sv s)).
  { induction 1 as [|n a b c T G IH]; intros Ra; [auto|]. destruct IH as (A & B & C & D); [econstructor; eauto|].
    rewrite (sig_step _ _ _ T) in B. rewrite (failed_step _ _ T) in D. apply pweight_step in T. repeat split; auto. lia. }
  repeat split.
  - exists (pweight_ s). intros n t H. destruct (K _ _ _ H R) as (_ & _ & X & _). lia.
  - intros n t H. destruct (K _ _ _ H R) as (A & B & _). destruct (ph (p_r t)) eqn:P; [right|left; discriminate..].
    eapply p_progress with (svs := svs); [now apply pinv_reach|congruence|exact P].
  - intros NF n t e H P. destruct (K _ _ _ H R) as (A & _ & _ & D). eapply C80_last_dump; eauto.
    apply Forall_forall. intros v Hv. rewrite Forall_forall in NF.
    assert (X : In (sv_failed v) (map sv_failed (p_sv s))) by (rewrite <- D; now apply in_map).
    apply in_map_iff in X as (w & <- & Hw). auto.
Qed.
Print Assumptions C80_sigint.

(** ** until then *)
(** a service has been told to stop *)
Definition sv_told (v : service) : bool :=
  match v with SvListener g => g_done g | SvDumper r => r | SvApi v => v_done v end.
Lemma untold_result v : sv_ok false v -> sv_failed v = false -> sv_told v = false -> sv_result v = None.
Proof.
  destruct v as [g|r|v]; cbn; intros O F D.
  - destruct (g_main g) eqn:M; try reflexivity. pose proof (C78_result g e O M) as X. destruct e; congruence.
  - now rewrite D.
  - destruct (v_main v) eqn:M; try reflexivity. pose proof (C79_result false v e O M) as X. destruct e; [destruct X as [X|[X _]]; congruence|congruence].
Qed.
Lemma failed_kept ctx b v v' o : sv_step false ctx b v v' o -> sv_failed v' = false -> sv_failed v = false.
Proof.
  intros T. destruct T as [b g g' o T _ _|C|b v v' T _]; cbn; auto.
  - destruct T; cbn; auto; discriminate.
  - destruct T; cbn; auto; discriminate.
Qed.
Lemma tell_failed v v' : sv_tell v = Some v' -> sv_failed v' = sv_failed v.
Proof.
  destruct v as [g| |v]; cbn; [|discriminate|].
  - destruct g as [m a cs o d s x f l]. destruct d; [discriminate|]. intros E. injection E as <-. reflexivity.
  - destruct v as [m w cs o t h d x k f r]. destruct d; [discriminate|]. intros E. injection E as <-. reflexivity.
Qed.
Lemma untold_step b v v' o : sv_step false false b v v' o -> sv_told v = false -> sv_told v' = false.
Proof.
  intros T D. destruct T as [b g g' o T K _|C|b v v' T K]; cbn in *; [|discriminate|].
  - destruct (g_done g'); [|reflexivity]. destruct K; [reflexivity|congruence..].
  - destruct (v_done v'); [|reflexivity]. destruct K; [reflexivity|congruence..].
Qed.
Lemma forall_set {A} (P : A -> Prop) l k v v' : nth_error l k = Some v -> Forall P (set_nth k v' l) -> P v' /\ (P v -> Forall P l).
Proof.
  revert k. induction l as [|x l IH]; intros [|k] E F; cbn in *; try discriminate.
  - injection E as ->. inversion F; subst. auto.
  - inversion F; subst. destruct (IH _ E H2) as [A1 A2]. split; [exact A1|]. auto.
Qed.
Lemma forall_set_in {A} (P : A -> Prop) l k v' : Forall P l -> P v' -> Forall P (set_nth k v' l).
Proof. intros F H. revert k. induction F; intros [|k]; cbn; constructor; auto. Qed.
Lemma db_runs r r' : r_step r r' -> nth_error (l_tasks (outer r')) 1 = Some TRun -> nth_error (l_tasks (outer r)) 1 = Some TRun.
Proof.
  intros T. destruct T as [s i P T|s k v P K|s k P K|s e P M|s P M|s P|s P|s a b P Q R|s o Z0 T|s e P Q]; cbn [outer]; auto.
  - destruct T; unfold ltask; cbn [l_tasks]; auto; intros X; apply nth_error_set in X as [[_ X]|[_ X]]; congruence.
  - unfold ltask. cbn [l_tasks]. intros X. apply nth_error_set in X as [[_ X]|[_ X]]; congruence.
Qed.
(** nothing was told to stop: nobody returned *)
Lemma untold_runs svs s : pinv false svs s -> svs <> [] -> p_sig s = false -> Forall (fun v => sv_failed v = false) (p_sv s) ->
  ~ db_returned (p_r s) -> Forall (fun v => sv_told v = false) (p_sv s) ->
  Forall (fun v => sv_result v = None) (p_sv s) /\ ph (p_r s) = PServices /\ p_ctx s = false.
Proof.
  intros I N S F D U.
  assert (A : Forall (fun v => sv_result v = None) (p_sv s)).
  { rewrite Forall_forall in *. intros v V. apply untold_result; auto. apply In_nth_error in V as [k V]. eapply pi_ok; eauto. }
  assert (T : forall k v, nth_error (p_sv s) k = Some v -> nth_error (l_tasks (inner (p_r s))) k = Some TRun).
  { intros k v V. eapply unreturned; eauto. rewrite Forall_forall in A. apply A. eapply nth_error_In; eauto. }
  assert (P : ph (p_r s) = PServices).
  { destruct (p_sv s) as [|v l] eqn:E; [pose proof (pi_len _ _ _ I) as L; rewrite E in L; destruct svs; [congruence|discriminate]|].
    eapply running; [apply (pi_r _ _ _ I)|]. eapply (T 0). reflexivity. }
  split; [exact A|]. split; [exact P|]. unfold p_ctx. rewrite S.
  assert (O : l_cancelled (outer (p_r s)) = false).
  { destruct (l_cancelled (outer (p_r s))) eqn:C; [|reflexivity]. exfalso. apply D. eapply (C60_database_kept _ _ (pi_r _ _ _ I)); [intros e; congruence|exact C]. }
  rewrite O. destruct (l_cancelled (inner (p_r s))) eqn:C; [|reflexivity]. exfalso.
  destruct (r_inv _ _ (pi_r _ _ _ I)) as [_ B _ _ _].
  assert (List.length svs <> 0) by (destruct svs; [congruence|discriminate]).
  pose proof (cancelled_sent _ _ H B C) as X. destruct (l_sent (inner (p_r s))) as [|e l] eqn:E; [congruence|].
  destruct (pi_sent _ _ _ I e) as (k & v & V & R); [rewrite E; now left|].
  rewrite Forall_forall in A. rewrite (A v) in R; [discriminate|]. eapply nth_error_In; eauto.
Qed.
Lemma untold_reach svs s : svs <> [] -> Forall (fun v => sv_start v = true) svs -> p_reach false svs s ->
  p_sig s = false -> Forall (fun v => sv_failed v = false) (p_sv s) -> ~ db_returned (p_r s) ->
  Forall (fun v => sv_told v = false) (p_sv s).
Proof.
  intros N St. induction 1 as [|b s s' R IH T]; intros S F D.
  - cbn. eapply Forall_impl; [|exact St]. intros v. destruct v as [g|r|v]; cbn.
    + destruct g as [m a cs o d st x f l]. destruct m, a, cs, o, d, st, x, f, l; try discriminate. reflexivity.
    + destruct r; [discriminate|reflexivity].
    + destruct v as [m w cs o t h d x k f r]. destruct m, w, cs, o, t, h, d, x, k, f, r; try discriminate. reflexivity.
  - pose proof (pinv_reach false svs s St R) as I.
    assert (Db : forall r, r_step (p_r s) r -> ~ db_returned r -> ~ db_returned (p_r s)).
    { intros r X Y Z. apply Y. intros W. apply Z. eapply db_runs; eauto. }
    inversion T; subst; cbn [p_sig p_sv p_r] in *; try discriminate.
    + destruct (forall_set _ _ _ _ _ H F) as [F1 F2]. rewrite (tell_failed _ _ H1) in F1. specialize (F2 F1).
      destruct (untold_runs svs s I N S F2 D (IH S F2 D)) as (_ & _ & C). congruence.
    + destruct (forall_set _ _ _ _ _ H F) as [F1 F2]. specialize (F2 (failed_kept _ _ _ _ _ H0 F1)).
      pose proof (IH S F2 D) as U. destruct (untold_runs svs s I N S F2 D U) as (_ & _ & C). rewrite C in H0.
      apply forall_set_in; [exact U|]. eapply untold_step; eauto. rewrite Forall_forall in U. apply U. eapply nth_error_In; eauto.
    + destruct (forall_set _ _ _ _ _ H F) as [F1 F2]. specialize (F2 (failed_kept _ _ _ _ _ H0 F1)). specialize (IH S F2 D).
      destruct (untold_runs svs s I N S F2 D IH) as (_ & _ & C). rewrite C in H0.
      apply forall_set_in; [exact IH|]. eapply untold_step; eauto. rewrite Forall_forall in IH. apply IH. eapply nth_error_In; eauto.
    + auto.
    + auto.
    + auto.
    + eauto.
    + eauto.
Qed.
(** As long as there was no SIGINT, nothing failed in a service and the database runs,
    the process runs: no service has returned, the last dump has not begun and run has
    not returned. *)
Theorem C80_stays_up : forall svs s, svs <> [] -> Forall (fun v => sv_start v = true) svs -> p_reach false svs s ->
  p_sig s = false -> Forall (fun v => sv_failed v = false) (p_sv s) -> ~ db_returned (p_r s) ->
  Forall (fun v => sv_result v = None) (p_sv s) /\ ph (p_r s) = PServices /\ forall e, ~ run_returned (p_r s) e.
Proof.
  intros svs s N St R S F D. pose proof (untold_reach svs s N St R S F D) as U. pose proof (pinv_reach false svs s St R) as I.
  destruct (untold_runs svs s I N S F D U) as (A & B & _). split; [exact A|]. split; [exact B|].
  intros e H. destruct (C60_returns _ _ e (pi_r _ _ _ I) H) as (_ & _ & e0 & X & _). congruence.
Qed.
Print Assumptions C80_stays_up.

(** ** runs *)
Lemma pnext old svs b s t : p_reach old svs s -> p_step old b s t -> p_reach old svs t.
Proof. intros; econstructor; eauto. Qed.
(** the listener (service 0) makes a step *)
Ltac lis H t := eapply pnext in H; [|eapply ps_quiet with (k := 0); [reflexivity|eapply svs_listener;
  [eapply t; try reflexivity; try discriminate; try (repeat constructor)|cbn; (now left) || (now right) || (intros; discriminate)|cbn; reflexivity]]]; cbn in H.
Ltac con H t := eapply pnext in H; [|eapply ps_quiet with (k := 0); [reflexivity|eapply svs_listener;
  [eapply gs_conn with (n := 0); [reflexivity|eapply t; try reflexivity; try discriminate]|cbn; (now left) || (now right) || (intros; discriminate)|cbn; reflexivity]]]; cbn in H.
Ltac line H := eapply pnext in H; [|eapply ps_line with (k := 0); [reflexivity|eapply svs_listener;
  [eapply gs_conn with (n := 0); [reflexivity|eapply cs_line]|cbn; (now left) || (now right) || (intros; discriminate)|cbn; reflexivity]]]; cbn in H.
Ltac inl H t := eapply pnext in H; [|eapply ps_inner; [eapply t; (reflexivity || (cbn; lia) || (repeat constructor))|
  cbn; intros [|[|[|k]]]; cbn; intros; (discriminate || assumption || reflexivity)]]; cbn in H.
Definition ex_svs : list service := [SvListener g_init; SvDumper false].
Definition ex_sent : list Z := bytes_of "a 1 5" ++ [10%Z].
(** a client sends a line; SIGINT; the line is in the database when run returns nil *)
Example C80_ex : exists s, Forall (fun v => sv_start v = true) ex_svs /\ p_reach false ex_svs s /\ run_returned (p_r s) None /\
  cut (p_r s) = false /\ lines_stored s = [(0, 0, bytes_of "a 1 5")].
Proof.
  pose proof (p_reach_init false ex_svs) as H. unfold ex_svs, p_init, g_init in H. cbn in H.
  lis H gs_listen. lis H gs_accept. con H (fun st => cs_data st k_new [] [] false ex_sent). vm_compute in H.
  con H cs_scan. line H.
  eapply pnext in H; [|eapply ps_sig]. cbn in H.
  eapply pnext in H; [|eapply ps_tell with (k := 0); reflexivity]. cbn in H.
  lis H gs_select_done. lis H gs_close. lis H (fun m => gs_accept_closed m 7%Z). lis H gs_acc_cancel.
  con H cs_close. con H cs_cut. con H cs_end. con H cs_cancel. con H cs_done.
  lis H gs_acc_wait. lis H gs_acc_send. lis H gs_acc_done. lis H gs_wait.
  eapply pnext in H; [|eapply ps_return with (k := 0); reflexivity]. cbn in H.
  eapply pnext in H; [|eapply ps_quiet with (k := 1); [reflexivity|eapply svs_dumper; reflexivity]]. cbn in H.
  eapply pnext in H; [|eapply ps_return with (k := 1); reflexivity]. cbn in H.
  inl H (fun s => ls_send s 0 None). inl H (fun s => ls_send s 1 None). inl H (fun s => ls_done s 0). inl H (fun s => ls_done s 1).
  inl H (fun s => ls_recv_nil s 1 [None]). inl H (fun s => ls_recv_nil s 0 []). inl H ls_loop_end. inl H (fun s => ls_cancel s None). inl H (fun s => ls_wait s None).
  eapply pnext in H; [|eapply ps_after; [reflexivity|eapply rs_dump; reflexivity|discriminate]]. cbn in H.
  Ltac rest H t := eapply pnext in H; [|eapply ps_rest; [eapply t|reflexivity|reflexivity|discriminate]]; cbn in H.
  eapply pnext in H; [|eapply ps_rest; [eapply rs_dumped; reflexivity|reflexivity|reflexivity|discriminate]]. cbn in H.
  eapply pnext in H; [|eapply ps_rest; [eapply rs_return; reflexivity|reflexivity|reflexivity|discriminate]]. cbn in H.
  Ltac ro H t := eapply pnext in H; [|eapply ps_rest; [eapply rs_outer; [|eapply t; (reflexivity || (cbn; lia) || (repeat constructor))]; cbn; (reflexivity || discriminate || auto)|reflexivity|reflexivity|discriminate]]; cbn in H.
  ro H (fun s => ls_send s 0 None). ro H (fun s => ls_recv_nil s 1 []). ro H (fun s => ls_done s 0).
  ro H (fun s => ls_return s 1 None). ro H (fun s => ls_send s 1 None). ro H (fun s => ls_done s 1).
  ro H (fun s => ls_recv_nil s 0 []). ro H ls_loop_end. ro H (fun s => ls_cancel s None). ro H (fun s => ls_wait s None).
  eexists. split; [repeat constructor|]. split; [exact H|]. repeat split.
Qed.

(** such a state: a client has sent a line, which was given to the writer *)
Example C80_up_ex : exists s, p_reach false ex_svs s /\ p_sig s = false /\ Forall (fun v => sv_failed v = false) (p_sv s) /\ ~ db_returned (p_r s) /\
  p_lines s = [(0, 0, bytes_of "a 1 5")].
Proof.
  pose proof (p_reach_init false ex_svs) as H. unfold ex_svs, p_init, g_init in H. cbn in H.
  lis H gs_listen. lis H gs_accept. con H (fun st => cs_data st k_new [] [] false ex_sent). vm_compute in H.
  con H cs_scan. line H.
  eexists. split; [exact H|]. split; [reflexivity|]. split; [repeat constructor|]. split; [|reflexivity]. intros X. now apply X.
Qed.

(** REFUTED: accepted lines always get into the database when the process ends by
    itself.  One failing accept of a listener ends the process without a last dump. *)
Theorem C80_accept_error_loses_refuted : exists s e, p_reach false ex_svs s /\ run_returned (p_r s) (Some e) /\
  p_sig s = false /\ p_lines s = [(0, 0, bytes_of "a 1 5")] /\ lines_stored s = [].
Proof.
  pose proof (p_reach_init false ex_svs) as H. unfold ex_svs, p_init, g_init in H. cbn in H.
  lis H gs_listen. lis H gs_accept. con H (fun st => cs_data st k_new [] [] false ex_sent). vm_compute in H.
  con H cs_scan. line H.
  lis H (fun m => gs_accept_fail m 7%Z). lis H gs_acc_cancel.
  con H cs_close. con H cs_cut. con H cs_end. con H cs_cancel. con H cs_done.
  lis H gs_acc_wait. lis H gs_acc_send. lis H gs_select_err.
  eapply pnext in H; [|eapply ps_return with (k := 0); reflexivity]. cbn in H.
  inl H (fun s => ls_send s 0 (Some 7%Z)). inl H (fun s => ls_recv_err s 1 7%Z []). inl H (fun s => ls_cancel s (Some 7%Z)). inl H (fun s => ls_done s 0).
  eapply pnext in H; [|eapply ps_quiet with (k := 1); [reflexivity|eapply svs_dumper; reflexivity]]. cbn in H.
  eapply pnext in H; [|eapply ps_return with (k := 1); reflexivity]. cbn in H.
  inl H (fun s => ls_send s 1 None). inl H (fun s => ls_done s 1). inl H (fun s => ls_wait s (Some 7%Z)).
  eapply pnext in H; [|eapply ps_after; [reflexivity|eapply rs_fail; reflexivity|discriminate]]. cbn in H.
  eapply pnext in H; [|eapply ps_rest; [eapply rs_return; reflexivity|reflexivity|reflexivity|discriminate]]. cbn in H.
  ro H (fun s => ls_send s 0 (Some 7%Z)). ro H (fun s => ls_recv_err s 1 7%Z []). ro H (fun s => ls_cancel s (Some 7%Z)). ro H (fun s => ls_done s 0).
  ro H (fun s => ls_return s 1 None). ro H (fun s => ls_send s 1 None). ro H (fun s => ls_done s 1). ro H (fun s => ls_wait s (Some 7%Z)).
  eexists _, 7%Z. split; [exact H|]. repeat split.
Qed.
Print Assumptions C80_accept_error_loses_refuted.
