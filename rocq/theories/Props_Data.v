(** Properties C35-C37 and C51: observations on their way to the database. *)
From Coq Require Import ZArith List Lia Bool Permutation.
From Verif Require Import Base Maps Cache LockPoolProofs QueueProofs Pb PbRecord Float FloatProofs Agg AggSpec AggProofs Writer WriterSpec WriterProofs
  WriterConc WriterConcProofs Dump DumpProofs.
Import ListNotations.
Open Scope Z_scope.

(** float64 bits of 3, 5, 1 and NaN *)
Definition f3 : Z := 0x4008000000000000.
Definition f5 : Z := 0x4014000000000000.
Definition f1 : Z := 0x3FF0000000000000.
Definition fNaN : Z := 0x7FF8000000000001.
(** a distribution whose bytes are the observed values themselves *)
Definition ex_params : params := Params [102] true (fun vs => vs).
Lemma fin3 : finite f3. Proof. repeat split; vm_compute; congruence. Qed.
Lemma fin5 : finite f5. Proof. repeat split; vm_compute; congruence. Qed.
Lemma fin1 : finite f1. Proof. repeat split; vm_compute; congruence. Qed.

(** * C35 *)
(** Every Capture of every history: no metric twice; each record delivered
    describes exactly the finite values added to its metric since the previous
    Capture, over a window that starts where the previous one ended; and when
    no callback stops the iteration every metric with such values is
    delivered. *)
Theorem C35_capture_partial :
  forall p h s now recs full s',
  p_new p = true -> hist_fits h -> hist_floats h ->
  w_hist p h s -> w_step p s (ECapture now recs full) s' ->
  NoDup (map fst recs) /\
  (forall m r, In (m, r) recs -> exists b, boundary h = Some b /\ describes p b now (pending m h) r) /\
  (full = true -> forall m, pending m h <> [] -> exists r, In (m, r) recs).
Proof. intros p h s now recs full s' Hp Hn Hf H St. eapply capture_facts; eauto. Qed.
(** Over a whole history in which no callback stopped a Capture: the counts
    captured for a metric and the values still pending add up to the finite
    values added: each is captured exactly once. *)
Theorem C35_each_value_once_partial :
  forall p h s m,
  p_new p = true -> hist_fits h -> hist_floats h -> all_full h -> w_hist p h s ->
  captured_obs m h + Z.of_nat (length (pending m h)) = Z.of_nat (length (added m h)).
Proof. intros p h s m Hp Hn Hf Ha H. eapply captured_once; eauto. Qed.
(** every call of every history returns *)
Theorem C35_calls_return_partial :
  forall p h s, p_new p = true -> w_hist p h s -> hist_floats h -> Z.of_nat (length h) + 1 < 2 ^ 63 ->
  (forall now m v id, is_f64 v -> exists s', w_step p s (EAdd now m v id) s') /\
  (forall now ord vis full, visited s ord vis full -> exists recs, w_step p s (ECapture now recs full) (w_capture now s)
                                                /\ w_step p s (EIterate now recs full) s).
Proof. exact step_total. Qed.
(** When params.New fails (a t-digest configured without compression) the
    property fails: the value added is lost with the mutex held, the second Add
    of the metric and every Capture hang. *)
Theorem C35_broken_params_refuted :
  exists p s1, p_new p = false /\ w_step p w_new (EAdd 10 [109] f3 [1]) s1 /\
  w_add p 11 [109] f5 [2] s1 = Diverge /\ w_range p 12 (w_entries s1) = Diverge.
Proof.
  exists (Params [102] false (fun vs => vs)). eexists. split; [reflexivity|]. split; [constructor; vm_compute; reflexivity|].
  split; vm_compute; reflexivity.
Qed.
(** and when a callback stops a Capture the records not visited are dropped:
    they appear in no later Capture *)
Theorem C35_stopped_capture_refuted :
  exists h s, w_hist ex_params h s /\ hist_floats h /\
  added [109] h = [(f3, [1])] /\ pending [109] h = [] /\ captured_obs [109] h = 0.
Proof.
  eexists. eexists. split.
  { eapply (wh_step _ [EAdd 10 [109] f3 [1]] _ (ECapture 12 [] false)).
    - apply (wh_step _ [] _ (EAdd 10 [109] f3 [1]) _ (wh_nil _)). constructor. vm_compute. reflexivity.
    - eapply ws_capture with (vis := []); [|reflexivity]. split; [reflexivity|]. exists 0%nat. reflexivity. }
  split.
  { intros t m v id [H|[H|[]]]; [|discriminate]. injection H as <- <- <- <-. apply fin3. }
  repeat split.
Qed.
Print Assumptions C35_capture_partial.
Print Assumptions C35_each_value_once_partial.
Print Assumptions C35_calls_return_partial.
Print Assumptions C35_broken_params_refuted.
Print Assumptions C35_stopped_capture_refuted.

(** a history: two values for one metric, a NaN, another metric, a Capture, one
    more value, a second Capture *)
Definition ex_h1 : list wevent := [EAdd 10 [109] f3 [1]; EAdd 11 [109] f5 [2]; EAdd 12 [109] fNaN [9]; EAdd 13 [110] f1 [3]].
Definition ex_r1 := [([110], DRec 10 20 1 [f1] [102] f1 f1 [3] [3] 1); ([109], DRec 10 20 2 [f3; f5] [102] f3 f5 [1] [2] 1)].
Definition ex_h2 : list wevent := ex_h1 ++ [ECapture 20 ex_r1 true; EAdd 25 [109] f1 []].
Definition ex_r2 := [([109], DRec 20 30 1 [f1] [102] f1 f1 [] [] 1)].
Lemma hist_add p h s now m v id s' : w_hist p h s -> w_add p now m v id s = Ok s' -> w_hist p (h ++ [EAdd now m v id]) s'.
Proof. intros H E. econstructor; [exact H|]. now constructor. Qed.
Lemma hist_capture p h s now recs : w_hist p h s -> w_range p now (w_entries s) = Ok recs ->
  w_hist p (h ++ [ECapture now recs true]) (w_capture now s).
Proof. intros H E. econstructor; [exact H|]. econstructor; [|exact E]. split; reflexivity. Qed.
Example C35_example :
  exists s, w_hist ex_params (ex_h2 ++ [ECapture 30 ex_r2 true]) s /\
  pending [109] ex_h1 = [(f3, [1]); (f5, [2])] /\ boundary ex_h1 = Some 10 /\
  pending [109] ex_h2 = [(f1, [])] /\ boundary ex_h2 = Some 20 /\ pending [110] ex_h2 = [] /\
  hist_floats ex_h2 /\ hist_fits ex_h2 /\ all_full ex_h2.
Proof.
  pose proof (wh_nil ex_params) as H.
  eapply (hist_add _ _ _ 10 [109] f3 [1]) in H; [|vm_compute; reflexivity].
  eapply (hist_add _ _ _ 11 [109] f5 [2]) in H; [|vm_compute; reflexivity].
  eapply (hist_add _ _ _ 12 [109] fNaN [9]) in H; [|vm_compute; reflexivity].
  eapply (hist_add _ _ _ 13 [110] f1 [3]) in H; [|vm_compute; reflexivity].
  eapply (hist_capture _ _ _ 20 ex_r1) in H; [|vm_compute; reflexivity]. cbn [w_capture] in H.
  eapply (hist_add _ _ _ 25 [109] f1 []) in H; [|vm_compute; reflexivity].
  eapply (hist_capture _ _ _ 30 ex_r2) in H; [|vm_compute; reflexivity].
  eexists. split; [exact H|]. clear H.
  do 5 (split; [vm_compute; reflexivity|]). split.
  { intros t m v id H. unfold ex_h2, ex_h1 in H. cbn [app In] in H.
    repeat (destruct H as [H|H]; [try discriminate H; injection H as <- <- <- <-; unfold is_f64, f3, f5, f1, fNaN; lia|]). destruct H. }
  split; [unfold hist_fits; cbn; lia|]. intros now recs H. unfold ex_h2, ex_h1 in H. cbn [app In] in H.
  repeat (destruct H as [H|H]; [discriminate H|]). destruct H.
Qed.

(** * C36 *)
(** one observation after another *)
Theorem C36_sequential :
  forall p now t log a,
  p_new p = true -> log <> [] -> Forall (fun x => finite (fst x)) log -> Z.of_nat (length log) < 2 ^ 63 ->
  agg_run p log (agg_new now) = Ok a ->
  exists r, agg_finish p t a = Ok r /\ reports r log /\ d_start r = now /\ d_end r = t /\
            d_dist r = p_marshal p (map fst log) /\ d_merged r = 1.
Proof.
  intros p now t log a Hp Hne Hf Hn E.
  destruct (aok_run p now Hp log [] (agg_new now) (aok_new p now) Hf Hn) as (a' & E' & H). cbn in H.
  rewrite E in E'. injection E' as <-. destruct (finish_ok p t _ _ _ H Hne) as (r & R1 & R2).
  exists r. split; [assumption|]. destruct R2 as (A & B & C & D & _ & F). auto.
Qed.
(** and the observations never block or fail *)
Theorem C36_sequential_total :
  forall p now log, p_new p = true -> Forall (fun x => finite (fst x)) log -> Z.of_nat (length log) < 2 ^ 63 ->
  exists a, agg_run p log (agg_new now) = Ok a.
Proof. intros p now log Hp Hf Hn. destruct (aok_run p now Hp log [] (agg_new now) (aok_new p now) Hf Hn) as (a & E & _). eauto. Qed.
(** Concurrent observers, every schedule: the count is always exact, the sketch
    has observed exactly the values, and once no call is running the min and
    max reported were observed under the ids reported. *)
Theorem C36_concurrent_partial :
  forall p now k s, p_new p = true -> o_reach p (o_init (agg_new now) k []) s -> Z.of_nat (length (o_log s)) < 2 ^ 63 ->
  d_obs (a_rec (o_agg s)) = Z.of_nat (length (o_log s)) /\
  (o_log s <> [] -> a_dist (o_agg s) = Some (map fst (o_log s))) /\
  (o_quiet s -> o_log s <> [] -> Permutation (o_log s) (o_ret s) /\
     In (d_min (a_rec (o_agg s)), d_minid (a_rec (o_agg s))) (o_log s) /\
     In (d_max (a_rec (o_agg s)), d_maxid (a_rec (o_agg s))) (o_log s)).
Proof.
  intros p now k s Hp H Hn.
  pose proof (oinv_reach p _ s Hp (oinv_init p _ k [] now Hp (aok_new p now) (Forall_nil _)) H) as I.
  split; [apply (oi_obs _ _ I Hn)|]. split.
  - intros Hne. rewrite (oi_dist _ _ I). destruct (o_log s); [contradiction|reflexivity].
  - intros Hq Hne. split.
    + pose proof (oi_perm _ _ I) as P. rewrite (quiet_pend _ Hq), app_nil_r in P. exact P.
    + destruct (oi_first _ _ I Hn) as [X|[(v & i & X)|X]]; [contradiction| |assumption].
      exfalso. unfold o_quiet in Hq. rewrite Forall_forall in Hq. specialize (Hq _ X). discriminate.
Qed.
(** When the first observation (or some first observations) completed before
    the others started, the min and max are exact: after every schedule no
    observation whose call has returned lies outside them, and once no call is
    running the aggregate reports exactly the observations made. *)
Theorem C36_concurrent_after_first_partial :
  forall p now k s log0 a, p_new p = true -> log0 <> [] -> Forall (fun x => finite (fst x)) log0 ->
  agg_run p log0 (agg_new now) = Ok a ->
  o_reach p (o_init a k log0) s -> Z.of_nat (length (o_log s)) < 2 ^ 63 ->
  (forall v i, In (v, i) (o_ret s) -> flt v (d_min (a_rec (o_agg s))) = false /\ flt (d_max (a_rec (o_agg s))) v = false) /\
  (o_quiet s -> reports (a_rec (o_agg s)) (o_log s) /\ Permutation (o_log s) (o_ret s)).
Proof.
  intros p now k s log0 a Hp Hne Hf E H Hn.
  assert (Hn0 : fits log0).
  { clear - H Hn. revert Hn. change (fits (o_log s) -> fits (o_log (o_init a k log0))).
    induction H as [|s s' n v id H IH Hv St]; [auto|]. intros X. apply IH. eapply o_log_grows; eauto. }
  destruct (aok_run p now Hp log0 [] (agg_new now) (aok_new p now) Hf Hn0) as (a' & E' & Ha). cbn in Ha.
  rewrite E in E'. injection E' as <-.
  pose proof (oinv_init p a k log0 now Hp Ha Hf) as I0.
  pose proof (oinv_reach p _ s Hp I0 H) as I.
  pose proof (oinv2_reach p _ s Hp I0 (oinv2_init p a k log0 now Ha Hne) H Hn) as J.
  split; [apply (o2_le _ J)|]. intros Hq.
  pose proof (oi_perm _ _ I) as P. rewrite (quiet_pend _ Hq), app_nil_r in P. split; [|exact P].
  split; [apply (oi_obs _ _ I Hn)|]. split; split.
  - apply (o2_min _ J).
  - intros w j Hw. rewrite P in Hw. apply (o2_le _ J w j Hw).
  - apply (o2_max _ J).
  - intros w j Hw. rewrite P in Hw. apply (o2_le _ J w j Hw).
Qed.
(** Two observers starting together: after both calls returned the aggregate
    reports minimum 5 although 3 was observed.  (The first observer holds a stale
    "no observations yet" and overwrites the other's update.) *)
Fixpoint o_exec (p : params) (sched : list (nat * Z * list Z)) (s : ostate) : option ostate :=
  match sched with
  | [] => Some s
  | (n, v, id) :: sched => match o_next p n v id s with Some s' => o_exec p sched s' | None => None end
  end.
Lemma o_exec_reach p s0 sched : forall s s', Forall (fun x => finite (snd (fst x))) sched ->
  o_reach p s0 s -> o_exec p sched s = Some s' -> o_reach p s0 s'.
Proof.
  induction sched as [|[[n v] id] sched IH]; intros s s' Hf H E; cbn in E; [now injection E as <-|].
  destruct (o_next p n v id s) as [s1|] eqn:E1; [|discriminate]. inversion Hf; subst.
  apply (IH s1 s'); [assumption| |exact E]. apply (o_reach_step p s0 s s1 n v id H H2 E1).
Qed.
Theorem C36_concurrent_refuted :
  exists s, o_reach ex_params (o_init (agg_new 10) 2 []) s /\ o_quiet s /\
  o_log s = [(f5, [50]); (f3, [51])] /\ d_min (a_rec (o_agg s)) = f5 /\ d_max (a_rec (o_agg s)) = f5 /\
  flt f3 f5 = true.
Proof.
  destruct (o_exec ex_params [(0%nat, f5, [50]); (1%nat, f3, [51]); (0%nat, f5, []); (1%nat, f5, []); (1%nat, f5, []); (0%nat, f5, [])]
              (o_init (agg_new 10) 2 [])) as [s|] eqn:E; [|vm_compute in E; discriminate].
  exists s. split; [eapply o_exec_reach; [|apply o_reach_init|exact E]; repeat constructor; first [apply fin5|apply fin3]|].
  vm_compute in E. injection E as <-. repeat split; try (vm_compute; reflexivity). repeat constructor.
Qed.
(** A capture between the two sections of the first Observe reports one
    observation, of value 5, with minimum and maximum 0. *)
Theorem C36_finish_between_sections_refuted :
  exists s r, o_reach ex_params (o_init (agg_new 10) 1 []) s /\ o_log s = [(f5, [50])] /\
  agg_finish ex_params 20 (o_agg s) = Ok r /\ d_obs r = 1 /\ d_min r = 0 /\ d_max r = 0.
Proof.
  destruct (o_exec ex_params [(0%nat, f5, [50]); (0%nat, f5, [])] (o_init (agg_new 10) 1 [])) as [s|] eqn:E; [|vm_compute in E; discriminate].
  exists s, (DRec 10 20 1 [f5] [102] 0 0 [] [] 1). split; [eapply o_exec_reach; [|apply o_reach_init|exact E]; repeat constructor; apply fin5|].
  vm_compute in E. injection E as <-. repeat split; vm_compute; reflexivity.
Qed.
Print Assumptions C36_sequential.
Print Assumptions C36_sequential_total.
Print Assumptions C36_concurrent_partial.
Print Assumptions C36_concurrent_after_first_partial.
Print Assumptions C36_concurrent_refuted.
Print Assumptions C36_finish_between_sections_refuted.

Example C36_sequential_example :
  exists a r, agg_run ex_params [(f3, [51]); (f5, [53]); (f1, [49])] (agg_new 10) = Ok a /\
  agg_finish ex_params 20 a = Ok r /\ d_obs r = 3 /\ d_min r = f1 /\ d_minid r = [49] /\ d_max r = f5 /\ d_maxid r = [53].
Proof. eexists. eexists. split; [vm_compute; reflexivity|]. split; [vm_compute; reflexivity|]. repeat split. Qed.
(** after a first observation of 3, observers of 5 and 1 overlap *)
Example C36_concurrent_example :
  exists a s, agg_run ex_params [(f3, [51])] (agg_new 10) = Ok a /\ o_reach ex_params (o_init a 2 [(f3, [51])]) s /\ o_quiet s /\
  o_log s = [(f3, [51]); (f5, [53]); (f1, [49])] /\ o_ret s = [(f3, [51]); (f1, [49]); (f5, [53])] /\
  d_min (a_rec (o_agg s)) = f1 /\ d_max (a_rec (o_agg s)) = f5.
Proof.
  eexists.
  destruct (o_exec ex_params [(0%nat, f5, [53]); (1%nat, f1, [49]); (0%nat, f5, []); (1%nat, f5, []); (1%nat, f5, []); (0%nat, f5, [])]
     (o_init (match agg_run ex_params [(f3, [51])] (agg_new 10) with Ok a => a | _ => agg_new 0 end) 2 [(f3, [51])])) as [s|] eqn:E; [|vm_compute in E; discriminate].
  exists s. split; [vm_compute; reflexivity|]. split; [eapply o_exec_reach; [|apply o_reach_init|exact E]; repeat constructor; first [apply fin5|apply fin1]|].
  vm_compute in E. injection E as <-. repeat split; try (vm_compute; reflexivity). repeat constructor.
Qed.

(** * C37 *)
(** When Dump has returned (and was not cancelled) it has queued each captured
    record exactly once, in order, with its serialized form; every callback has
    run, and the numbers reported count the results. *)
Theorem C37_dump_accounting :
  forall recs pool nbuf s writes skips errors,
  NoDup pool -> (forall b, In b pool -> (b < nbuf)%nat) ->
  d_reach recs pool nbuf s -> m_main s = DDone writes skips errors -> m_cancelled s = false ->
  m_queued s = map (fun mr => (fst mr, d_start (snd mr), d_end (snd mr), drec_marshal (snd mr))) recs /\
  length (m_results s) = length recs /\
  (forall c x, nth_error (m_calls s) c = Some x -> exists w e, x = DFinished w e) /\
  writes = Z.of_nat (length (filter (fun r => fst r) (m_results s))) /\
  skips = Z.of_nat (length (filter (fun r => negb (fst r)) (m_results s))) /\
  errors = Z.of_nat (length (filter (fun r => snd r) (m_results s))).
Proof.
  intros recs pool nbuf s writes skips errors H1 H2 H Em Ec. pose proof (dinv_reach _ _ _ _ H1 H2 H) as I.
  destruct (di_done _ _ I _ _ _ Em) as (W & -> & -> & ->).
  destruct (di_queued _ _ I) as (rest & Q1 & Q2). rewrite Em in Q2. rewrite (Q2 Ec), app_nil_r in Q1.
  assert (Hc : forall (f : bool * bool -> bool) l, sumz (fun r => b2z (f r)) l = Z.of_nat (length (filter f l))).
  { intros f l. induction l as [|x l IH]; [reflexivity|]. cbn [sumz filter]. rewrite IH. destruct (f x); cbn [b2z length]; lia. }
  split; [symmetry; exact Q1|]. split; [|split; [intros c x Hx; eapply wg_zero; eauto|]].
  - pose proof (di_run _ _ I) as R. assert (U : sumz unrun (m_calls s) = 0).
    { apply sumz_zero. intros x Hx. apply In_nth_error in Hx. destruct Hx as (c & Hx).
      destruct (wg_zero _ _ _ _ I W Hx) as (w & e & ->). reflexivity. }
    assert (L : len (m_queued s) = len recs) by (rewrite <- Q1; unfold len; now rewrite map_length).
    unfold len in *. lia.
  - rewrite (di_writes _ _ I). pose proof (di_skips _ _ I) as S. pose proof (di_errors _ _ I) as R. rewrite Em in S, R. cbn [inl] in S, R.
    rewrite Hc. split; [reflexivity|]. rewrite <- (Hc (fun r => negb (fst r))), <- (Hc (fun r => snd r)). lia.
Qed.
(** a cancelled Dump has queued a prefix, each record once, and still waits for
    every callback *)
Theorem C37_cancelled_dump :
  forall recs pool nbuf s writes skips errors,
  NoDup pool -> (forall b, In b pool -> (b < nbuf)%nat) ->
  d_reach recs pool nbuf s -> m_main s = DDone writes skips errors ->
  exists queued dropped, recs = queued ++ dropped /\ m_queued s = map d_args queued /\ length (m_results s) = length queued /\
  writes + skips = Z.of_nat (length queued) /\ errors <= Z.of_nat (length queued).
Proof.
  intros recs pool nbuf s writes skips errors H1 H2 H Em. pose proof (dinv_reach _ _ _ _ H1 H2 H) as I.
  destruct (di_done _ _ I _ _ _ Em) as (W & -> & -> & ->).
  destruct (di_queued _ _ I) as (rest & Q1 & _).
  assert (X : exists a b, recs = a ++ b /\ map d_args a = m_queued s).
  { clear - Q1. revert Q1. generalize (m_queued s). induction recs as [|r recs IH]; intros q Q.
    - destruct q; [|discriminate]. exists [], []. auto.
    - destruct q as [|x q]; [exists [], (r :: recs); auto|]. cbn in Q. injection Q as E Q. destruct (IH q Q) as (a & b & A & B).
      exists (r :: a), b. cbn. rewrite A, B, E. auto. }
  destruct X as (a & b & A & B). exists a, b. split; [assumption|]. split; [auto|].
  pose proof (di_run _ _ I) as R. assert (U : sumz unrun (m_calls s) = 0).
  { apply sumz_zero. intros x Hx. apply In_nth_error in Hx. destruct Hx as (c & Hx).
    destruct (wg_zero _ _ _ _ I W Hx) as (w & e & ->). reflexivity. }
  assert (L : len (m_queued s) = len a) by (rewrite <- B; unfold len; now rewrite map_length).
  unfold len in *. split; [lia|].
  pose proof (di_writes _ _ I) as S1. pose proof (di_skips _ _ I) as S2. pose proof (di_errors _ _ I) as S3. rewrite Em in S2, S3. cbn [inl] in S2, S3.
  assert (T : forall l : list (bool * bool), sumz (fun r => b2z (fst r)) l + sumz (fun r => b2z (negb (fst r))) l = Z.of_nat (length l)
              /\ sumz (fun r => b2z (snd r)) l <= Z.of_nat (length l)).
  { induction l as [|[[] []] l [IH IH']]; cbn [sumz fst snd negb b2z length] in *; split; lia. }
  destruct (T (m_results s)). lia.
Qed.
(** a Dump that has not returned can always proceed (the database calls its
    callbacks), and no two writes in flight share a buffer with each other or
    with the pool *)
Theorem C37_no_deadlock :
  forall recs pool nbuf s, NoDup pool -> (forall b, In b pool -> (b < nbuf)%nat) -> d_reach recs pool nbuf s ->
  (exists w k e, m_main s = DDone w k e) \/ exists s', d_step s s'.
Proof.
  intros recs pool nbuf s H1 H2 H. pose proof (dinv_reach _ _ _ _ H1 H2 H) as I.
  destruct (m_main s) as [[|mr todo]|b todo| |w k e] eqn:Em.
  - right. eexists. now apply ds_iterated.
  - right. eexists. eapply ds_queue; [exact Em|apply dg_new].
  - right. eexists. eapply ds_inline; eauto.
  - right. destruct (Z.eq_dec (m_wg s) 0) as [E|E]; [eexists; now apply ds_wait|].
    pose proof (di_wg _ _ I) as W. rewrite Em in W. cbn [inl] in W.
    destruct (existsb (fun c => live c =? 1) (m_calls s)) eqn:X.
    + apply existsb_exists in X. destruct X as (x & Hx & Hl). apply In_nth_error in Hx. destruct Hx as (c & Hx).
      destruct x as [b|b w e|w e]; [| |discriminate].
      * eexists. eapply (ds_count s c b true false). eassumption.
      * eexists. eapply ds_done. eassumption.
    + exfalso. apply E. rewrite W. rewrite sumz_zero; [reflexivity|]. intros x Hx.
      assert (live x =? 1 = false) by (destruct (live x =? 1) eqn:Y; [|reflexivity]; rewrite <- X; symmetry; apply existsb_exists; eauto).
      destruct x; cbn in *; congruence.
  - eauto.
Qed.
Theorem C37_buffers_not_shared :
  forall recs pool nbuf s, NoDup pool -> (forall b, In b pool -> (b < nbuf)%nat) -> d_reach recs pool nbuf s ->
  NoDup (m_pool s ++ owned s).
Proof. intros recs pool nbuf s H1 H2 H. apply (di_bufs _ _ (dinv_reach _ _ _ _ H1 H2 H)). Qed.
Print Assumptions C37_dump_accounting.
Print Assumptions C37_cancelled_dump.
Print Assumptions C37_no_deadlock.
Print Assumptions C37_buffers_not_shared.

(** three records; the second is refused by Queue, the third's callback runs
    before the first's; one is written and one skipped with an error *)
Definition ex_rec (t : Z) : drecord := DRec t (t + 10) 1 [f3] [102] f3 f3 [1] [1] 1.
Example C37_example :
  exists s, d_reach [([109], ex_rec 10); ([110], ex_rec 20); ([111], ex_rec 30)] [7%nat] 8 s /\
  m_main s = DDone 1 2 2 /\ m_cancelled s = false /\ m_results s = [(false, true); (true, false); (false, true)].
Proof.
  pose proof (d_reach_init [([109], ex_rec 10); ([110], ex_rec 20); ([111], ex_rec 30)] [7%nat] 8) as H.
  Ltac dstep H t := eapply d_reach_step in H; [|t]; cbn [m_main m_calls m_wg m_writes m_skips m_errors m_pool m_nbuf m_queued m_results m_cancelled set_nth app d_begin] in H.
  unfold d_begin in H.
  dstep H ltac:(eapply (ds_queue _ ([109], ex_rec 10)); [reflexivity|apply (dg_pool [] 7%nat [])]).
  dstep H ltac:(eapply (ds_queue_err _ ([110], ex_rec 20)); [reflexivity|apply dg_new]).
  dstep H ltac:(eapply ds_inline; reflexivity).
  dstep H ltac:(eapply (ds_queue _ ([111], ex_rec 30)); [reflexivity|apply (dg_pool [] 8%nat [])]).
  dstep H ltac:(eapply (ds_count _ 1 _ true false); reflexivity).
  dstep H ltac:(eapply ds_iterated; reflexivity).
  dstep H ltac:(eapply (ds_done _ 1%nat); reflexivity).
  dstep H ltac:(eapply (ds_count _ 0 _ false true); reflexivity).
  dstep H ltac:(eapply (ds_done _ 0%nat); reflexivity).
  dstep H ltac:(eapply ds_wait; reflexivity).
  eexists. split; [exact H|]. repeat split.
Qed.

(** * C51 *)
(** Concurrent Add and Capture calls: whatever the schedule, no value is
    delivered to two captures or twice to one *)
Theorem C51_no_value_captured_twice_partial :
  forall n s, c_reach n s -> NoDup (flat_map snd (c_out s)).
Proof. exact out_nodup. Qed.
(** and a value is delivered only under its own metric and page, having been
    observed there *)
Theorem C51_delivered_values_were_added_partial :
  forall n s k l x, c_reach n s -> In (k, l) (c_out s) -> In x l -> In (k, x) (c_obs s) /\
  forall k' l', In (k', l') (c_out s) -> In x l' -> k' = k.
Proof.
  intros n s k l x H Hk Hx. pose proof (cinv_reach _ _ H) as I. pose proof (proj2 (ci_out _ I k l Hk) x Hx) as A.
  split; [exact A|]. intros k' l' Hk' Hx'. pose proof (proj2 (ci_out _ I k' l' Hk') x Hx') as B.
  eapply snd_unique; [|exact B|exact A]. eapply nodup_app_left. apply (ci_tok _ I).
Qed.
(** every value whose Add has returned is on the current page, which the next
    Capture takes, or on a page that a Capture has taken *)
Theorem C51_values_are_kept_partial :
  forall n s k x, c_reach n s -> In (k, x) (c_obs s) ->
  (c_cur s = Some (fst k) /\ ~ In (fst k) (c_caps s)) \/ In (fst k) (c_caps s).
Proof.
  intros n s k x H Hx. pose proof (pinv_reach _ _ H) as P. pose proof (cinv_reach _ _ H) as I.
  destruct (pi_all _ P (fst k) (pi_obs _ P k x Hx)) as [A|A]; [left|right; exact A]. split; [exact A|]. apply (ci_cur _ I _ A).
Qed.
(** a page is taken by one Capture only, and the Add calls that begin after that
    use another page *)
Theorem C51_pages_are_taken_once_partial :
  forall n s s' k x, c_reach n s -> c_steps s s' -> NoDup (c_caps s') /\
  ((c_next s <= x)%nat -> In (k, x) (c_obs s') -> ~ In (fst k) (c_caps s)).
Proof.
  intros n s s' k x H St. split; [apply (ci_caps _ (cinv_reach _ _ (c_steps_reach _ _ _ H St)))|].
  intros Hx Hin. destruct (later_steps _ _ _ H St) as [_ B]. eapply B; eauto.
Qed.
(** a record given to the callback holds every value of its metric and page that
    was observed before it *)
Theorem C51_records_are_complete_partial :
  forall s s' k x l, c_steps s s' -> In (k, x) (c_obs s) -> (forall l, ~ In (k, l) (c_out s)) -> In (k, l) (c_out s') -> In x l.
Proof. intros s s' k x l St Hx Hn. exact (delivered s s' k x St Hx Hn l). Qed.
(** But a Capture that overlaps the first Add of a metric can panic: it finishes
    an aggregate that has not observed anything yet. *)
Theorem C51_capture_panics_refuted :
  exists s, c_reach 2 s /\ nth_error (c_threads s) 1 = Some TPanic.
Proof.
  eexists. split.
  - eapply c_reach_step; [eapply c_reach_step; [eapply c_reach_step; [eapply c_reach_step; [eapply c_reach_step; [eapply c_reach_step; [apply c_reach_init|]|]|]|]|]|].
    + apply (cs_add _ 0 [109]). reflexivity.
    + eapply (cs_create _ 0); reflexivity.
    + eapply (cs_store _ 0); [reflexivity|intros []].
    + eapply (cs_capture _ 1); reflexivity.
    + eapply (cs_swap _ 1); reflexivity.
    + eapply (cs_panic _ 1 0 [] [109]); [reflexivity|now left|intros []|reflexivity].
  - reflexivity.
Qed.
(** And a value can be lost for ever: its Add has returned, it was delivered to
    nobody, the page it is on has been captured and no call is running. *)
Theorem C51_value_lost_refuted :
  exists s p, c_reach 2 s /\ Forall (eq TIdle) (c_threads s) /\ c_obs s = [((p, [109]), 0%nat)] /\ c_out s = [] /\
  In p (c_caps s) /\ c_cur s <> Some p.
Proof.
  eexists. exists 0%nat. split.
  - eapply c_reach_step; [eapply c_reach_step; [eapply c_reach_step; [eapply c_reach_step; [eapply c_reach_step; [eapply c_reach_step; [eapply c_reach_step; [apply c_reach_init|]|]|]|]|]|]|].
    + apply (cs_add _ 0 [109]). reflexivity.
    + eapply (cs_create _ 0); reflexivity.
    + eapply (cs_capture _ 1); reflexivity.
    + eapply (cs_swap _ 1); reflexivity.
    + eapply (cs_end _ 1). reflexivity.
    + eapply (cs_store _ 0); [reflexivity|intros []].
    + eapply (cs_observe _ 0). reflexivity.
  - repeat split; try reflexivity; [repeat constructor|now left|discriminate].
Qed.
Print Assumptions C51_no_value_captured_twice_partial.
Print Assumptions C51_delivered_values_were_added_partial.
Print Assumptions C51_values_are_kept_partial.
Print Assumptions C51_pages_are_taken_once_partial.
Print Assumptions C51_records_are_complete_partial.
Print Assumptions C51_capture_panics_refuted.
Print Assumptions C51_value_lost_refuted.

(** a schedule in which an Add and a Capture overlap and the value is delivered *)
Example C51_example :
  exists s, c_reach 2 s /\ c_out s = [((0%nat, [109]), [0%nat])].
Proof.
  eexists. split.
  - eapply c_reach_step; [eapply c_reach_step; [eapply c_reach_step; [eapply c_reach_step; [eapply c_reach_step; [eapply c_reach_step; [eapply c_reach_step; [apply c_reach_init|]|]|]|]|]|]|].
    + apply (cs_add _ 0 [109]). reflexivity.
    + eapply (cs_create _ 0); reflexivity.
    + eapply (cs_store _ 0); [reflexivity|intros []].
    + eapply (cs_capture _ 1); reflexivity.
    + eapply (cs_swap _ 1); reflexivity.
    + eapply (cs_observe _ 0). reflexivity.
    + eapply (cs_visit _ 1 0 [] [109]); [reflexivity|now left|intros []|discriminate].
  - reflexivity.
Qed.
