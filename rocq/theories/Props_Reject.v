(** C12-C14, C17 without the restriction to values that fit an empty file, for
    processes that keep no open files (handles = 0; for others see C13_refuted,
    C15_refuted).  Vocabulary of Props_Storage.v; [history_any] (RejectSpec.v):
    supported options, handles = 0 in every process, times are int64 with
    non-zero end, values of any size. *)
From Coq Require Import ZArith List Lia Bool.
From Verif Require Import Base Maps Record Convert File FileProofs Cache CacheProofs
  Metric MetricSpec MetricFile MetricPaths MetricProofs MetricRead DbSpec DbProofs DbLog DbClient DbRetain
  RejectSpec RejectProofs Props_Storage.
Import ListNotations.
Open Scope Z_scope.

Lemma b_query_pos am e : 0 < e -> b_query am e = a_query (a_strip am) e.
Proof. intros H. unfold b_query. destruct (Z.leb_spec e 0); [lia|]. now rewrite andb_false_r. Qed.

Lemma query_answerb n st a name e : Rb n st a -> n + 1 < 2 ^ 62 ->
  exists st', c_step (OQuery name e) st = (st', snd (b_step (OQuery name e) a)).
Proof.
  intros HR Hn. destruct (step_simb n st a (OQuery name e) HR I Hn) as (st' & E & _). eauto.
Qed.

Lemma query_logb n st a name log : Rb n st a -> n + 1 < 2 ^ 62 -> linv a name log ->
  exists kept newest, (newest <= kept <= length log)%nat /\ (log <> [] -> (1 <= newest)%nat) /\
    kept = length (vals a name) /\
    forall e, 0 < e -> exists st' r,
      c_step (OQuery name e) st =
        (st', RQuery (if existsb (fun v => v_end v <? e) (firstn newest log)
                      then filter (fun v => v_end v <? e) (firstn kept log) else []) r) /\
      (log <> [] -> r = Ok tt).
Proof.
  intros HR Hn (Hd & He & (tl & Etl)). unfold vals in *.
  destruct (ad_map a name) as [am|] eqn:HA.
  - destruct HR as (HI & HG & Hrest).
    destruct (a_query_log (a_strip am) (HG name am HA)) as (newest & H1 & H2 & _ & H3).
    rewrite strip_values in *.
    exists (length (a_values am)), newest. split; [rewrite Etl, app_length; lia|].
    split. { intros H. apply H2. intros E. apply H. now apply He. }
    split; [reflexivity|].
    intros e Hpos. destruct (query_answerb n st a name e (conj HI (conj HG Hrest)) Hn) as (st' & E).
    cbn [b_step] in E. rewrite HA in E. cbn [snd] in E. rewrite (b_query_pos am e Hpos) in E.
    exists st', (Ok tt). split; [|auto]. rewrite E, H3. do 2 f_equal.
    rewrite Etl, firstn_app, firstn_app.
    replace (newest - length (a_values am))%nat with 0%nat by lia.
    rewrite Nat.sub_diag, firstn_all. cbn [firstn]. now rewrite !app_nil_r.
  - exists 0%nat, 0%nat. split; [split; lia|]. specialize (He eq_refl). subst log.
    split; [contradiction|]. split; [reflexivity|].
    intros e _. destruct (query_answerb n st a name e HR Hn) as (st' & E).
    cbn [b_step a_step] in E. rewrite HA in E. cbn [firstn existsb filter].
    destruct (existsb _ _); cbn [snd] in E; eexists _, _; (split; [exact E|contradiction]).
Qed.

(** * C12 *)
(** Every query with a positive bound answers with exactly the kept newest
    acknowledged values before the bound (or nothing, if no value of the newest
    file is before it); everything is kept if no process limits the files. *)
Theorem C12_any_size_partial :
  forall root size cap max rand ops name,
  history_any root size cap rand ops ->
  let '(st, outs) := c_run ops (db_empty root size cap max 0 rand) in
  let log := acked name ops outs in
  desc log /\
  exists kept newest, (newest <= kept <= length log)%nat /\ (log <> [] -> (1 <= newest)%nat) /\
    (unlimited max ops -> kept = length log) /\
    forall e, 0 < e -> exists st' r,
      c_step (OQuery name e) st =
        (st', RQuery (if existsb (fun v => v_end v <? e) (firstn newest log)
                      then filter (fun v => v_end v <? e) (firstn kept log) else []) r) /\
      (log <> [] -> r = Ok tt).
Proof.
  intros root size cap max rand ops name H.
  destruct (history_stateb root size cap max rand ops H) as (n & st & a & outs & -> & Hn1 & Hn2 & HR & HL & HU).
  split; [exact (proj1 (HL name))|].
  destruct (query_logb n st a name _ HR ltac:(lia) (HL name)) as (kept & newest & H1 & H2 & H3 & H4).
  exists kept, newest. split; [exact H1|]. split; [exact H2|]. split; [|exact H4].
  intros Hu. rewrite H3. now rewrite (proj2 (HU Hu) name).
Qed.
Print Assumptions C12_any_size_partial.

(** * C13 *)
(** QueryLatest returns the newest acknowledged value, whatever was rejected
    before or after it. *)
Theorem C13_any_size_latest_is_newest_acknowledged_partial :
  forall root size cap max rand ops name v rest,
  history_any root size cap rand ops ->
  let '(st, outs) := c_run ops (db_empty root size cap max 0 rand) in
  acked name ops outs = v :: rest -> v_end v < 2 ^ 63 - 1 ->
  exists st', c_step (OLatest name) st = (st', RLatest (Some v) (Ok tt)).
Proof.
  intros root size cap max rand ops name v rest H.
  destruct (history_stateb root size cap max rand ops H) as (n & st & a & outs & -> & Hn1 & Hn2 & HR & HL & HU).
  intros El Hv. destruct (HL name) as (_ & He & (tl & Etl)). rewrite El in *. unfold vals in *.
  destruct (step_simb n st a (OLatest name) HR I ltac:(lia)) as (st' & E & _).
  exists st'. rewrite E. cbn [b_step]. destruct (ad_map a name) as [am|] eqn:HA.
  - cbn [snd]. do 2 f_equal. rewrite b_query_pos by lia.
    destruct HR as (_ & HG & _).
    destruct (a_query_log (a_strip am) (HG name am HA)) as (newest & H1 & H2 & _ & H3). rewrite strip_values in *.
    rewrite H3. destruct (a_values am) as [|w l] eqn:Ev; [discriminate (He eq_refl)|].
    injection Etl as <- _. destruct newest as [|newest]; [specialize (H2 ltac:(discriminate)); lia|].
    cbn [firstn existsb filter]. rewrite (proj2 (Z.ltb_lt _ _) Hv). reflexivity.
  - discriminate (He eq_refl).
Qed.
Print Assumptions C13_any_size_latest_is_newest_acknowledged_partial.

(** * C14 *)
(** A write at or before the newest acknowledged value is refused with
    (false, nil), and no query with a positive bound sees a difference. *)
Theorem C14_any_size_old_writes_refused :
  forall root size cap max rand ops name v w rest,
  history_any root size cap rand ops -> val_ok v ->
  let '(st, outs) := c_run ops (db_empty root size cap max 0 rand) in
  acked name ops outs = w :: rest -> v_end v <= v_end w ->
  exists st', c_step (OWrite name v) st = (st', RWrite (Ok false)) /\
    forall name' e, 0 < e -> exists st1 st2 l r r',
      c_step (OQuery name' e) st = (st1, RQuery l r) /\ c_step (OQuery name' e) st' = (st2, RQuery l r').
Proof.
  intros root size cap max rand ops name v w rest H Hv.
  destruct (history_stateb root size cap max rand ops H) as (n & st & a & outs & -> & Hn1 & Hn2 & HR & HL & HU).
  intros El Hle. destruct (HL name) as (_ & He & (tl & Etl)). rewrite El in *.
  destruct (write_stepb n st a name v HR Hv ltac:(lia)) as (st' & E & HR').
  cbn [b_step] in E, HR'. pose proof HR as (_ & HG & _).
  assert (HA : exists am, ad_map a name = Some am).
  { unfold vals in He. destruct (ad_map a name); [eauto|]. discriminate (He eq_refl). }
  destruct HA as (am & HA). unfold am_of in E, HR'. rewrite HA in E, HR'.
  pose proof (b_write_vals (ad_size a) (ad_cap a) (ad_max a) (a_strip am) v (HG name am HA)) as Hw.
  rewrite strip_values in Hw. unfold vals in Etl, He. rewrite HA in Etl, He.
  assert (exists l, a_values am = w :: l) as (l & Ev).
  { destruct (a_values am) as [|x l]; [discriminate (He eq_refl)|]. injection Etl as <- _. eauto. }
  destruct (a_write_any _ _ _ _ _) as [am' r] eqn:Ew. cbn [fst snd] in *.
  destruct Hw as [(_ & Hn & _)|[(-> & -> & _)|(_ & Hn & _)]].
  { specialize (Hn w l Ev). lia. } 2:{ specialize (Hn w l Ev). lia. }
  exists st'. split; [exact E|]. intros name' e Hpos.
  destruct (query_answerb n st a name' e HR ltac:(lia)) as (st1 & Q1).
  destruct (query_answerb (n + 1) st' _ name' e HR' ltac:(lia)) as (st2 & Q2).
  exists st1, st2. cbn [b_step a_step ad_map ad_size ad_cap ad_max ad_root ad_dirs] in Q1, Q2.
  assert (Hd : a_dirs (ad_root a) (ad_dirs a) name = ad_dirs a).
  { pose proof HR as (HI & _ & _ & _ & _ & Er & _). rewrite <- Er. exact (a_dirs_some n st _ _ name am HI HA). }
  rewrite Hd in Q2. unfold aput in Q2. destruct (beqb name name') eqn:En.
  - apply beqb_eq in En. subst name'. rewrite HA in Q1. cbn [snd] in Q1, Q2.
    rewrite b_query_pos in Q1, Q2 by exact Hpos.
    rewrite (strip_ok (a_strip am) (HG name am HA)) in Q2. eauto 10.
  - destruct (ad_map a name'); cbn [snd] in Q1, Q2; [eauto 10|].
    destruct (existsb _ _); cbn [snd] in Q1, Q2; eauto 10.
Qed.
Print Assumptions C14_any_size_old_writes_refused.

(** * C17 *)
(** A write that fails with an error, of a value of any size: other metrics'
    answers do not change, and those of the metric itself lose at most the
    oldest retained values; nothing at all if the process does not limit the
    files.  (With a limit it is false that nothing is lost: C17_refuted.) *)
Theorem C17_any_size_failed_write_partial :
  forall root size cap max rand ops name v,
  history_any root size cap rand ops -> val_ok v ->
  let '(st, outs) := c_run ops (db_empty root size cap max 0 rand) in
  forall st', c_step (OWrite name v) st = (st', RWrite Err) ->
  (forall name' e, name' <> name -> 0 < e -> exists st1 st2 l r r',
     c_step (OQuery name' e) st = (st1, RQuery l r) /\ c_step (OQuery name' e) st' = (st2, RQuery l r')) /\
  (forall e, 0 < e -> (forall w, In w (acked name ops outs) -> v_end w < e) ->
     exists st1 st2 l dropped r r',
     c_step (OQuery name e) st = (st1, RQuery (l ++ dropped) r) /\
     c_step (OQuery name e) st' = (st2, RQuery l r') /\
     (l = [] -> dropped = []) /\ (unlimited max ops -> dropped = [])).
Proof.
  intros root size cap max rand ops name v H Hv.
  destruct (history_stateb root size cap max rand ops H) as (n & st & a & outs & E0 & Hn1 & Hn2 & HR & HL & HU).
  rewrite E0. intros st' E.
  destruct (write_stepb n st a name v HR Hv ltac:(lia)) as (st2 & E2 & HR'). rewrite E in E2.
  injection E2 as <- Er. cbn [b_step] in Er, HR'. pose proof HR as (HI & HG & _).
  pose proof (b_write_vals (ad_size a) (ad_cap a) (ad_max a) _ v (am_of_okb (ad_size a) (ad_cap a) _ name HG)) as Hw.
  pose proof (b_write_ok (ad_size a) (ad_cap a) (ad_max a) _ v (am_of_okb (ad_size a) (ad_cap a) _ name HG)) as Hok'.
  rewrite strip_values, vals_am_of in Hw.
  destruct (a_write_any _ _ _ _ _) as [am' r] eqn:Ew. cbn [fst snd] in *. injection Er as <-.
  destruct Hw as [(? & _)|[(? & _)|(_ & Hnew & kept & dropped & Ek & Ev & Hm & Hk & Hsame)]]; try discriminate.
  split.
  - intros name' e Hne Hpos.
    destruct (query_answerb n st a name' e HR ltac:(lia)) as (st1 & Q1).
    destruct (query_answerb (n + 1) st' _ name' e HR' ltac:(lia)) as (st2 & Q2).
    exists st1, st2. cbn [b_step a_step ad_map ad_size ad_cap ad_max ad_root ad_dirs] in Q1, Q2.
    rewrite aput_other in Q2 by auto. destruct (ad_map a name'); cbn [snd] in Q1, Q2; [eauto 10|].
    destruct (existsb _ (ad_dirs a)), (existsb _ (a_dirs _ _ _)); cbn [snd] in Q1, Q2; eauto 10.
  - intros e Hpos He.
    destruct (query_answerb n st a name e HR ltac:(lia)) as (st1 & Q1).
    destruct (query_answerb (n + 1) st' _ name e HR' ltac:(lia)) as (st2 & Q2).
    cbn [b_step ad_map] in Q2. rewrite aput_same in Q2. cbn [snd] in Q2. rewrite b_query_pos in Q2 by exact Hpos.
    assert (Hin : forall w, In w (kept ++ dropped) -> v_end w < e).
    { intros w Hw. apply He. destruct (HL name) as (_ & _ & (t & ->)). apply in_app_iff. left. now rewrite Ek. }
    assert (Qall : forall am l, am_ok am -> a_values am = l -> (forall w, In w l -> v_end w < e) -> a_query am e = l).
    { intros am l Ho <- Hl. destruct (a_query_log am Ho) as (newest & H1 & H2 & _ & H3). rewrite H3.
      destruct (a_values am) as [|x xs] eqn:Ex; [destruct (existsb _ _); reflexivity|].
      specialize (H2 ltac:(discriminate)). destruct newest as [|k]; [lia|]. cbn [firstn existsb].
      rewrite (proj2 (Z.ltb_lt _ _) (Hl x (or_introl eq_refl))). cbn [orb].
      apply filter_all. intros y Hy. apply Z.ltb_lt, Hl, Hy. }
    rewrite (Qall (a_strip am') kept Hok') in Q2.
    2:{ rewrite strip_values. exact Ev. }
    2:{ intros w Hw. apply Hin. apply in_app_iff. now left. }
    exists st1, st2, kept, dropped.
    cbn [b_step] in Q1. destruct (ad_map a name) as [am|] eqn:HA.
    + cbn [snd] in Q1. rewrite b_query_pos in Q1 by exact Hpos.
      rewrite (Qall (a_strip am) (kept ++ dropped) (HG name am HA)) in Q1; [|rewrite strip_values; unfold vals in Ek; now rewrite HA in Ek|exact Hin].
      exists (Ok tt), (Ok tt). split; [exact Q1|]. split; [exact Q2|]. split; [exact Hk|].
      intros Hu. apply Hm. exact (proj1 (HU Hu)).
    + unfold vals in Ek. rewrite HA in Ek. symmetry in Ek. apply app_eq_nil in Ek. destruct Ek as [-> ->].
      cbn [a_step] in Q1. rewrite HA in Q1.
      destruct (existsb _ _); cbn [snd] in Q1; [exists (Ok tt)|exists Err]; exists (Ok tt); cbn [app]; auto 10.
Qed.
Print Assumptions C17_any_size_failed_write_partial.

(** Non-vacuity: a too large value is rejected twice and leaves an empty file;
    newer values are accepted and older ones refused afterwards. *)
Definition reject_ops : list op :=
  [OWrite ex_name (huge 5); OWrite ex_name (two 10); OWrite ex_name (huge 20); OWrite ex_name (huge 25);
   OWrite ex_name (small 7); OWrite ex_name (small 30); OReopen 79 2 0 0 prng; OWrite ex_name (huge 40);
   OLatest ex_name].
Example reject_history : history_any ex_root 79 2 prng reject_ops.
Proof.
  unfold history_any, reject_ops. cbn [ops_any]. split; [discriminate|]. split; [ok_history|].
  split; [|cbn; lia]. repeat (split; [ok_history|]). exact I.
Qed.
Example reject_answers :
  let '(st, outs) := c_run reject_ops (db_empty ex_root 79 2 0 0 prng) in
  (outs, acked ex_name reject_ops outs, snd (c_step (OQuery ex_name 100) st)) =
  ([RWrite Err; RWrite (Ok true); RWrite Err; RWrite Err; RWrite (Ok false); RWrite (Ok true); RReopen;
    RWrite Err; RLatest (Some (small 30)) (Ok tt)],
   [small 30; two 10], RQuery [small 30; two 10] (Ok tt)).
Proof. vm_compute. reflexivity. Qed.
