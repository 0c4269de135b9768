(** Properties C12-C19, C22, C23: histories of writes and queries.

    Vocabulary (DbSpec.v, DbClient.v): [c_run ops st] runs the calls [ops] on
    the model of the program and returns the answers; [acked name ops outs] is
    the list of values of metric [name] whose write was answered "written",
    newest first; [history_ok] says that the options are supported (record size
    79..65559, capacity >= 1, size*cap < 2^31, fewer than 2^32 handles), times
    are int64 with non-zero end, and every written value fits an empty file. *)
From Coq Require Import ZArith List Lia Bool.
From Verif Require Import Base Maps Record Convert File FileProofs Cache CacheProofs
  Metric MetricSpec MetricFile MetricPaths MetricProofs MetricRead DbSpec DbProofs DbLog DbClient DbRetain.
Import ListNotations.
Open Scope Z_scope.

(** the program's own random stream (cache.go:44) *)
Definition prng : stream := pcg_stream (pcg_new 0 0).
Lemma lor_u32 a b : 0 <= a < 2 ^ 32 -> 0 <= b < 2 ^ 32 -> 0 <= Z.lor a b < 2 ^ 32.
Proof.
  intros Ha Hb. split; [apply Z.lor_nonneg; lia|].
  destruct (Z.eq_dec (Z.lor a b) 0) as [E|E]; [lia|].
  apply Z.log2_lt_pow2; [assert (0 <= Z.lor a b) by (apply Z.lor_nonneg; lia); lia|].
  rewrite Z.log2_lor by lia.
  apply Z.max_lub_lt.
  - destruct (Z.eq_dec a 0) as [->|]; [cbn; lia|]. apply Z.log2_lt_pow2; lia.
  - destruct (Z.eq_dec b 0) as [->|]; [cbn; lia|]. apply Z.log2_lt_pow2; lia.
Qed.
Lemma prng_ok : rand_ok prng.
Proof.
  unfold prng. generalize (pcg_new 0 0). intros p n. revert p.
  induction n as [|n IH]; intros p; cbn [pcg_stream]; [|apply IH].
  unfold pcg_uint32. cbn [fst]. set (q := if p_inc p =? 0 then pcg_new 0 0 else p).
  set (x := u32 (Z.lxor _ _ / _)). set (r := u32 (p_state q / 2 ^ 59)).
  assert (0 <= x < 2 ^ 32) by (apply Z.mod_pos_bound; lia).
  assert (0 <= r) by (apply Z.mod_pos_bound; lia).
  apply lor_u32.
  - assert (0 < 2 ^ r) by (apply Z.pow_pos_nonneg; lia).
    split; [apply Z.div_pos; lia|]. apply Z.div_lt_upper_bound; [lia|]. nia.
  - apply Z.mod_pos_bound. lia.
Qed.

Definition ex_name : list Z := [97; 46; 98].     (* "a.b" *)
Definition ex_root : list Z := [114].            (* "r" *)
Definition small (e : Z) : value := Val 0 e [e].            (* one record *)
Definition two (e : Z) : value := Val 0 e (repeat 7 100).   (* two records of 79 *)
Definition huge (e : Z) : value := Val 0 e (repeat 9 120).  (* three records of 79 *)

Ltac ok_history :=
  repeat match goal with
         | |- history_ok _ _ _ _ _ _ => unfold history_ok
         | |- process_ok _ _ _ _ => unfold process_ok
         | |- opts_ok _ _ => unfold opts_ok
         | |- ops_ok _ _ _ => cbn [ops_ok]
         | |- value_fits _ _ _ => unfold value_fits
         | |- val_ok _ => unfold val_ok
         | |- is_i64 _ => unfold is_i64
         | |- is_bytes _ => unfold is_bytes, is_byte
         | |- _ /\ _ => split
         | |- rand_ok prng => exact prng_ok
         | |- Forall _ _ => cbn; repeat constructor; lia
         | |- ex_root <> [] => discriminate
         | |- _ <> 0 => discriminate
         | |- nrec _ _ <= _ => vm_compute; discriminate
         | |- True => exact I
         | |- _ => cbn; lia
         end.

(** a history with a restart, a refused write, a value of two records and two
    files *)
Definition ex_ops : list op :=
  [OWrite ex_name (small 10); OWrite ex_name (two 20); OWrite ex_name (small 15);
   OQuery ex_name 15; OReopen 79 3 1 1 prng; OWrite ex_name (small 30); OLatest ex_name].
Example ex_history : history_ok ex_root 79 3 2 prng ex_ops.
Proof. unfold ex_ops. ok_history. Qed.
Example ex_answers :
  let '(st, outs) := c_run ex_ops (db_empty ex_root 79 3 1 2 prng) in
  (outs, acked ex_name ex_ops outs) =
  ([RWrite (Ok true); RWrite (Ok true); RWrite (Ok false); RQuery [small 10] (Ok tt); RReopen;
    RWrite (Ok true); RLatest (Some (small 30)) (Ok tt)],
   [small 30; two 20; small 10]).
Proof. vm_compute. reflexivity. Qed.

(** * C12 *)
(** Acknowledged end times strictly decrease from newest to oldest, and there
    is one number [kept] such that every query answers with exactly the kept
    newest acknowledged values before its bound, in that order; unless no value
    of the newest file ([newest] many) is before the bound: then it answers
    nothing (see C23). *)
Theorem C12_query_returns_the_retained_values_partial :
  forall root size cap max handles rand ops name,
  history_ok root size cap handles rand ops ->
  let '(st, outs) := c_run ops (db_empty root size cap max handles rand) in
  let log := acked name ops outs in
  desc log /\
  exists kept newest, (newest <= kept <= length log)%nat /\ (log <> [] -> (1 <= newest)%nat) /\
    forall e, exists st' r,
      c_step (OQuery name e) st =
        (st', RQuery (if existsb (fun v => v_end v <? e) (firstn newest log)
                      then filter (fun v => v_end v <? e) (firstn kept log) else []) r) /\
      (log <> [] -> r = Ok tt).
Proof.
  intros root size cap max handles rand ops name H.
  destruct (history_state root size cap max handles rand ops H)
    as (n & st & a & outs & -> & _ & Hn1 & Hn2 & HR & _ & _ & _ & HL & _).
  split; [exact (proj1 (HL name))|].
  destruct (query_log n st a name _ HR ltac:(lia) (HL name)) as (kept & newest & H1 & H2 & _ & H4).
  exists kept, newest. auto.
Qed.
Print Assumptions C12_query_returns_the_retained_values_partial.

(** In particular a query with a bound after the newest value is exact; and if
    no process of the history limits the number of files ([unlimited]: max <= 0)
    it returns every acknowledged value. *)
Theorem C12_full_queries_are_exact :
  forall root size cap max handles rand ops name,
  history_ok root size cap handles rand ops ->
  let '(st, outs) := c_run ops (db_empty root size cap max handles rand) in
  let log := acked name ops outs in
  log <> [] ->
  exists kept, (1 <= kept <= length log)%nat /\ (unlimited max ops -> kept = length log) /\
    forall e, (forall v, In v log -> v_end v < e) ->
      exists st', c_step (OQuery name e) st = (st', RQuery (firstn kept log) (Ok tt)).
Proof.
  intros root size cap max handles rand ops name H.
  destruct (history_state root size cap max handles rand ops H)
    as (n & st & a & outs & -> & _ & Hn1 & Hn2 & HR & _ & _ & _ & HL & HU). cbn zeta.
  intros Hne.
  destruct (query_log n st a name _ HR ltac:(lia) (HL name)) as (kept & newest & H1 & H2 & H3 & H4).
  exists kept. specialize (H2 Hne). split; [lia|]. split; [intros Hu; apply H3, HU, Hu|].
  intros e He. destruct (H4 e) as (st' & r & E & Hr). exists st'. rewrite E, (Hr Hne). do 2 f_equal.
  set (log := acked name ops outs) in *.
  assert (existsb (fun v => v_end v <? e) (firstn newest log) = true) as ->.
  { destruct log as [|v l]; [contradiction|]. destruct newest as [|newest]; [lia|]. cbn.
    rewrite (proj2 (Z.ltb_lt _ _) (He v (or_introl eq_refl))). reflexivity. }
  apply filter_all. intros x Hx. apply Z.ltb_lt, He.
  rewrite <- (firstn_skipn kept log). apply in_app_iff. now left.
Qed.
Print Assumptions C12_full_queries_are_exact.

Example C12_example :
  let '(st, _) := c_run ex_ops (db_empty ex_root 79 3 1 2 prng) in
  snd (c_step (OQuery ex_name 31) st) = RQuery [small 30; two 20; small 10] (Ok tt).
Proof. vm_compute. reflexivity. Qed.

(** * C13 *)
(** For values that fit an empty file: QueryLatest returns the newest
    acknowledged value (as long as its end is not MaxInt64, which Read excludes). *)
Theorem C13_latest_is_newest_acknowledged_partial :
  forall root size cap max handles rand ops name v rest,
  history_ok root size cap handles rand ops ->
  let '(st, outs) := c_run ops (db_empty root size cap max handles rand) in
  acked name ops outs = v :: rest -> v_end v < 2 ^ 63 - 1 ->
  exists st', c_step (OLatest name) st = (st', RLatest (Some v) (Ok tt)).
Proof.
  intros root size cap max handles rand ops name v rest H.
  destruct (history_state root size cap max handles rand ops H)
    as (n & st & a & outs & -> & _ & Hn1 & Hn2 & HR & _ & _ & _ & HL & _).
  intros El Hv. destruct (latest_log n st a name _ HR ltac:(lia) (HL name)) as (st' & r & E & Hr).
  - intros w l Ew. rewrite El in Ew. injection Ew as <- _. exact Hv.
  - rewrite El in *. exists st'. rewrite E, Hr by discriminate. reflexivity.
Qed.
Print Assumptions C13_latest_is_newest_acknowledged_partial.

(** Without the size restriction the property is false of the code: after a
    too large value is rejected (leaving an empty newest file whose handle stays
    in the cache when the file is removed), an acknowledged write is lost. *)
Theorem C13_refuted :
  exists ops v, 
    let '(st, outs) := c_run ops (db_empty ex_root 79 2 0 1 prng) in
    acked ex_name ops outs = v :: [two 10] /\
    snd (c_step (OLatest ex_name) st) = RLatest (Some (two 10)) (Ok tt) /\ v <> two 10.
Proof.
  exists [OWrite ex_name (two 10); OWrite ex_name (huge 20); OWrite ex_name (small 30)], (small 30).
  vm_compute. split; [reflexivity|]. split; [reflexivity|discriminate].
Qed.
Print Assumptions C13_refuted.

(** * C14 *)
(** A write that is not later than the newest acknowledged value is answered
    "not written" and is invisible to everything that follows. *)
Theorem C14_old_writes_refused_without_effect :
  forall root size cap max handles rand ops name v w rest later,
  history_ok root size cap handles rand (ops ++ OWrite name v :: later) ->
  let '(st, outs) := c_run ops (db_empty root size cap max handles rand) in
  acked name ops outs = w :: rest -> v_end v <= v_end w ->
  exists answers,
    snd (c_run (ops ++ later) (db_empty root size cap max handles rand)) = outs ++ answers /\
    snd (c_run (ops ++ OWrite name v :: later) (db_empty root size cap max handles rand)) =
      outs ++ RWrite (Ok false) :: answers.
Proof.
  intros root size cap max handles rand ops name v w rest later Hfull.
  pose proof ops_ok_app as Hok. pose proof ops_ok_app2 as Hok2.
  pose proof Hfull as (Hr & Hp & Ho & Hn). apply Hok in Ho. destruct Ho as [Ho1 Ho2].
  cbn [ops_ok] in Ho2. destruct Ho2 as [Hfit Ho3].
  rewrite app_length in Hn. cbn [length] in Hn.
  assert (H1 : history_ok root size cap handles rand ops) by (split; [exact Hr|]; split; [exact Hp|]; split; [exact Ho1|lia]).
  assert (H2 : history_ok root size cap handles rand (ops ++ later)).
  { split; [exact Hr|]. split; [exact Hp|]. split; [apply Hok2; assumption|rewrite app_length; lia]. }
  destruct (history_state root size cap max handles rand ops H1)
    as (n & st & a & outs & E1 & EA & Hn1 & Hn2 & HR & _ & _ & _ & HL & _).
  rewrite E1. intros El Hle.
  destruct (db_refines root size cap max handles rand (ops ++ later)) as (st2 & E2 & _);
    try (destruct H2 as (? & ? & ? & ?); assumption).
  destruct (db_refines root size cap max handles rand (ops ++ OWrite name v :: later)) as (st3 & E3 & _);
    try (destruct Hfull as (? & ? & ? & ?); assumption).
  rewrite E2, E3. cbn [snd]. rewrite !a_run_app, EA.
  destruct (HL name) as (Hd & He & (tl & Etl)).
  assert (HA : exists am, ad_map a name = Some am).
  { unfold vals in He. destruct (ad_map a name); [eauto|]. rewrite (He eq_refl) in El. discriminate. }
  destruct HA as (am & HA).
  assert (Ew : a_write (ad_size a) (ad_cap a) (ad_max a) am v = (am, Ok false)).
  { destruct HR as (_ & HG & _). pose proof (a_write_vals (ad_size a) (ad_cap a) (ad_max a) am v (HG name am HA)) as Hw.
    unfold vals in Etl, He. rewrite HA in Etl, He.
    assert (exists l, a_values am = w :: l) as (l & Ev).
    { destruct (a_values am) as [|x l]; [rewrite (He eq_refl) in El; discriminate|].
      rewrite El in Etl. injection Etl as <- _. eauto. }
    rewrite Ev in Hw.
    assert (Hold : a_write (ad_size a) (ad_cap a) (ad_max a) am v = (am, Ok false)).
    { unfold a_write. destruct (HG name am HA) as (_ & Hne & Hall). unfold a_values in Ev.
      destruct (a_files am) as [|f older] eqn:Ef; [contradiction|]. cbn [flat_map] in Ev.
      destruct (a_vals f) as [|x xs] eqn:Ex.
      - destruct older; [discriminate|]. inversion Hall; subst; contradiction.
      - injection Ev as -> _. now rewrite (proj2 (Z.leb_le _ _) Hle). }
    exact Hold. }
  assert (Es : exists a', a_step (OWrite name v) a = (a', RWrite (Ok false)) /\
               ad_size a' = ad_size a /\ ad_cap a' = ad_cap a /\ ad_max a' = ad_max a /\ ad_root a' = ad_root a /\
               ad_dirs a' = ad_dirs a /\ forall x, ad_map a' x = ad_map a x).
  { cbn [a_step]. unfold am_of. rewrite HA, Ew. eexists. split; [reflexivity|].
    cbn [ad_size ad_cap ad_max ad_root ad_dirs ad_map]. destruct HR as (HI & _ & _ & _ & _ & E4).
    split; [reflexivity|]. split; [reflexivity|]. split; [reflexivity|]. split; [reflexivity|].
    split; [rewrite <- E4; exact (a_dirs_some n st _ _ name am HI HA)|].
    intros x. symmetry. now apply aput_id. }
  destruct Es as (a' & Es & Q).
  (* equal maps give equal answers *)
  assert (Hsame : forall ops a1 a2, ad_size a1 = ad_size a2 /\ ad_cap a1 = ad_cap a2 /\ ad_max a1 = ad_max a2 /\
             ad_root a1 = ad_root a2 /\ ad_dirs a1 = ad_dirs a2 /\ (forall x, ad_map a1 x = ad_map a2 x) ->
             snd (a_run ops a1) = snd (a_run ops a2)).
  { clear. induction ops as [|o ops IH]; intros a1 a2 Q; [reflexivity|]. cbn [a_run].
    assert (S : snd (a_step o a1) = snd (a_step o a2) /\
       (ad_size (fst (a_step o a1)) = ad_size (fst (a_step o a2)) /\ ad_cap (fst (a_step o a1)) = ad_cap (fst (a_step o a2)) /\
        ad_max (fst (a_step o a1)) = ad_max (fst (a_step o a2)) /\ ad_root (fst (a_step o a1)) = ad_root (fst (a_step o a2)) /\
        ad_dirs (fst (a_step o a1)) = ad_dirs (fst (a_step o a2)) /\
        forall x, ad_map (fst (a_step o a1)) x = ad_map (fst (a_step o a2)) x)).
    { destruct Q as (Q1 & Q2 & Q3 & Q4 & Q5 & Q6). destruct o as [name v|name e|name|s c m h r]; cbn [a_step].
      - unfold am_of. rewrite Q1, Q2, Q3, Q4, Q5, (Q6 name). destruct (a_write _ _ _ _ _) as [am' r].
        cbn [fst snd ad_size ad_cap ad_max ad_root ad_dirs ad_map]. repeat (split; [reflexivity|]).
        intros x. unfold aput. destruct (beqb name x); [reflexivity|apply Q6].
      - rewrite Q1, Q2, Q3, Q4, Q5, (Q6 name). destruct (ad_map a2 name); [cbn; auto 10|].
        destruct (existsb _ _); cbn [fst snd ad_size ad_cap ad_max ad_root ad_dirs ad_map]; [|auto 10].
        repeat (split; [reflexivity|]). intros x. unfold aput. destruct (beqb name x); [reflexivity|apply Q6].
      - rewrite Q1, Q2, Q3, Q4, Q5, (Q6 name). destruct (ad_map a2 name); [cbn; auto 10|].
        destruct (existsb _ _); cbn [fst snd ad_size ad_cap ad_max ad_root ad_dirs ad_map]; [|auto 10].
        repeat (split; [reflexivity|]). intros x. unfold aput. destruct (beqb name x); [reflexivity|apply Q6].
      - cbn. auto 10. }
    destruct S as [S1 S2]. destruct (a_step o a1) as [b1 r1], (a_step o a2) as [b2 r2]. cbn [fst snd] in *.
    specialize (IH b1 b2 S2). destruct (a_run ops b1), (a_run ops b2). cbn [snd] in *. congruence. }
  cbn [a_run]. rewrite Es. specialize (Hsame later a' a Q).
  destruct (a_run later a) as [a1 rs1], (a_run later a') as [a2 rs2]. cbn [snd] in *. subst rs2.
  exists rs1. auto.
Qed.
Print Assumptions C14_old_writes_refused_without_effect.

(** A later value that fits an empty file is written, except in the one
    situation of C18. *)
Theorem C14_newer_writes_accepted :
  forall root size cap max handles rand ops name v,
  history_ok root size cap handles rand ops ->
  value_fits (last_size size ops) (last_cap cap ops) v ->
  let '(st, outs) := c_run ops (db_empty root size cap max handles rand) in
  let log := acked name ops outs in
  (forall w, In w log -> v_end w < v_end v) ->
  exists st' r, c_step (OWrite name v) st = (st', RWrite r) /\
    (r = Ok true \/
     (r = Err /\ forall e, exists st1 st2 o, c_step (OQuery name e) st = (st1, o) /\
                                             c_step (OQuery name e) st' = (st2, o))).
Proof.
  intros root size cap max handles rand ops name v H Hfit.
  destruct (history_state root size cap max handles rand ops H)
    as (n & st & a & outs & -> & _ & Hn1 & Hn2 & HR & O1 & O2 & _ & HL & _). cbn zeta. intros Hnew.
  rewrite <- O1, <- O2 in Hfit.
  destruct (write_step n st a name v HR Hfit ltac:(lia)) as (st' & E & HR' & _).
  cbn [a_step] in E, HR'. pose proof HR as (HI & HG & HRest).
  pose proof (a_write_vals (ad_size a) (ad_cap a) (ad_max a) _ v (am_of_ok (ad_size a) (ad_cap a) _ name HG)) as Hw.
  rewrite vals_am_of in Hw.
  destruct (a_write _ _ _ _ _) as [am' r] eqn:Ew. cbn [fst snd] in *.
  exists st', r. split; [exact E|].
  assert (Herr : r = Err -> am' = am_of (ad_size a) (ad_cap a) (ad_map a) name ->
     (exists am, ad_map a name = Some am) ->
     forall e, exists st1 st2 o, c_step (OQuery name e) st = (st1, o) /\ c_step (OQuery name e) st' = (st2, o)).
  { intros -> -> (am & HA) e.
    destruct (query_answer n st a name e HR ltac:(lia)) as (st1 & Q1).
    destruct (query_answer (n + 1) st' _ name e HR' ltac:(lia)) as (st2 & Q2).
    exists st1, st2. cbn [a_step ad_map] in Q1, Q2. rewrite aput_same in Q2.
    unfold am_of in Q2. rewrite HA in Q1, Q2. cbn [snd] in Q1, Q2. eauto. }
  assert (Hsome : a_files (am_of (ad_size a) (ad_cap a) (ad_map a) name) <> a_files (a_fresh (ad_size a) (ad_cap a)) ->
                  exists am, ad_map a name = Some am).
  { unfold am_of. destruct (ad_map a name); [eauto|]. intros X. now contradiction X. }
  destruct Hw as [(-> & _)|[(-> & _ & w & l & Ev & Hle)|[(-> & -> & _ & f & Ef & Ef1 & Eu & _)|(-> & -> & El & Ef1)]]].
  - now left.
  - exfalso. destruct (HL name) as (_ & _ & (tl & Etl)). rewrite Ev in Etl.
    specialize (Hnew w). rewrite Etl in Hnew. specialize (Hnew (or_introl eq_refl)). lia.
  - right. split; [reflexivity|]. apply Herr; auto. apply Hsome. rewrite Ef. intros X.
    injection X as X. rewrite X in Eu. unfold used in Eu. cbn in Eu. discriminate.
  - exfalso. unfold am_of in El, Ef1. destruct (ad_map a name) as [am|] eqn:HA.
    + destruct (i_num _ _ _ _ HI name am HA) as (? & Hne & _). unfold a_last in El.
      assert (1 <= len (a_files am)) by (destruct (a_files am); [contradiction|rewrite len_cons; pose proof (len_nonneg l); lia]). lia.
    + cbn in Ef1. congruence.
Qed.
Print Assumptions C14_newer_writes_accepted.

Example C14_example :
  let '(st, _) := c_run [OWrite ex_name (small 10)] (db_empty ex_root 79 2 0 2 prng) in
  (snd (c_step (OWrite ex_name (small 10)) st), snd (c_step (OWrite ex_name (small 11)) st)) =
  (RWrite (Ok false), RWrite (Ok true)).
Proof. vm_compute. reflexivity. Qed.

(** * C15 *)
(** Two runs of the same calls that differ only in handle capacity and random
    eviction choices (initially and after every restart) answer the same, for
    values that fit an empty file. *)
Theorem C15_handle_cache_invisible_partial :
  forall root size cap max handles rand ops handles' rand' ops',
  history_ok root size cap handles rand ops -> history_ok root size cap handles' rand' ops' ->
  same_but_cache ops ops' ->
  snd (c_run ops (db_empty root size cap max handles rand)) =
  snd (c_run ops' (db_empty root size cap max handles' rand')).
Proof.
  intros root size cap max handles rand ops handles' rand' ops' (H1 & H2 & H3 & H4) (K1 & K2 & K3 & K4) Hs.
  destruct (db_refines root size cap max handles rand ops H1 H2 H3 H4) as (st & -> & _).
  destruct (db_refines root size cap max handles' rand' ops' K1 K2 K3 K4) as (st' & -> & _).
  cbn [snd]. now rewrite (a_run_same ops ops').
Qed.
Print Assumptions C15_handle_cache_invisible_partial.

Example C15_example : same_but_cache ex_ops
  [OWrite ex_name (small 10); OWrite ex_name (two 20); OWrite ex_name (small 15);
   OQuery ex_name 15; OReopen 79 3 1 0 (fun _ => 0); OWrite ex_name (small 30); OLatest ex_name].
Proof. unfold ex_ops. cbn [same_but_cache]. repeat split. Qed.

(** With a too large value in the history it is false of the code. *)
Theorem C15_refuted :
  exists ops,
    snd (c_run ops (db_empty ex_root 79 2 0 1 prng)) <> snd (c_run ops (db_empty ex_root 79 2 0 0 prng)).
Proof.
  exists [OWrite ex_name (two 10); OWrite ex_name (huge 20); OWrite ex_name (small 30); OLatest ex_name].
  vm_compute. discriminate.
Qed.
Print Assumptions C15_refuted.

(** * C16 *)
(** With max > 0 and constant options: at most max+1 data files per metric and
    at most size*(cap+1)*(max+1) bytes. *)
Theorem C16_disk_usage_bounded :
  forall root size cap max handles rand ops name,
  history_ok root size cap handles rand ops -> same_options size cap max ops -> 0 < max ->
  let '(st, _) := c_run ops (db_empty root size cap max handles rand) in
  len (disk_files name st) <= max + 1 /\ disk_bytes name st <= size * (cap + 1) * (max + 1).
Proof.
  intros root size cap max handles rand ops name H Hs Hm.
  destruct (history_state root size cap max handles rand ops H)
    as (n & st & a & outs & -> & EA & Hn1 & Hn2 & HR & _).
  pose proof (bounded_run size cap max ops (adb_empty root size cap max) Hm (good_empty _ _ _ _)
                (bounded_empty root size cap max) Hs) as HB. rewrite EA in HB. cbn [fst] in HB.
  destruct H as (_ & ((Hsz & Hc & _) & _) & _).
  apply (disk_bound n st a size cap max name HR HB Hm). nia.
Qed.
Print Assumptions C16_disk_usage_bounded.

(** With max <= 0 nothing is dropped: a query after the newest value returns
    all acknowledged values. *)
Theorem C16_unlimited_keeps_everything :
  forall root size cap max handles rand ops name e,
  history_ok root size cap handles rand ops -> unlimited max ops ->
  let '(st, outs) := c_run ops (db_empty root size cap max handles rand) in
  let log := acked name ops outs in
  log <> [] -> (forall v, In v log -> v_end v < e) ->
  exists st', c_step (OQuery name e) st = (st', RQuery log (Ok tt)).
Proof.
  intros root size cap max handles rand ops name e H Hu.
  pose proof (C12_full_queries_are_exact root size cap max handles rand ops name H) as P.
  destruct (c_run ops _) as [st outs]. cbn zeta in *. intros Hne He.
  destruct (P Hne) as (kept & _ & Hk & Q). destruct (Q e He) as (st' & E). exists st'.
  now rewrite E, (Hk Hu), firstn_all.
Qed.
Print Assumptions C16_unlimited_keeps_everything.

(** And with max > 0 enough is retained: if every value of the history needs at
    most [r] records (nrec: ceil of the data length over size - 24, at least 1)
    then the [k] newest acknowledged values are all still returned whenever they
    need at most max*(cap-r+1)+1 records together. *)
Theorem C16_retention_lower_bound :
  forall root size cap max handles rand ops name r k e,
  history_ok root size cap handles rand ops -> same_options size cap max ops -> 0 < max ->
  (forall name v, In (OWrite name v) ops -> nrec size v <= r) ->
  let '(st, outs) := c_run ops (db_empty root size cap max handles rand) in
  let log := acked name ops outs in
  log <> [] -> (forall v, In v log -> v_end v < e) ->
  (k <= length log)%nat ->
  fold_right Z.add 0 (map (nrec size) (firstn k log)) <= max * (cap - r + 1) + 1 ->
  exists st' older, c_step (OQuery name e) st = (st', RQuery (firstn k log ++ older) (Ok tt)).
Proof.
  intros root size cap max handles rand ops name r k e H Hs Hm Hr.
  destruct (history_state root size cap max handles rand ops H)
    as (n & st & a & outs & -> & EA & Hn1 & Hn2 & HR & _ & _ & _ & HL & HU). cbn zeta.
  intros Hne He Hk Hu.
  pose proof (full_run size cap max r name ops (adb_empty root size cap max) [] Hm (good_empty _ _ _ _)
                (bounded_empty root size cap max) Hs Hr eq_refl) as HF. rewrite EA in HF. cbn [fst snd] in HF.
  fold (acked name ops outs) in HF.
  destruct H as (_ & ((Hsz & Hc & _) & _) & _).
  set (log := acked name ops outs) in *.
  assert (Hv : (k <= length (vals a name))%nat).
  { apply (full_keeps size cap max r a name log k); try assumption; [lia|exact (HL name)|].
    assert (E : forall l, used_ size l = fold_right Z.add 0 (map (nrec size) l)).
    { induction l as [|x l IH]; cbn [used_ map fold_right]; [reflexivity|]. now rewrite IH. }
    now rewrite E. }
  pose proof (HL name) as HLn. destruct HLn as (_ & Hnil & (t & Et)).
  destruct (query_answer n st a name e HR ltac:(lia)) as (st' & E).
  exists st', (skipn k (vals a name)). rewrite E. cbn [a_step]. unfold vals in Hv, Et, Hnil |- *.
  destruct (ad_map a name) as [am|] eqn:HA; [|exfalso; apply Hne; unfold log; apply Hnil; reflexivity].
  cbn [snd]. f_equal. f_equal. destruct HR as (_ & HG & _).
  destruct (a_query_log am (HG name am HA)) as (newest & H1 & H2 & _ & H3). rewrite H3.
  fold log in Et.
  assert (Hin : forall v, In v (a_values am) -> v_end v < e)
    by (intros v Hin; apply He; rewrite Et; apply in_app_iff; now left).
  assert (existsb (fun v => v_end v <? e) (firstn newest (a_values am)) = true) as ->.
  { destruct (a_values am) as [|v l]; [exfalso; apply Hne; unfold log; apply Hnil; reflexivity|].
    specialize (H2 ltac:(discriminate)). destruct newest as [|newest]; [lia|]. cbn [firstn existsb].
    rewrite (proj2 (Z.ltb_lt _ _) (Hin v (or_introl eq_refl))). reflexivity. }
  rewrite filter_all by (intros v Hv'; apply Z.ltb_lt, Hin, Hv').
  rewrite Et, firstn_app. replace (k - length (a_values am))%nat with 0%nat by lia.
  cbn [firstn]. rewrite app_nil_r. symmetry. apply firstn_skipn.
Qed.
Print Assumptions C16_retention_lower_bound.

(** one record values in files of capacity 2 with max = 1: exactly the three
    newest of five are kept, which is the bound 1*(2-1+1)+1 *)
Definition ex_five : list op :=
  [OWrite ex_name (small 1); OWrite ex_name (small 2); OWrite ex_name (small 3);
   OWrite ex_name (small 4); OWrite ex_name (small 5)].
Example C16_bound_history : history_ok ex_root 79 2 2 prng ex_five.
Proof. unfold ex_five. ok_history. Qed.
Example C16_bound_is_met :
  let '(st, outs) := c_run ex_five (db_empty ex_root 79 2 1 2 prng) in
  snd (c_step (OQuery ex_name 9) st) = RQuery [small 5; small 4; small 3] (Ok tt).
Proof. vm_compute. reflexivity. Qed.

(** three values of two records each in files of capacity 3 and max = 1: the
    oldest value has been dropped with its file *)
Example C16_example :
  let ops := [OWrite ex_name (two 10); OWrite ex_name (two 20); OWrite ex_name (two 30)] in
  let '(st, outs) := c_run ops (db_empty ex_root 79 3 1 2 prng) in
  (snd (c_step (OQuery ex_name 40) st), len (disk_files ex_name st), disk_bytes ex_name st) =
  (RQuery [two 30; two 20] (Ok tt), 2, 79 * 4 * 2).
Proof. vm_compute. reflexivity. Qed.

(** * C17 *)
(** A value that fits an empty file and is rejected with an error changes no
    answer of any later query. *)
Theorem C17_failed_write_keeps_data_partial :
  forall root size cap max handles rand ops name v,
  history_ok root size cap handles rand ops ->
  value_fits (last_size size ops) (last_cap cap ops) v ->
  let '(st, outs) := c_run ops (db_empty root size cap max handles rand) in
  forall st', c_step (OWrite name v) st = (st', RWrite Err) ->
  forall name' e, exists st1 st2 l r r', 
    c_step (OQuery name' e) st = (st1, RQuery l r) /\ c_step (OQuery name' e) st' = (st2, RQuery l r').
Proof.
  intros root size cap max handles rand ops name v H Hfit.
  destruct (history_state root size cap max handles rand ops H)
    as (n & st & a & outs & -> & _ & Hn1 & Hn2 & HR & O1 & O2 & _ & HL & _). intros st' E name' e.
  rewrite <- O1, <- O2 in Hfit.
  destruct (write_step n st a name v HR Hfit ltac:(lia)) as (st1 & E1 & HR1 & _). rewrite E in E1.
  injection E1 as <- Er. cbn [a_step] in Er, HR1. pose proof HR as (HI & HG & HRest).
  pose proof (a_write_vals (ad_size a) (ad_cap a) (ad_max a) _ v (am_of_ok (ad_size a) (ad_cap a) _ name HG)) as Hw.
  destruct (a_write _ _ _ _ _) as [am' r] eqn:Ew. cbn [fst snd] in *. injection Er as <-.
  destruct (query_answer n st a name' e HR ltac:(lia)) as (st2 & Q2).
  destruct (query_answer (n + 1) st' _ name' e HR1 ltac:(lia)) as (st3 & Q3).
  exists st2, st3. cbn [a_step ad_map ad_size ad_cap ad_max ad_root ad_dirs] in Q2, Q3.
  assert (am' = am_of (ad_size a) (ad_cap a) (ad_map a) name) as ->.
  { destruct Hw as [(? & _)|[(? & _)|[(_ & -> & _)|(_ & -> & _)]]]; congruence. }
  unfold aput in Q3. unfold am_of in Q3. destruct (beqb name name') eqn:En.
  - apply beqb_eq in En. subst name'. destruct (ad_map a name) as [am|]; cbn [snd] in Q2, Q3.
    + eauto 10.
    + assert (a_query (a_fresh (ad_size a) (ad_cap a)) e = []) as Eq.
      { unfold a_query, a_fresh, a_values, oldest_end; cbn. reflexivity. }
      rewrite Eq in Q3. destruct (existsb _ _); cbn [snd] in Q2; eauto 10.
  - destruct (ad_map a name'); cbn [snd] in Q2, Q3; [eauto 10|].
    destruct (existsb _ (ad_dirs a)), (existsb _ (a_dirs _ _ _)); cbn [snd] in Q2, Q3; eauto 10.
Qed.
Print Assumptions C17_failed_write_keeps_data_partial.

Example C17_example : (* a rejected value that fits an empty file, see C18 *)
  let '(st, _) := c_run [OWrite ex_name (small 1)] (db_empty ex_root 79 2 0 2 prng) in
  snd (c_step (OWrite ex_name (two 2)) st) = RWrite Err.
Proof. vm_compute. reflexivity. Qed.

(** For a value larger than a file the property is false of the code: the
    oldest file is deleted before the value is found not to fit. *)
Theorem C17_refuted :
  exists ops v,
    let '(st, _) := c_run ops (db_empty ex_root 79 2 1 1 prng) in
    let '(st', r) := c_step (OWrite ex_name v) st in
    r = RWrite Err /\
    snd (c_step (OQuery ex_name 9) st) = RQuery [small 4; small 3; small 2; small 1] (Ok tt) /\
    snd (c_step (OQuery ex_name 9) st') = RQuery [small 4; small 3] (Ok tt).
Proof.
  exists [OWrite ex_name (small 1); OWrite ex_name (small 2); OWrite ex_name (small 3); OWrite ex_name (small 4)], (huge 10).
  vm_compute. auto.
Qed.
Print Assumptions C17_refuted.

(** * C18 *)
(** A later value that fits an empty file is stored, unless the metric has one
    file, number 1, holding exactly one record, and the value needs every slot
    (more records than are left). *)
Theorem C18_fitting_values_accepted_partial :
  forall root size cap max handles rand ops name v,
  history_ok root size cap handles rand ops -> same_options size cap max ops ->
  value_fits size cap v ->
  let '(st, outs) := c_run ops (db_empty root size cap max handles rand) in
  let log := acked name ops outs in
  (forall w, In w log -> v_end w < v_end v) ->
  exists st' r, c_step (OWrite name v) st = (st', RWrite r) /\
    (r = Ok true \/ (r = Err /\ nrec size v = cap /\ exists w, log = [w] /\ nrec size w = 1)).
Proof.
  intros root size cap max handles rand ops name v H Hs Hfit.
  pose proof (same_options_last size cap max) as Hlo.
  destruct (history_state root size cap max handles rand ops H)
    as (n & st & a & outs & -> & EA & Hn1 & Hn2 & HR & O1 & O2 & _ & HL & HU). cbn zeta. intros Hnew.
  destruct (Hlo ops Hs) as [L1 L2]. rewrite L1 in O1. rewrite L2 in O2.
  rewrite <- O1, <- O2 in Hfit.
  destruct (write_step n st a name v HR Hfit ltac:(lia)) as (st' & E & _ & _).
  cbn [a_step] in E. pose proof HR as (HI & HG & HRest).
  pose proof (a_write_vals (ad_size a) (ad_cap a) (ad_max a) _ v (am_of_ok (ad_size a) (ad_cap a) _ name HG)) as Hw.
  rewrite vals_am_of in Hw.
  destruct (a_write _ _ _ _ _) as [am' r] eqn:Ew. cbn [fst snd] in *.
  exists st', r. split; [exact E|].
  destruct (HL name) as (Hd & He & (tl & Etl)).
  destruct Hw as [(-> & _)|[(-> & _ & w & l & Ev & Hle)|[(-> & -> & _ & f & Ef & Ef1 & Eu & Hbig)|(-> & -> & El & Ef1)]]].
  - now left.
  - exfalso. rewrite Ev in Etl.
    specialize (Hnew w). rewrite Etl in Hnew. specialize (Hnew (or_introl eq_refl)). lia.
  - right. split; [reflexivity|].
    unfold am_of in Ef, Ef1. destruct (ad_map a name) as [am|] eqn:HA.
    2:{ exfalso. injection Ef as Ef. subst f. cbn in Eu. discriminate. }
    (* geometry of the only file *)
    assert (HF : a_size f = size /\ a_cap f = cap /\ a_first am = 1).
    { pose proof (geometry_run size cap max) as G.
      specialize (G ops (adb_empty root size cap max) Hs eq_refl eq_refl ltac:(intros ? ? X; discriminate X) name am).
      rewrite EA in G. specialize (G HA). rewrite Ef in G. inversion G as [|? ? [G1 G2] _]; subst. auto. }
    destruct HF as (G1 & G2 & G3). rewrite G1, G2, Eu in Hbig. destruct Hfit as [_ Hfit].
    rewrite O1, O2 in Hfit. split; [lia|].
    assert (Hs79 : 79 <= size) by (destruct H as (_ & ((? & _) & _) & _); lia).
    unfold vals in Etl. rewrite HA in Etl. unfold a_values in Etl. rewrite Ef in Etl. cbn [flat_map] in Etl.
    rewrite app_nil_r in Etl. unfold used in Eu. rewrite G1 in Eu.
    destruct (a_vals f) as [|w ws] eqn:Evf; [cbn in Eu; discriminate|]. cbn [used_] in Eu.
    pose proof (nrec_pos size w Hs79). destruct ws as [|w2 ws].
    2:{ cbn [used_] in Eu. pose proof (nrec_pos size w2 Hs79). pose proof (used_nonneg size ws Hs79). lia. }
    cbn [used_] in Eu.
    (* with a single file numbered 1 nothing was ever dropped *)
    assert (HD : forall ops a0, Good (ad_map a0) ->
               (forall x, ad_map a0 name = Some x -> 1 <= a_first x) ->
               forall x, ad_map (fst (a_run ops a0)) name = Some x -> a_first x = 1 ->
               forall lg, (match ad_map a0 name with Some y => a_first y = 1 -> a_values y = lg | None => lg = [] end) ->
               a_values x = acked_ name ops (snd (a_run ops a0)) lg).
    { clear. induction ops as [|o ops IH]; intros a0 HG Hpos x Hx Hf lg Hlg.
      - cbn in Hx |- *. rewrite Hx in Hlg. auto.
      - cbn [a_run] in *. pose proof (good_step o a0 HG) as HG'.
        assert (Hstep : (forall x, ad_map (fst (a_step o a0)) name = Some x -> 1 <= a_first x) /\
                  match ad_map (fst (a_step o a0)) name with
                  | Some y => a_first y = 1 -> a_values y = log1 name o (snd (a_step o a0)) lg
                  | None => log1 name o (snd (a_step o a0)) lg = [] end).
        { destruct o as [nm v|nm e|nm|s c m h r]; cbn [a_step log1].
          - pose proof (am_of_ok (ad_size a0) (ad_cap a0) (ad_map a0) nm HG) as Hok.
            set (am := am_of _ _ _ _) in *.
            destruct (beqb nm name) eqn:En.
            + apply beqb_eq in En. subst nm.
              assert (Hf0 : 1 <= a_first am) by (unfold am, am_of; destruct (ad_map a0 name) eqn:E; [auto|cbn; lia]).
              assert (Hlg' : a_first am = 1 -> a_values am = lg).
              { unfold am, am_of. destruct (ad_map a0 name); [exact Hlg|]. intros _. now rewrite Hlg. }
              assert (HX : forall am' r, a_write (ad_size a0) (ad_cap a0) (ad_max a0) am v = (am', r) ->
                   1 <= a_first am' /\ (a_first am' = 1 -> a_values am' = match r with Ok true => v :: lg | _ => lg end)).
              { unfold a_write. destruct Hok as (_ & Hne & _). destruct (a_files am) as [|f older] eqn:Efs; [contradiction|].
                destruct (match a_vals f with [] => false | w :: _ => v_end v <=? v_end w end); [intros ? ? [= <- <-]; auto|].
                destruct (_ <=? a_cap f).
                { intros ? ? [= <- <-]. cbn [a_first]. split; [exact Hf0|]. intros E1. rewrite <- (Hlg' E1).
                  unfold a_values; cbn [a_files flat_map a_vals]. now rewrite Efs. }
                destruct (_ && _); [intros ? ? [= <- <-]; auto|]. intros ? ? [= <- <-]. cbn [a_first].
                destruct (_ && _); [split; lia|]. split; [exact Hf0|]. intros E1. rewrite <- (Hlg' E1).
                unfold a_values; cbn [a_files flat_map a_vals]. now rewrite Efs. }
              destruct (a_write _ _ _ am v) as [am' r]. cbn [fst snd ad_map]. rewrite aput_same.
              destruct (HX am' r eq_refl) as [X1 X2]. split; [intros y [= <-]; exact X1|].
              destruct r as [[]| | |]; exact X2.
            + destruct (a_write _ _ _ am v) as [am' r]. cbn [fst snd ad_map].
              rewrite aput_other by (intros ->; rewrite beqb_refl in En; discriminate).
              split; [exact Hpos|]. assert (El : match r with Ok true => lg | _ => lg end = lg) by (destruct r as [[]| | |]; reflexivity).
              rewrite El. exact Hlg.
          - destruct (ad_map a0 nm) eqn:E0; cbn [fst]; [auto|]. destruct (existsb _ _); cbn [fst ad_map]; [|auto].
            unfold aput. destruct (beqb nm name) eqn:En; [|auto]. apply beqb_eq in En. subst nm. rewrite E0 in Hlg.
            split; [intros y [= <-]; cbn; lia|]. intros _. now rewrite Hlg.
          - destruct (ad_map a0 nm) eqn:E0; cbn [fst]; [auto|]. destruct (existsb _ _); cbn [fst ad_map]; [|auto].
            unfold aput. destruct (beqb nm name) eqn:En; [|auto]. apply beqb_eq in En. subst nm. rewrite E0 in Hlg.
            split; [intros y [= <-]; cbn; lia|]. intros _. now rewrite Hlg.
          - cbn [fst ad_map]. auto. }
        destruct (a_step o a0) as [a1 r]. cbn [fst snd] in *. destruct Hstep as [P1 P2].
        destruct (a_run ops a1) as [a2 rs] eqn:Er. cbn [fst snd] in *. rewrite acked_cons.
        specialize (IH a1 HG' P1 x). rewrite Er in IH. cbn [fst snd] in IH. apply IH; auto. }
    specialize (HD ops (adb_empty root size cap max) (good_empty _ _ _ _) ltac:(intros ? X; discriminate X) am).
    rewrite EA in HD. cbn [fst snd] in HD. specialize (HD HA G3 [] eq_refl).
    unfold a_values in HD. rewrite Ef in HD. cbn [flat_map] in HD. rewrite app_nil_r in HD.
    exists w. fold (acked name ops outs) in HD. split; [|lia].
    rewrite Evf in HD. symmetry. exact HD.
  - exfalso. unfold am_of in El, Ef1. destruct (ad_map a name) as [am|] eqn:HA.
    + destruct (i_num _ _ _ _ HI name am HA) as (? & Hne & _). unfold a_last in El.
      assert (1 <= len (a_files am)) by (destruct (a_files am); [contradiction|rewrite len_cons; pose proof (len_nonneg l); lia]). lia.
    + cbn in Ef1. congruence.
Qed.
Print Assumptions C18_fitting_values_accepted_partial.

Example C18_example : value_fits 79 3 (two 20).
Proof. ok_history. Qed.

(** The full property is false of the code (metric.go:255 compares the already
    incremented head): with capacity 1 a metric can never store a second value. *)
Theorem C18_refuted :
  exists v w, value_fits 79 1 v /\ value_fits 79 1 w /\ v_end v < v_end w /\
    let '(st, outs) := c_run [OWrite ex_name v] (db_empty ex_root 79 1 0 2 prng) in
    outs = [RWrite (Ok true)] /\ snd (c_step (OWrite ex_name w) st) = RWrite Err.
Proof.
  exists (small 1), (small 2). split; [ok_history|]. split; [ok_history|]. split; [reflexivity|].
  vm_compute. auto.
Qed.
Print Assumptions C18_refuted.

(** A value that needs more records than the capacity is rejected with an error
    (or refused as too old). *)
Theorem C18_too_large_rejected :
  forall root size cap max handles rand ops name v,
  history_ok root size cap handles rand ops -> same_options size cap max ops ->
  val_ok v -> cap < nrec size v ->
  let '(st, _) := c_run ops (db_empty root size cap max handles rand) in
  exists st' r, c_step (OWrite name v) st = (st', RWrite r) /\ (r = Err \/ r = Ok false).
Proof.
  intros root size cap max handles rand ops name v H Hs Hv Hbig.
  destruct (same_options_last size cap max ops Hs) as [L1 L2].
  destruct (history_state root size cap max handles rand ops H)
    as (n & st & a & outs & -> & EA & Hn1 & Hn2 & HR & O1 & O2 & _ & HL & HU).
  rewrite L1 in O1. rewrite L2 in O2.
  destruct (too_large_write n st a name v HR) as (st' & r & E & Hr); auto; try lia.
  - rewrite O1, O2. exact Hbig.
  - intros am HA. rewrite O1, O2.
    pose proof (geometry_run size cap max ops (adb_empty root size cap max) Hs eq_refl eq_refl
                  ltac:(intros ? ? X; discriminate X) name am) as G.
    rewrite EA in G. exact (G HA).
  - exists st', r. auto.
Qed.
Print Assumptions C18_too_large_rejected.

Example C18_too_large_example : 2 < nrec 79 (huge 20) /\
  let '(st, _) := c_run [OWrite ex_name (two 10)] (db_empty ex_root 79 2 0 2 prng) in
  snd (c_step (OWrite ex_name (huge 20)) st) = RWrite Err.
Proof. vm_compute. split; reflexivity. Qed.

(** * C19 *)
(** A call on one metric does not change the values any query on another metric
    returns; nor its status, once that metric has an acknowledged value. *)
Theorem C19_metrics_do_not_interfere :
  forall root size cap max handles rand ops name name' o e,
  history_ok root size cap handles rand (ops ++ [o]) ->
  (exists v, o = OWrite name v) \/ (exists e', o = OQuery name e') \/ o = OLatest name ->
  name <> name' ->
  let '(st, outs) := c_run ops (db_empty root size cap max handles rand) in
  let '(st1, _) := c_step o st in
  exists sa sb l r r',
    c_step (OQuery name' e) st = (sa, RQuery l r) /\ c_step (OQuery name' e) st1 = (sb, RQuery l r') /\
    (acked name' ops outs <> [] -> r = r').
Proof.
  intros root size cap max handles rand ops name name' o e Hfull Ho Hne.
  assert (H : history_ok root size cap handles rand ops /\ op_ok (last_size size ops) (last_cap cap ops) o).
  { destruct Hfull as (H1 & H2 & H3 & H4). apply ops_ok_app in H3. destruct H3 as [H3 H5].
    rewrite app_length in H4. split; [split; [exact H1|]; split; [exact H2|]; split; [exact H3|lia]|].
    destruct o; cbn in *; tauto. }
  destruct H as [H Hop].
  destruct (history_state root size cap max handles rand ops H)
    as (n & st & a & outs & -> & EA & Hn1 & Hn2 & HR & O1 & O2 & _ & HL & HU).
  rewrite <- O1, <- O2 in Hop.
  destruct (step_sim n st a o HR Hop ltac:(lia)) as (st1 & E1 & HR1). rewrite E1.
  destruct (query_answer n st a name' e HR ltac:(lia)) as (sa & Qa).
  destruct (query_answer (n + 1) st1 _ name' e HR1 ltac:(lia)) as (sb & Qb).
  assert (Hmap : ad_map (fst (a_step o a)) name' = ad_map a name').
  { destruct Ho as [(v & ->)|[(e' & ->)| ->]]; cbn [a_step].
    - destruct (a_write _ _ _ _ _). cbn [fst ad_map]. now apply aput_other.
    - destruct (ad_map a name); [reflexivity|]. destruct (existsb _ _); [|reflexivity].
      cbn [fst ad_map]. now apply aput_other.
    - destruct (ad_map a name); [reflexivity|]. destruct (existsb _ _); [|reflexivity].
      cbn [fst ad_map]. now apply aput_other. }
  cbn [a_step] in Qa, Qb. rewrite Hmap in Qb.
  destruct (ad_map a name') as [am|] eqn:HA.
  - cbn [snd] in Qa, Qb. exists sa, sb, (a_query am e), (Ok tt), (Ok tt). auto.
  - assert (El : acked name' ops outs = []).
    { destruct (HL name') as (_ & He & _). apply He. unfold vals. now rewrite HA. }
    rewrite El. destruct (existsb _ (ad_dirs a)), (existsb _ (ad_dirs (fst _))); cbn [snd] in Qa, Qb;
      eexists _, _, _, _, _; (split; [exact Qa|split; [exact Qb|contradiction]]).
Qed.
Print Assumptions C19_metrics_do_not_interfere.

(** the one difference: a metric that was never written, but whose directory is
    created for another one, changes from "error" to "no values" *)
Example C19_status_change :
  let st := db_empty ex_root 79 2 0 2 prng in
  let '(st1, _) := c_step (OWrite ex_name (small 1)) st in
  (snd (c_step (OQuery [97] 9) st), snd (c_step (OQuery [97] 9) st1)) =
  (RQuery [] Err, RQuery [] (Ok tt)).
Proof. vm_compute. reflexivity. Qed.

(** * C22 *)
(** In any state, for any callback: a query of a metric whose directory is
    missing, or contains a data file, changes no file and no directory. *)
Theorem C22_queries_read_only_partial :
  forall A (cb : callback A) name e acc st,
  dir_exists (metricDir (w_root st) name) st = false \/
  (exists file i, In file (listdir (metricDir (w_root st) name) st) /\ dataFileNumber file = Some i) ->
  let '(st', _) := db_query cb name e acc st in
  w_files st' = w_files st /\ w_ino st' = w_ino st /\ w_dirs st' = w_dirs st.
Proof.
  intros A cb name e acc st H. unfold db_query, newMetric.
  destruct H as [->|(file & i & Hin & Hnum)]; [cbn; auto|].
  destruct (dir_exists _ st); cbn [negb]; [|auto].
  assert (Hs : exists f l, fold_left scan_step (listdir (metricDir (w_root st) name) st) (0, 0, false) = (f, l, true)).
  { rewrite scan_numbers.
    assert (In i (numbers (listdir (metricDir (w_root st) name) st))) as Hi by (apply in_numbers; eauto).
    destruct (numbers _) as [|x l]; [contradiction|]. cbn [fold_left]. unfold scan_num at 2.
    cbn [negb]. rewrite orb_true_r, scan_set_spec. eauto. }
  destruct Hs as (f & l & ->).
  destruct (m_Read__fch cb (Z.to_nat (l - f + 1)) (Metric (metricDir (w_root st) name) f l) l e acc st) as (t & c & E).
  unfold m_Read. cbn [t_last t_first]. destruct (m_Read_ _ _ _ _ _ _ _) as [st' r]. cbn [fst] in E. subst st'.
  cbn. auto.
Qed.
Print Assumptions C22_queries_read_only_partial.

Example C22_example :
  let '(st, _) := c_run ex_ops (db_empty ex_root 79 3 1 2 prng) in
  existsb (beqb [49;46;100;97;116;97]) (listdir (metricDir (w_root st) ex_name) st) = true.
Proof. vm_compute. reflexivity. Qed.

(** A query of an intermediate directory creates a data file, i.e. a metric. *)
Theorem C22_refuted :
  exists name st, let '(st', _) := db_query collect_cb name 9 [] st in
  disk_files name st = [] /\ len (disk_files name st') = 1.
Proof.
  exists [97], (fst (c_run [OWrite ex_name (small 1)] (db_empty ex_root 79 2 0 2 prng))).
  vm_compute. auto.
Qed.
Print Assumptions C22_refuted.

(** * C23 *)
(** Exact when everything retained is in one file (in particular when all
    acknowledged values together fit one file). *)
Theorem C23_bounds_honoured_in_one_file_partial :
  forall root size cap max handles rand ops name e,
  history_ok root size cap handles rand ops ->
  let '(st, outs) := c_run ops (db_empty root size cap max handles rand) in
  let log := acked name ops outs in
  log <> [] -> len (disk_files name st) <= 1 ->
  exists kept st', (1 <= kept <= length log)%nat /\
    c_step (OQuery name e) st = (st', RQuery (filter (fun v => v_end v <? e) (firstn kept log)) (Ok tt)).
Proof.
  intros root size cap max handles rand ops name e H.
  destruct (history_state root size cap max handles rand ops H)
    as (n & st & a & outs & -> & EA & Hn1 & Hn2 & HR & O1 & O2 & _ & HL & HU). cbn zeta. intros Hne Hone.
  destruct (HL name) as (Hd & He & (tl & Etl)). unfold vals in *.
  destruct (ad_map a name) as [am|] eqn:HA; [|exfalso; apply Hne; now apply He].
  pose proof HR as (HI & HG & _).
  assert (Hlen : len (a_files am) = 1).
  { pose proof (disk_files_count n st _ _ name am HI HA) as Hc.
    destruct (i_num _ _ _ _ HI name am HA) as (_ & Hnn & _).
    destruct (a_files am) as [|f l]; [contradiction|]. rewrite len_cons in *. pose proof (len_nonneg l). lia. }
  destruct (a_query_log am (HG name am HA)) as (newest & H1 & H2 & H3 & H4). specialize (H3 Hlen).
  destruct (query_answer n st a name e HR ltac:(lia)) as (st' & Q). cbn [a_step] in Q. rewrite HA in Q. cbn [snd] in Q.
  exists (length (a_values am)), st'. rewrite Etl, app_length. split.
  { assert (a_values am <> []) by (intros X; apply Hne; now apply He). specialize (H2 H0). lia. }
  rewrite Q, H4, H3, firstn_all, firstn_app, Nat.sub_diag, firstn_all. cbn [firstn]. rewrite app_nil_r.
  destruct (existsb _ _) eqn:Ex; [reflexivity|]. do 2 f_equal.
  induction (a_values am) as [|x l IH]; [reflexivity|]. cbn in Ex |- *. apply orb_false_iff in Ex.
  destruct Ex as [-> Ex]. cbn. clear - Ex. induction l as [|y l IH]; [reflexivity|]. cbn in *.
  apply orb_false_iff in Ex. destruct Ex as [-> Ex]. auto.
Qed.
Print Assumptions C23_bounds_honoured_in_one_file_partial.

Example C23_example :
  let '(st, _) := c_run [OWrite ex_name (small 1); OWrite ex_name (small 2); OWrite ex_name (small 3)]
                        (db_empty ex_root 79 3 0 2 prng) in
  (len (disk_files ex_name st), snd (c_step (OQuery ex_name 3) st)) = (1, RQuery [small 2; small 1] (Ok tt)).
Proof. vm_compute. reflexivity. Qed.

(** The full property is false of the code: with the newest file entirely at
    or after the bound the older files are not read at all. *)
Theorem C23_refuted :
  exists ops e, history_ok ex_root 79 2 2 prng ops /\
    let '(st, outs) := c_run ops (db_empty ex_root 79 2 0 2 prng) in
    acked ex_name ops outs = [small 3; small 2; small 1] /\ v_end (small 2) < e /\
    snd (c_step (OQuery ex_name e) st) = RQuery [] (Ok tt).
Proof.
  exists [OWrite ex_name (small 1); OWrite ex_name (small 2); OWrite ex_name (small 3)], 3.
  split; [ok_history|]. vm_compute. auto.
Qed.
Print Assumptions C23_refuted.
