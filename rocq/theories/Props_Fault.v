(** Property C72: system calls that fail.

    Vocabulary (Fault.v, FaultRun.v): [f_run hs st] runs a history: calls, each
    with the answers the operating system gives to its system calls (any open,
    readdir, mkdir, stat, mmap, fallocate or remove may fail), and the operator
    deleting a file that cannot be opened.  [usable name st]: the metric has no
    file that cannot be opened.  [acked]: the values whose write was answered
    "written" (DbSpec.v). *)
From Coq Require Import ZArith List Lia Bool.
From Verif Require Import Base Maps Record Convert ConvertProofs File FileProofs Cache CacheProofs
  Metric MetricSpec MetricFile MetricPaths MetricProofs MetricRead DbSpec DbProofs DbLog DbClient
  Fault FaultProofs FaultJunk FaultSim FaultBroken FaultRun Props_Storage.
Import ListNotations.
Open Scope Z_scope.

(** a call none of whose system calls fails is the call of Metric.v *)
Theorem C72_calls_that_work : forall o st, f_step o no_faults st = c_step o st.
Proof. exact step_nf. Qed.
Print Assumptions C72_calls_that_work.

(** the history of the examples: a write that works; one that cannot make its
    second file because the disk is full (fallocate); a query and a write that
    are refused; the operator deletes the file; a write whose open fails; a
    write that works *)
Definition disk_full : env := ([], [Some false]).
Definition cannot_open : env := ([Some 0%nat], []).
Definition ex_path2 : list Z := metricFilenameAt (metricDir ex_root ex_name) 2.
Definition ex_hist : list item :=
  [ICall (OWrite ex_name (two 10)) no_faults; ICall (OWrite ex_name (two 20)) disk_full;
   ICall (OQuery ex_name 15) no_faults; ICall (OReopen 79 3 0 1 prng) no_faults; ICall (OWrite ex_name (small 30)) no_faults;
   IClean ex_path2; ICall (OWrite ex_name (small 30)) cannot_open; ICall (OWrite ex_name (two 40)) no_faults;
   ICall (OQuery ex_name 50) no_faults].
Example ex_hist_ok : fhistory_ok ex_root 79 3 2 prng ex_hist.
Proof. split; [|cbn; lia]. unfold ex_hist. unfold ops_of, calls, map, fst. ok_history. Qed.
Example ex_hist_answers :
  snd (f_run ex_hist (db_empty ex_root 79 3 0 2 prng)) =
  [RWrite (Ok true); RWrite Err; RQuery [] Err; RReopen; RWrite Err; RWrite Err; RWrite (Ok true);
   RQuery [two 40; two 10] (Ok tt)].
Proof. vm_compute. reflexivity. Qed.
(** at its end every file can be opened, although a creation failed in it *)
Lemma usable_all name st : forallb (fun x => match openFile (contents st (snd x)) with Err => false | _ => true end) (w_files st) = true -> usable name st.
Proof.
  intros H i ino. generalize (metricFilenameAt (metricDir (w_root st) name) i). intros p Hi E. rewrite forallb_forall in H.
  assert (Hin : In (p, ino) (w_files st)).
  { revert Hi. clear. induction (w_files st) as [|[q x] m IH]; cbn; [discriminate|].
    destruct (beqb p q) eqn:E; [apply beqb_eq in E; intros [= ->]; subst; now left|auto]. }
  specialize (H _ Hin). cbn [snd] in H. rewrite E in H. discriminate.
Qed.
Example ex_hist_usable : usable ex_name (fst (f_run ex_hist (db_empty ex_root 79 3 0 2 prng))) /\
  acked ex_name (ops_of ex_hist) (snd (f_run ex_hist (db_empty ex_root 79 3 0 2 prng))) = [two 40; two 10].
Proof. split; [apply usable_all; vm_compute; reflexivity|vm_compute; reflexivity]. Qed.
Definition ex_cut : list item := firstn 2 ex_hist.

(** no history panics or hangs: every call answers or returns an error *)
Theorem C72_no_panic :
  forall root size cap max handles rand hs, fhistory_ok root size cap handles rand hs ->
  let '(st, outs) := f_run hs (db_empty root size cap max handles rand) in
  length outs = length (calls hs) /\
  Forall (fun out => match out with
                     | RWrite r => r = Err \/ exists b, r = Ok b
                     | RQuery _ r | RLatest _ r => r = Err \/ r = Ok tt
                     | RReopen => True
                     end) outs.
Proof.
  intros root size cap max handles rand hs H.
  destruct (fstate root size cap max handles rand hs H) as (n & st & a & B & outs & -> & _ & _ & _ & _ & _ & _ & G1 & G2 & _).
  split; [exact G1|exact G2].
Qed.
Print Assumptions C72_no_panic.

(** Whatever failed before: a metric without an unusable file answers from the
    log of acknowledged writes, as in C12.  If a system call of the query fails
    too, it answers with the newest part of that and an error. *)
Theorem C72_queries_answer_from_the_log :
  forall root size cap max handles rand hs name, fhistory_ok root size cap handles rand hs ->
  let '(st, outs) := f_run hs (db_empty root size cap max handles rand) in
  let log := acked name (ops_of hs) outs in
  usable name st ->
  desc log /\
  exists kept newest, (newest <= kept <= length log)%nat /\ (log <> [] -> (1 <= newest)%nat) /\
    (unlimited max (ops_of hs) -> kept = length log) /\
    forall bound,
      let full := if existsb (fun v => v_end v <? bound) (firstn newest log)
                  then filter (fun v => v_end v <? bound) (firstn kept log) else [] in
      (exists r, snd (f_step (OQuery name bound) no_faults st) = RQuery full r /\ (log <> [] -> r = Ok tt)) /\
      (forall e, exists l rest r, snd (f_step (OQuery name bound) e st) = RQuery l r /\ full = l ++ rest /\
                                  (r = Ok tt /\ rest = [] \/ r = Err)).
Proof.
  intros root size cap max handles rand hs name H.
  destruct (fstate root size cap max handles rand hs H) as (n & st & a & B & outs & -> & Hn & HB & _ & _ & _ & _ & _ & _ & HL & HU & _).
  cbn zeta. intros Hus. apply (rb_usable _ _ _ _ name HB) in Hus. split; [exact (proj1 (HL name))|].
  pose proof (rb_R _ _ _ _ HB) as HR.
  destruct (query_log n _ a name _ HR ltac:(lia) (HL name)) as (kept & newest & H1 & H2 & H3 & H4).
  exists kept, newest. split; [exact H1|]. split; [exact H2|]. split; [intros Hu; apply H3, HU, Hu|].
  intros bound. destruct (H4 bound) as (st' & r & E & Hr). set (full := if existsb _ _ then _ else _) in *.
  assert (Ef : full = query_of a name bound).
  { destruct (query_answer n _ a name bound HR ltac:(lia)) as (st2 & E2). rewrite E in E2. destruct (query_of_step a name bound) as (r2 & E3).
    rewrite E3 in E2. congruence. }
  split.
  - exists r. split; [|exact Hr]. now rewrite (usable_works n st a B (OQuery name bound) name HB eq_refl Hus), E.
  - intros e. destruct (fb_sim n st a B (OQuery name bound) e HB I ltac:(lia)) as (st2 & a' & B' & out & E2 & _ & _ & Hfx & _).
    destruct out as [|l r2| |]; cbn [fx] in Hfx; try contradiction. destruct Hfx as (_ & Ha). apply answer_collect in Ha. cbn [fst snd] in Ha.
    destruct Ha as (rest & E3 & Hc). exists l, rest, r2. rewrite E2, Ef. split; [reflexivity|]. split; [exact E3|]. tauto.
Qed.
Print Assumptions C72_queries_answer_from_the_log.

(** ... and QueryLatest with the newest acknowledged value, as in C13 *)
Theorem C72_latest_answers_from_the_log :
  forall root size cap max handles rand hs name, fhistory_ok root size cap handles rand hs ->
  let '(st, outs) := f_run hs (db_empty root size cap max handles rand) in
  let log := acked name (ops_of hs) outs in
  usable name st -> (forall v, In v log -> v_end v < 2 ^ 63 - 1) ->
  (exists r, snd (f_step (OLatest name) no_faults st) = RLatest (hd_error log) r /\ (log <> [] -> r = Ok tt)) /\
  (forall e, snd (f_step (OLatest name) e st) = RLatest (hd_error log) (Ok tt) \/
             snd (f_step (OLatest name) e st) = RLatest None Err).
Proof.
  intros root size cap max handles rand hs name H.
  destruct (fstate root size cap max handles rand hs H) as (n & st & a & B & outs & -> & Hn & HB & _ & _ & _ & _ & _ & _ & HL & _ & _).
  cbn zeta. intros Hus Hb. apply (rb_usable _ _ _ _ name HB) in Hus. pose proof (rb_R _ _ _ _ HB) as HR.
  set (log := acked name (ops_of hs) outs) in *.
  destruct (latest_log n _ a name _ HR ltac:(lia) (HL name)) as (st' & r & E & Hr).
  { intros v l El. apply Hb. fold log in El. rewrite El. now left. }
  fold log in E. assert (Ef : hd_error (query_of a name (2 ^ 63 - 1)) = hd_error log).
  { destruct (step_sim n _ a (OLatest name) HR I ltac:(lia)) as (st2 & E2 & _). rewrite E in E2. destruct (latest_of_step a name) as (r2 & E3).
    rewrite E3 in E2. congruence. }
  split.
  - exists r. split; [|exact Hr]. now rewrite (usable_works n st a B (OLatest name) name HB eq_refl Hus), E.
  - intros e. destruct (fb_sim n st a B (OLatest name) e HB I ltac:(lia)) as (st2 & a' & B' & out & E2 & _ & _ & Hfx & _).
    destruct out as [| |x r2|]; cbn [fx] in Hfx; try contradiction. destruct Hfx as (_ & Ha). apply answer_latest in Ha. cbn [fst snd] in Ha.
    rewrite E2. cbn [snd]. rewrite Ef in Ha. destruct Ha as [(-> & ->)|(-> & ->)]; auto.
Qed.
Print Assumptions C72_latest_answers_from_the_log.

(** ... and Write: "written" only for a value newer than all acknowledged ones,
    "old" only for one that is not; with working system calls the newer value
    is written, except where C14 says that it cannot be (then nothing changes). *)
Theorem C72_writes :
  forall root size cap max handles rand hs name v, fhistory_ok root size cap handles rand hs ->
  value_fits (last_size size (ops_of hs)) (last_cap cap (ops_of hs)) v ->
  let '(st, outs) := f_run hs (db_empty root size cap max handles rand) in
  let log := acked name (ops_of hs) outs in
  (forall e, snd (f_step (OWrite name v) e st) = RWrite (Ok true) /\ (forall w, In w log -> v_end w < v_end v) \/
             snd (f_step (OWrite name v) e st) = RWrite (Ok false) /\ (exists w, In w log /\ v_end v <= v_end w) \/
             snd (f_step (OWrite name v) e st) = RWrite Err) /\
  (usable name st -> (forall w, In w log -> v_end w < v_end v) ->
     snd (f_step (OWrite name v) no_faults st) = RWrite (Ok true) \/
     log <> [] /\ snd (f_step (OWrite name v) no_faults st) = RWrite Err /\
     usable name (fst (f_step (OWrite name v) no_faults st)) /\
     forall bound, snd (f_step (OQuery name bound) no_faults (fst (f_step (OWrite name v) no_faults st))) =
                   snd (f_step (OQuery name bound) no_faults st)).
Proof.
  intros root size cap max handles rand hs name v H Hfit.
  destruct (fstate root size cap max handles rand hs H) as (n & st & a & B & outs & -> & Hn & HB & _ & _ & O1 & O2 & _ & _ & HL & _ & _).
  cbn zeta. rewrite <- O1, <- O2 in Hfit. pose proof (rb_R _ _ _ _ HB) as HR.
  specialize (HL name). set (log := acked name (ops_of hs) outs) in *. pose proof HL as (Hd & He & (tl & Etl)).
  assert (Hnewer : (forall w l, vals a name = w :: l -> v_end w < v_end v) -> forall w, In w log -> v_end w < v_end v).
  { intros Hh w Hw. destruct (vals a name) as [|w0 l0] eqn:E0; [rewrite (He eq_refl) in Hw; destruct Hw|].
    specialize (Hh w0 l0 eq_refl). rewrite Etl in Hw, Hd. cbn [app] in Hw, Hd. destruct Hw as [<-|Hw]; [exact Hh|].
    pose proof (desc_lt _ _ Hd w Hw). lia. }
  split.
  - intros e. destruct (fb_sim n st a B (OWrite name v) e HB Hfit ltac:(lia)) as (st2 & a' & B' & out & E2 & _ & _ & Hfx & _).
    rewrite E2. cbn [snd]. destruct out as [r| | |]; cbn [fx] in Hfx; try contradiction.
    destruct r as [[]| | |]; cbn [write_fx] in Hfx; try contradiction.
    + left. split; [reflexivity|]. apply Hnewer, Hfx.
    + right. left. split; [reflexivity|]. destruct Hfx as (_ & w & l & Ew & Hle). exists w. split; [|exact Hle]. rewrite Etl, Ew. now left.
    + auto.
  - intros Hus Hnew. pose proof Hus as Hus0. apply (rb_usable _ _ _ _ name HB) in Hus.
    pose proof (usable_step n st a B (OWrite name v) name no_faults HB eq_refl Hus) as Es. rewrite step_nf in Es.
    destruct (write_step n _ a name v HR Hfit ltac:(lia)) as (st1 & E & HR1 & _). rewrite E in Es.
    cbn [a_step] in Es, HR1, E. pose proof HR as (HI & HG & HRest).
    pose proof (a_write_vals (ad_size a) (ad_cap a) (ad_max a) _ v (am_of_ok (ad_size a) (ad_cap a) _ name HG)) as Hw.
    rewrite vals_am_of in Hw. destruct (a_write _ _ _ _ _) as [am' r] eqn:Ew. cbn [fst snd] in Es, HR1.
    pose proof (f_equal fst Es) as Es1. pose proof (f_equal snd Es) as Es2. cbn [fst snd] in Es1, Es2. rewrite <- Es2.
    destruct Hw as [(-> & _)|[(-> & _ & w & l & Ev & Hle)|[(-> & -> & _ & f & Ef & Ef1 & Eu & _)|(-> & -> & El & Ef1)]]].
    + now left.
    + exfalso. rewrite Ev in Etl. specialize (Hnew w). rewrite Etl in Hnew. specialize (Hnew (or_introl eq_refl)). lia.
    + right. assert (HA : exists am, ad_map a name = Some am).
      { unfold am_of in Ef. destruct (ad_map a name); [eauto|]. injection Ef as Ef. rewrite <- Ef in Eu. discriminate. }
      destruct HA as (am & HA).
      split.
      { intros El. unfold vals in Etl. rewrite HA in Etl. unfold am_of in Ef. rewrite HA in Ef. rewrite El in Etl.
        symmetry in Etl. apply app_eq_nil in Etl as (Ev & _). unfold a_values in Ev. rewrite Ef in Ev. cbn [flat_map] in Ev.
        rewrite app_nil_r in Ev. unfold used in Eu. rewrite Ev in Eu. discriminate. }
      split; [reflexivity|].
      destruct (fb_sim n st a B (OWrite name v) no_faults HB Hfit ltac:(lia)) as (st2 & a2 & B2 & out2 & E2 & HB2 & _ & _ & _ & HN2 & _).
      assert (Hout2 : ~ In name B2) by (intros Hi; destruct (HN2 name Hi) as [Hi2|(_ & _ & b & [])]; contradiction).
      split; [rewrite E2; exact (proj2 (rb_usable _ _ _ _ name HB2) Hout2)|].
      intros bound. rewrite (usable_works n st a B (OQuery name bound) name HB eq_refl Hus).
      assert (Eq : snd (f_step (OQuery name bound) no_faults (fst (f_step (OWrite name v) no_faults st))) =
                   snd (c_step (OQuery name bound) st1)).
      { rewrite Es1, <- step_nf. rewrite f_step_rm; [reflexivity|]. intros nm Hnm. injection Hnm as <-.
        assert (Ert : w_root (fst (f_step (OWrite name v) no_faults st)) = ad_root a).
        { change (w_root (fst (f_step (OWrite name v) no_faults st))) with (w_root (rm (junk a B) (fst (f_step (OWrite name v) no_faults st)))).
          rewrite <- Es1. destruct HR1 as (_ & _ & _ & _ & _ & Hx). exact Hx. }
        rewrite Ert. eapply junk_off; [exact HR|exact Hus]. }
      rewrite Eq.
      destruct (query_answer n _ a name bound HR ltac:(lia)) as (st3 & Q1).
      destruct (query_answer (n + 1) st1 _ name bound HR1 ltac:(lia)) as (st4 & Q2).
      rewrite Q1, Q2. cbn [snd a_step ad_map]. rewrite aput_same. unfold am_of. now rewrite HA.
    + exfalso. unfold am_of in El, Ef1. destruct (ad_map a name) as [am|] eqn:HA.
      * destruct (i_num _ _ _ _ HI name am HA) as (? & Hne & _). unfold a_last in El.
        assert (1 <= len (a_files am)) by (destruct (a_files am); [contradiction|rewrite len_cons; pose proof (len_nonneg l); lia]). lia.
      * cbn in Ef1. congruence.
Qed.
Print Assumptions C72_writes.

(** A file that cannot be opened appears only when a call on that metric failed
    while it was creating a file (after the open with O_CREATE worked). *)
Theorem C72_unusable_only_after_a_failed_creation :
  forall root size cap max handles rand hs name, fhistory_ok root size cap handles rand hs ->
  let '(st, outs) := f_run hs (db_empty root size cap max handles rand) in
  usable name st \/
  exists k o e b out, nth_error (calls hs) k = Some (o, e) /\ nth_error outs k = Some out /\
    op_name o = Some name /\ In (Some b) (snd e) /\
    match out with RWrite r => r = Err | RQuery _ r => r = Err | RLatest _ r => r = Err | RReopen => False end.
Proof.
  intros root size cap max handles rand hs name H.
  destruct (fstate root size cap max handles rand hs H) as (n & st & a & B & outs & -> & Hn & HB & _ & _ & _ & _ & _ & _ & _ & _ & HN).
  destruct (in_dec bytes_eq_dec name B) as [Hin|Hout]; [right; exact (HN name Hin)|left; now apply (rb_usable _ _ _ _ name HB)].
Qed.
Print Assumptions C72_unusable_only_after_a_failed_creation.

(** so if creating files never fails (the disk is not full), every metric is
    usable whatever else fails *)
Theorem C72_other_failures_are_transient :
  forall root size cap max handles rand hs name, fhistory_ok root size cap handles rand hs ->
  (forall o e b, In (ICall o e) hs -> ~ In (Some b) (snd e)) ->
  usable name (fst (f_run hs (db_empty root size cap max handles rand))).
Proof.
  intros root size cap max handles rand hs name H Hno.
  pose proof (C72_unusable_only_after_a_failed_creation root size cap max handles rand hs name H) as C.
  destruct (f_run hs _) as [st outs]. cbn [fst]. destruct C as [C|(k & o & e & b & out & Hk & _ & _ & Hb & _)]; [exact C|].
  exfalso. apply (Hno o e b); [|exact Hb]. apply nth_error_In in Hk. clear -Hk.
  induction hs as [|[o' e'|p] hs IH]; cbn [calls] in Hk; [destruct Hk| |right; auto].
  destruct Hk as [Hk|Hk]; [left; congruence|right; auto].
Qed.
Print Assumptions C72_other_failures_are_transient.

(** The property "a failed call has no lasting effect" is false: once a metric
    has an unusable file every call on it fails, in this process and after every
    restart, and the values it had cannot be read. *)
Theorem C72_unusable_metrics_refuse_everything :
  forall root size cap max handles rand hs name hs', fhistory_ok root size cap handles rand (hs ++ hs') ->
  let '(st, outs) := f_run hs (db_empty root size cap max handles rand) in
  ~ usable name st -> (forall p i, In (IClean p) hs' -> p <> metricFilenameAt (metricDir root name) i) ->
  let '(st', outs') := f_run hs' st in
  ~ usable name st' /\
  forall k o e out, nth_error (calls hs') k = Some (o, e) -> nth_error outs' k = Some out -> op_name o = Some name ->
    out = match o with OWrite _ _ => RWrite Err | OQuery _ _ => RQuery [] Err | OLatest _ => RLatest None Err | OReopen _ _ _ _ _ => RReopen end.
Proof.
  intros root size cap max handles rand hs name hs' H.
  assert (Happ : forall h1 h2, ops_of (h1 ++ h2) = ops_of h1 ++ ops_of h2).
  { intros h1 h2. unfold ops_of. induction h1 as [|[o e|p] h1 IH]; cbn; [reflexivity|now rewrite IH|exact IH]. }
  destruct H as ((Hr & Hp & Ho & Hl) & Hn). rewrite Happ in Ho, Hl. rewrite app_length in Hn, Hl. apply ops_ok_app in Ho. destruct Ho as (Ho1 & Ho2).
  assert (H1 : fhistory_ok root size cap handles rand hs) by (split; [split; [exact Hr|split; [exact Hp|split; [exact Ho1|lia]]]|lia]).
  pose proof (R_empty root size cap max handles rand Hr Hp) as HR0.
  assert (HB0 : RB 1 (db_empty root size cap max handles rand) (adb_empty root size cap max) []).
  { constructor; [|intros ? []|intros ? []]. cbn [junk map]. rewrite rm_nil. exact HR0. }
  destruct (fb_run hs 1 _ _ [] HB0 Ho1 ltac:(lia)) as (st & a & B & outs & -> & HB & G1 & G2 & G3 & _).
  intros Hus Hcl.
  assert (Hin : In name B).
  { destruct (in_dec bytes_eq_dec name B) as [Hi|Ho]; [exact Hi|]. exfalso. apply Hus. now apply (rb_usable _ _ _ _ name HB). }
  destruct (fb_run hs' _ st a B HB) as (st' & a' & B' & outs' & -> & HB' & _ & _ & _ & _ & _ & _ & _ & K).
  { rewrite G2, G3. exact Ho2. } { lia. }
  destruct (K name Hin) as (Hin' & Hk). { rewrite G1. exact Hcl. }
  split; [intros Hu; now apply (rb_usable _ _ _ _ name HB') in Hu|].
  intros k o e out K1 K2 K3. rewrite (Hk k o e out K1 K2 K3). destruct o; reflexivity.
Qed.
Print Assumptions C72_unusable_metrics_refuse_everything.
Example C72_refused_example :
  let '(st, _) := f_run ex_cut (db_empty ex_root 79 3 0 2 prng) in
  (mget beqb ex_path2 (w_files st) <> None /\
   snd (f_run [ICall (OQuery ex_name 15) no_faults; ICall (OReopen 79 3 0 1 prng) no_faults; ICall (OLatest ex_name) no_faults] st) =
   [RQuery [] Err; RReopen; RLatest None Err]).
Proof. vm_compute. split; [discriminate|reflexivity]. Qed.

(** Deleting the file repairs it (and the theorems above, whose histories
    contain such deletions, say what the metric then answers); no other metric
    becomes usable or unusable. *)
Theorem C72_deleting_the_file_repairs :
  forall root size cap max handles rand hs name, fhistory_ok root size cap handles rand hs ->
  let '(st, outs) := f_run hs (db_empty root size cap max handles rand) in
  ~ usable name st ->
  exists i, usable name (clean (metricFilenameAt (metricDir root name) i) st) /\
    (forall name', name' <> name -> (usable name' (clean (metricFilenameAt (metricDir root name) i) st) <-> usable name' st)) /\
    (forall j, (exists ino, mget beqb (metricFilenameAt (metricDir root name) j) (w_files st) = Some ino /\ openFile (contents st ino) = Err) ->
               metricFilenameAt (metricDir root name) j = metricFilenameAt (metricDir root name) i).
Proof.
  intros root size cap max handles rand hs name H.
  destruct (fstate root size cap max handles rand hs H) as (n & st & a & B & outs & -> & Hn & HB & Er & Er2 & _).
  intros Hus. destruct (rb_root _ _ _ _ HB) as (_ & Hr).
  assert (Hin : In name B).
  { destruct (in_dec bytes_eq_dec name B) as [Hi|Ho]; [exact Hi|]. exfalso. apply Hus. now apply (rb_usable _ _ _ _ name HB). }
  exists (next_num a name). rewrite <- Er. fold (dir_of (ad_root a) name). change (metricFilenameAt (dir_of (ad_root a) name)) with (path_of (ad_root a) name).
  destruct (clean_sim n st a B (path_of (ad_root a) name (next_num a name)) HB) as (B' & HB' & Hi1 & Hi2 & Hi3).
  split; [|split].
  - apply (rb_usable _ _ _ _ name HB'). intros Hi. now apply (Hi3 name Hi).
  - intros nm Hne. rewrite (rb_usable _ _ _ _ nm HB'), (rb_usable _ _ _ _ nm HB). split; intros Hx Hy; apply Hx; [|now apply Hi1].
    apply Hi2; [exact Hy|]. intros E. apply path_dir in E; [congruence|exact Hr].
  - intros j (x & Hx & Ho). destruct (rb_linked n st a B _ x HB Hx) as [(nm & Hnm & E & _)|(_ & g & Hg)]; [|congruence].
    pose proof E as E'. apply path_dir in E'; [|exact Hr]. subst nm. exact E.
Qed.
Print Assumptions C72_deleting_the_file_repairs.
Example C72_repair_example :
  let '(st, _) := f_run ex_cut (db_empty ex_root 79 3 0 2 prng) in
  (snd (f_step (OQuery ex_name 15) no_faults st), snd (f_step (OQuery ex_name 15) no_faults (clean ex_path2 st))) =
  (RQuery [] Err, RQuery [two 10] (Ok tt)).
Proof. vm_compute. reflexivity. Qed.

(** With a limit on the number of files a write that fails has lost values: the
    oldest file is removed before the new one is made.  (The write answers an
    error, and the metric is usable.) *)
Theorem C72_a_failing_write_loses_values_refuted :
  exists root size cap max handles rand hs name v e bound l w,
  fhistory_ok root size cap handles rand (hs ++ [ICall (OWrite name v) e]) /\
  (forall b, ~ In (Some b) (snd e)) /\
  let '(st, outs) := f_run hs (db_empty root size cap max handles rand) in
  let '(st', outs') := f_run (hs ++ [ICall (OWrite name v) e]) (db_empty root size cap max handles rand) in
  outs' = outs ++ [RWrite Err] /\
  snd (f_step (OQuery name bound) no_faults st) = RQuery (l ++ [w]) (Ok tt) /\
  snd (f_step (OQuery name bound) no_faults st') = RQuery l (Ok tt).
Proof.
  exists ex_root, 79, 2, 1, 0, prng, [ICall (OWrite ex_name (two 10)) no_faults; ICall (OWrite ex_name (two 20)) no_faults],
    ex_name, (two 30), ([None; None; None; None; None; None; Some 0%nat], []), 50, [two 20], (two 10).
  split; [split; [|cbn; lia]; unfold ops_of, calls, app, map, fst; ok_history|]. split; [intros b []|].
  vm_compute. split; [reflexivity|]. split; reflexivity.
Qed.
Print Assumptions C72_a_failing_write_loses_values_refuted.
