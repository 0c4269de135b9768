(** Properties C20 and C21: crashes during a write.

    Vocabulary: [crash_db_write p name start end data st t] (Crash.v): a process
    that dies in stage [p] of write(name, start, end, data) on [st] leaves the
    disk [t]; [db_reopen ... t] is the database of the next process;
    [history_ok], [c_run], [c_step], [value_fits] as in Props_Storage.v. *)
From Coq Require Import ZArith List Lia Bool.
From Verif Require Import Base Maps Record Convert File FileProofs Cache CacheProofs
  Metric MetricSpec MetricFile MetricPaths MetricProofs MetricRead DbSpec DbProofs DbLog DbClient
  Crash CrashFile CrashDb CrashWrite CrashProofs CrashRecover CrashCheck Props_Storage.
Import ListNotations.
Open Scope Z_scope.

(** Every query with a (positive) bound after all of [l] answers [l]; without
    error unless [l] is empty. *)
Definition holds (st : db) (name : list Z) (l : list value) : Prop :=
  forall e, 0 < e -> (forall x, In x l -> v_end x < e) ->
  exists st' r, c_step (OQuery name e) st = (st', RQuery l r) /\ (l <> [] -> r = Ok tt).

Lemma bound_of (l : list value) : exists b, 0 < b /\ forall x, In x l -> v_end x < b.
Proof.
  induction l as [|v l (b & H0 & IH)]; [exists 1; split; [lia|contradiction]|].
  exists (Z.max b (v_end v + 1)). split; [lia|]. intros x [<-|Hx]; [lia|]. specialize (IH x Hx). lia.
Qed.

Lemma holds_unique st name l l' : holds st name l -> holds st name l' -> l = l'.
Proof.
  intros H H'. destruct (bound_of l) as (b & Hb0 & Hb), (bound_of l') as (b' & Hb0' & Hb').
  destruct (H (Z.max b b') ltac:(lia)) as (s & r & E & _).
  { intros x Hx. specialize (Hb x Hx). lia. }
  destruct (H' (Z.max b b') ltac:(lia)) as (s' & r' & E' & _).
  { intros x Hx. specialize (Hb' x Hx). lia. }
  rewrite E in E'. now injection E'.
Qed.

Lemma answers_holds st name l : answers st name l -> holds st name l.
Proof.
  intros H e He Hlt. cbn [c_step]. destruct H as [H|[H ->]].
  - specialize (H _ collect_cb e [] He Hlt). destruct (db_query collect_cb name e [] st) as [st' [l0 r0]].
    cbn [snd] in H. rewrite collect_run in H. cbn in H. injection H as -> ->. eauto.
  - specialize (H _ collect_cb e []). destruct (db_query collect_cb name e [] st) as [st' [l0 r0]].
    cbn [snd] in H. injection H as -> ->. eexists _, _. split; [reflexivity|]. intros X; now contradiction X.
Qed.

(** * C20 *)
(** [l0]: what a new process would answer had the write not started; [l1]: had
    it completed; [l]: after the crash.  [l] is [l0] or [l1], or [l1] without
    the interrupted value (the oldest file was dropped first); every other
    metric is as before.
    Missing: the stages PCreate (a data file being created) and PMetadata (the
    metadata being stored), and half stored records with a correct checksum
    (see the refutations below). *)
Theorem C20_crash_keeps_the_retained_values_partial :
  forall root size cap max handles rand ops name v p t size' cap' max' handles' rand',
  history_ok root size cap handles rand ops ->
  value_fits (last_size size ops) (last_cap cap ops) v ->
  process_ok size' cap' handles' rand' ->
  let '(st, _) := c_run ops (db_empty root size cap max handles rand) in
  let '(st', _) := c_step (OWrite name v) st in
  let re := db_reopen size' cap' max' handles' rand' in
  crash_db_write p name (v_start v) (v_end v) (v_data v) st t ->
  p <> PCreate -> p <> PMetadata -> checksums_detect st st' t ->
  (exists l0 l1 l, holds (re st) name l0 /\ holds (re st') name l1 /\ holds (re t) name l /\
     (l = l0 \/ l = l1 \/ l1 = v :: l)) /\
  (forall name' l', name' <> name -> l' <> [] -> holds (re st) name' l' -> holds (re t) name' l').
Proof.
  intros root size cap max handles rand ops name v p t size' cap' max' handles' rand' H Hv Hp.
  destruct (history_state root size cap max handles rand ops H)
    as (n & st & a & outs & -> & _ & Hn1 & Hn2 & HR & Es & Ec & _).
  cbn [c_step]. destruct (db_write name _ _ _ st) as [st' r] eqn:Ew. cbv zeta. intros HC H1 H2 H3.
  destruct (crash_reads n st a name v p t size' cap' max' handles' rand' HR) as (Hl & Hoth); auto.
  { now rewrite Es, Ec. } { lia. } { now rewrite Ew. }
  rewrite Ew in Hl. cbn [fst] in Hl. split.
  - destruct Hl as (l0 & l1 & l & A0 & A1 & A & Hl). exists l0, l1, l.
    split; [now apply answers_holds|]. split; [now apply answers_holds|]. split; [now apply answers_holds|exact Hl].
  - intros name' l' Hne Hnl Hh.
    pose proof (R_answers _ _ _ name' (R_reopen n st a size' cap' max' handles' rand' HR Hp)) as HA.
    pose proof (holds_unique _ _ _ _ Hh (answers_holds _ _ _ HA)) as El. rewrite <- El in HA.
    destruct HA as [HA|[_ HA]]; [|contradiction].
    apply answers_holds. left. exact (Hoth name' l' Hne Hnl HA).
Qed.
Print Assumptions C20_crash_keeps_the_retained_values_partial.

Definition crash_ops : list op := [OWrite ex_name (small 10)].
Definition crash_st : db := fst (c_run crash_ops (db_empty ex_root 79 4 1 2 prng)).
Definition crash_again : list op :=
  [OReopen 79 4 1 2 prng; OQuery ex_name 100; OWrite ex_name (small 30); OQuery ex_name 100].

Definition stopped (o : option db) : db := match o with Some t => t | None => crash_st end.
Definition is_some {A} (o : option A) : bool := match o with Some _ => true | None => false end.
Lemma stopped_some o : is_some o = true -> o = Some (stopped o).
Proof. destruct o; [reflexivity|discriminate]. Qed.

(** the hypotheses are met: a value of two records, half of the second stored *)
Definition two_torn : db :=
  stopped (stop_records 1 (fun i => (237 <? i) && (i <? 290)) ex_name 0 20 (v_data (two 20)) crash_st).
Example C20_example :
  crash_db_write PRecords ex_name 0 20 (v_data (two 20)) crash_st two_torn /\
  two_torn <> crash_st /\
  snd (c_run [OReopen 79 4 1 2 prng; OQuery ex_name 100] two_torn) = [RReopen; RQuery [small 10] (Ok tt)].
Proof.
  split; [|split].
  - apply (stop_records_ok 1 (fun i => (237 <? i) && (i <? 290))). apply stopped_some. vm_compute. reflexivity.
  - intros E. apply (f_equal (fun st => at_ 158 (contents st 1))) in E. vm_compute in E. discriminate.
  - vm_compute. reflexivity.
Qed.
(** and [checksums_detect] holds of it: its only data file shows in every slot
    nothing, or what it showed before, or what the complete write shows *)
Lemma record_at_range st path g ino (k : Z -> Prop) : mget beqb path (w_files st) = Some ino ->
  openFile (contents st ino) = Ok g -> (forall n, 0 <= n < g_cap g -> k n) ->
  forall n, record_at st path n = Err \/ k n.
Proof.
  intros E1 E2 H n. unfold record_at. rewrite E1, E2. unfold f_record.
  destruct (Z.leb_spec (g_cap g) n), (Z.ltb_spec n 0); cbn [orb]; auto; lia.
Qed.
Definition ex_path : list Z := [114; 47; 97; 47; 98; 47; 49; 46; 100; 97; 116; 97].  (* r/a/b/1.data *)
Example C20_example_checksums :
  checksums_detect crash_st (fst (c_step (OWrite ex_name (two 20)) crash_st)) two_torn.
Proof.
  intros path n.
  destruct (list_eq_dec Z.eq_dec path ex_path) as [->|Hne].
  - assert (Hk : forall n, 0 <= n < 4 -> record_at two_torn ex_path n = Err \/
        record_at two_torn ex_path n = record_at (fst (c_step (OWrite ex_name (two 20)) crash_st)) ex_path n).
    { clear n. intros n Hn. assert (n = 0 \/ n = 1 \/ n = 2 \/ n = 3) as [->|[->|[->| ->]]] by lia.
      - left. vm_compute. reflexivity.
      - right. vm_compute. reflexivity.
      - left. vm_compute. reflexivity.
      - right. vm_compute. reflexivity. }
    assert (E1 : mget beqb ex_path (w_files two_torn) = Some 1) by (vm_compute; reflexivity).
    assert (E2 : openFile (contents two_torn 1) = Ok (Geom 4 79)) by (vm_compute; reflexivity).
    destruct (record_at_range two_torn ex_path (Geom 4 79) 1 _ E1 E2 Hk n) as [E|[E|E]].
    + left. exact E.
    + left. exact E.
    + right. right. exact E.
  - left. unfold record_at.
    assert (E : w_files two_torn = [(ex_path, 1)])
      by (vm_compute; reflexivity).
    rewrite E. cbn [mget]. destruct (beqb path ex_path) eqn:Eb; [|reflexivity].
    apply beqb_eq in Eb. contradiction.
Qed.

(** Refutations of the full statement.  In each of them the history is
    [history_ok] and the value [value_fits]. *)
Example crash_history : history_ok ex_root 79 4 2 prng crash_ops /\
  value_fits 79 4 (small 20) /\ value_fits 79 4 (two 20) /\ process_ok 79 4 2 prng.
Proof. unfold crash_ops. split; [|split; [|split]]; ok_history. Qed.

(** (a) the metadata's payload is stored before its header (with the checksum):
    a crash in between makes the whole file unreadable; "a.b" = 10 was
    acknowledged and is gone, and the metric cannot be written any more *)
Theorem C20_C21_refuted_torn_metadata : exists t,
  crash_db_write PMetadata ex_name 0 20 [20] crash_st t /\
  snd (c_run crash_again crash_st) =
    [RReopen; RQuery [small 10] (Ok tt); RWrite (Ok true); RQuery [small 30; small 10] (Ok tt)] /\
  snd (c_run crash_again t) = [RReopen; RQuery [] Err; RWrite Err; RQuery [] Err].
Proof.
  exists (stopped (stop_metadata (fun _ => false) ex_name 0 20 [20] crash_st)). split; [|split].
  - apply (stop_metadata_ok (fun _ => false)). apply stopped_some. vm_compute. reflexivity.
  - vm_compute. reflexivity.
  - vm_compute. reflexivity.
Qed.
Print Assumptions C20_C21_refuted_torn_metadata.

(** (b) a crash while a second data file is created: the older file is intact,
    but queries and writes fail *)
Definition crash2_st : db :=
  fst (c_run [OWrite ex_name (two 10); OWrite ex_name (two 20)] (db_empty ex_root 79 3 1 2 prng)).
Definition crash2_again : list op :=
  [OReopen 79 3 1 2 prng; OQuery ex_name 100; OWrite ex_name (small 40); OQuery ex_name 100].
Example crash2_history : history_ok ex_root 79 3 2 prng [OWrite ex_name (two 10); OWrite ex_name (two 20)] /\
  value_fits 79 3 (two 30).
Proof. split; ok_history. Qed.
Theorem C20_C21_refuted_create : exists t,
  crash_db_write PCreate ex_name 0 30 (v_data (two 30)) crash2_st t /\
  snd (c_run crash2_again crash2_st) =
    [RReopen; RQuery [two 20; two 10] (Ok tt); RWrite (Ok true); RQuery [small 40; two 20; two 10] (Ok tt)] /\
  snd (c_run crash2_again t) = [RReopen; RQuery [] Err; RWrite Err; RQuery [] Err].
Proof.
  exists (stopped (stop_create ex_name (v_data (two 30)) 30 crash2_st)). split; [|split].
  - apply stop_create_ok. apply stopped_some. vm_compute. reflexivity.
  - vm_compute. reflexivity.
  - vm_compute. reflexivity.
Qed.
Print Assumptions C20_C21_refuted_create.

(** (c) the oldest file is removed before the value that needs the room is
    stored: 10 is lost and 30 is not there *)
Theorem C20_refuted_drop_first : exists t,
  crash_db_write PDrop ex_name 0 30 (v_data (two 30)) crash2_st t /\
  snd (c_run [OReopen 79 3 1 2 prng; OQuery ex_name 100] crash2_st) = [RReopen; RQuery [two 20; two 10] (Ok tt)] /\
  snd (c_run [OReopen 79 3 1 2 prng; OQuery ex_name 100] t) = [RReopen; RQuery [two 20] (Ok tt)].
Proof.
  exists (stopped (stop_drop ex_name (v_data (two 30)) 30 crash2_st)). split; [|split].
  - apply stop_drop_ok. apply stopped_some. vm_compute. reflexivity.
  - vm_compute. reflexivity.
  - vm_compute. reflexivity.
Qed.
Print Assumptions C20_refuted_drop_first.

(** (d) a value whose last bytes are a multiple of the CRC-32C polynomial, cut
    before them: the checksum is right and a value nobody wrote is returned *)
Definition collide : list Z := [1; 2; 3; 241; 118; 236; 5; 1].
Theorem C20_refuted_checksum_collision : exists t,
  crash_db_write PRecords ex_name 0 20 collide crash_st t /\
  snd (c_run [OReopen 79 4 1 2 prng; OQuery ex_name 100] t) =
    [RReopen; RQuery [Val 0 20 [1; 2; 3; 0; 0; 0; 0; 0]; small 10] (Ok tt)].
Proof.
  exists (stopped (stop_records 0 (fun i => i <? 237 + 24 + 3) ex_name 0 20 collide crash_st)). split.
  - apply (stop_records_ok 0 (fun i => i <? 237 + 24 + 3)). apply stopped_some. vm_compute. reflexivity.
  - vm_compute. reflexivity.
Qed.
Print Assumptions C20_refuted_checksum_collision.

(** * C21 *)
(** After a crash that is not inside createFile or the metadata and that is
    [clean_crash] (CrashRecover.v: the records either left no mark, or were all
    stored next to an older value; and no new data file without a record), the
    database answers every later history exactly as the specification machine
    [a_run] does from a state with the values of C20.
    Missing: the other crash points, see the refutations below. *)
Theorem C21_recovers_from_clean_crashes_partial :
  forall root size cap max handles rand ops name v p t size' cap' max' handles' rand',
  history_ok root size cap handles rand ops ->
  value_fits (last_size size ops) (last_cap cap ops) v ->
  process_ok size' cap' handles' rand' ->
  let '(st, _) := c_run ops (db_empty root size cap max handles rand) in
  let '(a, _) := a_run ops (adb_empty root size cap max) in
  let '(st', _) := c_step (OWrite name v) st in
  let '(a', _) := a_step (OWrite name v) a in
  crash_db_write p name (v_start v) (v_end v) (v_data v) st t ->
  p <> PCreate -> p <> PMetadata -> (p = PRecords -> clean_crash name st st' t) ->
  exists b : adb,
    (forall x, x <> name -> ad_map b x = ad_map a x) /\
    (values_of b name = values_of a name \/ values_of b name = values_of a' name \/
     values_of a' name = v :: values_of b name) /\
    forall later, ops_ok size' cap' later -> Z.of_nat (length later) < 2 ^ 60 ->
      snd (c_run later (db_reopen size' cap' max' handles' rand' t)) =
      snd (a_run later (ADB size' cap' max' root (ad_dirs b) (ad_map b))).
Proof.
  intros root size cap max handles rand ops name v p t size' cap' max' handles' rand' H Hv Hp.
  destruct (history_state root size cap max handles rand ops H)
    as (n & st & a & outs & -> & -> & Hn1 & Hn2 & HR & Es & Ec & Er & _).
  cbn [c_step]. destruct (db_write name _ _ _ st) as [st' r] eqn:Ew.
  destruct (a_step (OWrite name v) a) as [a' ra] eqn:Ea. intros HC H1 H2 H3.
  destruct (crash_recovers n st a name v p t HR) as (b & HRb & B1 & B2 & B3 & B4 & Hoth & Hval); auto.
  { now rewrite Es, Ec. } { lia. } { rewrite Ew. exact H3. }
  rewrite Ea in Hval. cbn [fst] in Hval. exists b. split; [exact Hoth|]. split; [exact Hval|].
  intros later Hl Hll.
  pose proof (R_reopen _ _ _ size' cap' max' handles' rand' HRb Hp) as HRr. rewrite B4, Er in HRr.
  destruct (run_sim later _ _ _ HRr Hl ltac:(lia)) as (st2 & -> & _). reflexivity.
Qed.
Print Assumptions C21_recovers_from_clean_crashes_partial.

(** In particular a newer value is accepted and returned first, before the
    retained values that were not dropped for it.  (With exactly one retained
    value a value that does not fit next to it is refused, see C17.) *)
Theorem C21_newer_write_is_accepted_partial :
  forall root size cap max handles rand ops name v p t size' cap' max' handles' rand' l v2 e,
  history_ok root size cap handles rand ops ->
  value_fits (last_size size ops) (last_cap cap ops) v ->
  process_ok size' cap' handles' rand' ->
  let '(st, _) := c_run ops (db_empty root size cap max handles rand) in
  let '(st', _) := c_step (OWrite name v) st in
  crash_db_write p name (v_start v) (v_end v) (v_data v) st t ->
  p <> PCreate -> p <> PMetadata -> (p = PRecords -> clean_crash name st st' t) ->
  let t' := db_reopen size' cap' max' handles' rand' t in
  holds t' name l -> length l <> 1%nat -> (forall x, In x l -> v_end x < v_end v2) ->
  value_fits size' cap' v2 -> v_end v2 < e ->
  exists rest dropped, l = rest ++ dropped /\
    snd (c_run [OWrite name v2; OQuery name e] t') = [RWrite (Ok true); RQuery (v2 :: rest) (Ok tt)].
Proof.
  intros root size cap max handles rand ops name v p t size' cap' max' handles' rand' l v2 e H Hv Hp.
  destruct (history_state root size cap max handles rand ops H)
    as (n & st & a & outs & -> & _ & Hn1 & Hn2 & HR & Es & Ec & Er & _).
  cbn [c_step]. destruct (db_write name _ _ _ st) as [st' r] eqn:Ew.
  intros HC H1 H2 H3. cbv zeta. intros Hl Hl1 Hnew Hv2 He.
  destruct (crash_recovers n st a name v p t HR) as (b & HRb & B1 & B2 & B3 & B4 & Hoth & Hval); auto.
  { now rewrite Es, Ec. } { lia. } { rewrite Ew. exact H3. }
  pose proof (R_reopen _ _ _ size' cap' max' handles' rand' HRb Hp) as HRr.
  set (b' := ADB size' cap' max' (ad_root b) (ad_dirs b) (ad_map b)) in *.
  assert (Elv : l = values_of b' name).
  { eapply holds_unique; [exact Hl|]. apply answers_holds. exact (R_answers _ _ _ name HRr). }
  assert (Hops : ops_ok size' cap' [OWrite name v2; OQuery name e]) by (cbn; auto).
  destruct (run_sim _ _ _ _ HRr Hops) as (st2 & -> & _); [cbn [length]; lia|]. cbn [snd].
  set (am := am_of size' cap' (ad_map b) name).
  assert (Hval' : l = a_values am).
  { rewrite Elv. unfold values_of, am, am_of, b'; cbn [ad_map]. destruct (ad_map b name); reflexivity. }
  assert (Hok : am_ok am).
  { unfold am, am_of. destruct (ad_map b name) as [am'|] eqn:HA; [|apply a_fresh_ok].
    destruct HRr as (_ & HG & _). exact (HG name am' HA). }
  pose proof Hok as (Hdesc & Hne & Hall).
  destruct (a_files am) as [|f older] eqn:Hfs; [contradiction|].
  unfold a_values in Hval'. rewrite Hfs in Hval'. cbn [flat_map] in Hval'.
  assert (HW : exists rest dropped am2, l = rest ++ dropped /\
    a_write size' cap' max' am v2 = (am2, Ok true) /\ a_query am2 e = v2 :: rest).
  { assert (Q : forall g fs fst_, (forall x, In x (a_vals g) -> v_end x < v_end v2) ->
       (forall x, In x (flat_map a_vals fs) -> v_end x < v_end v2) ->
       a_query (AM fst_ (AF (a_cap g) (a_size g) (v2 :: a_vals g) :: fs)) e =
         v2 :: a_vals g ++ flat_map a_vals fs).
    { intros g fs fst_ Hg Hf. unfold a_query, a_values. cbn [a_files flat_map a_vals].
      assert (match oldest_end (AF (a_cap g) (a_size g) (v2 :: a_vals g)) with
              | Some o => e <=? o | None => false end = false) as ->.
      { unfold oldest_end; cbn [a_vals]. destruct (rev (v2 :: a_vals g)) as [|w ws] eqn:E; [reflexivity|].
        assert (Hin : In w (v2 :: a_vals g)) by (apply in_rev; rewrite E; now left).
        apply Z.leb_gt. destruct Hin as [<-|Hin]; [lia|]. specialize (Hg w Hin). lia. }
      apply filter_all. intros x Hx. apply Z.ltb_lt. cbn [app] in Hx. destruct Hx as [<-|Hx]; [lia|].
      apply in_app_iff in Hx. destruct Hx as [Hx|Hx]; [specialize (Hg x Hx)|specialize (Hf x Hx)]; lia. }
    assert (Hg : forall x, In x (a_vals f) -> v_end x < v_end v2).
    { intros x Hx. apply Hnew. rewrite Hval'. apply in_app_iff. now left. }
    assert (Hf : forall x, In x (flat_map a_vals older) -> v_end x < v_end v2).
    { intros x Hx. apply Hnew. rewrite Hval'. apply in_app_iff. now right. }
    unfold a_write. rewrite Hfs.
    assert (match a_vals f with [] => false | w :: _ => v_end v2 <=? v_end w end = false) as ->.
    { destruct (a_vals f) as [|w ws]; [reflexivity|]. apply Z.leb_gt. apply Hg. now left. }
    destruct (used f + nrec (a_size f) v2 <=? a_cap f) eqn:Efit.
    - exists l, [], (AM (a_first am) (AF (a_cap f) (a_size f) (v2 :: a_vals f) :: older)).
      rewrite app_nil_r. split; [reflexivity|]. split; [reflexivity|]. rewrite Q by auto. now rewrite Hval'.
    - assert ((a_last am =? 1) && (used f =? 1) = false) as ->.
      { apply andb_false_iff. destruct (Z.eqb_spec (a_last am) 1) as [E1|]; [right|now left].
        destruct (Z.eqb_spec (used f) 1) as [E2|]; [exfalso|reflexivity].
        assert (Hf1 : 1 <= a_first am).
        { unfold am, am_of in *. destruct (ad_map b name) as [am'|] eqn:HA.
          - destruct HRr as (HI & _). exact (proj1 (i_num _ _ _ _ HI name am' HA)).
          - cbn. lia. }
        unfold a_last in E1. rewrite Hfs, len_cons in E1. pose proof (len_nonneg older).
        assert (older = []) as ->.
        { destruct older as [|g older]; [reflexivity|]. rewrite len_cons in *. pose proof (len_nonneg older). lia. }
        cbn [flat_map] in Hval'. rewrite app_nil_r in Hval'.
        assert (Hs : 79 <= a_size f).
        { unfold am, am_of in *. destruct (ad_map b name) as [am'|] eqn:HA.
          - destruct HRr as (HI & _). destruct (i_file _ _ _ _ HI name am' 0 f HA) as (i0 & c0 & _ & _ & ((Ho & _) & _)).
            + now rewrite Hfs. + destruct Ho. lia.
          - cbn in Hfs. injection Hfs as <-. destruct Hp as ((? & _) & _). cbn. lia. }
        unfold used in E2. rewrite <- Hval' in E2. destruct l as [|x [|y l']]; [cbn in E2; lia|apply Hl1; reflexivity|].
        cbn [used_] in E2. pose proof (nrec_pos (a_size f) x ltac:(lia)). pose proof (nrec_pos (a_size f) y ltac:(lia)).
        pose proof (used_nonneg (a_size f) l' ltac:(lia)). lia. }
      set (drop := (max' <=? a_last am - a_first am) && (0 <? max')).
      assert (Hfr : exists dropped, l = flat_map a_vals (if drop then removelast (f :: older) else f :: older) ++ dropped).
      { rewrite Hval'. change (a_vals f ++ flat_map a_vals older) with (flat_map a_vals (f :: older)).
        destruct drop; [destruct (flat_removelast a_vals (f :: older)) as (r0 & E0); eauto|exists []; now rewrite app_nil_r]. }
      destruct Hfr as (dropped & Hfr).
      exists (flat_map a_vals (if drop then removelast (f :: older) else f :: older)), dropped.
      eexists. split; [exact Hfr|]. split; [reflexivity|].
      apply (Q (AF cap' size' [])); [contradiction|]. intros x Hx. apply Hnew. rewrite Hfr. apply in_app_iff. now left. }
  destruct HW as (rest & dropped & am2 & El & Ewr & Eq). exists rest, dropped. split; [exact El|].
  unfold b'. cbn [a_run a_step ad_size ad_cap ad_max ad_root ad_dirs ad_map]. fold am.
  rewrite Ewr. cbn [a_run a_step ad_map]. rewrite aput_same, Eq. reflexivity.
Qed.
Print Assumptions C21_newer_write_is_accepted_partial.

(** Non-vacuity: the crash of [C21_example] left bytes of both records but no
    mark; it is clean, and the next write is accepted and returned *)
Definition unmarked_torn : db :=
  stopped (stop_records 0 (fun i => (79 <? i) && negb (i =? 158)) ex_name 0 20 (v_data (two 20)) crash_st).
Lemma marked_only t path : w_files t = [(path, 1)] -> openFile (contents t 1) = Ok (Geom 4 79) ->
  forall p n, marked t p n = true -> p = path /\ 0 <= n < 4.
Proof.
  intros E1 E2 p n. unfold marked. rewrite E1. cbn [mget]. destruct (beqb p path) eqn:Eb; [|discriminate].
  apply beqb_eq in Eb. rewrite E2. unfold f_has_record. cbn [g_cap].
  destruct (Z.leb_spec 4 n), (Z.ltb_spec n 0); cbn [orb]; try discriminate. intros _. split; [exact Eb|lia].
Qed.
Example C21_example :
  crash_db_write PRecords ex_name 0 20 (v_data (two 20)) crash_st unmarked_torn /\
  clean_crash ex_name crash_st (fst (c_step (OWrite ex_name (two 20)) crash_st)) unmarked_torn /\
  unmarked_torn <> crash_st /\
  snd (c_run crash_again unmarked_torn) =
    [RReopen; RQuery [small 10] (Ok tt); RWrite (Ok true); RQuery [small 30; small 10] (Ok tt)].
Proof.
  assert (E1 : w_files unmarked_torn = [(ex_path, 1)]) by (vm_compute; reflexivity).
  assert (E2 : openFile (contents unmarked_torn 1) = Ok (Geom 4 79)) by (vm_compute; reflexivity).
  split; [|split; [|split]].
  - apply (stop_records_ok 0 (fun i => (79 <? i) && negb (i =? 158))). apply stopped_some. vm_compute. reflexivity.
  - split.
    + intros p Hp. left. unfold has_file in *. rewrite E1 in Hp. cbn [mget] in Hp.
      destruct (beqb p ex_path) eqn:Eb; [|contradiction]. apply beqb_eq in Eb. subst p.
      vm_compute. discriminate.
    + left. intros p n Hm. destruct (marked_only _ _ E1 E2 p n Hm) as [-> Hn].
      assert (n = 0 \/ n = 1 \/ n = 2 \/ n = 3) as [->|[->|[->| ->]]] by lia.
      * vm_compute in Hm. discriminate.
      * vm_compute in Hm. discriminate.
      * vm_compute in Hm. discriminate.
      * vm_compute. reflexivity.
  - intros E. apply (f_equal (fun st => at_ 159 (contents st 1))) in E. vm_compute in E. discriminate.
  - vm_compute. reflexivity.
Qed.

(** Refutations of the full statement (besides (a) and (b) above). *)
(** (e) the first byte of the only record stored: no write is accepted any more *)
Theorem C21_refuted_torn_record : exists t,
  crash_db_write PRecords ex_name 0 20 [20] crash_st t /\
  snd (c_run crash_again t) = [RReopen; RQuery [small 10] (Ok tt); RWrite Err; RQuery [small 10] (Ok tt)].
Proof.
  exists (stopped (stop_records 0 (fun i => i <? 238) ex_name 0 20 [20] crash_st)). split.
  - apply (stop_records_ok 0 (fun i => i <? 238)). apply stopped_some. vm_compute. reflexivity.
  - vm_compute. reflexivity.
Qed.
Print Assumptions C21_refuted_torn_record.

(** (f) the leftovers of a longer value hide a later value: 30 is acknowledged
    but never returned *)
Theorem C21_refuted_leftovers : exists t,
  crash_db_write PRecords ex_name 0 20 (v_data (huge 20)) crash_st t /\
  snd (c_run crash_again t) =
    [RReopen; RQuery [small 10] (Ok tt); RWrite (Ok true); RQuery [small 10] (Ok tt)].
Proof.
  exists (stopped (stop_records 2 (fun _ => false) ex_name 0 20 (v_data (huge 20)) crash_st)). split.
  - apply (stop_records_ok 2 (fun _ => false)). apply stopped_some. vm_compute. reflexivity.
  - vm_compute. reflexivity.
Qed.
Print Assumptions C21_refuted_leftovers.

(** (g) the first value of a file stored, its metadata not: the next write sets
    the smallest end time of the file to its own; a query for 25 no longer
    returns 20, although 20 is retained and was returned before *)
Theorem C21_refuted_first_value : exists t,
  crash_db_write PRecords ex_name 0 20 [20] (db_empty ex_root 79 4 1 2 prng) t /\
  snd (c_run [OReopen 79 4 1 2 prng; OQuery ex_name 25; OWrite ex_name (small 30); OQuery ex_name 100;
              OQuery ex_name 25] t) =
    [RReopen; RQuery [small 20] (Ok tt); RWrite (Ok true); RQuery [small 30; small 20] (Ok tt); RQuery [] (Ok tt)].
Proof.
  exists (stopped (stop_records 1 (fun _ => false) ex_name 0 20 [20] (db_empty ex_root 79 4 1 2 prng))). split.
  - apply (stop_records_ok 1 (fun _ => false)). apply stopped_some. vm_compute. reflexivity.
  - vm_compute. reflexivity.
Qed.
Print Assumptions C21_refuted_first_value.

(** (h) a new data file without a record is unlinked by the next write while its
    handle stays in the cache: the write that creates the file again stores into
    the unlinked file; 30 is acknowledged and lost *)
Definition crash3_st : db := fst (c_run [OWrite ex_name (two 10)] (db_empty ex_root 79 2 0 2 prng)).
Theorem C21_refuted_stale_handle : exists t,
  crash_db_write PRecords ex_name 0 20 [20] crash3_st t /\
  snd (c_run [OReopen 79 2 0 2 prng; OWrite ex_name (small 30); OQuery ex_name 100; OReopen 79 2 0 2 prng;
              OQuery ex_name 100] t) =
    [RReopen; RWrite (Ok true); RQuery [two 10] (Ok tt); RReopen; RQuery [two 10] (Ok tt)].
Proof.
  exists (stopped (stop_new_file (fun _ => false) ex_name 0 20 [20] crash3_st)). split.
  - apply (stop_new_file_ok (fun _ => false)). apply stopped_some. vm_compute. reflexivity.
  - vm_compute. reflexivity.
Qed.
Print Assumptions C21_refuted_stale_handle.
