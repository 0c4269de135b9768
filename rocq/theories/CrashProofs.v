(** Reading after a crash: the whole database. *)
From Coq Require Import ZArith List Lia Bool.
From Verif Require Import Base Maps Record Convert File FileProofs Cache CacheProofs
  Metric MetricSpec MetricFile MetricPaths MetricProofs MetricRead DbSpec DbProofs
  Crash CrashFile CrashDb CrashWrite.
Import ListNotations.
Open Scope Z_scope.

(** the record that slot [n] of the data file [path] shows *)
Definition record_at (st : db) (path : list Z) (n : Z) : res record :=
  match mget beqb path (w_files st) with
  | None => Err
  | Some ino =>
      match openFile (contents st ino) with
      | Ok g => f_record g n (contents st ino)
      | _ => Err
      end
  end.

(** The checksums detect half stored records: every record shown in [t] was
    shown in [st] or is shown in [st']. *)
Definition checksums_detect (st st' t : db) : Prop :=
  forall path n, record_at t path n = Err \/ record_at t path n = record_at st path n \/
                 record_at t path n = record_at st' path n.

Lemma reads_unique st name l l' : reads st name l -> reads st name l' -> l = l'.
Proof.
  intros H H'.
  assert (B : forall l : list value, exists b, forall x, In x l -> v_end x < b).
  { induction l0 as [|v l0 [b IH]]; [exists 0; contradiction|].
    exists (Z.max b (v_end v + 1)). intros x [<-|Hx]; [lia|]. specialize (IH x Hx). lia. }
  destruct (B l) as (b & Hb), (B l') as (b' & Hb').
  set (e := Z.max (Z.max b b') 1).
  assert (E1 := H _ collect_cb e [] ltac:(lia) ltac:(intros x Hx; specialize (Hb x Hx); lia)).
  assert (E2 := H' _ collect_cb e [] ltac:(lia) ltac:(intros x Hx; specialize (Hb' x Hx); lia)).
  rewrite E1 in E2. rewrite !collect_run in E2. cbn in E2. now injection E2.
Qed.

Lemma path_none n st D A name i : Inv n st D A -> A name = None -> is_i64 i ->
  mget beqb (path_of (w_root st) name i) (w_files st) = None.
Proof.
  intros HI HA Hi. destruct (mget beqb _ (w_files st)) as [i0|] eqn:Em; [|reflexivity]. exfalso.
  destruct (i_paths _ _ _ _ HI _ _ Em) as (_ & name' & am' & i' & Ep & HA' & Hr).
  symmetry in Ep. apply (path_neq st n D A name' am' i') in Ep; auto.
  destruct Ep as [-> _]. congruence.
Qed.

(** reading one metric, known or not *)
Definition answers (st : db) (name : list Z) (l : list value) : Prop :=
  reads st name l \/ (unknown st name /\ l = []).

Lemma R_answers n st a name : R n st a ->
  answers st name (match ad_map a name with Some am => a_values am | None => [] end).
Proof.
  intros (HI & HG & _). destruct (ad_map a name) as [am|] eqn:HA.
  - left. apply (inv_reads n st _ _ name am HI HA (HG name am HA)).
  - destruct (inv_unknown n st _ _ name HI HA) as [[_ H]|H]; [right; auto|left; exact H].
Qed.

Lemma R_reopen n st a size cap max handles rand : R n st a -> process_ok size cap handles rand ->
  R n (db_reopen size cap max handles rand st) (ADB size cap max (ad_root a) (ad_dirs a) (ad_map a)).
Proof.
  intros (HI & HG & E1 & E2 & E3 & E4) Hp. unfold R; cbn.
  split; [now apply inv_reopen|]. auto.
Qed.

(** the old metrics (known with at least one value) are read as before *)
Definition others (st t : db) (name : list Z) : Prop :=
  forall name' l', name' <> name -> l' <> [] -> reads st name' l' -> reads t name' l'.

Lemma others_known n st a name t : R n st a ->
  (forall name' am', name' <> name -> ad_map a name' = Some am' -> reads t name' (a_values am')) ->
  others st t name.
Proof.
  intros HR H name' l' Hn Hl Hr. destruct HR as (HI & HG & _).
  destruct (ad_map a name') as [am'|] eqn:HA.
  - assert (l' = a_values am') as ->; [|now apply H].
    eapply reads_unique; [exact Hr|]. exact (inv_reads n st _ _ name' am' HI HA (HG name' am' HA)).
  - exfalso. destruct (inv_unknown n st _ _ name' HI HA) as [[_ H0]|H0].
    + specialize (H0 _ collect_cb). 
      assert (B : exists b, 0 < b /\ forall x, In x l' -> v_end x < b).
      { clear. induction l' as [|v l0 (b & H0 & IH)]; [exists 1; split; [lia|contradiction]|].
        exists (Z.max b (v_end v + 1)). split; [lia|]. intros x [<-|Hx]; [lia|]. specialize (IH x Hx). lia. }
      destruct B as (b & Hb0 & Hb). specialize (Hr _ collect_cb b [] Hb0 Hb). rewrite H0 in Hr.
      rewrite collect_run in Hr. discriminate.
    + apply Hl. exact (reads_unique _ _ _ _ Hr H0).
Qed.

Theorem crash_reads n st a name v p t size cap max handles rand :
  R n st a -> value_fits (ad_size a) (ad_cap a) v -> n + 1 < 2 ^ 62 ->
  process_ok size cap handles rand ->
  let st' := fst (db_write name (v_start v) (v_end v) (v_data v) st) in
  let re := db_reopen size cap max handles rand in
  crash_db_write p name (v_start v) (v_end v) (v_data v) st t ->
  p <> PCreate -> p <> PMetadata -> checksums_detect st st' t ->
  (exists l0 l1 l, answers (re st) name l0 /\ answers (re st') name l1 /\ answers (re t) name l /\
     (l = l0 \/ l = l1 \/ l1 = v :: l)) /\
  others (re st) (re t) name.
Proof.
  intros HR Hfits Hn Hp st' re HC HnC HnM Hdet.
  destruct (write_step n st a name v HR Hfits Hn) as (stx & Ex & HRx & _).
  assert (Est' : st' = stx).
  { unfold c_step in Ex. unfold st'. destruct (db_write _ _ _ _ _). cbn [fst]. now injection Ex. }
  subst stx. clear Ex.
  set (a' := fst (a_step (OWrite name v) a)) in *.
  set (l0 := match ad_map a name with Some am => a_values am | None => [] end).
  set (l1 := match ad_map a' name with Some am => a_values am | None => [] end).
  assert (A0 : answers (re st) name l0).
  { exact (R_answers n _ _ name (R_reopen n st a size cap max handles rand HR Hp)). }
  assert (A1 : answers (re st') name l1).
  { exact (R_answers _ _ _ name (R_reopen (n + 1) st' a' size cap max handles rand HRx Hp)). }
  assert (HRr := R_reopen n st a size cap max handles rand HR Hp). fold re in HRr.
  pose proof HR as (HI & HG & E1 & E2 & E3 & E4).
  assert (Hl1 : l1 = a_values (fst (a_write (ad_size a) (ad_cap a) (ad_max a)
                     (am_of (ad_size a) (ad_cap a) (ad_map a) name) v))).
  { unfold l1, a'. cbn [a_step]. destruct (a_write _ _ _ _ _). cbn [fst ad_map]. now rewrite aput_same. }
  (* states that satisfy the invariant again *)
  assert (Clean : forall a2 n2, R n2 t a2 ->
    (forall x, x <> name -> ad_map a2 x = ad_map a x) ->
    forall l, l = (match ad_map a2 name with Some am => a_values am | None => [] end) ->
    (l = l0 \/ l = l1 \/ l1 = v :: l) ->
    (exists l0 l1 l, answers (re st) name l0 /\ answers (re st') name l1 /\ answers (re t) name l /\
     (l = l0 \/ l = l1 \/ l1 = v :: l)) /\ others (re st) (re t) name).
  { intros a2 n2 HR2 Hoth l -> Hl.
    assert (HR2r := R_reopen n2 t a2 size cap max handles rand HR2 Hp). fold re in HR2r.
    split.
    - exists l0, l1, (match ad_map a2 name with Some am => a_values am | None => [] end).
      split; [exact A0|]. split; [exact A1|]. split; [exact (R_answers _ _ _ name HR2r)|exact Hl].
    - apply (others_known n (re st) _ name (re t) HRr). cbn [ad_map]. intros name' am' Hnn HA'.
      destruct HR2r as (HI2 & HG2 & _). cbn [ad_map ad_dirs] in *.
      apply (inv_reads n2 (re t) _ _ name' am' HI2); [now rewrite Hoth|]. apply (HG name' am' HA'). }
  destruct p; try contradiction; cbn [crash_db_write] in HC.
  - (* nothing *)
    subst t. apply (Clean a n HR ltac:(auto) l0 eq_refl). auto.
  - (* directories *)
    destruct HC as [HC|HC].
    + cbn [crash_newMetric] in HC. destruct HC as (Hd & l & Hincl & ->).
      fold (dir_of (w_root st) name) in *.
      assert (HA : ad_map a name = None).
      { destruct (ad_map a name) as [am|] eqn:HA; [|reflexivity]. exfalso.
        pose proof (i_dir _ _ _ _ HI name am HA) as Hin. rewrite <- (i_dirs _ _ _ _ HI) in Hin.
        apply dir_exists_iff in Hin; [|exact (i_root _ _ _ _ HI)]. congruence. }
      set (a2 := ADB (ad_size a) (ad_cap a) (ad_max a) (ad_root a) (l ++ ad_dirs a) (ad_map a)).
      assert (HI2 : Inv n (set_dirs st (l ++ w_dirs st)) (l ++ ad_dirs a) (ad_map a)).
      { pose proof (inv_mkdir n st _ _ name HI) as Hmk.
        pose proof (i_fine _ _ _ _ Hmk) as Hf1. pose proof (i_fine _ _ _ _ HI) as Hf2.
        pose proof (i_dirs _ _ _ _ HI) as Hd1. pose proof (i_dir _ _ _ _ HI) as Hd2.
        destruct HI. constructor; try assumption.
        - cbn. now rewrite Hd1.
        - intros d Hd'. apply in_app_iff in Hd'. destruct Hd' as [Hd'|Hd'].
          + apply Hf1. apply in_app_iff. left. now apply Hincl.
          + now apply Hf2.
        - intros name' am' HA'. apply in_app_iff. right. now apply (Hd2 name' am'). }
      apply (Clean a2 n) with (l := l0); [|cbn; auto|reflexivity|auto].
      unfold R, a2. cbn [ad_size ad_cap ad_max ad_root ad_dirs ad_map].
      split; [exact HI2|]. split; [exact HG|]. cbn. auto.
    + destruct (newMetric name false st) as [st1 [m| | |]]; try contradiction.
      exfalso. destruct HC as [[? _]|HC]; [discriminate|].
      destruct (acquireLast m st1) as [st2 [[[f head] m2]| | |]]; try contradiction.
      unfold crash_write_with in HC.
      repeat match type of HC with
      | match ?x with _ => _ end => destruct x; try contradiction
      | (let (_, _) := ?x in _) => destruct x; try contradiction
      | exists _, _ => destruct HC as (ct & HC & _); unfold crash_write_records in HC
      | crash_into _ _ _ _ _ _ _ _ _ => unfold crash_into in HC
      end.
  - (* the oldest file unlinked *)
    destruct HC as [HC|HC]; [contradiction|].
    destruct (newMetric_rw n st _ _ name HI HG) as (st1 & Am & En & HI1 & Hso & HA1 & Hok & Hext).
    rewrite En in HC. rewrite <- E4, <- E1, <- E2, <- E3 in *.
    set (am := am_of (w_size st) (w_cap st) (ad_map a) name) in *.
    pose proof Hso as (S1 & S2 & S3 & S4 & S5).
    rewrite <- S4 in HC.
    destruct (crash_drop_point n st1 _ Am name am v t HI1 HA1 Hok (proj1 Hfits) HC)
      as (Ad & am0 & f0 & HI2 & Hoth & HA0 & Hok0 & _ & Ew & Hf0).
    rewrite S1, S2, S3 in Ew. rewrite Ew in Hl1. cbn [fst] in Hl1.
    unfold a_values in Hl1. cbn [a_files flat_map] in Hl1. rewrite Hf0 in Hl1. cbn [app] in Hl1.
    apply (Clean (ADB (w_size t) (w_cap t) (w_max t) (w_root t) (a_dirs (w_root st) (ad_dirs a) name) Ad) n)
      with (l := a_values am0).
    + unfold R; cbn [ad_size ad_cap ad_max ad_root ad_dirs ad_map].
      split; [exact HI2|]. split; [|auto].
      intros x amx Hx. destruct (bytes_eq_dec x name) as [->|Hne].
      * rewrite HA0 in Hx. injection Hx as <-. exact Hok0.
      * rewrite Hoth in Hx by auto. rewrite <- Hext in Hx. rewrite aput_other in Hx by auto. now apply (HG x).
    + cbn [ad_map]. intros x Hx. rewrite Hoth by auto. rewrite <- Hext. apply aput_other. congruence.
    + cbn [ad_map]. now rewrite HA0.
    + right. right. rewrite Hl1. reflexivity.
  - (* records *)
    destruct HC as [HC|HC]; [contradiction|].
    destruct (newMetric_rw n st _ _ name HI HG) as (st1 & Am & En & HI1 & Hso & HA1 & Hok & Hext).
    rewrite En in HC. rewrite <- E4, <- E1, <- E2, <- E3 in *.
    set (am := am_of (w_size st) (w_cap st) (ad_map a) name) in *.
    pose proof Hso as (S1 & S2 & S3 & S4 & S5).
    rewrite <- S4 in HC.
    destruct (crash_records_point n st1 _ Am name am v t HI1 HA1 Hok (proj1 Hfits)) as
      [(st0 & A0' & am0 & f & older & ino & c & ct & HI2 & Hoth & HA0 & Hfs & HF & Hfit & Hd & Hcr & Et & Er & Hpath & Hcont & Hbef & Ew & Hne & Ham)].
    { rewrite S1, S2. exact (proj2 Hfits). } { exact Hn. } { exact HC. }
    rewrite S1, S2, S3 in Ew. rewrite Ew in Hl1. cbn [fst] in Hl1.
    unfold a_values in Hl1. cbn [a_files flat_map a_vals] in Hl1.
    assert (Est1 : fst (m_Write (Metric (dir_of (w_root st1) name) (a_first am) (a_last am))
                    (v_start v) (v_end v) (v_data v) st1) = st').
    { unfold st', db_write. rewrite En, S4. reflexivity. }
    rewrite Est1 in *.
    pose proof HF as (P1 & P2 & Prep). rewrite Er in P1. rewrite S4 in *.
    destruct (crash_file f c v ct Prep (proj1 Hfits) Hfit Hd _ eq_refl Hcr) as (Ho & Hrd).
    destruct (write_records_spec f c v Prep (proj1 Hfits) Hfit Hd) as (c' & Ewr & Hrep').
    rewrite Ewr in Hcont, Hrd. cbn [fst] in Hcont, Hrd.
    assert (Hctt : contents t ino = ct) by (rewrite Et; apply contents_same).
    assert (Hpt : mget beqb (path_of (w_root st) name (a_last am0)) (w_files t) = Some ino)
      by (rewrite Et; exact P1).
    assert (Hdet1 : detects (geom_of f) c c' ct).
    { intros k. specialize (Hdet (path_of (w_root st) name (a_last am0)) k).
      unfold record_at in Hdet. rewrite Hpt, Hctt, Ho, Hpath, Hcont, (file_rep_open _ _ Hrep') in Hdet.
      change (geom_of (AF (a_cap f) (a_size f) (v :: a_vals f))) with (geom_of f) in Hdet.
      destruct Hdet as [Hdet|[Hdet|Hdet]]; [now left| |auto].
      destruct (ad_map a name) as [amx|] eqn:HAx.
      - (* newMetric changed nothing *)
        rewrite (newMetric_some n st _ _ name amx false HI HAx) in En. injection En as <- _ _.
        destruct Hbef as [[B1 B2]|B]; [|rewrite B in Hdet; now left].
        rewrite B1, B2, (file_rep_open _ _ Prep) in Hdet. auto.
      - rewrite (path_none n st _ _ name (a_last am0) HI HAx) in Hdet; [now left|].
        destruct (i_num _ _ _ _ HI2 name am0 HA0) as (? & _ & ?). pose proof (i_bound _ _ _ _ HI).
        unfold a_last in *. pose proof (len_nonneg (a_files am0)). unfold is_i64.
        unfold a_last in *. lia. }
    specialize (Hrd Hdet1).
    assert (Hboth : exists vs, (vs = a_vals f \/ vs = v :: a_vals f) /\
      forall X (cb : callback X) e acc, read_file cb (geom_of f) ct e acc =
      if e <=? smallest_of f then (acc, Ok false)
      else run_cb cb acc (filter (fun v => v_end v <? e) vs)).
    { destruct Hrd as [Hrd|Hrd]; eexists; (split; [|exact Hrd]); auto. }
    destruct Hboth as (vs & Hvs & Hrd').
    assert (Hre : reads (re t) name (vs ++ flat_map a_vals older)).
    { rewrite Et. apply (damaged_reads (n + 1) st0 (a_dirs (w_root st) (ad_dirs a) name) A0' name am0 f older ino c ct vs); auto.
      destruct Hvs as [-> | ->]; [auto|]. intros x Hx. now right. }
    split.
    + exists l0, l1, (vs ++ flat_map a_vals older). split; [exact A0|]. split; [exact A1|].
      split; [left; exact Hre|]. rewrite Hl1. destruct Hvs as [-> | ->]; auto.
    + apply (others_known n (re st) _ name (re t) HRr). cbn [ad_map]. intros name' am' Hnn HA'.
      rewrite Et. apply (damaged_others (n + 1) st0 (a_dirs (w_root st) (ad_dirs a) name) A0' name (a_last am0) f ino c ct name' am') with (am := am0); auto.
      * unfold a_last. rewrite Hfs, len_cons. pose proof (len_nonneg older). lia.
      * rewrite Hoth by auto. rewrite <- Hext. rewrite aput_other by congruence. exact HA'.
      * exact (HG name' am' HA').
  - (* done *)
    assert (t = st') as -> by exact HC.
    apply (Clean a' (n + 1) HRx) with (l := l1); [|reflexivity|auto].
    intros x Hx. unfold a'. cbn [a_step]. destruct (a_write _ _ _ _ _). cbn [fst ad_map].
    apply aput_other. congruence.
Qed.
