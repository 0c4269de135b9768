(** The states a write can be interrupted in, related to the abstract metrics. *)
From Coq Require Import ZArith List Lia Bool.
From Verif Require Import Base Maps Record Convert File FileProofs Cache CacheProofs
  Metric MetricSpec MetricFile MetricPaths MetricProofs MetricRead DbSpec DbProofs Crash CrashFile CrashDb.
Import ListNotations.
Open Scope Z_scope.

Lemma contents_release p h st i : contents (releaseFile p h st) i = contents st i.
Proof. unfold releaseFile. destruct (cache_put _ _ _) as [[? ?] ?]. reflexivity. Qed.
Lemma contents_evict p st i : contents (evictFile p st) i = contents st i.
Proof. unfold evictFile. destruct (mget _ _ _); [|reflexivity]. destruct (cache_take _ _ _). reflexivity. Qed.
Lemma files_release p h st : w_files (releaseFile p h st) = w_files st.
Proof. unfold releaseFile. destruct (cache_put _ _ _) as [[? ?] ?]. reflexivity. Qed.
Lemma contents_same ino c st : contents (set_contents st ino c) ino = c.
Proof. unfold contents, set_contents, set_ino; cbn [w_ino]. now rewrite mget_put_same by apply eqb_ok_Z. Qed.
Lemma reopen_fch size cap max handles rand st t c :
  db_reopen size cap max handles rand (set_fch st t c) = db_reopen size cap max handles rand st.
Proof. reflexivity. Qed.

(** ** stores of records *)
Record rec_point (n : Z) (st : db) (D : list (list Z)) (A : amap) (name : list Z) (am : ametric)
    (v : value) (st' t : db) : Prop := RecPoint {
  rp : exists st0 A0 am0 f older ino c ct,
    Inv (n + 1) st0 D A0 /\ (forall x, x <> name -> A0 x = A x) /\ A0 name = Some am0 /\
    a_files am0 = f :: older /\ file_at st0 name (a_last am0) f ino c /\
    used f + nrec (a_size f) v <= a_cap f /\ desc (v :: a_vals f) /\
    crash_records (geom_of f) (a_cap f - used f - nrec (a_size f) v) (recs (a_size f) v) c ct /\
    t = set_contents st0 ino ct /\ w_root st0 = w_root st /\
    mget beqb (path_of (w_root st) name (a_last am0)) (w_files st') = Some ino /\
    contents st' ino = fst (write_records (geom_of f) (a_cap f - used f) (nrec (a_size f) v)
               (v_start v) (v_end v) (v_data v) c) /\
    (mget beqb (path_of (w_root st) name (a_last am0)) (w_files st) = Some ino /\ contents st ino = c \/
     mget beqb (path_of (w_root st) name (a_last am0)) (w_files st) = None) /\
    a_write (w_size st) (w_cap st) (w_max st) am v =
      (AM (a_first am0) (AF (a_cap f) (a_size f) (v :: a_vals f) :: older), Ok true) /\
    Forall (fun g => a_vals g <> []) (removelast older) /\
    (am0 = am \/ a_vals f = [] /\ am_ok (AM (a_first am0) older) /\ a_last am0 = a_last am + 1 /\
       mget beqb (path_of (w_root st) name (a_last am0)) (w_files st) = None) /\
    w_size st0 = w_size st /\ w_cap st0 = w_cap st /\ w_max st0 = w_max st }.

Lemma crash_records_point n st D A name am v t : Inv n st D A -> A name = Some am -> am_ok am ->
  val_ok v -> nrec (w_size st) v <= w_cap st -> n + 1 < 2 ^ 62 ->
  let m := Metric (dir_of (w_root st) name) (a_first am) (a_last am) in
  crash_m_Write PRecords m (v_start v) (v_end v) (v_data v) st t ->
  rec_point n st D A name am v (fst (m_Write m (v_start v) (v_end v) (v_data v) st)) t.
Proof.
  intros HI HA (Hdesc & Hnn & Hall) Hv Hfit Hn m [[? _]|HC]; [discriminate|]. constructor.
  destruct (a_files am) as [|f older] eqn:Hfs; [contradiction|].
  assert (Hne : older = [] \/ a_vals f <> []).
  { destruct older; [now left|right]. inversion Hall; subst; assumption. }
  assert (Hall' : Forall (fun g => a_vals g <> []) (removelast older)).
  { destruct older; [constructor|]. inversion Hall; subst; assumption. }
  pose proof (i_bound _ _ _ _ HI) as Hb.
  destruct (acquireLast_spec n st D A name am f older HI HA Hfs Hne) as (ino & c & cc & E & HI1 & Hcap1 & HF).
  fold m in E. unfold m_Write. rewrite E in *. clear E.
  set (st1 := set_fch st (w_toks st) cc) in *.
  assert (HF1 : file_at st1 name (a_last am) f ino c) by exact HF.
  destruct (file_at_open _ _ _ _ _ _ HF1) as (Hc1 & Ho1).
  pose proof HF1 as (Pp & Pc & Prep). pose proof Prep as (((Hs & Hcp & Hprod) & Hvs & Hu & Hdf) & _).
  destruct (has_newest f c Prep) as (Hhas & Hrec).
  destruct (recs_spec (a_size f) v Hs Hv) as (Hit & Hnum & _ & Hnp & _).
  set (p1 := path_of (w_root st1) name (a_last am)) in *.
  change (filenameAt m (t_last m)) with p1.
  unfold crash_write_with in HC. unfold write_with. cbn [h_geom h_ino] in *. rewrite Hc1 in *.
  replace (a_cap f - used f - 1 + 1) with (a_cap f - used f) in * by lia. rewrite Hhas in *.
  unfold a_write. rewrite Hfs.
  destruct (match a_vals f with [] => false | w :: _ => v_end v <=? v_end w end) eqn:Eold.
  { exfalso. destruct (a_vals f) as [|w ws] eqn:Ev; [discriminate|].
    destruct (Hrec w ws eq_refl) as (r & Er & Ee). rewrite Er, Ee, Eold in HC. exact HC. }
  assert (Early : (if match a_vals f with [] => false | _ => true end
           then match f_record (geom_of f) (a_cap f - used f) c with
                | Ok r => if v_end v <=? r_end r then Some (Ok false) else None
                | Err => Some Err | Panic => Some Panic | Diverge => Some Diverge end
           else None) = (@None (res bool))).
  { destruct (a_vals f) as [|w ws] eqn:Ev; [reflexivity|].
      destruct (Hrec w ws eq_refl) as (r & Er & Ee). now rewrite Er, Ee, Eold. }
  rewrite Early in *. clear Early.
  cbn [g_size geom_of g_cap] in *. rewrite Hnum in *.
  destruct (Z.eqb_spec (nrec (a_size f) v) 0); [contradiction|].
  assert (Hdv : desc (v :: a_vals f)).
  { apply desc_cons; [exact Hdf|]. intros w r Ew. rewrite Ew in Eold. apply Z.leb_gt in Eold. exact Eold. }
  destruct (Z.leb_spec (used f + nrec (a_size f) v) (a_cap f)) as [Hle|Hgt];
    destruct (Z.ltb_spec (a_cap f - used f - nrec (a_size f) v) 0); try lia.
  - (* fits *)
    destruct HC as (ct & HC & ->). cbn [h_geom h_ino] in HC. rewrite Hc1 in HC.
    unfold crash_write_records in HC. cbn [g_size geom_of] in HC. rewrite Hit in HC.
    exists st1, A, am, f, older, ino, c, ct.
    split; [apply inv_mono with (n := n); [exact HI1|lia]|]. split; [auto|]. split; [exact HA|].
    split; [exact Hfs|]. split; [exact HF1|]. split; [exact Hle|]. split; [exact Hdv|].
    split; [exact HC|]. split; [reflexivity|]. split; [reflexivity|].
    unfold write_into. cbn [h_geom h_ino]. rewrite Hc1.
    destruct (write_records _ _ _ _ _ _ _) as [c' r]. cbn [fst].
    split; [rewrite files_release; exact Pp|].
    split; [rewrite contents_release; apply contents_same|].
    split; [left; split; [exact Pp|exact Hc1]|].
    split; [reflexivity|]. split; [exact Hall'|]. split; [now left|]. auto.
  - cbn [t_last m] in *.
    replace (a_cap f - used f =? a_cap f - 1) with (used f =? 1) in *
      by (destruct (Z.eqb_spec (used f) 1), (Z.eqb_spec (a_cap f - used f) (a_cap f - 1)); lia).
    destruct ((a_last am =? 1) && (used f =? 1)) eqn:Eerr; [contradiction|].
    cbn [t_first m] in *. change (w_max st1) with (w_max st) in *.
    set (drop := (w_max st <=? a_last am - a_first am) && (0 <? w_max st)) in *.
    set (am1 := if drop then AM (a_first am + 1) (removelast (a_files am)) else am).
    set (st2 := if drop then osRemove (filenameAt m (a_first am)) (evictFile (filenameAt m (a_first am)) st1) else st1) in *.
    assert (Hlen : a_last am - a_first am + 1 = len (a_files am)) by (unfold a_last; lia).
    assert (Hge1 : a_first am <= a_last am) by (rewrite Hfs, len_cons in Hlen; pose proof (len_nonneg older); lia).
    assert (Hl1 : a_first am1 + len (a_files am1) = a_last am + 1).
    { unfold am1. destruct drop; cbn [a_first a_files]; [|unfold a_last; lia].
      rewrite len_removelast by (rewrite Hfs; discriminate). unfold a_last. lia. }
    assert (Hok1 : am_ok am1 /\ a_files am1 <> []).
    { unfold am1. destruct drop eqn:Ed.
      - unfold drop in Ed. apply andb_true_iff in Ed. destruct Ed as [Ed1 Ed2].
        apply Z.leb_le in Ed1. apply Z.ltb_lt in Ed2.
        assert (H2 : (2 <= length (a_files am))%nat) by (unfold len in Hlen; lia).
        rewrite Hfs in *. destruct older as [|g older]; [cbn in H2; lia|].
        split; [|discriminate]. unfold am_ok, a_values in *. cbn [a_files]. split; [|split; [discriminate|]].
        + destruct (flat_removelast a_vals (f :: g :: older)) as (r & Er). rewrite Hfs, Er in Hdesc.
          exact (desc_app_l _ _ Hdesc).
        + now apply removelast_forall.
      - split; [|rewrite Hfs; discriminate]. unfold am_ok. rewrite Hfs. split; [exact Hdesc|]. split; [discriminate|exact Hall]. }
    assert (Hstep : exists A1, A1 name = Some am1 /\ (forall x, aput name am1 A x = A1 x) /\ Inv n st2 D A1 /\ same_opts st1 st2).
    { destruct drop eqn:Ed.
      - exists (aput name am1 A). unfold drop in Ed. apply andb_true_iff in Ed. destruct Ed as [Ed1 Ed2].
        apply Z.leb_le in Ed1. apply Z.ltb_lt in Ed2.
        assert (H2 : (2 <= length (a_files am))%nat) by (unfold len in Hlen; lia).
        destruct (drop_spec n st1 D A name am HI1 HA H2) as (HI2 & Hso2).
        split; [apply aput_same|]. split; [reflexivity|]. split; [exact HI2|exact Hso2].
      - exists A. split; [exact HA|]. split; [intros x; symmetry; now apply aput_id|].
        split; [exact HI1|]. apply same_opts_refl. }
    destruct Hstep as (A1 & HA1 & Hext & HI2 & Hso2).
    assert (Er2 : w_root st2 = w_root st) by (destruct Hso2 as (_ & _ & _ & ? & _); assumption).
    assert (Es2 : w_size st2 = w_size st) by (destruct Hso2 as (? & _); assumption).
    assert (Ec2 : w_cap st2 = w_cap st) by (destruct Hso2 as (_ & ? & _); assumption).
    destruct (create_spec (n + 1) st2 D A1 name (a_first am1) (a_files am1)) as (ino3 & c3 & st3 & E3 & HI3 & Hso3 & HF3 & Hfr3).
    + apply inv_mono with (n := n); [exact HI2|lia].
    + destruct (i_num _ _ _ _ HI2 name am1 HA1). assumption.
    + rewrite Hl1. destruct (i_num _ _ _ _ HI1 name am HA) as (_ & _ & ?). lia.
    + right. rewrite HA1. destruct am1; reflexivity.
    + rewrite Hl1, Er2 in E3.
      change (filenameAt m (a_last am + 1)) with (path_of (w_root st) name (a_last am + 1)) in *.
      rewrite E3 in *. cbn [h_geom g_size g_cap] in *. rewrite Es2, Ec2 in *.
      assert (Hnum3 : numRecords (len (v_data v)) (w_size st) = Ok (nrec (w_size st) v) /\
              iterateRecords (v_start v) (v_end v) (v_data v) (w_size st) = Ok (recs (w_size st) v)).
      { destruct (i_opts _ _ _ _ HI) as (Hs0 & _). destruct (recs_spec (w_size st) v Hs0 Hv) as (? & ? & _); split; assumption. }
      destruct Hnum3 as [Hnum3 Hit3].
      rewrite Hnum3 in *. destruct (i_opts _ _ _ _ HI) as (Hs0 & _).
      pose proof (nrec_pos (w_size st) v ltac:(lia)) as Hnp3.
      destruct (Z.eqb_spec (nrec (w_size st) v) 0); [lia|].
      destruct (Z.ltb_spec (w_cap st - nrec (w_size st) v) 0); [lia|].
      destruct HC as (ct & HC & ->). cbn [h_geom h_ino] in HC.
      destruct (file_at_open _ _ _ _ _ _ HF3) as (Hc3 & _). rewrite Hc3 in HC.
      unfold crash_write_records in HC. cbn [g_size] in HC. rewrite Hit3 in HC.
      set (am3 := AM (a_first am1) (AF (w_cap st) (w_size st) [] :: a_files am1)) in *.
      assert (Hlast3 : a_last am3 = a_last am + 1).
      { unfold am3, a_last; cbn [a_first a_files]. rewrite len_cons. lia. }
      rewrite Hl1 in HF3. rewrite <- Hlast3 in HF3.
      exists st3, (aput name am3 A1), am3, (AF (w_cap st) (w_size st) []), (a_files am1), ino3, c3, ct.
      cbn [a_cap a_size a_vals]. unfold used; cbn [a_size a_vals used_].
      change (geom_of (AF (w_cap st) (w_size st) [])) with (Geom (w_cap st) (w_size st)).
      rewrite !Z.sub_0_r.
      split; [exact HI3|]. split.
      { intros x Hx. rewrite aput_other by auto. rewrite <- Hext. apply aput_other. congruence. }
      split; [apply aput_same|]. split; [reflexivity|]. split; [exact HF3|].
      split; [lia|]. split; [exact I|]. split; [exact HC|]. split; [reflexivity|].
      split; [destruct Hso3 as (_ & _ & _ & ? & _); congruence|].
      unfold write_into. cbn [h_geom h_ino]. rewrite Hc3.
      destruct (write_records _ _ _ _ _ _ _) as [c' r]. cbn [fst].
      rewrite Hlast3 in *.
      assert (Er3 : w_root st3 = w_root st) by (destruct Hso3 as (_ & _ & _ & ? & _); congruence).
      split.
      { rewrite !files_release. destruct HF3 as (P3 & _). rewrite Er3 in P3. exact P3. }
      split; [rewrite !contents_release; apply contents_same|].
      assert (Hnone0 : mget beqb (path_of (w_root st) name (a_last am + 1)) (w_files st) = None).
      { destruct (mget beqb _ (w_files st)) as [i0|] eqn:Em; [|reflexivity]. exfalso.
        destruct (i_paths _ _ _ _ HI _ _ Em) as (_ & name' & am' & i' & Ep & HA' & Hr).
        symmetry in Ep. apply (path_neq st n D A name' am' i') in Ep; auto.
        - destruct Ep as [-> ->]. rewrite HA in HA'. injection HA' as <-. lia.
        - destruct (i_num _ _ _ _ HI1 name am HA) as (? & _ & ?). unfold is_i64. lia. }
      split; [right; exact Hnone0|].
      split.
      { unfold am3, am1. fold drop. cbn [a_first a_files]. destruct drop; cbn [a_first a_files]; rewrite ?Hfs; reflexivity. }
      destruct Hok1 as [Hok1 Hne1]. split; [apply Hok1|].
      split; [right|].
      { split; [reflexivity|]. split; [unfold am3; cbn [a_first]; destruct am1; exact Hok1|].
        split; [reflexivity|exact Hnone0]. }
      destruct Hso2 as (? & ? & Q2 & _), Hso3 as (? & ? & Q3 & _).
      split; [congruence|]. split; [congruence|]. rewrite Q3, Q2. reflexivity.
Qed.

(** ** unlinking the oldest file *)
Lemma crash_drop_point n st D A name am v t : Inv n st D A -> A name = Some am -> am_ok am ->
  val_ok v ->
  let m := Metric (dir_of (w_root st) name) (a_first am) (a_last am) in
  crash_m_Write PDrop m (v_start v) (v_end v) (v_data v) st t ->
  exists A0 am0 f0, Inv n t D A0 /\ (forall x, x <> name -> A0 x = A x) /\ A0 name = Some am0 /\
    am_ok am0 /\ same_opts st t /\
    a_write (w_size st) (w_cap st) (w_max st) am v = (AM (a_first am0) (f0 :: a_files am0), Ok true) /\
    a_vals f0 = [v].
Proof.
  intros HI HA (Hdesc & Hnn & Hall) Hv m HC.
  destruct (a_files am) as [|f older] eqn:Hfs; [contradiction|].
  assert (Hne : older = [] \/ a_vals f <> []).
  { destruct older; [now left|right]. inversion Hall; subst; assumption. }
  assert (Hlen : a_last am - a_first am + 1 = len (a_files am)) by (unfold a_last; lia).
  assert (Hge1 : a_first am <= a_last am) by (rewrite Hfs, len_cons in Hlen; pose proof (len_nonneg older); lia).
  destruct (acquireLast_spec n st D A name am f older HI HA Hfs Hne) as (ino & c & cc & E & HI1 & Hcap1 & HF).
  fold m in E. destruct HC as [[_ HC]|HC].
  { (* acquireLast unlinks nothing *)
    exfalso. cbn [t_last t_first m] in HC. rewrite Hlen in HC. unfold len in HC. rewrite Nat2Z.id, Hfs in HC.
    cbn [length crash_acquireLast_ t_last t_first m] in HC.
    destruct (Z.ltb_spec (a_last am) (a_first am)); [lia|].
    destruct (acquire_spec n st D A name am 0 f HI HA) as (ino2 & c2 & cc2 & E2 & HI' & Hcap & HF2);
      [rewrite Hfs; reflexivity|].
    rewrite Z.sub_0_r in *.
    change (filenameAt (Metric (dir_of (w_root st) name) (a_first am) (a_last am)) (a_last am))
      with (path_of (w_root st) name (a_last am)) in HC.
    change (filenameAt m (a_last am)) with (path_of (w_root st) name (a_last am)) in HC. rewrite E2 in HC.
    cbn [h_geom h_ino] in HC.
    change (contents (set_fch st (w_toks st) cc2) ino2) with (contents st ino2) in HC.
    destruct (file_at_open _ _ _ _ _ _ HF2) as (Hc2 & _). rewrite Hc2 in HC. destruct HF2 as (_ & _ & Hrep).
    rewrite (file_rep_head f c2 Hrep) in HC. cbn [g_cap geom_of] in HC.
    destruct (Z.eqb_spec (a_cap f - used f - 1) (a_cap f - 1)) as [Eu|]; [|exact HC]. cbn [andb] in HC.
    destruct (Z.ltb_spec (a_first am) (a_last am)); [|exact HC].
    destruct Hne as [->|Hne].
    - rewrite Hfs in Hlen. change (len [f]) with 1 in *. lia.
    - destruct Hrep as (((Hs & _) & _) & _). unfold used in Eu. destruct (a_vals f) as [|w vs]; [contradiction|].
      cbn [used_] in Eu. pose proof (nrec_pos (a_size f) w ltac:(lia)).
      pose proof (used_nonneg (a_size f) vs ltac:(lia)). lia. }
  rewrite E in HC. clear E.
  set (st1 := set_fch st (w_toks st) cc) in *.
  assert (HF1 : file_at st1 name (a_last am) f ino c) by exact HF.
  destruct (file_at_open _ _ _ _ _ _ HF1) as (Hc1 & Ho1).
  pose proof HF1 as (Pp & Pc & Prep). pose proof Prep as (((Hs & Hcp & Hprod) & Hvs & Hu & Hdf) & _).
  destruct (has_newest f c Prep) as (Hhas & Hrec).
  destruct (recs_spec (a_size f) v Hs Hv) as (Hit & Hnum & _ & Hnp & _).
  unfold crash_write_with in HC. cbn [h_geom h_ino] in *. rewrite Hc1 in *.
  replace (a_cap f - used f - 1 + 1) with (a_cap f - used f) in * by lia. rewrite Hhas in *.
  unfold a_write. rewrite Hfs.
  destruct (match a_vals f with [] => false | w :: _ => v_end v <=? v_end w end) eqn:Eold.
  { exfalso. destruct (a_vals f) as [|w ws] eqn:Ev; [discriminate|].
    destruct (Hrec w ws eq_refl) as (r & Er & Ee). rewrite Er, Ee, Eold in HC. exact HC. }
  assert (Early : (if match a_vals f with [] => false | _ => true end
           then match f_record (geom_of f) (a_cap f - used f) c with
                | Ok r => if v_end v <=? r_end r then Some (Ok false) else None
                | Err => Some Err | Panic => Some Panic | Diverge => Some Diverge end
           else None) = (@None (res bool))).
  { destruct (a_vals f) as [|w ws] eqn:Ev; [reflexivity|].
      destruct (Hrec w ws eq_refl) as (r & Er & Ee). now rewrite Er, Ee, Eold. }
  rewrite Early in *. clear Early.
  cbn [g_size geom_of g_cap] in *. rewrite Hnum in *.
  destruct (Z.eqb_spec (nrec (a_size f) v) 0); [contradiction|].
  destruct (Z.leb_spec (used f + nrec (a_size f) v) (a_cap f)) as [Hle|Hgt];
    destruct (Z.ltb_spec (a_cap f - used f - nrec (a_size f) v) 0); try lia.
  { destruct HC as (ct & HC & _). unfold crash_write_records in HC. cbn [g_size geom_of h_geom] in HC.
    rewrite Hit in HC. contradiction. }
  cbn [t_last m] in *.
  replace (a_cap f - used f =? a_cap f - 1) with (used f =? 1) in *
      by (destruct (Z.eqb_spec (used f) 1), (Z.eqb_spec (a_cap f - used f) (a_cap f - 1)); lia).
  destruct ((a_last am =? 1) && (used f =? 1)) eqn:Eerr; [contradiction|].
  cbn [t_first m] in *. change (w_max st1) with (w_max st) in *.
  destruct HC as [Ed ->]. rewrite Ed.
  apply andb_true_iff in Ed. destruct Ed as [Ed1 Ed2]. apply Z.leb_le in Ed1. apply Z.ltb_lt in Ed2.
  assert (H2 : (2 <= length (a_files am))%nat) by (unfold len in Hlen; lia).
  destruct (drop_spec n st1 D A name am HI1 HA H2) as (HI2 & Hso2).
  exists (aput name (AM (a_first am + 1) (removelast (a_files am))) A), (AM (a_first am + 1) (removelast (a_files am))),
    (AF (w_cap st) (w_size st) [v]).
  split; [exact HI2|]. split; [intros x Hx; apply aput_other; congruence|]. split; [apply aput_same|].
  split; [|split; [apply same_opts_trans with (b := st1); [|exact Hso2]; unfold same_opts, st1; cbn; auto|
           split; [cbn [a_first a_files]; now rewrite Hfs|reflexivity]]].
  rewrite Hfs in *. destruct older as [|g older]; [cbn in H2; lia|].
  unfold am_ok, a_values in *. cbn [a_files]. split; [|split; [discriminate|]].
  + destruct (flat_removelast a_vals (f :: g :: older)) as (r & Er). rewrite Hfs, Er in Hdesc.
    exact (desc_app_l _ _ Hdesc).
  + now apply removelast_forall.
Qed.
