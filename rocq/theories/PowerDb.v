(** Reading a metric after a power failure. *)
From Coq Require Import ZArith List Lia Bool.
From Verif Require Import Base Maps Record RecordSpec RecordProofs Convert File FileProofs Cache CacheProofs
  Metric MetricSpec MetricFile MetricPaths MetricProofs MetricRead DbSpec DbProofs DbLog DbClient
  DamageSpec DamageFile DamageInv DamageRepr DamageDb DamageProof PowerSpec PowerFile.
Import ListNotations.
Open Scope Z_scope.

(** ** reading files of which only the answers are known *)
Section Reads.
Variable name : list Z.
Variable k : value -> bool.
Definition FRr (nm : list Z) (b : bool) (f : afile) (c : list Z) : Prop := nm = name ->
  openFile c = Ok (geom_of f) /\
  forall X (cb : callback X) e acc, read_file cb (geom_of f) c e acc =
    if e <=? match oldest_end f with Some o => o | None => 0 end then (acc, Ok false)
    else run_cb (skip_cb k cb) acc (filter (fun v => v_end v <? e) (a_vals f)).

Lemma acquire_r n st D A am j f : DInv FRr n st D A -> A name = Some am ->
  nth_error (a_files am) j = Some f ->
  exists ino c cc,
    acquireFile (path_of (w_root st) name (a_last am - Z.of_nat j)) true st =
      (set_fch st (w_toks st) cc, Ok (Handle ino (geom_of f))) /\
    DInv FRr n (set_fch st (w_toks st) cc) D A /\ c_cap cc = c_cap (w_cache st) /\
    dfile FRr st name (nw j) (a_last am - Z.of_nat j) f ino c.
Proof.
  intros HI HA Hk. destruct (di_file _ _ _ _ _ HI name am j f HA Hk) as (ino & c & HF).
  pose proof HF as (Hp & Hc & Hrep). specialize (Hrep eq_refl). destruct Hrep as (Ho & _).
  assert (Hcont : contents st ino = c) by (unfold contents; now rewrite Hc).
  unfold acquireFile. set (path := path_of _ _ _) in *.
  destruct (acquire_hit_d FRr n st D A path HI) as (cc & hit & -> & HI' & Hcap & Hh).
  exists ino, c, cc. split; [|auto].
  destruct hit as [h|].
  - destruct (Hh h eq_refl) as (P & O). rewrite Hp in P. injection P as P.
    rewrite <- P, Hcont, Ho in O. injection O as O.
    now rewrite (handle_eq h ino (geom_of f)).
  - unfold do_open. cbn [w_files set_fch]. fold path. rewrite Hp.
    change (contents (set_fch st (w_toks st) cc) ino) with (contents st ino).
    rewrite Hcont, Ho. reflexivity.
Qed.

Lemma m_Read__r {X} (cb : callback X) n D A am e : A name = Some am ->
  forall rest pre st acc, DInv FRr n st D A -> a_files am = pre ++ rest ->
  exists st',
    m_Read_ cb (length rest) (Metric (dir_of (w_root st) name) (a_first am) (a_last am))
      (a_last am - len pre) e acc st = (st', finish_cb (seq_read (skip_cb k cb) e rest acc)) /\
    DInv FRr n st' D A /\ same_opts st st'.
Proof.
  intros HA. induction rest as [|f rest IH]; intros pre st acc HI Hfs.
  - cbn [length m_Read_ seq_read t_first]. rewrite app_nil_r in Hfs.
    assert (E : (a_last am - len pre <? a_first am) = true)
      by (apply Z.ltb_lt; unfold a_last; rewrite Hfs; lia).
    rewrite E. exists st. split; [reflexivity|]. split; [exact HI|apply same_opts_refl].
  - cbn [length m_Read_ seq_read t_first].
    assert (E : (a_last am - len pre <? a_first am) = false).
    { apply Z.ltb_ge. unfold a_last. rewrite Hfs, len_app, len_cons. pose proof (len_nonneg rest). lia. }
    rewrite E.
    destruct (acquire_r n st D A am (length pre) f HI HA) as (ino & c & cc & Ea & HI1 & Hcap & HF).
    { rewrite Hfs, nth_error_app2, Nat.sub_diag by lia. reflexivity. }
    fold (len pre) in Ea, HF.
    change (filenameAt _ (a_last am - len pre)) with (path_of (w_root st) name (a_last am - len pre)).
    rewrite Ea. cbn [h_geom h_ino]. set (st1 := set_fch st (w_toks st) cc) in *.
    pose proof HF as (Pp & Pc & Hrep). destruct (Hrep eq_refl) as (Ho & Hread).
    assert (Hc : contents st1 ino = c) by (unfold contents, st1; cbn; now rewrite Pc). rewrite Hc, Hread.
    destruct (release_spec_d FRr n st1 D A (path_of (w_root st) name (a_last am - len pre))
                (Handle ino (geom_of f)) HI1 Pp) as (t & c2 & Er & HI2 & Hcap2).
    { cbn [h_ino h_geom]. now rewrite Hc. }
    assert (Hso : same_opts st (set_fch st1 t c2)).
    { unfold same_opts; cbn in *. intuition congruence. }
    destruct (e <=? _).
    + rewrite Er. eexists. split; [reflexivity|]. split; [exact HI2|exact Hso].
    + destruct (run_cb (skip_cb k cb) acc _) as [acc' [[]| | |]]; rewrite Er;
        try (eexists; split; [reflexivity|]; split; [exact HI2|exact Hso]).
      specialize (IH (pre ++ [f]) (set_fch st1 t c2) acc' HI2).
      rewrite <- app_assoc in IH. specialize (IH Hfs).
      rewrite len_app in IH. change (len [f]) with 1 in IH.
      destruct IH as (st' & Es & HI3 & Hso3).
      replace (a_last am - len pre - 1) with (a_last am - (len pre + 1)) by lia.
      exists st'. split; [exact Es|]. split; [exact HI3|]. eapply same_opts_trans; eassumption.
Qed.

Lemma query_r {X} (cb : callback X) n st D A am e acc : DInv FRr n st D A -> A name = Some am -> am_ok am ->
  exists st', db_query cb name e acc st = (st', finish_cb (run_cb cb acc (filter k (a_query am e)))) /\
    DInv FRr n st' D A.
Proof.
  intros HI HA Hok. unfold db_query. rewrite (newMetric_some_d FRr n st _ _ name am true HI HA).
  unfold m_Read. cbn [t_last t_first].
  replace (a_last am - a_first am + 1) with (len (a_files am)) by (unfold a_last; lia).
  unfold len. rewrite Nat2Z.id.
  destruct (m_Read__r cb n D A am e HA (a_files am) [] st acc HI eq_refl) as (st' & E & R & _).
  change (len (@nil afile)) with 0 in E. rewrite Z.sub_0_r in E. rewrite E.
  rewrite seq_read_query, run_skip by assumption. eauto.
Qed.

Definition r_out (am : ametric) (o : op) : outcome :=
  match o with
  | OQuery _ e => RQuery (filter k (a_query am e)) (Ok tt)
  | _ => RLatest (hd_error (filter k (a_query am (2 ^ 63 - 1)))) (Ok tt)
  end.
Lemma step_r n st D A am o : DInv FRr n st D A -> A name = Some am -> am_ok am -> reads name o ->
  exists st', c_step o st = (st', r_out am o) /\ DInv FRr n st' D A.
Proof.
  intros HI HA Hok [(e & ->)| ->]; cbn [c_step r_out].
  - destruct (query_r collect_cb n st D A am e [] HI HA Hok) as (st' & -> & HI'). rewrite collect_run. cbn. eauto.
  - unfold db_query_latest. destruct (query_r latest_cb n st D A am (2 ^ 63 - 1) None HI HA Hok) as (st' & -> & HI').
    rewrite latest_run. eauto.
Qed.
Lemma run_r n D A am : A name = Some am -> am_ok am -> forall ops st, DInv FRr n st D A -> Forall (reads name) ops ->
  DInv FRr n (fst (c_run ops st)) D A.
Proof.
  intros HA Hok. induction ops as [|o ops IH]; intros st HI HF; cbn [c_run]; [exact HI|].
  destruct (step_r n st D A am o HI HA Hok (Forall_inv HF)) as (st1 & -> & HI1).
  specialize (IH st1 HI1 (Forall_inv_tail HF)). destruct (c_run ops st1). exact IH.
Qed.
End Reads.

(** ** metrics that got no new file *)
Definition grown (am am' : ametric) : Prop :=
  a_last am < a_last am' \/
  (a_first am' = a_first am /\ exists f f' older, a_files am = f :: older /\ a_files am' = f' :: older /\ ext f f').
Lemma grown_last am am' : grown am am' -> a_last am <= a_last am'.
Proof.
  intros [H|(E & f & f' & older & E1 & E2 & _)]; [lia|]. unfold a_last. rewrite E, E1, E2, !len_cons. lia.
Qed.
Lemma grown_refl am : a_files am <> [] -> grown am am.
Proof.
  intros H. right. split; [reflexivity|]. destruct (a_files am) as [|f older]; [contradiction|].
  exists f, f, older. split; [reflexivity|]. split; [reflexivity|apply ext_refl].
Qed.
Lemma grown_trans x y z : grown x y -> grown y z -> grown x z.
Proof.
  intros H1 H2. pose proof (grown_last _ _ H1). pose proof (grown_last _ _ H2).
  destruct H1 as [H1|(E & f & f' & older & E1 & E2 & E3)]; [left; lia|].
  destruct H2 as [H2|(F & g & g' & older' & F1 & F2 & F3)]; [left; lia|].
  rewrite E2 in F1. injection F1 as <- <-. right. split; [congruence|]. exists f, g', older.
  split; [exact E1|]. split; [exact F2|]. eapply ext_trans; eassumption.
Qed.

Lemma write_grown size cap max am v : am_ok am -> grown am (fst (a_write size cap max am v)).
Proof.
  intros (_ & Hne & _). unfold a_write. destruct (a_files am) as [|f older] eqn:Ef; [contradiction|].
  assert (Hr : grown am am) by (apply grown_refl; rewrite Ef; discriminate).
  destruct (match a_vals f with [] => false | w :: _ => v_end v <=? v_end w end); [exact Hr|].
  destruct (_ <=? a_cap f).
  - right. cbn [fst a_first a_files]. split; [reflexivity|]. rewrite Ef. eexists _, _, _. split; [reflexivity|]. split; [reflexivity|].
    split; [reflexivity|]. split; [reflexivity|]. exists [v]. reflexivity.
  - destruct (_ && _); [exact Hr|]. left. cbn [fst]. unfold a_last; cbn [a_first a_files]. rewrite len_cons, Ef.
    destruct (_ && _); [|lia].
    assert (L : len (f :: older) = len (removelast (f :: older)) + 1).
    { rewrite (app_removelast_last f (l := f :: older)) at 1 by discriminate. rewrite len_app. reflexivity. }
    lia.
Qed.

Lemma step_grown o a name am : Good (ad_map a) -> ad_map a name = Some am ->
  exists am', ad_map (fst (a_step o a)) name = Some am' /\ grown am am'.
Proof.
  intros HG HA. pose proof (HG name am HA) as Hok.
  assert (Hr : grown am am) by (apply grown_refl; apply Hok).
  destruct o as [name' u|name' e|name'|size cap max handles rand]; cbn [a_step].
  - pose proof (write_grown (ad_size a) (ad_cap a) (ad_max a) (am_of (ad_size a) (ad_cap a) (ad_map a) name') u
      (am_of_ok _ _ _ _ HG)) as HW.
    destruct (a_write (ad_size a) (ad_cap a) (ad_max a) (am_of (ad_size a) (ad_cap a) (ad_map a) name') u) as [am' r].
    cbn [fst ad_map] in *. destruct (bytes_eq_dec name' name) as [->|Hne].
    + rewrite aput_same. unfold am_of in HW. rewrite HA in HW. eauto.
    + rewrite aput_other by auto. eauto.
  - destruct (ad_map a name') as [am'|] eqn:HA'; [eauto|].
    destruct (existsb _ _); cbn [fst ad_map]; [|eauto]. rewrite aput_other by congruence. eauto.
  - destruct (ad_map a name') as [am'|] eqn:HA'; [eauto|].
    destruct (existsb _ _); cbn [fst ad_map]; [|eauto]. rewrite aput_other by congruence. eauto.
  - eauto.
Qed.
Lemma run_grown name : forall ops a am, Good (ad_map a) -> ad_map a name = Some am ->
  exists am', ad_map (fst (a_run ops a)) name = Some am' /\ grown am am'.
Proof.
  induction ops as [|o ops IH]; intros a am HG HA; cbn [a_run].
  - exists am. split; [exact HA|]. apply grown_refl. apply (HG name am HA).
  - destruct (step_grown o a name am HG HA) as (am1 & HA1 & G1). pose proof (good_step o a HG) as HG1.
    destruct (a_step o a) as [a1 r]. cbn [fst] in *. destruct (IH a1 am1 HG1 HA1) as (am2 & HA2 & G2).
    destruct (a_run ops a1) as [a2 rs]. cbn [fst] in *. exists am2. split; [exact HA2|]. eapply grown_trans; eassumption.
Qed.

(** the files of a metric that got no new file *)
Lemma grown_files am am' : grown am am' -> a_last am' = a_last am -> a_first am' = a_first am /\
  length (a_files am') = length (a_files am) /\
  forall j f', nth_error (a_files am') j = Some f' -> exists f, nth_error (a_files am) j = Some f /\ ext f f' /\ (j = 0%nat \/ f' = f).
Proof.
  intros [H|(E & f & f' & older & E1 & E2 & E3)] El; [lia|]. split; [exact E|]. rewrite E1, E2. split; [reflexivity|].
  intros [|j] h; cbn [nth_error].
  - intros [= <-]. exists f. auto.
  - intros Hj. exists h. split; [exact Hj|]. split; [apply ext_refl|now right].
Qed.

(** ** one choice of visible values for all files *)
Lemma choose_keep (P : nat -> afile -> (value -> bool) -> Prop) :
  (forall j f k k', (forall v, In v (a_vals f) -> k v = k' v) -> P j f k -> P j f k') ->
  forall files j0, desc (flat_map a_vals files) ->
  (forall j f, nth_error files j = Some f -> exists k, P (j0 + j)%nat f k) ->
  exists k, forall j f, nth_error files j = Some f -> P (j0 + j)%nat f k.
Proof.
  intros Hext. induction files as [|f files IH]; intros j0 Hd H.
  - exists (fun _ => true). intros [|j] f; discriminate.
  - cbn [flat_map] in Hd. pose proof (desc_app_inv _ _ Hd) as (Hd2 & Hlt).
    destruct (IH (S j0) Hd2) as (k' & Hk').
    { intros j g Hj. destruct (H (S j) g Hj) as (k & Hk). exists k. now rewrite Nat.add_succ_r in Hk. }
    destruct (H 0%nat f eq_refl) as (k & Hk).
    exists (fun v => if in_dec value_eq_dec v (a_vals f) then k v else k' v). intros [|j] g; cbn [nth_error].
    + intros [= <-]. revert Hk. apply Hext. intros v Hv. destruct (in_dec value_eq_dec v (a_vals f)); [reflexivity|contradiction].
    + intros Hj. specialize (Hk' j g Hj). rewrite Nat.add_succ_r. revert Hk'. apply Hext. intros v Hv.
      destruct (in_dec value_eq_dec v (a_vals f)) as [Hi|]; [|reflexivity]. exfalso.
      assert (Hin : In v (flat_map a_vals files)) by (apply in_flat_map; exists g; split; [exact (nth_error_In _ _ Hj)|exact Hv]).
      specialize (Hlt v v Hi Hin). lia.
Qed.

(** ** sub-sequences *)
Lemma subseq_refl {X} (l : list X) : subseq l l.
Proof. induction l; constructor; assumption. Qed.
Lemma subseq_skip {X} (us l l' : list X) : subseq l l' -> subseq l (us ++ l').
Proof. induction us; intros H; [exact H|]. cbn. constructor. auto. Qed.
Lemma subseq_filter {X} (k : X -> bool) l : subseq (filter k l) l.
Proof. induction l as [|x l IH]; cbn; [constructor|]. destruct (k x); constructor; exact IH. Qed.
Lemma subseq_filter_all {X} (k : X -> bool) l l' : subseq l l' -> (forall x, In x l -> k x = true) -> subseq l (filter k l').
Proof.
  induction 1 as [|x l l' H IH|x l l' H IH]; intros Hk; cbn [filter].
  - constructor.
  - rewrite (Hk x (or_introl eq_refl)). constructor. apply IH. intros y Hy. apply Hk. now right.
  - destruct (k x); [constructor|]; now apply IH.
Qed.
Lemma subseq_filter_mono {X} (k : X -> bool) l l' : subseq l l' -> subseq (filter k l) (filter k l').
Proof.
  induction 1 as [|x l l' H IH|x l l' H IH]; cbn [filter]; [constructor| |]; destruct (k x); try constructor; exact IH.
Qed.

Lemma subseq_in {X} (l l' : list X) x : subseq l l' -> In x l -> In x l'.
Proof. induction 1; cbn; intuition. Qed.
Lemma subseq_desc l l' : subseq l l' -> desc l' -> desc l.
Proof.
  induction 1 as [|x l l' H IH|x l l' H IH]; intros Hd; [exact I| |].
  - assert (Hd' : desc l) by (apply IH; destruct l'; [exact I|apply Hd]).
    destruct l as [|y l]; [exact I|]. split; [|exact Hd']. apply (desc_lt _ _ _ Hd). eapply subseq_in; [exact H|now left].
  - apply IH. destruct l'; [exact I|apply Hd].
Qed.
Lemma desc_filter k l : desc l -> desc (filter k l).
Proof. apply subseq_desc, subseq_filter. Qed.
Lemma subseq_len {X} (l l' : list X) : subseq l l' -> (length l <= length l')%nat.
Proof. induction 1; cbn; lia. Qed.
Lemma subseq_anti {X} (l l' : list X) : subseq l l' -> subseq l' l -> l = l'.
Proof.
  intros H1 H2. apply subseq_len in H2. induction H1 as [|x l l' H IH|x l l' H IH]; [reflexivity| |].
  - cbn in H2. f_equal. apply IH. lia.
  - exfalso. apply subseq_len in H. cbn in H2. lia.
Qed.

(** ** data files of a state *)
Lemma data_at n st a nm am j f : DR FRx n st a -> ad_map a nm = Some am -> nth_error (a_files am) j = Some f ->
  exists c, data_file st nm (a_last am - Z.of_nat j) = Some c /\ FRx nm (nw j) f c /\ is_i64 (a_last am - Z.of_nat j).
Proof.
  intros (HI & _) HA Hj. destruct (di_file _ _ _ _ _ HI nm am j f HA Hj) as (ino & c & H1 & H2 & H3).
  exists c. unfold data_file. rewrite H1. split; [exact H2|]. split; [exact H3|].
  apply (num_range_d _ _ _ _ _ _ _ _ HI HA). assert (j < length (a_files am))%nat by (apply nth_error_Some; congruence).
  unfold a_last, len. lia.
Qed.
Lemma data_inv n st a nm i c : DR FRx n st a -> is_i64 i -> data_file st nm i = Some c ->
  exists am, ad_map a nm = Some am /\ a_first am <= i <= a_last am.
Proof.
  intros (HI & _) Hi. unfold data_file. destruct (mget beqb _ (w_files st)) as [ino|] eqn:E; [|discriminate]. intros _.
  destruct (di_paths _ _ _ _ _ HI _ _ E) as (_ & name & am & i' & Ep & HA & Hi').
  apply path_inj in Ep; [|exact (di_root _ _ _ _ _ HI)|exact Hi|exact (num_range_d _ _ _ _ _ _ _ _ HI HA Hi')].
  destruct Ep as (-> & ->). eauto.
Qed.

Section Main.
Variables (n0 : Z) (st0 : db) (a0 : adb) (ops : list op) (name : list Z) (am0 : ametric) (st' : db).
Hypothesis HR0 : DR FRx n0 st0 a0.
Hypothesis Hops : ops_ok (ad_size a0) (ad_cap a0) ops.
Hypothesis Hn0 : n0 + Z.of_nat (length ops) < 2 ^ 62.
Hypothesis HA0 : ad_map a0 name = Some am0.
Hypothesis Hvals : a_values am0 <> [].
Hypothesis HP : power_lost st0 ops name st'.
Notation st1 := (fst (c_run ops st0)).
Notation a1 := (fst (a_run ops a0)).

Lemma run_at pre post : ops = pre ++ post -> DR FRx (n0 + Z.of_nat (length pre)) (fst (c_run pre st0)) (fst (a_run pre a0)).
Proof.
  intros E. rewrite E in Hops, Hn0. rewrite app_length in Hn0. apply ops_ok_app in Hops. destruct Hops as (Ho & _).
  destruct (run_sim_d FRx _ repr_exact pre n0 st0 a0 HR0) as (s & -> & H); [intros nm v; discriminate|exact Ho|lia|exact H].
Qed.

Lemma now : exists am1, ad_map a1 name = Some am1 /\ grown am0 am1 /\ a_last am1 = a_last am0 /\ am_ok am1 /\ am_ok am0.
Proof.
  assert (HG : Good (ad_map a0)) by apply HR0.
  destruct (run_grown name ops a0 am0 HG HA0) as (am1 & HA1 & G). exists am1. split; [exact HA1|]. split; [exact G|].
  pose proof (run_at ops [] (eq_sym (app_nil_r _))) as HR1.
  assert (Hok1 : am_ok am1) by (destruct HR1 as (_ & HG1 & _); exact (HG1 _ _ HA1)).
  split; [|split; [exact Hok1|exact (HG _ _ HA0)]].
  destruct (a_files am1) as [|f1 older] eqn:Ef; [destruct Hok1 as (_ & Hne & _); contradiction|].
  destruct (data_at _ _ _ name am1 0 f1 HR1 HA1 ltac:(now rewrite Ef)) as (c1 & Hd & HF & Hi).
  change (Z.of_nat 0) with 0 in *. rewrite Z.sub_0_r in *.
  destruct HP as (_ & _ & H). destruct (H (a_last am1) c1 (geom_of f1) Hi Hd (fr_open _ _ repr_exact _ _ _ _ HF)) as (c0 & c' & Hd0 & _).
  destruct (data_inv _ _ _ _ _ _ HR0 Hi Hd0) as (am & HA & Hl). rewrite HA0 in HA. injection HA as <-.
  pose proof (grown_last _ _ G). lia.
Qed.

Lemma moments am1 j f0 f1 P : ad_map a1 name = Some am1 -> a_last am1 = a_last am0 ->
  nth_error (a_files am0) j = Some f0 -> nth_error (a_files am1) j = Some f1 ->
  sometime st0 ops name (a_last am1 - Z.of_nat j) P -> moment f0 f1 P.
Proof.
  intros HA1 El H0 H1 (pre & post & c & E & Hd & HPc).
  assert (HG : Good (ad_map a0)) by apply HR0.
  destruct (run_grown name pre a0 am0 HG HA0) as (am & HA & G).
  assert (HGt : Good (ad_map (fst (a_run pre a0)))) by apply (run_at pre post E).
  destruct (run_grown name post (fst (a_run pre a0)) am HGt HA) as (am1' & HA1' & G').
  assert (Ea : fst (a_run post (fst (a_run pre a0))) = a1).
  { rewrite E. rewrite a_run_app. destruct (a_run pre a0) as [x rs]. cbn [fst]. destruct (a_run post x). reflexivity. }
  rewrite Ea, HA1 in HA1'. injection HA1' as <-.
  pose proof (grown_last _ _ G). pose proof (grown_last _ _ G').
  destruct (grown_files _ _ G' ltac:(lia)) as (_ & _ & K'). destruct (K' j f1 H1) as (ft & Ht & E2 & _).
  destruct (grown_files _ _ G ltac:(lia)) as (_ & _ & K). destruct (K j ft Ht) as (f0' & H0' & E1 & _).
  rewrite H0 in H0'. injection H0' as <-.
  destruct (data_at _ _ _ name am j ft (run_at pre post E) HA Ht) as (ct & Hdt & (HF & HX) & _).
  replace (a_last am - Z.of_nat j) with (a_last am1 - Z.of_nat j) in Hdt by lia. rewrite Hd in Hdt. injection Hdt as <-.
  exists ft, c. auto.
Qed.

Lemma newest_ne am f : am_ok am -> a_values am <> [] -> nth_error (a_files am) 0 = Some f -> a_vals f <> [].
Proof.
  intros (Hd & Hne & Hall) Hv Hj. unfold a_values in Hv. destruct (a_files am) as [|f0 older] eqn:Ef; [contradiction|].
  cbn [nth_error] in Hj. injection Hj as <-. intros E. destruct older as [|g older].
  - apply Hv. cbn [flat_map]. now rewrite E.
  - cbn [removelast] in Hall. apply Forall_inv in Hall. contradiction.
Qed.

(** each file of the metric *)
Lemma each_file am1 j f1 : ad_map a1 name = Some am1 -> a_last am1 = a_last am0 -> grown am0 am1 -> nth_error (a_files am1) j = Some f1 ->
  exists f0 c0 c1 c', nth_error (a_files am0) j = Some f0 /\ data_file st' name (a_last am1 - Z.of_nat j) = Some c' /\
    afile_lost f0 f1 c0 c1 c'.
Proof.
  intros HA1 El G Hj. pose proof (run_at ops [] (eq_sym (app_nil_r _))) as HR1.
  destruct (grown_files _ _ G El) as (_ & _ & K). destruct (K j f1 Hj) as (f0 & Hj0 & E & Hor).
  destruct (data_at _ _ _ name am1 j f1 HR1 HA1 Hj) as (c1 & Hd1 & HF1 & Hi).
  destruct (data_at _ _ _ name am0 j f0 HR0 HA0 Hj0) as (c0 & Hd0 & HF0 & _).
  destruct HP as (_ & _ & H). destruct (H _ c1 (geom_of f1) Hi Hd1 (fr_open _ _ repr_exact _ _ _ _ HF1)) as (c0' & c' & Hd0' & Hd' & HF).
  rewrite El, Hd0 in Hd0'. injection Hd0' as <-. exists f0, c0, c1, c'. split; [exact Hj0|]. split; [exact Hd'|].
  destruct HF as (P1 & P2 & P3 & P4). constructor; auto; try apply HF0; try apply HF1.
  - destruct Hor as [->| ->]; [left|].
    + apply (newest_ne am0 f0); auto. apply (proj1 (proj2 HR0)) with (name := name). exact HA0.
    + destruct (a_vals f0); [now right|left; discriminate].
  - exact (moments am1 j f0 f1 _ HA1 El Hj0 Hj P3).
  - intros n Hn. destruct (P4 n Hn) as [Q|Q]; [left|now right]. exact (moments am1 j f0 f1 _ HA1 El Hj0 Hj Q).
Qed.

Lemma after_power am1 : ad_map a1 name = Some am1 -> a_last am1 = a_last am0 -> grown am0 am1 -> am_ok am1 ->
  exists k, (forall v, In v (a_values am0) -> k v = true) /\
  forall size cap max handles rand, process_ok size cap handles rand ->
  DInv (FRr name k) (n0 + Z.of_nat (length ops)) (db_reopen size cap max handles rand st') (ad_dirs a1) (ad_map a1).
Proof.
  intros HA1 El G Hok1. pose proof (run_at ops [] (eq_sym (app_nil_r _))) as HR1.
  assert (Hd1 : desc (flat_map a_vals (a_files am1))) by apply Hok1.
  destruct (choose_keep (fun j f k => (forall f0 v, nth_error (a_files am0) j = Some f0 -> In v (a_vals f0) -> In v (a_vals f) /\ k v = true) /\
      exists c, data_file st' name (a_last am1 - Z.of_nat j) = Some c /\ openFile c = Ok (geom_of f) /\
      forall X (cb : callback X) e acc, read_file cb (geom_of f) c e acc =
        if e <=? match oldest_end f with Some o => o | None => 0 end then (acc, Ok false)
        else run_cb cb acc (filter (fun v => v_end v <? e) (filter k (a_vals f)))))
    with (files := a_files am1) (j0 := 0%nat) as (k & Hk); [| exact Hd1 | |].
  { intros j f k k' He (H1 & c & H2 & H3 & H4). split.
    - intros f0 v Hj Hv. destruct (H1 f0 v Hj Hv) as (Hi & Hkv). split; [exact Hi|]. now rewrite <- He.
    - exists c. split; [exact H2|]. split; [exact H3|]. intros X cb e acc. rewrite H4. destruct (_ <=? _); [reflexivity|].
      f_equal. f_equal. apply filter_ext_in. exact He. }
  { intros j f1 Hj. destruct (each_file am1 j f1 HA1 El G Hj) as (f0 & c0 & c1 & c' & Hj0 & Hd & HL).
    destruct (read_file_lost f0 f1 c0 c1 c' HL) as (k & Hk0 & Hrd). exists k. cbn [Nat.add]. split.
    - intros f0' v Hj' Hv. rewrite Hj0 in Hj'. injection Hj' as <-. split; [|now apply Hk0].
      destruct (al_ext _ _ _ _ _ HL) as (_ & _ & ws & ->). apply in_app_iff. now right.
    - exists c'. split; [exact Hd|]. split; [|exact Hrd].
      destruct (lost_meta f0 f1 c0 c1 c' HL) as (? & ? & ? & _ & _ & _ & _ & _ & _ & _ & Ho). exact Ho. }
  exists k. split.
  { intros v Hv. unfold a_values in Hv. apply in_flat_map in Hv. destruct Hv as (f0 & Hf & Hv). apply In_nth_error in Hf.
    destruct Hf as (j & Hj). destruct (grown_files _ _ G El) as (_ & Hlen & _).
    destruct (nth_error (a_files am1) j) as [f1|] eqn:Hj1.
    - destruct (Hk j f1 Hj1) as (H1 & _). exact (proj2 (H1 f0 v Hj Hv)).
    - apply nth_error_None in Hj1. assert (j < length (a_files am0))%nat by (apply nth_error_Some; congruence). lia. }
  intros size cap max handles rand (Ho & Hh & Hr). destruct HP as (Est & Hex & _).
  destruct HR1 as (HI & _). pose proof (run_at ops [] (eq_sym (app_nil_r _))) as HR1.
  assert (W1 : w_root st' = w_root st1) by now rewrite Est.
  assert (W2 : w_files st' = w_files st1) by now rewrite Est.
  assert (W3 : w_dirs st' = w_dirs st1) by now rewrite Est.
  assert (W4 : w_next st' = w_next st1) by now rewrite Est.
  constructor; cbn [db_reopen w_cache w_size w_cap w_root w_dirs w_files w_next w_toks w_ino]; rewrite ?W1, ?W2, ?W3, ?W4.
  - apply cinv_new. exact Hh.
  - exact Hr.
  - exact Ho.
  - exact (di_root _ _ _ _ _ HI).
  - exact (di_bound _ _ _ _ _ HI).
  - exact (di_dirs _ _ _ _ _ HI).
  - exact (di_fine _ _ _ _ _ HI).
  - exact (di_num _ _ _ _ _ HI).
  - exact (di_dir _ _ _ _ _ HI).
  - intros nm am j f HA Hj.
    destruct (data_at _ _ _ nm am j f HR1 HA Hj) as (c1 & Hdf & _ & Hi).
    assert (Hd' : data_file st' nm (a_last am - Z.of_nat j) <> None) by (apply Hex; [exact Hi|congruence]).
    destruct (data_file st' nm (a_last am - Z.of_nat j)) as [c'|] eqn:Ec; [|contradiction]. clear Hd'. pose proof Ec as Ec'.
    unfold data_file in Ec. destruct (mget beqb _ (w_files st')) as [ino|] eqn:Em; [|discriminate].
    exists ino, c'. split; [|split].
    + cbn [db_reopen w_root w_files]. exact Em.
    + exact Ec.
    + intros ->. rewrite HA1 in HA. injection HA as <-. destruct (Hk j f Hj) as (_ & c & H2 & H3 & H4). cbn [Nat.add] in *.
      rewrite Ec' in H2. injection H2 as <-. split; [exact H3|]. intros X cb e acc. rewrite H4, run_skip.
      destruct (_ <=? _); [reflexivity|]. f_equal. apply filter_filter_comm.
  - exact (di_paths _ _ _ _ _ HI).
  - exact (di_inj _ _ _ _ _ HI).
  - exact (di_nodup _ _ _ _ _ HI).
  - intros p t. discriminate.
  - intros p t h. discriminate.
Qed.

Lemma a_query_sub k am1 e : grown am0 am1 -> a_last am1 = a_last am0 -> am_ok am0 ->
  (forall v, In v (a_values am0) -> k v = true) ->
  subseq (a_query am0 e) (filter k (a_query am1 e)) /\ subseq (filter k (a_query am1 e)) (a_query am1 e).
Proof.
  intros G El Hok Hk. split; [|apply subseq_filter].
  destruct G as [H|(E & f & f' & older & E1 & E2 & E3)]; [lia|].
  assert (Hne : a_vals f <> []) by (apply (newest_ne am0 f Hok Hvals); now rewrite E1).
  unfold a_query. rewrite E1, E2, (oldest_ext f f' E3 Hne).
  destruct (match oldest_end f with Some o => e <=? o | None => false end); [apply subseq_refl|].
  apply subseq_filter_all.
  - apply subseq_filter_mono. unfold a_values. rewrite E1, E2. cbn [flat_map]. destruct E3 as (_ & _ & ws & ->).
    rewrite <- app_assoc. apply subseq_skip, subseq_refl.
  - intros v Hv. apply filter_In in Hv. apply Hk. apply Hv.
Qed.
End Main.

Lemma a_step_query n st a name am e : DR FRx n st a -> n + 1 < 2 ^ 62 -> ad_map a name = Some am ->
  snd (c_step (OQuery name e) st) = RQuery (a_query am e) (Ok tt).
Proof.
  intros HR Hn HA. destruct (step_sim_d FRx _ repr_exact n st a (OQuery name e) HR) as (s & -> & _); [intros nm v; discriminate|exact I|exact Hn|].
  cbn [snd]. unfold k_out, a_step. rewrite HA. cbn [snd]. now rewrite filter_true.
Qed.
Lemma a_step_latest n st a name am : DR FRx n st a -> n + 1 < 2 ^ 62 -> ad_map a name = Some am ->
  snd (c_step (OLatest name) st) = RLatest (hd_error (a_query am (2 ^ 63 - 1))) (Ok tt).
Proof.
  intros HR Hn HA. destruct (step_sim_d FRx _ repr_exact n st a (OLatest name) HR) as (s & -> & _); [intros nm v; discriminate|exact I|exact Hn|].
  cbn [snd]. unfold k_out, a_step. rewrite HA. cbn [snd]. now rewrite filter_true.
Qed.

(** everything together: the state at the sync, at the failure, and the answers afterwards *)
Lemma power_failure root size cap max handles rand ops0 ops1 name st0 outs0 st' :
  history_ok root size cap handles rand (ops0 ++ ops1) ->
  c_run ops0 (db_empty root size cap max handles rand) = (st0, outs0) -> acked name ops0 outs0 <> [] ->
  power_lost st0 ops1 name st' ->
  exists am0 am1 k,
    (forall e, snd (c_step (OQuery name e) st0) = RQuery (a_query am0 e) (Ok tt)) /\
    snd (c_step (OLatest name) st0) = RLatest (hd_error (a_query am0 (2 ^ 63 - 1))) (Ok tt) /\
    (forall e, snd (c_step (OQuery name e) (fst (c_run ops1 st0))) = RQuery (a_query am1 e) (Ok tt)) /\
    (forall e, subseq (a_query am0 e) (filter k (a_query am1 e)) /\ subseq (filter k (a_query am1 e)) (a_query am1 e)) /\
    (forall e, desc (a_query am1 e)) /\
    forall size' cap' max' handles' rand' rds, process_ok size' cap' handles' rand' -> Forall (reads name) rds ->
    forall o, reads name o ->
    snd (c_step o (fst (c_run (OReopen size' cap' max' handles' rand' :: rds) st'))) = r_out k am1 o.
Proof.
  intros (Hr & Hp & Ho & Hn) E Hack HP.
  rewrite app_length in Hn. apply ops_ok_app in Ho. destruct Ho as (Ho0 & Ho1).
  destruct (run_sim_d FRx _ repr_exact ops0 1 _ _ (R_empty_d FRx root size cap max handles rand Hr Hp)) as (st & E0 & HR0);
    [intros nm v; discriminate|exact Ho0|lia|].
  rewrite E in E0. injection E0 as <- Eouts.
  pose proof (a_run_opts ops0 (adb_empty root size cap max)) as (O1 & O2 & _). cbn [ad_size ad_cap adb_empty] in O1, O2.
  destruct (history_state root size cap max handles rand ops0) as (n' & s' & a' & outs' & E1 & E2 & _ & _ & _ & _ & _ & _ & Hl & _).
  { split; [exact Hr|]. split; [exact Hp|]. split; [exact Ho0|lia]. }
  rewrite E in E1. injection E1 as <- <-. rewrite E2 in *. cbn [fst] in *.
  destruct (Hl name) as (_ & Hv & _). unfold vals in Hv.
  destruct (ad_map a' name) as [am0|] eqn:HA0; [|exfalso; apply Hack; now apply Hv].
  assert (Hvals : a_values am0 <> []) by (intros X; apply Hack; now apply Hv).
  rewrite <- O1, <- O2 in Ho1.
  destruct (now _ st0 a' ops1 name am0 st' HR0 Ho1 ltac:(lia) HA0 HP) as (am1 & HA1 & G & El & Hok1 & Hok0).
  destruct (after_power _ st0 a' ops1 name am0 st' HR0 Ho1 ltac:(lia) HA0 Hvals HP am1 HA1 El G Hok1) as (k & Hk & HI).
  pose proof (run_at _ st0 a' ops1 HR0 Ho1 ltac:(lia) ops1 [] (eq_sym (app_nil_r _))) as HR1.
  exists am0, am1, k. split; [|split; [|split; [|split; [|split]]]].
  - intros e. apply (a_step_query _ st0 a' name am0 e HR0); [lia|exact HA0].
  - apply (a_step_latest _ st0 a' name am0 HR0); [lia|exact HA0].
  - intros e. apply (a_step_query _ _ _ name am1 e HR1); [lia|exact HA1].
  - intros e. eapply a_query_sub; try eassumption; lia.
  - intros e. unfold a_query. destruct (a_files am1); [exact I|].
    destruct (match oldest_end a with Some o => e <=? o | None => false end); [exact I|].
    apply desc_filter. apply Hok1.
  - intros size' cap' max' handles' rand' rds Hp' Hrds o Ho.
    cbn [c_run c_step]. specialize (HI size' cap' max' handles' rand' Hp').
    pose proof (run_r name k _ _ _ am1 HA1 Hok1 rds _ HI Hrds) as HI2.
    destruct (c_run rds (db_reopen size' cap' max' handles' rand' st')) as [s2 outs2]. cbn [fst] in *.
    destruct (step_r name k _ s2 _ _ am1 o HI2 HA1 Hok1 Ho) as (s3 & -> & _). reflexivity.
Qed.
