(** Histories on any representation of files (DamageInv.v). *)
From Coq Require Import ZArith List Lia Bool.
From Verif Require Import Base Maps Record Convert File FileProofs Cache CacheProofs
  Metric MetricSpec MetricFile MetricPaths MetricProofs MetricRead DbSpec DbProofs DamageInv.
Import ListNotations.
Open Scope Z_scope.

Section Hist.
Variable FR : list Z -> bool -> afile -> list Z -> Prop.
Variable keep : list Z -> value -> bool.
Hypothesis HFR : repr_ok FR keep.

Definition DR (n : Z) (st : db) (a : adb) : Prop :=
  DInv FR n st (ad_dirs a) (ad_map a) /\ Good (ad_map a) /\
  w_size st = ad_size a /\ w_cap st = ad_cap a /\ w_max st = ad_max a /\ w_root st = ad_root a.

Lemma a_dirs_some_d n st D A name am : DInv FR n st D A -> A name = Some am -> a_dirs (w_root st) D name = D.
Proof.
  intros HI HA. unfold a_dirs.
  assert (E : existsb (beqb (clean_dir (dir_of (w_root st) name))) D = true).
  { apply existsb_exists. eexists. split; [exact (di_dir _ _ _ _ _ HI name am HA)|apply beqb_refl]. }
  now rewrite E.
Qed.

(** newMetric with write access *)
Lemma newMetric_rw_d n st D A name : DInv FR n st D A -> Good A ->
  exists st' A',
    let am := am_of (w_size st) (w_cap st) A name in
    newMetric name false st = (st', Ok (Metric (dir_of (w_root st) name) (a_first am) (a_last am))) /\
    DInv FR n st' (a_dirs (w_root st) D name) A' /\ same_opts st st' /\
    A' name = Some am /\ am_ok am /\ forall x, aput name am A x = A' x.
Proof.
  intros HI HG. unfold am_of. destruct (A name) as [am|] eqn:HA.
  - exists st, A. split; [exact (newMetric_some_d FR n st D A name am false HI HA)|].
    rewrite (a_dirs_some_d n st D A name am HI HA). split; [exact HI|]. split; [apply same_opts_refl|].
    split; [exact HA|]. split; [exact (HG name am HA)|]. intros x. symmetry. now apply aput_id.
  - destruct (newMetric_none_d FR keep HFR n st D A name false HI HA) as [(? & _)|(_ & st' & E & Hso & HI')]; [discriminate|].
    exists st', (aput name (a_fresh (w_size st) (w_cap st)) A).
    split; [exact E|]. split; [exact HI'|]. split; [exact Hso|]. split; [apply aput_same|].
    split; [apply a_fresh_ok|reflexivity].
Qed.

Lemma m_Write_spec_d n st D A name am v : DInv FR n st D A -> A name = Some am -> am_ok am ->
  val_ok v -> nrec (w_size st) v <= w_cap st -> n + 1 < 2 ^ 62 ->
  ((forall w, In w (a_values am) -> v_end w < v_end v) -> keep name v = true) ->
  let aw := a_write (w_size st) (w_cap st) (w_max st) am v in
  exists st',
    m_Write (Metric (dir_of (w_root st) name) (a_first am) (a_last am))
            (v_start v) (v_end v) (v_data v) st = (st', snd aw) /\
    DInv FR (n + 1) st' D (aput name (fst aw) A) /\ same_opts st st'.
Proof.
  intros HI HA Hok Hv Hfit Hn Hkeep. cbv zeta. rewrite <- (a_write_any_fits _ _ _ _ _ Hfit).
  exact (m_Write_any_spec_d FR keep HFR n st D A name am v HI HA Hok Hv Hn Hkeep).
Qed.

Lemma write_step_d n st a name v : DR n st a -> value_fits (ad_size a) (ad_cap a) v -> n + 1 < 2 ^ 62 ->
  ((forall w, In w (a_values (am_of (ad_size a) (ad_cap a) (ad_map a) name)) -> v_end w < v_end v) -> keep name v = true) ->
  exists st', c_step (OWrite name v) st = (st', snd (a_step (OWrite name v) a)) /\
              DR (n + 1) st' (fst (a_step (OWrite name v) a)) /\ c_cap (w_cache st') = c_cap (w_cache st).
Proof.
  intros (HI & HG & E1 & E2 & E3 & E4) (Hv & Hfit) Hn Hkeep. unfold c_step, db_write, a_step.
  destruct (newMetric_rw_d n st _ _ name HI HG) as (st1 & A1 & -> & HI1 & Hso & HA1 & Hok & Hext).
  rewrite <- E1, <- E2, <- E3, <- E4 in *.
  pose proof Hso as (S1 & S2 & S3 & S4 & S5).
  set (am := am_of (w_size st) (w_cap st) (ad_map a) name) in *.
  destruct (m_Write_spec_d n st1 _ A1 name am v HI1 HA1 Hok Hv) as (st2 & E & HI2 & Hso2).
  { now rewrite S1, S2. } { exact Hn. } { exact Hkeep. }
  rewrite S4 in E. rewrite E. rewrite S1, S2, S3 in *.
  pose proof (a_write_ok (w_size st) (w_cap st) (w_max st) am v Hok) as Hok2.
  destruct (a_write (w_size st) (w_cap st) (w_max st) am v) as [am2 r]. cbn [fst snd] in *.
  pose proof Hso2 as (T1 & T2 & T3 & T4 & T5).
  exists st2. split; [reflexivity|]. split; [|congruence].
  unfold DR. cbn [ad_size ad_cap ad_max ad_root ad_dirs ad_map].
  split; [|split; [|repeat split; congruence]].
  - eapply inv_ext_d; [|exact HI2]. intros x. unfold aput. destruct (beqb name x) eqn:Ex; [reflexivity|].
    rewrite <- Hext. unfold aput. now rewrite Ex.
  - apply good_put; assumption.
Qed.

Lemma query_step_d {X} (cb : callback X) n st a name e acc : DR n st a ->
  exists st' res, db_query cb name e acc st = (st', res) /\
    c_cap (w_cache st') = c_cap (w_cache st) /\
    match ad_map a name with
    | Some am => res = finish_cb (run_cb cb acc (filter (keep name) (a_query am e))) /\ DR n st' a
    | None =>
        if existsb (beqb (clean_dir (dir_of (ad_root a) name))) (ad_dirs a)
        then res = (acc, Ok tt) /\
             DR n st' (ADB (ad_size a) (ad_cap a) (ad_max a) (ad_root a) (ad_dirs a)
                        (aput name (a_fresh (ad_size a) (ad_cap a)) (ad_map a)))
        else res = (acc, Err) /\ st' = st
    end.
Proof.
  intros (HI & HG & E1 & E2 & E3 & E4). unfold db_query.
  destruct (ad_map a name) as [am|] eqn:HA.
  - rewrite (newMetric_some_d FR n st _ _ name am true HI HA).
    destruct (m_Read_spec_d FR keep HFR cb n st _ _ name am e acc HI HA (HG name am HA)) as (st' & E & HI' & Hso).
    rewrite E. eexists _, _. split; [reflexivity|]. destruct Hso as (S1 & S2 & S3 & S4 & S5).
    split; [exact S5|]. split; [reflexivity|]. unfold DR. split; [exact HI'|]. split; [exact HG|].
    repeat split; congruence.
  - destruct (newMetric_none_d FR keep HFR n st _ _ name true HI HA) as [(_ & Ee & E)|(He & st' & E & Hso & HI')].
    + rewrite E. rewrite E4 in Ee. rewrite Ee. eexists _, _. split; [reflexivity|].
      split; [reflexivity|]. auto.
    + rewrite E. destruct He as [|Ee]; [discriminate|]. rewrite E4 in Ee. rewrite Ee.
      pose proof Hso as (S1 & S2 & S3 & S4 & S5).
      destruct (m_Read_spec_d FR keep HFR cb n st' _ _ name (a_fresh (w_size st) (w_cap st)) e acc HI'
                  (aput_same _ _ _) (a_fresh_ok _ _)) as (st2 & Er & HI2 & Hso2).
      rewrite S4 in Er. change (a_first (a_fresh (w_size st) (w_cap st))) with 1 in Er.
      change (a_last (a_fresh (w_size st) (w_cap st))) with 1 in Er. rewrite Er.
      pose proof Hso2 as (T1 & T2 & T3 & T4 & T5).
      eexists _, _. split; [reflexivity|]. split; [congruence|]. split; [reflexivity|].
      unfold DR. cbn [ad_size ad_cap ad_max ad_root ad_dirs ad_map].
      assert (Ed : a_dirs (w_root st) (ad_dirs a) name = ad_dirs a)
        by (unfold a_dirs; rewrite E4, Ee; reflexivity).
      rewrite Ed in HI2. rewrite <- E1, <- E2. split; [exact HI2|].
      split; [apply good_put; [exact HG|apply a_fresh_ok]|]. repeat split; congruence.
Qed.

Lemma inv_reopen_d n st D A size cap max handles rand : DInv FR n st D A ->
  process_ok size cap handles rand -> DInv FR n (db_reopen size cap max handles rand st) D A.
Proof.
  intros [] (Ho & Hh & Hr). constructor; try assumption.
  - apply cinv_new. exact Hh.
  - intros p t. discriminate.
  - intros p t h. discriminate.
Qed.

Lemma R_mono_d n m st a : DR n st a -> n <= m < 2 ^ 62 -> DR m st a.
Proof. intros (HI & H) Hm. split; [eapply inv_mono_d; eauto|exact H]. Qed.


(** unreadable values are not newer than the newest value *)
Definition bounded (a : adb) : Prop := forall name v, keep name v = false ->
  exists am w, ad_map a name = Some am /\ In w (a_values am) /\ v_end v <= v_end w.

Lemma a_write_newest size cap max am v : am_ok am ->
  fst (a_write size cap max am v) = am \/
  (In v (a_values (fst (a_write size cap max am v))) /\ forall w, In w (a_values am) -> v_end w < v_end v).
Proof.
  intros (Hd & Hne & Hall). unfold a_write. destruct (a_files am) as [|f older] eqn:Ef; [contradiction|].
  destruct (match a_vals f with [] => false | w :: _ => v_end v <=? v_end w end) eqn:Eold; [now left|].
  assert (Hnew : forall w, In w (a_values am) -> v_end w < v_end v).
  { intros w Hw. unfold a_values in Hw, Hd. rewrite Ef in Hw, Hd. cbn [flat_map] in Hw, Hd.
    destruct (a_vals f) as [|w0 ws] eqn:Ev.
    - destruct older as [|g older]; [contradiction|]. exfalso. inversion Hall; subst. congruence.
    - apply Z.leb_gt in Eold. cbn [app] in Hw, Hd. destruct Hw as [<-|Hw]; [exact Eold|].
      apply (desc_app_inv [w0] _) in Hd. destruct Hd as (_ & Hd).
      specialize (Hd w0 w (or_introl eq_refl) Hw). lia. }
  destruct (_ <=? a_cap f).
  - right. split; [|exact Hnew]. cbn [fst]. unfold a_values; cbn [a_files flat_map a_vals app]. now left.
  - destruct (_ && _); [now left|]. right. split; [|exact Hnew]. cbn [fst].
    unfold a_values; cbn [a_files flat_map a_vals app]. now left.
Qed.

Lemma bounded_step o a : Good (ad_map a) -> bounded a -> bounded (fst (a_step o a)).
Proof.
  intros HG HB name v Hk. destruct (HB name v Hk) as (am & w & HA & Hw & Hle).
  destruct o as [name' u|name' e|name'|size cap max handles rand]; cbn [a_step].
  - pose proof (a_write_newest (ad_size a) (ad_cap a) (ad_max a) (am_of (ad_size a) (ad_cap a) (ad_map a) name') u) as HW.
    destruct (a_write (ad_size a) (ad_cap a) (ad_max a) (am_of (ad_size a) (ad_cap a) (ad_map a) name') u) as [am' r].
    cbn [fst ad_map] in *. destruct (bytes_eq_dec name' name) as [->|Hne].
    + rewrite aput_same. unfold am_of in HW. rewrite HA in HW. exists am'.
      destruct (HW (HG _ _ HA)) as [->|(Hu & Hlt)].
      * exists w. auto.
      * exists u. split; [reflexivity|]. split; [exact Hu|]. specialize (Hlt w Hw). lia.
    + rewrite aput_other by auto. exists am, w. auto.
  - destruct (ad_map a name') as [am'|] eqn:HA'; [exists am, w; auto|].
    destruct (existsb _ _); cbn [fst ad_map]; [|exists am, w; auto].
    rewrite aput_other by congruence. exists am, w. auto.
  - destruct (ad_map a name') as [am'|] eqn:HA'; [exists am, w; auto|].
    destruct (existsb _ _); cbn [fst ad_map]; [|exists am, w; auto].
    rewrite aput_other by congruence. exists am, w. auto.
  - cbn [fst ad_map]. exists am, w. auto.
Qed.

(** what a call answers *)
Definition k_out (o : op) (a : adb) : outcome :=
  match o with
  | OQuery name e => match snd (a_step o a) with RQuery l r => RQuery (filter (keep name) l) r | x => x end
  | OLatest name => match snd (a_step (OQuery name (2 ^ 63 - 1)) a) with
                    | RQuery l r => RLatest (hd_error (filter (keep name) l)) r | x => x end
  | _ => snd (a_step o a)
  end.
Fixpoint k_outs (ops : list op) (a : adb) : list outcome :=
  match ops with [] => [] | o :: ops => k_out o a :: k_outs ops (fst (a_step o a)) end.

Lemma step_sim_d n st a o : DR n st a -> bounded a -> op_ok (ad_size a) (ad_cap a) o -> n + 1 < 2 ^ 62 ->
  exists st', c_step o st = (st', k_out o a) /\ DR (n + 1) st' (fst (a_step o a)).
Proof.
  intros HR HB Ho Hn. assert (Hb : 1 <= n < 2 ^ 62) by (destruct HR as (HI & _); exact (di_bound _ _ _ _ _ HI)).
  destruct o as [name v|name e|name|size cap max handles rand]; cbn [op_ok] in Ho.
  - destruct (write_step_d n st a name v HR Ho Hn) as (st' & E & HR' & _); [|eauto].
    intros Hlt. destruct (keep name v) eqn:Ek; [reflexivity|]. exfalso.
    destruct (HB name v Ek) as (am & w & HA & Hw & Hle). unfold am_of in Hlt. rewrite HA in Hlt. specialize (Hlt w Hw). lia.
  - destruct (query_step_d collect_cb n st a name e [] HR) as (st' & r & E & _ & H).
    unfold c_step, k_out, a_step. rewrite E. exists st'.
    destruct (ad_map a name) as [am|].
    + destruct H as (-> & HR'). rewrite collect_run. cbn. split; [reflexivity|].
      apply R_mono_d with (n := n); [exact HR'|lia].
    + destruct (existsb _ _); destruct H as (-> & HR').
      * split; [reflexivity|]. apply R_mono_d with (n := n); [exact HR'|lia].
      * subst st'. split; [reflexivity|]. apply R_mono_d with (n := n); [exact HR|lia].
  - destruct (query_step_d latest_cb n st a name (2 ^ 63 - 1) None HR) as (st' & r & E & _ & H).
    unfold c_step, k_out, a_step, db_query_latest. rewrite E. exists st'.
    destruct (ad_map a name) as [am|].
    + destruct H as (-> & HR'). rewrite latest_run. split; [reflexivity|].
      apply R_mono_d with (n := n); [exact HR'|lia].
    + destruct (existsb _ _); destruct H as (-> & HR').
      * split; [reflexivity|]. apply R_mono_d with (n := n); [exact HR'|lia].
      * subst st'. split; [reflexivity|]. apply R_mono_d with (n := n); [exact HR|lia].
  - eexists. split; [reflexivity|]. destruct HR as (HI & HG & E1 & E2 & E3 & E4).
    unfold DR; cbn [a_step fst ad_size ad_cap ad_max ad_root ad_dirs ad_map].
    split; [apply inv_mono_d with (n := n); [now apply inv_reopen_d|lia]|]. split; [exact HG|].
    cbn. auto.
Qed.

Lemma run_sim_d : forall ops n st a, DR n st a -> bounded a -> ops_ok (ad_size a) (ad_cap a) ops ->
  n + Z.of_nat (length ops) < 2 ^ 62 ->
  exists st', c_run ops st = (st', k_outs ops a) /\
              DR (n + Z.of_nat (length ops)) st' (fst (a_run ops a)).
Proof.
  induction ops as [|o ops IH]; intros n st a HR HB Ho Hn; cbn [c_run a_run k_outs length] in *.
  - exists st. split; [reflexivity|]. rewrite Z.add_0_r. exact HR.
  - apply ops_ok_step in Ho. destruct Ho as [Ho1 Ho2].
    destruct (step_sim_d n st a o HR HB Ho1 ltac:(lia)) as (st1 & E & HR1). rewrite E.
    assert (HG : Good (ad_map a)) by apply HR.
    pose proof (bounded_step o a HG HB) as HB1.
    destruct (a_step o a) as [a1 r]. cbn [fst snd] in *.
    destruct (IH (n + 1) st1 a1 HR1 HB1 Ho2 ltac:(lia)) as (st2 & E2 & HR2). rewrite E2.
    destruct (a_run ops a1) as [a2 rs]. cbn [fst snd] in *. exists st2. split; [reflexivity|].
    replace (n + Z.of_nat (S (length ops))) with (n + 1 + Z.of_nat (length ops)) by lia. exact HR2.
Qed.

Lemma R_empty_d root size cap max handles rand : root <> [] -> process_ok size cap handles rand ->
  DR 1 (db_empty root size cap max handles rand) (adb_empty root size cap max).
Proof.
  intros Hroot Hp. destruct (R_empty root size cap max handles rand Hroot Hp) as ([] & H).
  split; [|exact H]. constructor; try assumption. intros name am k f. discriminate.
Qed.

End Hist.
