(** The program refines the specification machine on every history in scope. *)
From Coq Require Import ZArith List Lia Bool.
From Verif Require Import Base Maps Record Convert File FileProofs Cache CacheProofs
  Metric MetricSpec MetricFile MetricPaths MetricProofs MetricRead DbSpec.
Import ListNotations.
Open Scope Z_scope.

Definition R (n : Z) (st : db) (a : adb) : Prop :=
  Inv n st (ad_dirs a) (ad_map a) /\ Good (ad_map a) /\
  w_size st = ad_size a /\ w_cap st = ad_cap a /\ w_max st = ad_max a /\ w_root st = ad_root a.

Lemma collect_run l : forall acc, run_cb collect_cb acc l = (acc ++ l, Ok true).
Proof.
  induction l as [|v l IH]; intros acc; cbn [run_cb collect_cb]; [now rewrite app_nil_r|].
  unfold collect_cb at 1. rewrite IH, <- app_assoc. reflexivity.
Qed.
Lemma latest_run l : finish_cb (run_cb latest_cb None l) = (hd_error l, Ok tt).
Proof. destruct l; reflexivity. Qed.

Lemma a_dirs_some n st D A name am : Inv n st D A -> A name = Some am -> a_dirs (w_root st) D name = D.
Proof.
  intros HI HA. unfold a_dirs.
  assert (E : existsb (beqb (clean_dir (dir_of (w_root st) name))) D = true).
  { apply existsb_exists. eexists. split; [exact (i_dir _ _ _ _ HI name am HA)|apply beqb_refl]. }
  now rewrite E.
Qed.

(** newMetric with write access *)
Lemma newMetric_rw n st D A name : Inv n st D A -> Good A ->
  exists st' A',
    let am := am_of (w_size st) (w_cap st) A name in
    newMetric name false st = (st', Ok (Metric (dir_of (w_root st) name) (a_first am) (a_last am))) /\
    Inv n st' (a_dirs (w_root st) D name) A' /\ same_opts st st' /\
    A' name = Some am /\ am_ok am /\ forall x, aput name am A x = A' x.
Proof.
  intros HI HG. unfold am_of. destruct (A name) as [am|] eqn:HA.
  - exists st, A. split; [exact (newMetric_some n st D A name am false HI HA)|].
    rewrite (a_dirs_some n st D A name am HI HA). split; [exact HI|]. split; [apply same_opts_refl|].
    split; [exact HA|]. split; [exact (HG name am HA)|]. intros x. symmetry. now apply aput_id.
  - destruct (newMetric_none n st D A name false HI HA) as [(? & _)|(_ & st' & E & Hso & HI')]; [discriminate|].
    exists st', (aput name (a_fresh (w_size st) (w_cap st)) A).
    split; [exact E|]. split; [exact HI'|]. split; [exact Hso|]. split; [apply aput_same|].
    split; [apply a_fresh_ok|reflexivity].
Qed.

Lemma write_step n st a name v : R n st a -> value_fits (ad_size a) (ad_cap a) v -> n + 1 < 2 ^ 62 ->
  exists st', c_step (OWrite name v) st = (st', snd (a_step (OWrite name v) a)) /\
              R (n + 1) st' (fst (a_step (OWrite name v) a)) /\ c_cap (w_cache st') = c_cap (w_cache st).
Proof.
  intros (HI & HG & E1 & E2 & E3 & E4) (Hv & Hfit) Hn. unfold c_step, db_write, a_step.
  destruct (newMetric_rw n st _ _ name HI HG) as (st1 & A1 & -> & HI1 & Hso & HA1 & Hok & Hext).
  rewrite <- E1, <- E2, <- E3, <- E4 in *.
  pose proof Hso as (S1 & S2 & S3 & S4 & S5).
  set (am := am_of (w_size st) (w_cap st) (ad_map a) name) in *.
  destruct (m_Write_spec n st1 _ A1 name am v HI1 HA1 Hok Hv) as (st2 & E & HI2 & Hso2).
  { now rewrite S1, S2. } { exact Hn. }
  rewrite S4 in E. rewrite E. rewrite S1, S2, S3 in *.
  pose proof (a_write_ok (w_size st) (w_cap st) (w_max st) am v Hok) as Hok2.
  destruct (a_write (w_size st) (w_cap st) (w_max st) am v) as [am2 r]. cbn [fst snd] in *.
  pose proof Hso2 as (T1 & T2 & T3 & T4 & T5).
  exists st2. split; [reflexivity|]. split; [|congruence].
  unfold R. cbn [ad_size ad_cap ad_max ad_root ad_dirs ad_map].
  split; [|split; [|repeat split; congruence]].
  - eapply inv_ext; [|exact HI2]. intros x. unfold aput. destruct (beqb name x) eqn:Ex; [reflexivity|].
    rewrite <- Hext. unfold aput. now rewrite Ex.
  - apply good_put; assumption.
Qed.

Lemma query_step {X} (cb : callback X) n st a name e acc : R n st a ->
  exists st' res, db_query cb name e acc st = (st', res) /\
    c_cap (w_cache st') = c_cap (w_cache st) /\
    match ad_map a name with
    | Some am => res = finish_cb (run_cb cb acc (a_query am e)) /\ R n st' a
    | None =>
        if existsb (beqb (clean_dir (dir_of (ad_root a) name))) (ad_dirs a)
        then res = (acc, Ok tt) /\
             R n st' (ADB (ad_size a) (ad_cap a) (ad_max a) (ad_root a) (ad_dirs a)
                        (aput name (a_fresh (ad_size a) (ad_cap a)) (ad_map a)))
        else res = (acc, Err) /\ st' = st
    end.
Proof.
  intros (HI & HG & E1 & E2 & E3 & E4). unfold db_query.
  destruct (ad_map a name) as [am|] eqn:HA.
  - rewrite (newMetric_some n st _ _ name am true HI HA).
    destruct (m_Read_spec cb n st _ _ name am e acc HI HA (HG name am HA)) as (st' & E & HI' & Hso).
    rewrite E. eexists _, _. split; [reflexivity|]. destruct Hso as (S1 & S2 & S3 & S4 & S5).
    split; [exact S5|]. split; [reflexivity|]. unfold R. split; [exact HI'|]. split; [exact HG|].
    repeat split; congruence.
  - destruct (newMetric_none n st _ _ name true HI HA) as [(_ & Ee & E)|(He & st' & E & Hso & HI')].
    + rewrite E. rewrite E4 in Ee. rewrite Ee. eexists _, _. split; [reflexivity|].
      split; [reflexivity|]. auto.
    + rewrite E. destruct He as [|Ee]; [discriminate|]. rewrite E4 in Ee. rewrite Ee.
      pose proof Hso as (S1 & S2 & S3 & S4 & S5).
      destruct (m_Read_spec cb n st' _ _ name (a_fresh (w_size st) (w_cap st)) e acc HI'
                  (aput_same _ _ _) (a_fresh_ok _ _)) as (st2 & Er & HI2 & Hso2).
      rewrite S4 in Er. change (a_first (a_fresh (w_size st) (w_cap st))) with 1 in Er.
      change (a_last (a_fresh (w_size st) (w_cap st))) with 1 in Er. rewrite Er.
      pose proof Hso2 as (T1 & T2 & T3 & T4 & T5).
      eexists _, _. split; [reflexivity|]. split; [congruence|]. split; [reflexivity|].
      unfold R. cbn [ad_size ad_cap ad_max ad_root ad_dirs ad_map].
      assert (Ed : a_dirs (w_root st) (ad_dirs a) name = ad_dirs a)
        by (unfold a_dirs; rewrite E4, Ee; reflexivity).
      rewrite Ed in HI2. rewrite <- E1, <- E2. split; [exact HI2|].
      split; [apply good_put; [exact HG|apply a_fresh_ok]|]. repeat split; congruence.
Qed.

Lemma inv_reopen n st D A size cap max handles rand : Inv n st D A ->
  process_ok size cap handles rand -> Inv n (db_reopen size cap max handles rand st) D A.
Proof.
  intros [] (Ho & Hh & Hr). constructor; try assumption.
  - apply cinv_new. exact Hh.
  - intros p t. discriminate.
  - intros p t h. discriminate.
Qed.

Lemma R_mono n m st a : R n st a -> n <= m < 2 ^ 62 -> R m st a.
Proof. intros (HI & H) Hm. split; [eapply inv_mono; eauto|exact H]. Qed.

Definition op_ok (size cap : Z) (o : op) : Prop :=
  match o with
  | OWrite _ v => value_fits size cap v
  | OReopen size' cap' _ handles rand => process_ok size' cap' handles rand
  | _ => True
  end.

Lemma step_sim n st a o : R n st a -> op_ok (ad_size a) (ad_cap a) o -> n + 1 < 2 ^ 62 ->
  exists st', c_step o st = (st', snd (a_step o a)) /\ R (n + 1) st' (fst (a_step o a)).
Proof.
  intros HR Ho Hn. assert (Hb : 1 <= n < 2 ^ 62) by (destruct HR as (HI & _); exact (i_bound _ _ _ _ HI)).
  destruct o as [name v|name e|name|size cap max handles rand]; cbn [op_ok] in Ho.
  - destruct (write_step n st a name v HR Ho Hn) as (st' & E & HR' & _). eauto.
  - destruct (query_step collect_cb n st a name e [] HR) as (st' & r & E & _ & H).
    unfold c_step, a_step. rewrite E. exists st'.
    destruct (ad_map a name) as [am|].
    + destruct H as (-> & HR'). rewrite collect_run. cbn. split; [reflexivity|].
      apply R_mono with (n := n); [exact HR'|lia].
    + destruct (existsb _ _); destruct H as (-> & HR').
      * split; [reflexivity|]. apply R_mono with (n := n); [exact HR'|lia].
      * subst st'. split; [reflexivity|]. apply R_mono with (n := n); [exact HR|lia].
  - destruct (query_step latest_cb n st a name (2 ^ 63 - 1) None HR) as (st' & r & E & _ & H).
    unfold c_step, a_step, db_query_latest. rewrite E. exists st'.
    destruct (ad_map a name) as [am|].
    + destruct H as (-> & HR'). rewrite latest_run. split; [reflexivity|].
      apply R_mono with (n := n); [exact HR'|lia].
    + destruct (existsb _ _); destruct H as (-> & HR').
      * split; [reflexivity|]. apply R_mono with (n := n); [exact HR'|lia].
      * subst st'. split; [reflexivity|]. apply R_mono with (n := n); [exact HR|lia].
  - eexists. split; [reflexivity|]. destruct HR as (HI & HG & E1 & E2 & E3 & E4).
    unfold R; cbn [a_step fst ad_size ad_cap ad_max ad_root ad_dirs ad_map].
    split; [apply inv_mono with (n := n); [now apply inv_reopen|lia]|]. split; [exact HG|].
    cbn. auto.
Qed.

Lemma a_step_opts o a : 
  match o with OReopen _ _ _ _ _ => True | _ =>
    ad_size (fst (a_step o a)) = ad_size a /\ ad_cap (fst (a_step o a)) = ad_cap a /\
    ad_max (fst (a_step o a)) = ad_max a end /\ ad_root (fst (a_step o a)) = ad_root a.
Proof.
  destruct o; cbn [a_step].
  - destruct (a_write _ _ _ _ _). cbn. auto.
  - destruct (ad_map a name); [cbn; auto|]. destruct (existsb _ _); cbn; auto.
  - destruct (ad_map a name); [cbn; auto|]. destruct (existsb _ _); cbn; auto.
  - cbn. auto.
Qed.

Lemma ops_ok_step o ops a : ops_ok (ad_size a) (ad_cap a) (o :: ops) ->
  op_ok (ad_size a) (ad_cap a) o /\ ops_ok (ad_size (fst (a_step o a))) (ad_cap (fst (a_step o a))) ops.
Proof.
  intros H. pose proof (a_step_opts o a) as [E _].
  destruct o; cbn [ops_ok op_ok] in *.
  - destruct E as (-> & -> & _). exact H.
  - destruct E as (-> & -> & _). auto.
  - destruct E as (-> & -> & _). auto.
  - exact H.
Qed.

Lemma run_sim : forall ops n st a, R n st a -> ops_ok (ad_size a) (ad_cap a) ops ->
  n + Z.of_nat (length ops) < 2 ^ 62 ->
  exists st', c_run ops st = (st', snd (a_run ops a)) /\
              R (n + Z.of_nat (length ops)) st' (fst (a_run ops a)).
Proof.
  induction ops as [|o ops IH]; intros n st a HR Ho Hn; cbn [c_run a_run length] in *.
  - exists st. split; [reflexivity|]. rewrite Z.add_0_r. exact HR.
  - apply ops_ok_step in Ho. destruct Ho as [Ho1 Ho2].
    destruct (step_sim n st a o HR Ho1 ltac:(lia)) as (st1 & E & HR1). rewrite E.
    destruct (a_step o a) as [a1 r]. cbn [fst snd] in *.
    destruct (IH (n + 1) st1 a1 HR1 Ho2 ltac:(lia)) as (st2 & E2 & HR2). rewrite E2.
    destruct (a_run ops a1) as [a2 rs]. cbn [fst snd] in *. exists st2. split; [reflexivity|].
    replace (n + Z.of_nat (S (length ops))) with (n + 1 + Z.of_nat (length ops)) by lia. exact HR2.
Qed.

Lemma R_empty root size cap max handles rand : root <> [] -> process_ok size cap handles rand ->
  R 1 (db_empty root size cap max handles rand) (adb_empty root size cap max).
Proof.
  intros Hroot (Ho & Hh & Hr). unfold R, db_empty, adb_empty.
  split; [|split; [intros name am; discriminate|cbn; auto]].
  constructor; cbn; try assumption; try discriminate; auto.
  - now apply cinv_new.
  - lia.
  - intros d Hd. apply (mkdir_fine root []); [exact Hroot|].
    assert (E : clean_dir root = clean_dir (dir_of root [])).
    { rewrite (clean_dir_of root [] Hroot). unfold clean_dir, root_base, root_slash.
      destruct (last_decomp root Hroot) as (a & x & ->). rewrite len_snoc_pos, at_last. unfold c_slash.
      destruct (x =? 47); cbn [andb negb]; [reflexivity|].
      rewrite !app_length. cbn [length].
      replace (length a + 1 + 1 - 1)%nat with (length (a ++ [x])) by (rewrite app_length; cbn; lia).
      rewrite firstn_app, Nat.sub_diag, firstn_all. cbn [firstn]. now rewrite app_nil_r. }
    now rewrite <- E.
  - constructor.
Qed.

(** every history on an empty database directory *)
Theorem db_refines root size cap max handles rand ops :
  root <> [] -> process_ok size cap handles rand -> ops_ok size cap ops ->
  Z.of_nat (length ops) < 2 ^ 61 ->
  exists st',
    c_run ops (db_empty root size cap max handles rand) =
      (st', snd (a_run ops (adb_empty root size cap max))) /\
    R (1 + Z.of_nat (length ops)) st' (fst (a_run ops (adb_empty root size cap max))).
Proof.
  intros Hroot Hp Ho Hn. apply run_sim; auto; [now apply R_empty|lia].
Qed.
