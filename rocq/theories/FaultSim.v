(** The database with failing system calls and the specification machine. *)
From Coq Require Import ZArith List Lia Bool.
From Verif Require Import Base Maps Record Convert ConvertProofs File FileProofs Cache CacheProofs
  Metric MetricSpec MetricFile MetricPaths MetricProofs MetricRead DbSpec DbProofs DbLog DbClient Fault FaultProofs FaultJunk.
Import ListNotations.
Open Scope Z_scope.

Lemma full_two max am : full max am = true -> (2 <= length (a_files am))%nat.
Proof.
  unfold full. intros H. apply andb_true_iff in H. destruct H as [H1 H2]. apply Z.leb_le in H1. apply Z.ltb_lt in H2.
  unfold a_last, len in H1. lia.
Qed.
Lemma dropped_ok max am : am_ok am -> full max am = true -> am_ok (dropped am) /\
  (exists r, a_values am = a_values (dropped am) ++ r) /\ a_values (dropped am) <> [].
Proof.
  intros (Hd & Hne & Hall) Hf. apply full_two in Hf. unfold dropped, am_ok, a_values in *. cbn [a_files].
  destruct (flat_removelast a_vals (a_files am)) as (r & Er). rewrite Er in Hd.
  destruct (a_files am) as [|f [|g older]]; [cbn in Hf; lia|cbn in Hf; lia|].
  rewrite removelast_cons in * by discriminate. pose proof (Forall_inv Hall) as Hfv. cbn beta in Hfv. pose proof (Forall_inv_tail Hall) as Ht.
  split; [split; [exact (desc_app_l _ _ Hd)|split; [discriminate|]]|].
  - destruct (removelast (g :: older)) as [|h l] eqn:E; [constructor|]. rewrite removelast_cons by discriminate.
    constructor; [exact Hfv|]. now apply removelast_forall.
  - split; [eauto|]. cbn [flat_map]. destruct (a_vals f); [contradiction|discriminate].
Qed.

(** what one call does to the values kept, and what it answers *)
Definition write_fx (max : Z) (old new : list value) (v : value) (r : res bool) : Prop :=
  match r with
  | Ok true => (forall w l, old = w :: l -> v_end w < v_end v) /\
      exists kept dropped, old = kept ++ dropped /\ new = v :: kept /\ (max <= 0 -> dropped = [])
  | Ok false => new = old /\ exists w l, old = w :: l /\ v_end v <= v_end w
  | Err => (exists dropped, old = new ++ dropped /\ (max <= 0 -> dropped = [])) /\ (new = [] -> old = [])
  | Panic | Diverge => False
  end.
Definition query_of (a : adb) (name : list Z) (e : Z) : list value :=
  match ad_map a name with Some am => a_query am e | None => [] end.
Definition next_num (a : adb) (name : list Z) : Z :=
  match ad_map a name with Some am => a_last am + 1 | None => 1 end.
Definition fx (o : op) (a a' : adb) (out : outcome) : Prop :=
  match o, out with
  | OWrite name v, RWrite r => write_fx (ad_max a) (vals a name) (vals a' name) v r
  | OQuery name e, RQuery l r => vals a' name = vals a name /\ answer collect_cb [] (query_of a name e) (l, r)
  | OLatest name, RLatest x r => vals a' name = vals a name /\ answer latest_cb None (query_of a name (2 ^ 63 - 1)) (x, r)
  | OReopen _ _ _ _ _, RReopen => True
  | _, _ => False
  end.
Definition frame (o : op) (a a' : adb) : Prop :=
  ad_root a' = ad_root a /\ incl (ad_dirs a) (ad_dirs a') /\
  (forall name, op_name o <> Some name -> ad_map a' name = ad_map a name) /\
  match o with
  | OReopen size cap max _ _ => ad_size a' = size /\ ad_cap a' = cap /\ ad_max a' = max
  | _ => ad_size a' = ad_size a /\ ad_cap a' = ad_cap a /\ ad_max a' = ad_max a
  end.
Definition fails (out : outcome) : Prop :=
  match out with RWrite r => r = Err | RQuery _ r => r = Err | RLatest _ r => r = Err | RReopen => False end.

Lemma write_fx_a size cap max0 max am v am' r : am_ok am -> (max <= 0 -> max0 <= 0) ->
  (am', r) = a_write size cap max0 am v -> am_ok am' /\ write_fx max (a_values am) (a_values am') v r.
Proof.
  intros Hok Hm E. pose proof (a_write_ok size cap max0 am v Hok) as H1. pose proof (a_write_vals size cap max0 am v Hok) as H2.
  rewrite <- E in H1, H2. cbn [fst] in H1. split; [exact H1|].
  destruct H2 as [(-> & Hn & kept & dr & E1 & E2 & E3)|[(-> & -> & w & l & E1 & E2)|[(-> & -> & _)|(-> & -> & _)]]]; cbn [write_fx].
  - split; [exact Hn|]. exists kept, dr. auto.
  - split; [reflexivity|]. eauto.
  - split; [|auto]. exists []. rewrite app_nil_r. auto.
  - split; [|auto]. exists []. rewrite app_nil_r. auto.
Qed.
Lemma write_fx_err max am am' v : am_ok am -> am' = am \/ full max am = true /\ am' = dropped am ->
  am_ok am' /\ write_fx max (a_values am) (a_values am') v Err.
Proof.
  intros Hok [->|(Hf & ->)].
  - split; [exact Hok|]. cbn. split; [|auto]. exists []. rewrite app_nil_r. auto.
  - destruct (dropped_ok max am Hok Hf) as (H1 & (r & H2) & H3). split; [exact H1|]. cbn. split; [|intros; contradiction].
    exists r. split; [exact H2|]. intros Hm. unfold full in Hf. apply andb_true_iff in Hf. destruct Hf as [_ Hf]. apply Z.ltb_lt in Hf. lia.
Qed.

Lemma f_sim n st a o e : R n st a -> op_ok (ad_size a) (ad_cap a) o -> n + 1 < 2 ^ 62 ->
  exists st0 a' out, R (n + 1) st0 a' /\ frame o a a' /\ fx o a a' out /\
   (f_step o e st = (st0, out) \/
    exists name b, op_name o = Some name /\ In (Some b) (snd e) /\ In (clean_dir (dir_of (ad_root a) name)) (ad_dirs a') /\
      fails out /\ f_step o e st = (half_make (path_of (ad_root a) name (next_num a' name)) (half_bytes (ad_size a) (ad_cap a) b) st0, out)).
Proof.
  intros HR Hop Hn. pose proof HR as (HI & HG & E1 & E2 & E3 & E4).
  assert (Hb : 1 <= n < 2 ^ 62) by exact (i_bound _ _ _ _ HI).
  (* newMetric *)
  assert (New : forall name ro (o0 : op), op_name o0 = Some name ->
    exists e1 st1, (forall x, In x (snd e1) -> In x (snd e)) /\ exists D1, incl (ad_dirs a) D1 /\
    let a1 := ADB (ad_size a) (ad_cap a) (ad_max a) (ad_root a) D1 (ad_map a) in
    R n st1 a1 /\ frame o0 a a1 /\
    (newMetricF name ro e st = (st1, Err, e1) \/
     (exists b, In (Some b) (snd e) /\ ad_map a name = None /\ In (clean_dir (dir_of (ad_root a) name)) D1 /\
       newMetricF name ro e st = (half_make (path_of (ad_root a) name 1) (half_bytes (ad_size a) (ad_cap a) b) st1, Err, e1)) \/
     (exists st2 A2, let am := am_of (ad_size a) (ad_cap a) (ad_map a) name in
        newMetricF name ro e st = (st2, Ok (Metric (dir_of (ad_root a) name) (a_first am) (a_last am)), e1) /\
        Inv n st2 D1 A2 /\ same_opts st st2 /\ A2 name = Some am /\ am_ok am /\ (forall x, aput name am (ad_map a) x = A2 x)))).
  { intros name ro o0 Ho0. destruct (newMetricF_spec n st _ _ name ro e HI) as (D1 & e1 & Hin & Hsame & S1 & st1 & HI1 & Hso1 & C).
    destruct Hso1 as (Q1 & Q2 & Q3 & Q4 & Q5).
    exists e1, st1. split; [exact S1|]. exists D1. split; [exact Hin|]. cbn zeta. split; [|split].
    - unfold R. cbn [ad_size ad_cap ad_max ad_root ad_dirs ad_map]. split; [exact HI1|]. split; [exact HG|]. repeat split; congruence.
    - unfold frame. cbn [ad_size ad_cap ad_max ad_root ad_dirs ad_map]. split; [reflexivity|]. split; [exact Hin|]. split; [reflexivity|].
      destruct o0; try discriminate; auto.
    - rewrite E1, E2, E4 in C. destruct C as [C|[(b & B1 & B2 & B3 & C)|(st2 & A2 & C & HI2 & Hso2 & HA2 & Hx)]]; [left; exact C|right; left; eauto 8|].
      right; right. exists st2, A2. cbn zeta in *. split; [exact C|]. split; [exact HI2|]. split; [exact Hso2|]. split; [exact HA2|].
      split; [now apply am_of_ok|exact Hx]. }
  (* a state in which the metric exists and has the values it had *)
  assert (Quiet : forall st1 D1 A2 name k o0, op_name o0 = Some name -> incl (ad_dirs a) D1 -> Inv k st1 D1 A2 -> n <= k -> k <= n + 1 -> same_opts st st1 ->
     A2 name = Some (am_of (ad_size a) (ad_cap a) (ad_map a) name) -> (forall x, aput name (am_of (ad_size a) (ad_cap a) (ad_map a) name) (ad_map a) x = A2 x) ->
     let a1 := ADB (ad_size a) (ad_cap a) (ad_max a) (ad_root a) D1 (aput name (am_of (ad_size a) (ad_cap a) (ad_map a) name) (ad_map a)) in
     R (n + 1) st1 a1 /\ frame o0 a a1 /\ vals a1 name = vals a name).
  { intros st1 D1 A2 name k o0 Ho0 Hin HI1 Hk1 Hk2 (Q1 & Q2 & Q3 & Q4 & Q5) HA2 Hx. cbn zeta. split; [|split].
    - unfold R. cbn [ad_size ad_cap ad_max ad_root ad_dirs ad_map]. split; [|split; [|repeat split; congruence]].
      + apply inv_mono with (n := k); [|lia]. eapply inv_ext; [|exact HI1]. intros x. symmetry. apply Hx.
      + apply good_put; [exact HG|]. now apply am_of_ok.
    - unfold frame. cbn [ad_size ad_cap ad_max ad_root ad_dirs ad_map]. split; [reflexivity|]. split; [exact Hin|]. split.
      + intros nm Hnm. unfold aput. destruct (beqb name nm) eqn:En; [|reflexivity]. apply beqb_eq in En. congruence.
      + destruct o0; try discriminate; auto.
    - unfold vals at 1. cbn [ad_map]. rewrite aput_same. apply vals_am_of. }
  destruct o as [name v|name end_|name|size cap max handles rand]; cbn [f_step op_ok] in *.
  - (* write *)
    unfold db_writeF. destruct (New name false (OWrite name v) eq_refl) as (e1 & st1 & S1 & D1 & Hin & HR1 & Hfr1 & C). cbn zeta in *.
    destruct C as [C|[(b & B1 & B2 & B3 & C)|(st2 & A2 & C & HI2 & Hso2 & HA2 & Hok & Hx)]]; rewrite C.
    + eexists st1, _, (RWrite Err). split; [apply R_mono with (n := n); [exact HR1|lia]|]. split; [exact Hfr1|].
      split; [|left; reflexivity]. cbn [fx write_fx ad_max]. split; [|auto]. exists []. rewrite app_nil_r. auto.
    + eexists st1, _, (RWrite Err). split; [apply R_mono with (n := n); [exact HR1|lia]|]. split; [exact Hfr1|].
      split; [|right; exists name, b; split; [reflexivity|]; split; [exact B1|]; split; [exact B3|]; split; [reflexivity|]; unfold next_num; cbn [ad_map]; rewrite B2; reflexivity].
      cbn [fx write_fx]. split; [|auto]. exists []. rewrite app_nil_r. auto.
    + set (am := am_of (ad_size a) (ad_cap a) (ad_map a) name) in *.
      destruct Hop as (Hv & Hfit). pose proof Hso2 as (Q1 & Q2 & Q3 & Q4 & Q5).
      destruct (m_WriteF_spec n st2 D1 A2 name am v e1 HI2 HA2 Hok Hv) as (st' & e' & am' & r & S2 & Hso3 & HI3 & W).
      { rewrite Q1, Q2, E1, E2. exact Hfit. } { exact Hn. }
      rewrite Q1, Q2, Q3, Q4, E1, E2, E3, E4 in W. pose proof Hso3 as (T1 & T2 & T3 & T4 & T5).
      set (a' := ADB (ad_size a) (ad_cap a) (ad_max a) (ad_root a) D1 (aput name am' (ad_map a))).
      assert (HR' : am_ok am' -> R (n + 1) st' a').
      { intros Hok'. unfold R, a'. cbn [ad_size ad_cap ad_max ad_root ad_dirs ad_map]. split; [|split; [|repeat split; congruence]].
        - eapply inv_ext; [|exact HI3]. intros x. unfold aput. destruct (beqb name x) eqn:Ex; [reflexivity|]. rewrite <- Hx. unfold aput. now rewrite Ex.
        - now apply good_put. }
      assert (Hfr : frame (OWrite name v) a a').
      { unfold frame, a'. cbn [ad_size ad_cap ad_max ad_root ad_dirs ad_map op_name]. split; [reflexivity|]. split; [exact Hin|]. split; [|auto].
        intros nm Hnm. unfold aput. destruct (beqb name nm) eqn:En; [|reflexivity]. apply beqb_eq in En. congruence. }
      assert (Hva : vals a' name = a_values am') by (unfold vals, a'; cbn [ad_map]; now rewrite aput_same).
      assert (Hvo : a_values am = vals a name) by apply vals_am_of.
      destruct W as [(W & Hc)|(b & B1 & B2 & B3 & W)]; rewrite W.
      * assert (am_ok am' /\ write_fx (ad_max a) (a_values am) (a_values am') v r) as (Hok' & Hfx).
        { destruct Hc as [Hc|[Hc|(-> & Hc)]].
          - eapply write_fx_a; [exact Hok| |exact Hc]. auto.
          - eapply write_fx_a; [exact Hok| |exact Hc]. lia.
          - now apply write_fx_err. }
        exists st', a', (RWrite r). split; [now apply HR'|]. split; [exact Hfr|]. split; [|left; reflexivity].
        cbn [fx]. rewrite Hva, <- Hvo. exact Hfx.
      * destruct (write_fx_err (ad_max a) am am' v Hok B2) as (Hok' & Hfx).
        exists st', a', (RWrite Err). split; [now apply HR'|]. split; [exact Hfr|]. split; [cbn [fx]; rewrite Hva, <- Hvo; exact Hfx|].
        right. exists name, b. split; [reflexivity|]. split; [apply S1; exact B1|]. split.
        { unfold a'. cbn [ad_dirs]. pose proof (i_dir _ _ _ _ HI2 name am HA2) as Hd. now rewrite Q4, E4 in Hd. }
        split; [reflexivity|]. unfold next_num, a'. cbn [ad_map]. rewrite aput_same, B3. reflexivity.
  - (* query *)
    unfold db_queryF. destruct (New name true (OQuery name end_) eq_refl) as (e1 & st1 & S1 & D1 & Hin & HR1 & Hfr1 & C). cbn zeta in *.
    assert (Hno : answer collect_cb [] (query_of a name end_) ([], Err)).
    { right. exists [], (query_of a name end_), []. auto. }
    destruct C as [C|[(b & B1 & B2 & B3 & C)|(st2 & A2 & C & HI2 & Hso2 & HA2 & Hok & Hx)]]; rewrite C.
    + eexists st1, _, (RQuery [] Err). split; [apply R_mono with (n := n); [exact HR1|lia]|]. split; [exact Hfr1|].
      split; [|left; reflexivity]. cbn [fx]. auto.
    + eexists st1, _, (RQuery [] Err). split; [apply R_mono with (n := n); [exact HR1|lia]|]. split; [exact Hfr1|].
      split; [|right; exists name, b; split; [reflexivity|]; split; [exact B1|]; split; [exact B3|]; split; [reflexivity|]; unfold next_num; cbn [ad_map]; rewrite B2; reflexivity]. cbn [fx]. auto.
    + set (am := am_of (ad_size a) (ad_cap a) (ad_map a) name) in *. pose proof Hso2 as (Q1 & Q2 & Q3 & Q4 & Q5).
      destruct (m_ReadF_spec collect_cb n st2 D1 A2 name am end_ [] e1 HI2 HA2 Hok) as (st' & e' & [l r] & W & S2 & HI3 & Hso3 & Ha).
      rewrite Q4, E4 in W. rewrite W.
      destruct (Quiet st' D1 A2 name n (OQuery name end_) eq_refl Hin HI3 ltac:(lia) ltac:(lia) (same_opts_trans _ _ _ Hso2 Hso3) HA2 Hx) as (K1 & K2 & K3).
      eexists st', _, _. split; [exact K1|]. split; [exact K2|]. split; [|left; reflexivity]. cbn [fx]. split; [exact K3|].
      unfold query_of. unfold am, am_of in Ha. destruct (ad_map a name); [exact Ha|].
      destruct Ha as [Ha|(l1 & l2 & acc & H1 & H2 & H3)]; [left; now rewrite Ha|].
      right. apply app_eq_nil in H1 as (-> & ->) || (symmetry in H1; apply app_eq_nil in H1 as (-> & ->)). exists [], [], acc. auto.
  - (* latest *)
    unfold db_queryF. destruct (New name true (OLatest name) eq_refl) as (e1 & st1 & S1 & D1 & Hin & HR1 & Hfr1 & C). cbn zeta in *.
    assert (Hno : answer latest_cb None (query_of a name (2 ^ 63 - 1)) (None, Err)).
    { right. exists [], (query_of a name (2 ^ 63 - 1)), None. auto. }
    destruct C as [C|[(b & B1 & B2 & B3 & C)|(st2 & A2 & C & HI2 & Hso2 & HA2 & Hok & Hx)]]; rewrite C.
    + eexists st1, _, (RLatest None Err). split; [apply R_mono with (n := n); [exact HR1|lia]|]. split; [exact Hfr1|].
      split; [|left; reflexivity]. cbn [fx]. auto.
    + eexists st1, _, (RLatest None Err). split; [apply R_mono with (n := n); [exact HR1|lia]|]. split; [exact Hfr1|].
      split; [|right; exists name, b; split; [reflexivity|]; split; [exact B1|]; split; [exact B3|]; split; [reflexivity|]; unfold next_num; cbn [ad_map]; rewrite B2; reflexivity]. cbn [fx]. auto.
    + set (am := am_of (ad_size a) (ad_cap a) (ad_map a) name) in *. pose proof Hso2 as (Q1 & Q2 & Q3 & Q4 & Q5).
      destruct (m_ReadF_spec latest_cb n st2 D1 A2 name am (2 ^ 63 - 1) None e1 HI2 HA2 Hok) as (st' & e' & [l r] & W & S2 & HI3 & Hso3 & Ha).
      rewrite Q4, E4 in W. rewrite W.
      destruct (Quiet st' D1 A2 name n (OLatest name) eq_refl Hin HI3 ltac:(lia) ltac:(lia) (same_opts_trans _ _ _ Hso2 Hso3) HA2 Hx) as (K1 & K2 & K3).
      eexists st', _, _. split; [exact K1|]. split; [exact K2|]. split; [|left; reflexivity]. cbn [fx]. split; [exact K3|].
      unfold query_of. unfold am, am_of in Ha. destruct (ad_map a name); [exact Ha|].
      destruct Ha as [Ha|(l1 & l2 & acc & H1 & H2 & H3)]; [left; now rewrite Ha|].
      right. symmetry in H1; apply app_eq_nil in H1 as (-> & ->). exists [], [], acc. auto.
  - (* reopen *)
    exists (db_reopen size cap max handles rand st), (ADB size cap max (ad_root a) (ad_dirs a) (ad_map a)), RReopen.
    split; [|split; [|split; [exact I|left; reflexivity]]].
    + apply R_mono with (n := n); [|lia]. unfold R. cbn [ad_size ad_cap ad_max ad_root ad_dirs ad_map]. split; [now apply inv_reopen|]. split; [exact HG|].
      cbn. auto.
    + unfold frame. cbn. repeat split; auto. apply incl_refl.
Qed.
