(** Histories in which createFile may fail half way. *)
From Coq Require Import ZArith List Lia Bool.
From Verif Require Import Base Maps Record Convert ConvertProofs File FileProofs Cache CacheProofs
  Metric MetricSpec MetricFile MetricPaths MetricProofs MetricRead DbSpec DbProofs DbLog DbClient Fault FaultProofs FaultJunk FaultSim.
Import ListNotations.
Open Scope Z_scope.

(** ** what every call of one metric preserves *)
Section Keeps.
Variable I : db -> Prop.
Variable dir : list Z.
Hypothesis I_fch : forall st t c, I st -> I (set_fch st t c).
Hypothesis I_dirs : forall st D, I st -> I (set_dirs st D).
Hypothesis I_cont : forall st x c, I st -> I (set_contents st x c).
Hypothesis I_link : forall st i, I st -> I (DB (w_ino st) (w_next st + 1) (mput beqb (metricFilenameAt dir i) (w_next st) (w_files st))
                      (w_dirs st) (w_toks st) (w_cache st) (w_size st) (w_cap st) (w_max st) (w_root st)).
Hypothesis I_del : forall st i, I st -> I (osRemove (metricFilenameAt dir i) st).

Lemma k_release p f st : I st -> I (releaseFile p f st).
Proof. intros H. unfold releaseFile. destruct (cache_put _ _ _) as [[c t] ev]. auto. Qed.
Lemma k_evict p st : I st -> I (evictFile p st).
Proof. intros H. unfold evictFile. destruct (mget _ _ _); [|exact H]. destruct (cache_take _ _ _). auto. Qed.
Lemma k_remove i e st : I st -> I (fst (osRemoveF (metricFilenameAt dir i) e st)).
Proof. intros H. unfold osRemoveF. destruct (next_call e) as [[] e1]; [exact H|]. cbn [fst]. auto. Qed.
Lemma k_create i e st : I st -> I (fst (fst (do_createF (metricFilenameAt dir i) e st))).
Proof.
  intros H. unfold do_createF. destruct (next_call e) as [[] e1]; [exact H|]. destruct (next_make e1) as [k e2].
  destruct (match createFile (w_size st) (w_cap st) with (_, _) => _ end) as [c r].
  destruct (mget _ _ _); cbn [fst]; auto.
Qed.
Lemma k_acquire i ex e st : I st -> I (fst (fst (acquireFileF (metricFilenameAt dir i) ex e st))).
Proof.
  intros H. unfold acquireFileF. destruct (mget _ _ (w_toks st)) as [tok|].
  - destruct (cache_take _ _ _) as [c [f|]]; [cbn [fst]; auto|]. destruct ex; [|apply k_create; auto].
    destruct (do_openF _ _ _). cbn [fst]. auto.
  - destruct ex; [|now apply k_create]. destruct (do_openF _ _ _). cbn [fst]. auto.
Qed.
Lemma k_into f head nr s e d st : I st -> I (fst (write_into f head nr s e d st)).
Proof. intros H. unfold write_into. destruct (write_records _ _ _ _ _ _ _). cbn [fst]. auto. Qed.
Lemma k_opendir d ro e st : I st -> I (fst (fst (open_dirF d ro e st))).
Proof.
  intros H. unfold open_dirF, mkdirAll. destruct (next_call e) as [[] e1]; [exact H|].
  destruct (dir_exists d st); [destruct (next_call e1) as [[] e2]; exact H|]. destruct ro; [exact H|].
  destruct (next_call e1) as [[] e2]; [now apply I_dirs|]. destruct (len d =? 0); [exact H|].
  destruct (next_call e2) as [[] e3]; [now apply I_dirs|]. destruct (next_call e3) as [[] e4]; now apply I_dirs.
Qed.
Lemma k_new name ro e st : metricDir (w_root st) name = dir -> I st -> I (fst (fst (newMetricF name ro e st))).
Proof.
  intros Hd H. unfold newMetricF. rewrite Hd. pose proof (k_opendir dir ro e st H) as H1.
  destruct (open_dirF dir ro e st) as [[st1 []] e1]; cbn [fst] in *; [|exact H1]. cbn [negb].
  destruct (fold_left _ _ _) as [[first last] []]; [exact H1|].
  pose proof (k_acquire 1 false e1 st1 H1) as H2. destruct (acquireFileF _ false e1 st1) as [[st2 [f| | |]] e2]; cbn [fst] in *; try exact H2.
  now apply k_release.
Qed.
Lemma k_last fuel : forall m e st, t_dir m = dir -> I st -> I (fst (fst (acquireLastF_ fuel m e st))).
Proof.
  induction fuel as [|fuel IH]; intros m e st Hd H; cbn [acquireLastF_]; destruct (t_last m <? t_first m); try exact H.
  unfold filenameAt. rewrite Hd. pose proof (k_acquire (t_last m) true e st H) as H2.
  destruct (acquireFileF _ true e st) as [[st1 [f| | |]] e1]; cbn [fst] in *; try exact H2.
  destruct (getHeadPointer _ _) as [head| | |]; cbn [fst]; try exact H2; [|now apply k_release].
  destruct ((head =? _) && _); [|exact H2].
  pose proof (k_remove (t_last m) e1 _ (k_release (metricFilenameAt dir (t_last m)) f st1 H2)) as H3. destruct (osRemoveF _ _ _) as [st2 e2]. cbn [fst] in H3.
  now apply IH.
Qed.
Lemma k_roll m s en d e st : t_dir m = dir -> I st -> I (fst (fst (roll_overF m s en d e st))).
Proof.
  intros Hd H. unfold roll_overF, filenameAt. rewrite Hd.
  assert (H0 : I (fst (if (w_max st <=? t_last m - t_first m) && (0 <? w_max st)
     then osRemoveF (metricFilenameAt dir (t_first m)) e (evictFile (metricFilenameAt dir (t_first m)) st) else (st, e)))).
  { destruct (_ && _); [|exact H]. now apply k_remove, k_evict. }
  destruct (if _ && _ then _ else _) as [st1 e1]. cbn [fst] in H0.
  pose proof (k_acquire (t_last m + 1) false e1 st1 H0) as H2.
  destruct (acquireFileF _ false e1 st1) as [[st2 [f| | |]] e2]; cbn [fst] in *; try exact H2.
  destruct (numRecords _ _) as [nr| | |]; cbn [fst]; try (now apply k_release).
  destruct (nr =? 0); cbn [fst]; [now apply k_release|]. destruct (g_cap (h_geom f) - nr <? 0); cbn [fst]; [now apply k_release|].
  pose proof (k_into f (g_cap (h_geom f)) nr s en d st2 H2) as H4. destruct (write_into _ _ _ _ _ _ st2) as [st3 r3]. cbn [fst] in *. now apply k_release.
Qed.
Lemma k_write m s en d e st : t_dir m = dir -> I st -> I (fst (fst (m_WriteF m s en d e st))).
Proof.
  intros Hd H. unfold m_WriteF, acquireLastF.
  pose proof (k_last (Z.to_nat (t_last m - t_first m + 1)) m e st Hd H) as H2.
  pose proof (last_dir (Z.to_nat (t_last m - t_first m + 1)) m e st) as Hl.
  destruct (acquireLastF_ _ m e st) as [[st1 [[[f head] m1]| | |]] e1]; cbn [fst snd] in *; try exact H2. specialize (Hl f head m1 eq_refl).
  assert (H4 : I (fst (fst (write_withF m1 f head s en d e1 st1)))).
  { unfold write_withF. destruct (if f_has_record _ _ _ then _ else _); [exact H2|].
    destruct (numRecords _ _) as [nr| | |]; try exact H2. destruct (nr =? 0); [exact H2|].
    destruct (head + 1 - nr <? 0); [destruct (_ && _); [exact H2|apply k_roll; [congruence|exact H2]]|].
    pose proof (k_into f (head + 1) nr s en d st1 H2) as H4. destruct (write_into _ _ _ _ _ _ st1). exact H4. }
  destruct (write_withF m1 f head s en d e1 st1) as [[st2 r2] e2]. cbn [fst snd] in *. now apply k_release.
Qed.
Lemma k_read {X} (cb : callback X) m end_ fuel : t_dir m = dir -> forall num acc e st, I st -> I (fst (fst (m_ReadF_ cb fuel m num end_ acc e st))).
Proof.
  intros Hd. induction fuel as [|fuel IH]; intros num acc e st H; cbn [m_ReadF_]; destruct (num <? t_first m); try exact H.
  unfold filenameAt. rewrite Hd. pose proof (k_acquire num true e st H) as H2.
  destruct (acquireFileF _ true e st) as [[st1 [f| | |]] e1]; cbn [fst snd] in *; try exact H2.
  pose proof (k_release (metricFilenameAt dir num) f st1 H2) as H4.
  destruct (read_file _ _ _ _ _) as [acc1 [[]| | |]]; try exact H4. now apply IH.
Qed.
Lemma k_step o e st name : op_name o = Some name -> metricDir (w_root st) name = dir -> I st -> I (fst (f_step o e st)).
Proof.
  intros Ho Hd H. destruct o as [nm v|nm end_|nm|]; try discriminate; injection Ho as ->; cbn [f_step].
  - unfold db_writeF. pose proof (k_new name false e st Hd H) as H1. pose proof (new_dir name false e st) as Hn.
    destruct (newMetricF name false e st) as [[st1 [m| | |]] e1]; cbn [fst snd] in *; try exact H1. specialize (Hn m eq_refl).
    pose proof (k_write m (v_start v) (v_end v) (v_data v) e1 st1 ltac:(congruence) H1) as H2.
    destruct (m_WriteF m _ _ _ e1 st1) as [[st2 r2] e2]. exact H2.
  - unfold db_queryF. pose proof (k_new name true e st Hd H) as H1. pose proof (new_dir name true e st) as Hn.
    destruct (newMetricF name true e st) as [[st1 [m| | |]] e1]; cbn [fst snd] in *; try exact H1. specialize (Hn m eq_refl).
    pose proof (k_read collect_cb m end_ (Z.to_nat (t_last m - t_first m + 1)) ltac:(congruence) (t_last m) [] e1 st1 H1) as H2. unfold m_ReadF.
    destruct (m_ReadF_ collect_cb _ m _ _ _ e1 st1) as [[st2 [l2 r2]] e2]. exact H2.
  - unfold db_queryF. pose proof (k_new name true e st Hd H) as H1. pose proof (new_dir name true e st) as Hn.
    destruct (newMetricF name true e st) as [[st1 [m| | |]] e1]; cbn [fst snd] in *; try exact H1. specialize (Hn m eq_refl).
    pose proof (k_read latest_cb m (2 ^ 63 - 1) (Z.to_nat (t_last m - t_first m + 1)) ltac:(congruence) (t_last m) None e1 st1 H1) as H2. unfold m_ReadF.
    destruct (m_ReadF_ latest_cb _ m _ _ _ e1 st1) as [[st2 [l2 r2]] e2]. exact H2.
Qed.
End Keeps.

(** the files of other metrics stay linked *)
Lemma step_link o e st p : (forall name, op_name o = Some name -> forall i, metricFilenameAt (metricDir (w_root st) name) i <> p) ->
  mget beqb p (w_files (fst (f_step o e st))) = mget beqb p (w_files st).
Proof.
  intros Hp. destruct (op_name o) as [name|] eqn:E.
  - apply (k_step (fun s => mget beqb p (w_files s) = mget beqb p (w_files st)) (metricDir (w_root st) name)) with (name := name); auto.
    + intros s i H. cbn [w_files]. rewrite mget_put_other; [exact H|apply eqb_ok_bytes|]. now apply Hp.
    + intros s i H. unfold osRemove. cbn [set_files w_files]. rewrite mget_del_other; [exact H|apply eqb_ok_bytes|]. now apply Hp.
  - destruct o; try discriminate. reflexivity.
Qed.

(** ** the metrics with an unusable file *)
Definition junk (a : adb) (B : list (list Z)) : list (list Z) :=
  map (fun name => path_of (ad_root a) name (next_num a name)) B.
Record RB (n : Z) (st : db) (a : adb) (B : list (list Z)) : Prop := MkRB {
  rb_R : R n (rm (junk a B) st) a;
  rb_dir : forall name, In name B -> In (clean_dir (dir_of (ad_root a) name)) (ad_dirs a);
  rb_file : forall name, In name B -> exists x c,
    mget beqb (path_of (ad_root a) name (next_num a name)) (w_files st) = Some x /\ unusable c /\ J x c (rm (junk a B) st)
}.

Lemma digits_bytes fuel : forall n acc, Forall (fun c => 48 <= c <= 57) acc -> Forall (fun c => 48 <= c <= 57) (digits fuel n acc).
Proof.
  induction fuel as [|fuel IH]; intros n acc H; cbn [digits]; [exact H|].
  assert (H' : Forall (fun c => 48 <= c <= 57) ((48 + n mod 10) :: acc)).
  { constructor; [|exact H]. pose proof (Z.mod_pos_bound n 10 ltac:(lia)). lia. }
  destruct (n / 10 =? 0); [exact H'|]. now apply IH.
Qed.
Lemma file_no_slash i : ~ In 47 (itoa i ++ s_data).
Proof.
  intros H. apply in_app_iff in H. destruct H as [H|H].
  - unfold itoa in H. assert (F : forall m, Forall (fun c => 48 <= c <= 57) (digits 20 m [])) by (intros m; apply digits_bytes; constructor).
    destruct (i <? 0).
    + destruct H as [H|H]; [discriminate|]. pose proof (proj1 (Forall_forall _ _) (F (- i)) _ H) as K. cbn beta in K. lia.
    + pose proof (proj1 (Forall_forall _ _) (F i) _ H) as K. cbn beta in K. lia.
  - unfold s_data in H. cbn in H. intuition discriminate.
Qed.
Lemma path_dir root name name' i j : root <> [] -> path_of root name i = path_of root name' j -> name = name'.
Proof.
  intros Hr E. rewrite !path_shape in E by assumption. apply (f_equal split_last) in E.
  rewrite !split_last_app in E by apply file_no_slash. injection E as E _. now apply clean_dir_inj in E.
Qed.

Lemma next_range n st a name : R n st a -> is_i64 (next_num a name) /\ 1 <= next_num a name.
Proof.
  intros (HI & HG & _). pose proof (i_bound _ _ _ _ HI). unfold next_num, is_i64. destruct (ad_map a name) as [am|] eqn:E; [|lia].
  destruct (i_num _ _ _ _ HI name am E) as (H1 & H2 & H3).
  assert (a_first am <= a_last am) by (unfold a_last, len; destruct (a_files am); [contradiction|cbn [length]; lia]). lia.
Qed.
Lemma R_root n st a : R n st a -> ad_root a <> [].
Proof. intros (HI & _ & _ & _ & _ & E). rewrite <- E. exact (i_root _ _ _ _ HI). Qed.

Lemma in_junk a B p : In p (junk a B) <-> exists name, In name B /\ p = path_of (ad_root a) name (next_num a name).
Proof. unfold junk. rewrite in_map_iff. split; intros (x & H1 & H2); exists x; auto. Qed.

Lemma junk_off n st a B name : R n st a -> ~ In name B -> off (junk a B) (metricDir (ad_root a) name).
Proof.
  intros HR Hn. pose proof (R_root _ _ _ HR) as Hroot. split.
  - intros p Hp. apply in_junk in Hp. destruct Hp as (nm & H1 & ->).
    destruct (next_range _ _ _ nm HR) as (H2 & _). fold (dir_of (ad_root a) name). rewrite child_of_path by assumption.
    destruct (beqb nm name) eqn:E; [apply beqb_eq in E; congruence|reflexivity].
  - intros i Hi. apply in_junk in Hi. destruct Hi as (nm & H1 & E). change (metricFilenameAt (metricDir (ad_root a) name) i) with (path_of (ad_root a) name i) in E.
    apply path_dir in E; [congruence|exact Hroot].
Qed.

Lemma junk_frame o a a' B : frame o a a' -> (forall name, op_name o = Some name -> ~ In name B) -> junk a' B = junk a B.
Proof.
  intros (E1 & _ & E2 & _) H. unfold junk. apply map_ext_in. intros name Hn. unfold next_num. rewrite E1, E2; [reflexivity|].
  intros E. exact (H name E Hn).
Qed.

Lemma rm_rm P Q st : rm P (rm Q st) = rm (P ++ Q) st.
Proof.
  unfold rm, set_files. cbn [w_files w_dirs w_toks w_cache w_size w_cap w_max w_root w_ino w_next]. f_equal.
  induction (w_files st) as [|x l IH]; [reflexivity|]. cbn [filter]. unfold kept at 2 4 5. rewrite existsb_app.
  destruct (existsb (beqb (fst x)) Q) eqn:EQ; cbn [negb].
  - rewrite orb_true_r. cbn [negb]. exact IH.
  - rewrite orb_false_r. cbn [filter]. unfold kept at 1. destruct (negb _); rewrite IH; reflexivity.
Qed.
Lemma rm_nil st : rm [] st = st.
Proof.
  unfold rm, set_files. replace (filter (kept []) (w_files st)) with (w_files st); [destruct st; reflexivity|].
  induction (w_files st) as [|x l IH]; [reflexivity|]. cbn. now rewrite <- IH.
Qed.

(** removing the half made file again *)
Lemma inv_half n st D A p c : Inv n st D A -> mget beqb p (w_files st) = None ->
  Inv n (rm [p] (half_make p c st)) D A /\ w_files (rm [p] (half_make p c st)) = w_files st.
Proof.
  intros HI Hp.
  assert (F : w_files (rm [p] (half_make p c st)) = w_files st).
  { unfold rm, half_make, set_contents. cbn [set_files w_files set_ino mput filter]. unfold mput. cbn [filter]. unfold kept at 1. cbn [fst existsb]. rewrite beqb_refl. cbn [orb negb].
    assert (K : forall q, In q (map fst (w_files st)) -> q <> p).
    { intros q Hq ->. apply in_mget in Hq. destruct Hq as (v & Hv). congruence. }
    unfold mdel. revert K. clear. induction (w_files st) as [|[q v] l IH]; intros K; [reflexivity|]. cbn [filter].
    assert (Hqp : q <> p) by (apply K; now left). cbn [fst].
    assert (E1 : beqb p q = false) by (apply beqb_neq; congruence). rewrite E1. cbn [negb filter]. unfold kept at 1. cbn [fst existsb].
    assert (E2 : beqb q p = false) by (apply beqb_neq; congruence). rewrite E2. cbn [orb negb]. f_equal. apply IH.
    intros q' Hq'. apply K. now right. }
  split; [|exact F].
  assert (Hc : forall ino, ino < w_next st -> contents (rm [p] (half_make p c st)) ino = contents st ino).
  { intros ino Hi. unfold contents. cbn [rm half_make set_contents set_ino set_files w_ino]. rewrite mget_put_other; [reflexivity|apply eqb_ok_Z|lia]. }
  destruct HI as [Hc1 Hc2 Hc3 Hroot Hc5 Hc6 Hfine Hc8 Hdir Hfile Hpaths Hinj Hnd Htl Htk]. constructor; try assumption.
  - intros name am k f H1 H2. destruct (Hfile name am k f H1 H2) as (ino & cc & Q1 & Q2 & Q3). exists ino, cc.
    split; [|split; [|exact Q3]].
    + rewrite F. exact Q1.
    + cbn [rm half_make set_contents set_ino set_files w_ino]. rewrite mget_put_other; [exact Q2|apply eqb_ok_Z|].
      destruct (Hpaths _ _ Q1). lia.
  - intros q ino. rewrite F. intros H. destruct (Hpaths q ino H) as (H1 & H2). split; [|exact H2].
    cbn [rm half_make set_contents set_ino set_files w_next]. lia.
  - rewrite F. exact Hinj.
  - rewrite F. exact Hnd.
  - intros q t h H1 H2. destruct (Htk q t h H1 H2) as (H3 & H4). rewrite F. split; [exact H3|]. rewrite Hc; [exact H4|].
    now destruct (Hpaths _ _ H3).
Qed.

(** an inode that is not linked is out of reach *)
Lemma J_of n st D A x c : Inv n st D A -> x < w_next st -> (forall p, mget beqb p (w_files st) <> Some x) -> contents st x = c -> J x c st.
Proof.
  intros HI Hx Hf Hc. constructor; auto.
  - exact (i_cache _ _ _ _ HI).
  - exact (i_rand _ _ _ _ HI).
  - exact (i_tokle _ _ _ _ HI).
  - intros p t h H1 H2 E. destruct (i_toks _ _ _ _ HI p t h H1 H2) as (H3 & _). rewrite E in H3. exact (Hf p H3).
Qed.
Lemma J_rm x c P st : J x c st -> J x c (rm P st).
Proof.
  intros HJ. pose proof (j_files _ _ _ HJ) as Hf. destruct HJ. constructor; try assumption. intros p. destruct (in_dec bytes_eq_dec p P).
  - cbn [rm set_files w_files]. rewrite mget_gone by assumption. discriminate.
  - cbn [rm set_files w_files]. rewrite mget_kept by assumption. apply Hf.
Qed.

(** ** calls on a metric with an unusable file *)
Lemma broken_list n st a B name : RB n st a B -> In name B ->
  exists first, 1 <= first <= next_num a name /\
    fold_left scan_step (listdir (dir_of (ad_root a) name) st) (0, 0, false) = (first, next_num a name, true).
Proof.
  intros HB Hin. pose proof (rb_R _ _ _ _ HB) as HR. pose proof HR as (HI & HG & _ & _ & _ & Er). change (w_root (rm (junk a B) st)) with (w_root st) in Er.
  destruct (next_range _ _ _ name HR) as (Hi64 & H1). pose proof (R_root _ _ _ HR) as Hroot.
  set (P := junk a B) in *.
  assert (Hnum : forall i, In i (numbers (listdir (dir_of (ad_root a) name) st)) <->
     In i (numbers (listdir (dir_of (ad_root a) name) (rm P st))) \/ i = next_num a name).
  { intros i. unfold listdir. rewrite !numbers_app, !in_app_iff. change (w_dirs (rm P st)) with (w_dirs st).
    assert (K : In i (numbers (flat_map (child_of (clean_dir (dir_of (ad_root a) name))) (map fst (w_files st)))) <->
       In i (numbers (flat_map (child_of (clean_dir (dir_of (ad_root a) name))) (map fst (w_files (rm P st))))) \/ i = next_num a name); [|tauto].
    split.
    - intros H. apply in_numbers in H. destruct H as (nm & H2 & H3). apply in_flat_map in H2. destruct H2 as (p & H2 & H4).
      destruct (in_dec bytes_eq_dec p P) as [Hp|Hp].
      + right. apply in_junk in Hp. destruct Hp as (name' & Hb & ->). destruct (next_range _ _ _ name' HR) as (Hi' & _).
        rewrite child_of_path in H4 by assumption. destruct (beqb name' name) eqn:E; [|contradiction]. apply beqb_eq in E. subst name'.
        destruct H4 as [<-|[]]. rewrite dataFileNumber_itoa in H3 by assumption. congruence.
      + left. apply in_numbers. exists nm. split; [|exact H3]. apply in_flat_map. exists p. split; [|exact H4].
        apply in_map_iff in H2. destruct H2 as ([p' x] & E & H2). cbn [fst] in E. subst p'. apply in_map_iff. exists (p, x). split; [reflexivity|].
        cbn [rm set_files w_files]. apply filter_In. split; [exact H2|now apply kept_true].
    - intros [H| ->].
      + apply in_numbers in H. destruct H as (nm & H2 & H3). apply in_flat_map in H2. destruct H2 as (p & H2 & H4).
        apply in_numbers. exists nm. split; [|exact H3]. apply in_flat_map. exists p. split; [|exact H4].
        apply in_map_iff in H2. destruct H2 as (q & E & H2). cbn [rm set_files w_files] in H2. apply filter_In in H2. apply in_map_iff. exists q. tauto.
      + destruct (rb_file _ _ _ _ HB name Hin) as (x & c & Hx & _). apply in_numbers. exists (itoa (next_num a name) ++ s_data).
        split; [|now apply dataFileNumber_itoa]. apply in_flat_map. exists (path_of (ad_root a) name (next_num a name)). split.
        * apply mget_in in Hx. exact Hx.
        * rewrite child_of_path by assumption. rewrite beqb_refl. now left. }
  assert (Hl : forall i, In i (numbers (listdir (dir_of (ad_root a) name) (rm P st))) <-> exists am, ad_map a name = Some am /\ a_first am <= i <= a_last am).
  { intros i. pose proof (listing n (rm P st) _ _ name i HI) as L. change (w_root (rm P st)) with (w_root st) in L. rewrite Er in L. exact L. }
  destruct (ad_map a name) as [am|] eqn:HA.
  - assert (Hnx : next_num a name = a_last am + 1) by (unfold next_num; now rewrite HA).
    destruct (i_num _ _ _ _ HI name am HA) as (Q1 & Q2 & Q3).
    assert (a_first am <= a_last am) by (unfold a_last, len; destruct (a_files am); [contradiction|cbn [length]; lia]).
    exists (a_first am). split; [lia|]. apply scan_range; [lia| | |].
    + intros i Hi. apply Hnum in Hi. destruct Hi as [Hi| ->]; [|lia]. apply Hl in Hi. destruct Hi as (am' & E & Hi). injection E as <-. lia.
    + apply Hnum. left. apply Hl. exists am. split; [reflexivity|lia].
    + apply Hnum. auto.
  - assert (Hnx : next_num a name = 1) by (unfold next_num; now rewrite HA).
    exists (next_num a name). split; [lia|]. apply scan_range; [lia| | |].
    + intros i Hi. apply Hnum in Hi. destruct Hi as [Hi| ->]; [|lia]. apply Hl in Hi. destruct Hi as (am' & E & Hi). discriminate.
    + apply Hnum. auto.
    + apply Hnum. auto.
Qed.

(** what a call on it answers *)
Definition no_answer (o : op) : outcome :=
  match o with OWrite _ _ => RWrite Err | OQuery _ _ => RQuery [] Err | OLatest _ => RLatest None Err | OReopen _ _ _ _ _ => RReopen end.

Lemma broken_open n st a B name e : RB n st a B -> In name B ->
  exists cc e1, acquireFileF (path_of (ad_root a) name (next_num a name)) true e st = (set_fch st (w_toks st) cc, Err, e1) /\
    RB n (set_fch st (w_toks st) cc) a B.
Proof.
  intros HB Hin. pose proof (rb_R _ _ _ _ HB) as HR. pose proof HR as (HI & HG & E1 & E2 & E3 & E4).
  set (p := path_of (ad_root a) name (next_num a name)) in *. set (P := junk a B) in *.
  assert (HpP : In p P) by (apply in_junk; eauto).
  destruct (rb_file _ _ _ _ HB name Hin) as (x & c & Hx & Hc & HJ).
  fold p in Hx. fold P in HJ.
  destruct (acquire_hit n (rm P st) _ _ p HI) as (cc & hit & Eh & HI' & Hcap & Hh).
  change (w_toks (rm P st)) with (w_toks st) in Eh. change (w_cache (rm P st)) with (w_cache st) in Eh.
  destruct hit as [h|].
  { destruct (Hh h eq_refl) as (Q & _). cbn [rm set_files w_files] in Q. rewrite mget_gone in Q by assumption. discriminate. }
  assert (Eh' : (match mget beqb p (w_toks st) with
     | None => (st, None)
     | Some tok => let '(c, r) := cache_take handle_zero (w_cache st) tok in (set_fch st (w_toks st) c, r)
     end) = (set_fch st (w_toks st) cc, None)).
  { destruct (mget beqb p (w_toks st)) as [tok|].
    - destruct (cache_take handle_zero (w_cache st) tok) as [c1 r1].
      pose proof (f_equal (fun z => w_cache (fst z)) Eh) as Ec. pose proof (f_equal snd Eh) as Ed. cbn in Ec, Ed. now rewrite Ec, Ed.
    - apply (f_equal (fun z => w_cache (fst z))) in Eh. cbn in Eh. rewrite <- Eh. destruct st; reflexivity. }
  unfold acquireFileF. rewrite Eh'.
  assert (Eo : exists e1, do_openF p e (set_fch st (w_toks st) cc) = (Err, e1)).
  { unfold do_openF. destruct (next_call e) as [[] e1]; [eauto|]. cbn [set_fch w_files]. rewrite Hx.
    destruct (next_call e1) as [[] e2]; [eauto|]. destruct (_ <? recordHeaderSize); [eauto|]. destruct (next_call e2) as [[] e3]; [eauto|].
    change (contents (set_fch st (w_toks st) cc) x) with (contents (rm P st) x). rewrite (j_cont _ _ _ HJ). unfold unusable in Hc. rewrite Hc. cbn. eauto. }
  destruct Eo as (e1 & ->). exists cc, e1. split; [reflexivity|].
  assert (Hrm : rm P (set_fch st (w_toks st) cc) = set_fch (rm P st) (w_toks st) cc) by reflexivity.
  constructor.
  - fold P. rewrite Hrm. unfold R. split; [exact HI'|]. split; [exact HG|]. auto.
  - exact (rb_dir _ _ _ _ HB).
  - intros nm Hnm. destruct (rb_file _ _ _ _ HB nm Hnm) as (y & d & Hy & Hd & HJy). exists y, d. split; [exact Hy|]. split; [exact Hd|].
    fold P. fold P in HJy. rewrite Hrm. cbn [junk] in *. apply (J_of n _ _ _ y d HI').
    + exact (j_next _ _ _ HJy).
    + exact (j_files _ _ _ HJy).
    + exact (j_cont _ _ _ HJy).
Qed.

Lemma broken_dir n st a B name ro e : RB n st a B -> In name B ->
  exists ok e1, open_dirF (dir_of (ad_root a) name) ro e st = (st, ok, e1).
Proof.
  intros HB Hin. pose proof (rb_R _ _ _ _ HB) as HR. pose proof HR as (HI & HG & E1 & E2 & E3 & E4).
  unfold open_dirF. destruct (next_call e) as [[] e1]; [eauto|].
  assert (Hd : dir_exists (dir_of (ad_root a) name) st = true).
  { pose proof (rb_dir _ _ _ _ HB name Hin) as Hd. rewrite <- (i_dirs _ _ _ _ HI) in Hd. change (w_dirs (rm (junk a B) st)) with (w_dirs st) in Hd.
    change (w_root (rm (junk a B) st)) with (w_root st) in E4. rewrite <- E4 in *.
    apply dir_exists_iff; [exact (i_root _ _ _ _ HI)|exact Hd]. }
  rewrite Hd. destruct (next_call e1) as [x e2]. eauto.
Qed.

Lemma broken_step n st a B o e name : RB n st a B -> op_name o = Some name -> In name B ->
  exists st', f_step o e st = (st', no_answer o) /\ RB n st' a B.
Proof.
  intros HB Ho Hin. pose proof (rb_R _ _ _ _ HB) as HR. pose proof HR as (HI & HG & E1 & E2 & E3 & E4). change (w_root (rm (junk a B) st)) with (w_root st) in E4.
  destruct (broken_list _ _ _ _ name HB Hin) as (first & Hf & El).
  assert (New : forall ro, exists e1, newMetricF name ro e st = (st, Err, e1) \/
     newMetricF name ro e st = (st, Ok (Metric (dir_of (ad_root a) name) first (next_num a name)), e1)).
  { intros ro. unfold newMetricF. rewrite E4. fold (dir_of (ad_root a) name). destruct (broken_dir _ _ _ _ name ro e HB Hin) as (ok & e1 & ->).
    exists e1. destruct ok; cbn [negb]; [|auto]. rewrite El. auto. }
  destruct o as [nm v|nm end_|nm|]; try discriminate; injection Ho as ->; cbn [f_step no_answer].
  - unfold db_writeF. destruct (New false) as (e1 & [-> | ->]); [eauto|].
    unfold m_WriteF, acquireLastF. cbn [t_last t_first].
    destruct (Z.to_nat (next_num a name - first + 1)) as [|fuel] eqn:Ef; [lia|]. cbn [acquireLastF_ t_last t_first].
    destruct (Z.ltb_spec (next_num a name) first); [lia|].
    change (filenameAt _ (next_num a name)) with (path_of (ad_root a) name (next_num a name)).
    destruct (broken_open _ _ _ _ name e1 HB Hin) as (cc & e2 & -> & HB'). eauto.
  - unfold db_queryF. destruct (New true) as (e1 & [-> | ->]); [eauto|].
    unfold m_ReadF. cbn [t_last t_first].
    destruct (Z.to_nat (next_num a name - first + 1)) as [|fuel] eqn:Ef; [lia|]. cbn [m_ReadF_ t_last t_first].
    destruct (Z.ltb_spec (next_num a name) first); [lia|].
    change (filenameAt _ (next_num a name)) with (path_of (ad_root a) name (next_num a name)).
    destruct (broken_open _ _ _ _ name e1 HB Hin) as (cc & e2 & -> & HB'). eauto.
  - unfold db_queryF. destruct (New true) as (e1 & [-> | ->]); [eauto|].
    unfold m_ReadF. cbn [t_last t_first].
    destruct (Z.to_nat (next_num a name - first + 1)) as [|fuel] eqn:Ef; [lia|]. cbn [m_ReadF_ t_last t_first].
    destruct (Z.ltb_spec (next_num a name) first); [lia|].
    change (filenameAt _ (next_num a name)) with (path_of (ad_root a) name (next_num a name)).
    destruct (broken_open _ _ _ _ name e1 HB Hin) as (cc & e2 & -> & HB'). eauto.
Qed.

Lemma frame_refl o a : (exists name, op_name o = Some name) -> frame o a a.
Proof. intros (name & H). unfold frame. split; [reflexivity|]. split; [apply incl_refl|]. split; [reflexivity|]. destruct o; auto. discriminate. Qed.
Lemma fx_none o a : (exists name, op_name o = Some name) -> fx o a a (no_answer o).
Proof.
  intros (name & H). destruct o; cbn [fx no_answer]; try discriminate.
  - cbn. split; [|auto]. exists []. rewrite app_nil_r. auto.
  - split; [reflexivity|]. right. exists [], (query_of a name0 end_), []. auto.
  - split; [reflexivity|]. right. exists [], (query_of a name0 (2 ^ 63 - 1)), None. auto.
Qed.

(** ** one call in any state *)
Lemma fb_sim n st a B o e : RB n st a B -> op_ok (ad_size a) (ad_cap a) o -> n + 1 < 2 ^ 62 ->
  exists st' a' B' out, f_step o e st = (st', out) /\ RB (n + 1) st' a' B' /\ frame o a a' /\ fx o a a' out /\
    incl B B' /\ (forall name, In name B' -> In name B \/ op_name o = Some name /\ fails out /\ exists b, In (Some b) (snd e)) /\
    (forall name, op_name o = Some name -> In name B -> out = no_answer o).
Proof.
  intros HB Hop Hn. pose proof (rb_R _ _ _ _ HB) as HR.
  assert (Hb : 1 <= n < 2 ^ 62) by (destruct HR as (HI & _); exact (i_bound _ _ _ _ HI)).
  assert (Dec : (exists name, op_name o = Some name /\ In name B) \/ (forall name, op_name o = Some name -> ~ In name B)).
  { destruct (op_name o) as [name|]; [|right; discriminate]. destruct (in_dec bytes_eq_dec name B); [left; eauto|right; intros nm [= <-]; assumption]. }
  destruct Dec as [(name & Ho & Hin)|Hout].
  { destruct (broken_step n st a B o e name HB Ho Hin) as (st' & E & HB'). exists st', a, B, (no_answer o). split; [exact E|].
    split.
    { destruct HB' as [H1 H2 H3]. constructor; auto. apply R_mono with (n := n); [exact H1|lia]. }
    split; [apply frame_refl; eauto|]. split; [apply fx_none; eauto|]. split; [apply incl_refl|]. split; [auto|auto]. }
  set (P := junk a B) in *.
  pose proof HR as (HI & HG & E1 & E2 & E3 & E4). change (w_root (rm P st)) with (w_root st) in E4.
  assert (Hoff : forall name, op_name o = Some name -> off P (metricDir (w_root st) name)).
  { intros name H. rewrite E4. apply (junk_off n (rm P st)); [exact HR|auto]. }
  pose proof (f_step_rm P o e st Hoff) as C.
  destruct (f_sim n (rm P st) a o e HR Hop Hn) as (st0 & a' & out & HR' & Hfr & Hfx & S).
  assert (Hj : junk a' B = P) by (eapply junk_frame; eauto).
  assert (Hlink : forall nm, In nm B -> mget beqb (path_of (ad_root a') nm (next_num a' nm)) (w_files (fst (f_step o e st))) =
      mget beqb (path_of (ad_root a) nm (next_num a nm)) (w_files st)).
  { intros nm Hnm. assert (Ep : path_of (ad_root a') nm (next_num a' nm) = path_of (ad_root a) nm (next_num a nm)).
    { destruct Hfr as (F1 & _ & F2 & _). unfold next_num. rewrite F1, F2; [reflexivity|]. intros X. exact (Hout nm X Hnm). }
    rewrite Ep. apply step_link. intros name Hname i. rewrite E4.
    change (metricFilenameAt (metricDir (ad_root a) name) i) with (path_of (ad_root a) name i). intros X.
    apply path_dir in X; [|exact (R_root _ _ _ HR)]. subst nm. exact (Hout name Hname Hnm). }
  assert (HJs : forall x c, J x c (rm P st) -> J x c (rm P (fst (f_step o e st)))).
  { intros x c HJ. pose proof (j_step x c o e (rm P st) HJ) as Q. rewrite C in Q. apply Q.
    intros size cap max handles rand ->. cbn [op_ok] in Hop. destruct Hop as (_ & ? & ?). auto. }
  destruct (f_step o e st) as [st' out'] eqn:Es. cbn [fst snd] in *. rewrite C in S.
  destruct S as [S|(name & b & Ho & Hb1 & Hd & Hfl & S)].
  - pose proof (f_equal fst S) as S1. pose proof (f_equal snd S) as S2. cbn [fst snd] in S1, S2. subst out'. exists st', a', B, out. split; [reflexivity|]. split.
    { constructor.
      - rewrite Hj, S1. exact HR'.
      - intros nm Hnm. destruct Hfr as (F1 & F2 & _). rewrite F1. apply F2. exact (rb_dir _ _ _ _ HB nm Hnm).
      - intros nm Hnm. destruct (rb_file _ _ _ _ HB nm Hnm) as (x & c & Q1 & Q2 & Q3). exists x, c. rewrite Hj. rewrite Hlink by assumption. auto. }
    split; [exact Hfr|]. split; [exact Hfx|]. split; [apply incl_refl|]. split; [auto|].
    intros nm Q1 Q2. exfalso. eapply Hout; eauto.
  - pose proof (f_equal fst S) as S1. pose proof (f_equal snd S) as S2. cbn [fst snd] in S1, S2. subst out'. exists st', a', (name :: B), out. split; [reflexivity|].
    set (p := path_of (ad_root a) name (next_num a' name)) in *. set (c := half_bytes (ad_size a) (ad_cap a) b) in *.
    pose proof HR' as (HI' & HG' & T1 & T2 & T3 & T4). pose proof (next_range _ _ _ name HR') as (Hi64 & Hge).
    assert (Er : ad_root a' = ad_root a) by (destruct Hfr as (F1 & _); exact F1).
    assert (Hfree : mget beqb p (w_files st0) = None).
    { unfold p. rewrite <- Er, <- T4. apply (path_free (n + 1) st0 (ad_dirs a') (ad_map a')); [exact HI'|exact Hi64|].
      intros am Ham. unfold next_num. rewrite Ham. lia. }
    destruct (inv_half (n + 1) st0 _ _ p c HI' Hfree) as (HI2 & HF2).
    assert (Hj2 : junk a' (name :: B) = [p] ++ P) by (cbn [junk map app]; fold (junk a' B); rewrite Hj, Er; reflexivity).
    assert (Hrm : rm (junk a' (name :: B)) st' = rm [p] (half_make p c st0)) by (rewrite Hj2, <- rm_rm, S1; reflexivity).
    assert (HpP : ~ In p P).
    { intros X. apply in_junk in X. destruct X as (nm & X1 & X2). unfold p in X2. apply path_dir in X2; [|exact (R_root _ _ _ HR)]. subst nm. exact (Hout name Ho X1). }
    split.
    { constructor.
      - rewrite Hrm. unfold R. split; [exact HI2|]. split; [exact HG'|]. auto.
      - intros nm [<-|Hnm]; [now rewrite Er|]. destruct Hfr as (F1 & F2 & _). rewrite F1. apply F2. exact (rb_dir _ _ _ _ HB nm Hnm).
      - intros nm [<-|Hnm].
        + exists (w_next st0), c. split; [|split; [apply half_unusable|]].
          * rewrite Er. fold p. rewrite <- (mget_kept P) by assumption. change (filter (kept P) (w_files st')) with (w_files (rm P st')). rewrite S1.
            cbn [half_make set_contents set_ino w_files]. now rewrite mget_put_same by apply eqb_ok_bytes.
          * rewrite Hrm. apply (J_of (n + 1) _ _ _ _ _ HI2).
            -- cbn. lia.
            -- intros q. rewrite HF2. intros X. destruct (i_paths _ _ _ _ HI' q _ X). lia.
            -- unfold contents. cbn [rm set_files half_make set_contents set_ino w_ino]. now rewrite mget_put_same by apply eqb_ok_Z.
        + destruct (rb_file _ _ _ _ HB nm Hnm) as (x & d & Q1 & Q2 & Q3). exists x, d. rewrite Hlink by assumption. split; [exact Q1|]. split; [exact Q2|].
          rewrite Hj2, <- rm_rm. apply J_rm. now apply HJs. }
    split; [exact Hfr|]. split; [exact Hfx|]. split; [intros z Hz; now right|]. split.
    + intros nm [<-|Hnm]; [right|auto]. split; [exact Ho|]. split; [exact Hfl|eauto].
    + intros nm Q1 Q2. exfalso. eapply Hout; eauto.
Qed.
