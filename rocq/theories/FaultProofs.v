(** Proofs about the database with failing system calls (Fault.v). *)
From Coq Require Import ZArith List Lia Bool.
From Verif Require Import Base Maps Record Convert File FileProofs Cache CacheProofs
  Metric MetricSpec MetricFile MetricPaths MetricProofs MetricRead DbSpec DbProofs DbLog Fault.
Import ListNotations.
Open Scope Z_scope.

(** ** without failures it is the model of Metric.v *)
Lemma open_nf p st : do_openF p no_faults st = (do_open p st, no_faults).
Proof.
  unfold do_openF, do_open. cbn. destruct (mget beqb p (w_files st)); [|reflexivity]. cbn.
  destruct (Z.ltb_spec (len (contents st z)) recordHeaderSize) as [H|H]; [|reflexivity].
  unfold openFile. rewrite (proj2 (Z.ltb_lt _ _) H). reflexivity.
Qed.
Lemma create_nf p st : do_createF p no_faults st = (do_create p st, no_faults).
Proof.
  unfold do_createF, do_create. cbn. destruct (createFile (w_size st) (w_cap st)) as [c [g| | |]];
    destruct (mget beqb p (w_files st)); reflexivity.
Qed.
Lemma acquire_nf p ex st : acquireFileF p ex no_faults st = (acquireFile p ex st, no_faults).
Proof.
  unfold acquireFileF, acquireFile.
  destruct (match mget beqb p (w_toks st) with Some _ => _ | None => _ end) as [st1 [h|]]; [reflexivity|].
  destruct ex; [now rewrite open_nf|apply create_nf].
Qed.
Lemma remove_nf p st : osRemoveF p no_faults st = (osRemove p st, no_faults).
Proof. reflexivity. Qed.
Lemma new_nf name ro st : newMetricF name ro no_faults st = (newMetric name ro st, no_faults).
Proof.
  unfold newMetricF, newMetric, open_dirF. cbn [next_call fst no_faults].
  assert (T : forall st0,
    (if negb true then (st0, Err, no_faults)
     else let '(first, last, first_set) := fold_left scan_step (listdir (metricDir (w_root st) name) st0) (0, 0, false) in
       if first_set then (st0, Ok (Metric (metricDir (w_root st) name) first last), no_faults)
       else match acquireFileF (metricFilenameAt (metricDir (w_root st) name) 1) false no_faults st0 with
            | (st1, Ok f, e) => (releaseFile (metricFilenameAt (metricDir (w_root st) name) 1) f st1, Ok (Metric (metricDir (w_root st) name) 1 1), e)
            | (st1, Err, e) => (st1, Err, e) | (st1, Panic, e) => (st1, Panic, e) | (st1, Diverge, e) => (st1, Diverge, e) end) =
    (if negb true then (st0, Err)
     else let '(first, last, first_set) := fold_left scan_step (listdir (metricDir (w_root st) name) st0) (0, 0, false) in
       if first_set then (st0, Ok (Metric (metricDir (w_root st) name) first last))
       else match acquireFile (metricFilenameAt (metricDir (w_root st) name) 1) false st0 with
            | (st1, Ok f) => (releaseFile (metricFilenameAt (metricDir (w_root st) name) 1) f st1, Ok (Metric (metricDir (w_root st) name) 1 1))
            | (st1, Err) => (st1, Err) | (st1, Panic) => (st1, Panic) | (st1, Diverge) => (st1, Diverge) end, no_faults)).
  { intros st0. cbn [negb]. destruct (fold_left _ _ _) as [[first last] []]; [reflexivity|]. rewrite acquire_nf.
    destruct (acquireFile _ _ _) as [st1 [| | |]]; reflexivity. }
  destruct (dir_exists _ st); [exact (T st)|]. destruct ro; [reflexivity|].
  destruct (mkdirAll _ st) as [st1 []]; [exact (T st1)|reflexivity].
Qed.
Lemma last_nf fuel : forall m st, acquireLastF_ fuel m no_faults st = (acquireLast_ fuel m st, no_faults).
Proof.
  induction fuel as [|fuel IH]; intros m st; cbn [acquireLastF_ acquireLast_]; destruct (t_last m <? t_first m); try reflexivity.
  rewrite acquire_nf. destruct (acquireFile _ _ _) as [st1 [f| | |]]; try reflexivity.
  destruct (getHeadPointer _ _) as [head| | |]; try reflexivity.
  destruct ((head =? _) && _); [|reflexivity]. rewrite remove_nf. apply IH.
Qed.
Lemma write_nf m s e d st : m_WriteF m s e d no_faults st = (m_Write m s e d st, no_faults).
Proof.
  unfold m_WriteF, m_Write, acquireLastF, acquireLast. rewrite last_nf.
  destruct (acquireLast_ _ _ _) as [st1 [[[f head] m1]| | |]]; try reflexivity.
  unfold write_withF, write_with.
  destruct (if f_has_record _ _ _ then _ else _); [reflexivity|].
  destruct (numRecords _ _) as [nr| | |]; try reflexivity.
  destruct (nr =? 0); [reflexivity|]. destruct (head + 1 - nr <? 0).
  2:{ destruct (write_into _ _ _ _ _ _ _). reflexivity. }
  destruct ((t_last m1 =? 1) && _); [reflexivity|]. unfold roll_overF.
  destruct ((w_max st1 <=? _) && _); rewrite ?remove_nf; rewrite acquire_nf;
    (destruct (acquireFile _ _ _) as [st2 [f2| | |]]; try reflexivity);
    (destruct (match numRecords _ _ with Ok _ => _ | _ => _ end) as [st3 r3]; reflexivity).
Qed.
Lemma read_nf {A} (cb : callback A) fuel : forall m num e acc st,
  m_ReadF_ cb fuel m num e acc no_faults st = (m_Read_ cb fuel m num e acc st, no_faults).
Proof.
  induction fuel as [|fuel IH]; intros m num e acc st; cbn [m_ReadF_ m_Read_]; destruct (num <? t_first m); try reflexivity.
  rewrite acquire_nf. destruct (acquireFile _ _ _) as [st1 [f| | |]]; try reflexivity.
  destruct (read_file _ _ _ _ _) as [acc1 [[]| | |]]; try reflexivity. apply IH.
Qed.
Lemma step_nf o st : f_step o no_faults st = c_step o st.
Proof.
  destruct o as [name v|name e|name|]; cbn [f_step c_step]; [| | |reflexivity].
  - unfold db_writeF, db_write. rewrite new_nf. destruct (newMetric _ _ _) as [st1 [m| | |]]; try reflexivity.
    rewrite write_nf. destruct (m_Write _ _ _ _ _) as [st2 r]. reflexivity.
  - unfold db_queryF, db_query. rewrite new_nf. destruct (newMetric _ _ _) as [st1 [m| | |]]; try reflexivity.
    unfold m_ReadF, m_Read. rewrite read_nf. destruct (m_Read_ _ _ _ _ _ _ _) as [st2 [l r]]. reflexivity.
  - unfold db_queryF, db_query_latest, db_query. rewrite new_nf. destruct (newMetric _ _ _) as [st1 [m| | |]]; try reflexivity.
    unfold m_ReadF, m_Read. rewrite read_nf. destruct (m_Read_ _ _ _ _ _ _ _) as [st2 [l r]]. reflexivity.
Qed.

(** ** what a single operation can do *)
(** a file that was linked and given the contents [c], but never finished *)
Definition half_make (p : list Z) (c : list Z) (st : db) : db :=
  set_contents (DB (w_ino st) (w_next st + 1) (mput beqb p (w_next st) (w_files st))
                   (w_dirs st) (w_toks st) (w_cache st) (w_size st) (w_cap st) (w_max st) (w_root st)) (w_next st) c.
Definition half_bytes (size cap : Z) (b : bool) : list Z := if b then repeat 0 (Z.to_nat (size * (cap + 1))) else [].
Definition unusable (c : list Z) : Prop := openFile c = Err.
Lemma half_unusable size cap b : unusable (half_bytes size cap b).
Proof.
  unfold unusable, openFile. destruct b; cbn [half_bytes]; [|reflexivity].
  destruct (len (repeat 0 (Z.to_nat (size * (cap + 1)))) <? recordHeaderSize) eqn:E; [reflexivity|].
  unfold readMetadata, parse. rewrite E.
  assert (Z0 : at_ 0 (repeat 0 (Z.to_nat (size * (cap + 1)))) = 0).
  { unfold at_. cbn. destruct (Z.to_nat (size * (cap + 1))); reflexivity. }
  rewrite Z0. reflexivity.
Qed.

Lemma call_snd e x e' : next_call e = (x, e') -> snd e' = snd e.
Proof. unfold next_call. destruct (fst e); intros [= <- <-]; reflexivity. Qed.
Lemma make_snd e b e' : next_make e = (b, e') -> (forall x, b = Some x -> In (Some x) (snd e)) /\ (forall x, In x (snd e') -> In x (snd e)).
Proof.
  unfold next_make. destruct (snd e) as [|y r] eqn:E; intros [= <- <-].
  - rewrite E. split; [discriminate|auto].
  - split; [intros x ->; now left|]. cbn. auto.
Qed.

Lemma openF_cases p e st : exists e', snd e' = snd e /\ (do_openF p e st = (Err, e') \/ do_openF p e st = (do_open p st, e')).
Proof.
  unfold do_openF, do_open. destruct (next_call e) as [x e1] eqn:E1. pose proof (call_snd _ _ _ E1) as S1.
  destruct x; [exists e1; auto|]. destruct (mget beqb p (w_files st)) as [ino|]; [|exists e1; auto].
  destruct (next_call e1) as [x e2] eqn:E2. pose proof (call_snd _ _ _ E2) as S2.
  destruct x; [exists e2; split; [congruence|auto]|].
  destruct (len (contents st ino) <? recordHeaderSize); [exists e2; split; [congruence|auto]|].
  destruct (next_call e2) as [x e3] eqn:E3. pose proof (call_snd _ _ _ E3) as S3.
  destruct x; exists e3; (split; [congruence|auto]).
Qed.

Lemma acquireF_true n st D A p e : Inv n st D A ->
  exists cc r e', acquireFileF p true e st = (set_fch st (w_toks st) cc, r, e') /\ snd e' = snd e /\
    Inv n (set_fch st (w_toks st) cc) D A /\ c_cap cc = c_cap (w_cache st) /\
    (r = Err \/ acquireFile p true st = (set_fch st (w_toks st) cc, r)).
Proof.
  intros HI. unfold acquireFileF, acquireFile.
  destruct (acquire_hit n st D A p HI) as (cc & hit & -> & HI' & Hcap & _).
  destruct hit as [h|].
  - exists cc, (Ok h), e. auto 6.
  - destruct (openF_cases p e (set_fch st (w_toks st) cc)) as (e' & Es & [E|E]); rewrite E; eexists cc, _, e'; auto 6.
Qed.

Lemma acquireF_false n st D A p e : Inv n st D A -> mget beqb p (w_files st) = None ->
  exists cc e', let st1 := set_fch st (w_toks st) cc in
    Inv n st1 D A /\ c_cap cc = c_cap (w_cache st) /\ (forall x, In x (snd e') -> In x (snd e)) /\
    (acquireFileF p false e st = (st1, Err, e') \/
     (exists b, In (Some b) (snd e) /\ acquireFileF p false e st = (half_make p (half_bytes (w_size st) (w_cap st) b) st1, Err, e')) \/
     acquireFileF p false e st = (acquireFile p false st, e')).
Proof.
  intros HI Hp. unfold acquireFileF, acquireFile.
  destruct (acquire_hit n st D A p HI) as (cc & hit & -> & HI' & Hcap & Hh).
  destruct hit as [h|]; [destruct (Hh h eq_refl) as (P & _); congruence|].
  exists cc. cbn zeta. unfold do_createF, do_create.
  destruct (next_call e) as [x e1] eqn:E1. pose proof (call_snd _ _ _ E1) as S1. destruct x.
  { exists e1. split; [exact HI'|]. split; [exact Hcap|]. split; [now rewrite S1|auto]. }
  destruct (next_make e1) as [k e2] eqn:E2. destruct (make_snd _ _ _ E2) as (M1 & M2). rewrite S1 in M1, M2.
  exists e2. split; [exact HI'|]. split; [exact Hcap|]. split; [exact M2|].
  cbn [w_size w_cap w_files set_fch]. rewrite Hp.
  destruct (createFile (w_size st) (w_cap st)) as [c [g| | |]]; destruct k as [[]|]; auto;
    right; left; [exists true|exists false]; (split; [apply M1; reflexivity|reflexivity]).
Qed.

Lemma path_free n st D A name i : Inv n st D A -> is_i64 i ->
  (forall am, A name = Some am -> ~ a_first am <= i <= a_last am) -> mget beqb (path_of (w_root st) name i) (w_files st) = None.
Proof.
  intros HI Hi Hn. destruct (mget _ _ _) as [ino|] eqn:E; [|reflexivity].
  destruct (i_paths _ _ _ _ HI _ ino E) as (_ & name' & am' & i' & Ep & HA' & Hr).
  symmetry in Ep. destruct (path_neq st n D A name' am' i' _ _ HI HA' Hr Hi Ep) as [-> ->]. exfalso. eapply Hn; eauto.
Qed.

(** more directories *)
Lemma inv_dirs n st D A name L : Inv n st D A -> incl L (ancestors [] (clean_dir (dir_of (w_root st) name))) ->
  Inv n (set_dirs st (L ++ D)) (L ++ D) A.
Proof.
  intros HI HL. destruct HI as [Hc1 Hc2 Hc3 Hroot Hc5 Hc6 Hfine Hc8 Hdir Hc10 Hc11 Hc12 Hc13 Hc14 Hc15].
  constructor; try assumption.
  - reflexivity.
  - intros d Hd. apply in_app_iff in Hd. destruct Hd as [Hd|Hd]; [|now apply Hfine].
    apply HL in Hd. now apply mkdir_fine in Hd.
  - intros name' am HA. apply in_app_iff. right. now apply (Hdir name' am).
Qed.
Lemma in_removelast {X} (l : list X) x : In x (removelast l) -> In x l.
Proof. induction l as [|y l IH]; [auto|]. destruct l; [contradiction|]. intros [H|H]; [now left|right; now apply IH]. Qed.
Lemma in_firstn {X} k (l : list X) x : In x (firstn k l) -> In x l.
Proof. revert l; induction k; destruct l; cbn; auto; [contradiction|]. intros [H|H]; auto. Qed.

Lemma open_dirF_spec n st D A name ro e : Inv n st D A ->
  exists D' ok e', open_dirF (dir_of (w_root st) name) ro e st = (set_dirs st D', ok, e') /\ snd e' = snd e /\
    Inv n (set_dirs st D') D' A /\ incl D D' /\ (ok = true -> In (clean_dir (dir_of (w_root st) name)) D') /\
    (In (clean_dir (dir_of (w_root st) name)) D \/ ro = true -> D' = D).
Proof.
  intros HI. pose proof (i_root _ _ _ _ HI) as Hroot.
  assert (Same : set_dirs st D = st) by (rewrite <- (i_dirs _ _ _ _ HI); destruct st; reflexivity).
  assert (Sub : forall L, incl L (ancestors [] (clean_dir (dir_of (w_root st) name))) -> Inv n (set_dirs st (L ++ D)) (L ++ D) A /\ incl D (L ++ D)).
  { intros L HL. split; [now apply (inv_dirs n st D A name)|]. intros x Hx. apply in_app_iff. auto. }
  unfold open_dirF. destruct (next_call e) as [x e1] eqn:E1. pose proof (call_snd _ _ _ E1) as S1.
  destruct x.
  { exists D, false, e1. rewrite Same. split; [reflexivity|]. split; [exact S1|]. split; [exact HI|]. split; [apply incl_refl|]. split; [discriminate|auto]. }
  assert (Fin : forall st1 D1 e2, st1 = set_dirs st D1 -> Inv n st1 D1 A -> incl D D1 -> In (clean_dir (dir_of (w_root st) name)) D1 ->
      (In (clean_dir (dir_of (w_root st) name)) D \/ ro = true -> D1 = D) -> snd e2 = snd e ->
      exists D' ok e', (let '(x, e) := next_call e2 in (st1, match x with Some _ => false | None => true end, e)) = (set_dirs st D', ok, e') /\ snd e' = snd e /\
    Inv n (set_dirs st D') D' A /\ incl D D' /\ (ok = true -> In (clean_dir (dir_of (w_root st) name)) D') /\
    (In (clean_dir (dir_of (w_root st) name)) D \/ ro = true -> D' = D)).
  { intros st1 D1 e2 -> HI1 Hi1 Hd1 Hk S2. destruct (next_call e2) as [x e3] eqn:E3. pose proof (call_snd _ _ _ E3) as S3.
    exists D1, (match x with Some _ => false | None => true end), e3. split; [reflexivity|]. split; [congruence|]. auto. }
  destruct (dir_exists (dir_of (w_root st) name) st) eqn:Ex.
  { apply Fin with (D1 := D); auto; [apply incl_refl|].
    apply dir_exists_iff in Ex; [|exact Hroot]. now rewrite (i_dirs _ _ _ _ HI) in Ex. }
  assert (Hnd : ~ In (clean_dir (dir_of (w_root st) name)) D).
  { intros X. rewrite <- (i_dirs _ _ _ _ HI) in X. apply dir_exists_iff in X; [congruence|exact Hroot]. }
  destruct ro.
  { exists D, false, e1. rewrite Same. split; [reflexivity|]. split; [exact S1|]. split; [exact HI|]. split; [apply incl_refl|]. split; [discriminate|auto]. }
  assert (Hk : forall D', In (clean_dir (dir_of (w_root st) name)) D \/ false = true -> D' = D) by (intros D' [X|X]; [contradiction|discriminate]).
  destruct (next_call e1) as [x e2] eqn:E2. pose proof (call_snd _ _ _ E2) as S2. destruct x as [k|].
  { set (L := firstn k (removelast (ancestors [] (clean_dir (dir_of (w_root st) name))))).
    assert (HL : incl L (ancestors [] (clean_dir (dir_of (w_root st) name)))) by (intros y Hy; apply in_firstn, in_removelast in Hy; exact Hy).
    destruct (Sub L HL) as (HI2 & Hin2). exists (L ++ D), false, e2. rewrite (i_dirs _ _ _ _ HI).
    split; [reflexivity|]. split; [congruence|]. split; [exact HI2|]. split; [exact Hin2|]. split; [discriminate|apply Hk]. }
  unfold mkdirAll. pose proof (dir_nonempty (w_root st) name Hroot) as Hne. apply Z.ltb_lt in Hne.
  destruct (Z.eqb_spec (len (dir_of (w_root st) name)) 0); [lia|].
  rewrite (i_dirs _ _ _ _ HI). destruct (Sub _ (incl_refl _)) as (HI2 & Hin2).
  set (D2 := ancestors [] (clean_dir (dir_of (w_root st) name)) ++ D) in *.
  destruct (next_call e2) as [x e3] eqn:E3. pose proof (call_snd _ _ _ E3) as S3. destruct x.
  { exists D2, false, e3. split; [reflexivity|]. split; [congruence|]. split; [exact HI2|]. split; [exact Hin2|]. split; [discriminate|apply Hk]. }
  apply Fin with (D1 := D2); auto; [|congruence].
  apply in_app_iff. left. exact (ancestors_self _ []).
Qed.

Lemma same_opts_dirs st D : same_opts st (set_dirs st D).
Proof. unfold same_opts; cbn; auto. Qed.

Lemma newMetricF_spec n st D A name ro e : Inv n st D A ->
  exists D1 e1, incl D D1 /\ (In (clean_dir (dir_of (w_root st) name)) D -> D1 = D) /\
   (forall x, In x (snd e1) -> In x (snd e)) /\
   exists st1, Inv n st1 D1 A /\ same_opts st st1 /\
   (newMetricF name ro e st = (st1, Err, e1) \/
    (exists b, In (Some b) (snd e) /\ A name = None /\ In (clean_dir (dir_of (w_root st) name)) D1 /\
       newMetricF name ro e st = (half_make (path_of (w_root st) name 1) (half_bytes (w_size st) (w_cap st) b) st1, Err, e1)) \/
    (exists st2 A2, let am := am_of (w_size st) (w_cap st) A name in
       newMetricF name ro e st = (st2, Ok (Metric (dir_of (w_root st) name) (a_first am) (a_last am)), e1) /\
       Inv n st2 D1 A2 /\ same_opts st st2 /\ A2 name = Some am /\ (forall x, aput name am A x = A2 x))).
Proof.
  intros HI. pose proof (i_bound _ _ _ _ HI) as Hb.
  destruct (open_dirF_spec n st D A name ro e HI) as (D1 & ok & e1 & Eo & S1 & HI1 & Hin & Hok & Hsame).
  unfold newMetricF. fold (dir_of (w_root st) name). rewrite Eo. set (st1 := set_dirs st D1) in *.
  assert (So1 : same_opts st st1) by apply same_opts_dirs.
  destruct ok; cbn [negb].
  2:{ exists D1, e1. split; [exact Hin|]. split; [auto|]. split; [now rewrite S1|]. exists st1. auto. }
  unfold am_of. destruct (A name) as [am|] eqn:HA.
  - exists D1, e1. split; [exact Hin|]. split; [auto|]. split; [now rewrite S1|]. exists st1. split; [exact HI1|]. split; [exact So1|].
    right; right. exists st1, A.
    destruct (i_num _ _ _ _ HI name am HA) as (H1 & H2 & H3).
    assert (a_first am <= a_last am).
    { unfold a_last, len. destruct (a_files am); [contradiction|cbn [length]; lia]. }
    rewrite (scan_range _ (a_first am) (a_last am)); auto.
    + cbn zeta. split; [reflexivity|]. split; [exact HI1|]. split; [exact So1|]. split; [exact HA|]. intros x. symmetry. now apply aput_id.
    + intros i Hi. apply (listing n st1 D1 A name i HI1) in Hi. destruct Hi as (am' & HA' & Hr).
      rewrite HA in HA'. injection HA' as <-. exact Hr.
    + apply (listing n st1 D1 A name _ HI1). exists am. split; [auto|lia].
    + apply (listing n st1 D1 A name _ HI1). exists am. split; [auto|lia].
  - rewrite scan_none by (now apply (numbers_none n st1 D1 A name)).
    cbn zeta. fold (path_of (w_root st) name 1).
    assert (Hfree : mget beqb (path_of (w_root st) name 1) (w_files st1) = None).
    { apply (path_free n st1 D1 A name 1 HI1); [unfold is_i64; lia|]. intros am Ha. congruence. }
    destruct (acquireF_false n st1 D1 A (path_of (w_root st) name 1) e1 HI1 Hfree) as (cc & e2 & HI2 & Hcap & S2 & C).
    assert (So2 : same_opts st (set_fch st1 (w_toks st1) cc)) by (unfold same_opts; cbn in *; auto).
    assert (S3 : forall x, In x (snd e2) -> In x (snd e)) by (rewrite <- S1; exact S2).
    exists D1, e2. split; [exact Hin|]. split; [auto|]. split; [exact S3|]. exists (set_fch st1 (w_toks st1) cc).
    split; [exact HI2|]. split; [exact So2|]. destruct C as [C|[(b & Hb1 & C)|C]].
    + left. now rewrite C.
    + right; left. exists b. rewrite <- S1. split; [exact Hb1|]. split; [reflexivity|]. split; [now apply Hok|]. now rewrite C.
    + right; right.
      destruct (create_spec n st1 D1 A name 1 [] HI1) as (ino & c & st2 & E2 & HI3 & Hso3 & HF3 & _).
      * lia.
      * change (len (@nil afile)) with 0. lia.
      * left. auto.
      * change (1 + len (@nil afile)) with 1 in *. change (w_root st1) with (w_root st) in E2.
        rewrite C, E2. destruct (file_at_open _ _ _ _ _ _ HF3) as (_ & Ho).
        assert (Er1 : w_root st2 = w_root st) by (destruct Hso3 as (_ & _ & _ & ? & _); assumption).
        destruct (release_spec n st2 D1 _ (path_of (w_root st) name 1)
                    (Handle ino (Geom (w_cap st1) (w_size st1))) HI3) as (t & c2 & -> & HI4 & Hcap4).
        -- destruct HF3 as (P & _). rewrite Er1 in P. exact P.
        -- exact Ho.
        -- exists (set_fch st2 t c2), (aput name (a_fresh (w_size st) (w_cap st)) A).
           split; [reflexivity|]. split; [exact HI4|]. split; [|split; [apply aput_same|reflexivity]].
           eapply same_opts_trans; [exact So1|]. eapply same_opts_trans; [exact Hso3|].
           unfold same_opts; cbn in *; auto.
Qed.

(** ** a write *)
Lemma evict_spec n st D A fp : Inv n st D A ->
  exists t cc, evictFile fp st = set_fch st t cc /\ Inv n (set_fch st t cc) D A /\ c_cap cc = c_cap (w_cache st).
Proof.
  intros HI. unfold evictFile. destruct (mget beqb fp (w_toks st)) as [tok|] eqn:E.
  - pose proof (take_spec handle_zero (w_cache st) tok (i_cache _ _ _ _ HI)) as P.
    destruct (cache_take handle_zero (w_cache st) tok) as [c r].
    destruct P as (Hc & Hr & Hcap & Ht & Hres & Hlk & _).
    eexists _, _. split; [reflexivity|]. split; [|exact Hcap].
    apply inv_fch; auto.
    + rewrite Hr. exact (i_rand _ _ _ _ HI).
    + intros p k. rewrite mget_del by apply eqb_ok_bytes. destruct (beqb fp p); [discriminate|].
      rewrite Ht. apply (i_tokle _ _ _ _ HI).
    + intros p k h. rewrite mget_del by apply eqb_ok_bytes. destruct (beqb fp p); [discriminate|].
      intros G1 G2. rewrite Hlk in G2. destruct (k =? tok); [discriminate|].
      exact (i_toks _ _ _ _ HI p k h G1 G2).
  - exists (w_toks st), (w_cache st). split; [destruct st; reflexivity|].
    split; [destruct st; exact HI|reflexivity].
Qed.

Lemma release_half p h q c st : releaseFile p h (half_make q c st) = half_make q c (releaseFile p h st).
Proof. unfold releaseFile, half_make. cbn. destruct (cache_put _ _ _) as [[cc tok] ev]. reflexivity. Qed.

(** the new file, once the oldest one was dropped or kept *)
Lemma tail_spec n st2 D A1 name am1 f older1 ino v e :
  Inv n st2 D A1 -> A1 name = Some am1 -> a_files am1 = f :: older1 ->
  mget beqb (path_of (w_root st2) name (a_last am1)) (w_files st2) = Some ino ->
  val_ok v -> nrec (w_size st2) v <= w_cap st2 -> n + 1 < 2 ^ 62 ->
  let p1 := path_of (w_root st2) name (a_last am1) in
  let path := path_of (w_root st2) name (a_last am1 + 1) in
  let act := match acquireFileF path false e st2 with
    | (st, Ok f, e) =>
      let head := g_cap (h_geom f) in
      let '(st, r) :=
        match numRecords (len (v_data v)) (g_size (h_geom f)) with
        | Ok nr =>
            if nr =? 0 then (st, Err)
            else if head - nr <? 0 then (st, Err)
            else write_into f head nr (v_start v) (v_end v) (v_data v) st
        | Err => (st, Err) | Panic => (st, Panic) | Diverge => (st, Diverge)
        end in
      (releaseFile path f st, r, e)
    | (st, Err, e) => (st, Err, e)
    | (st, Panic, e) => (st, Panic, e)
    | (st, Diverge, e) => (st, Diverge, e)
    end in
  exists st' e', (forall x, In x (snd e') -> In x (snd e)) /\ same_opts st2 st' /\
   ((let '(s, r, e0) := act in (releaseFile p1 (Handle ino (geom_of f)) s, r, e0)) = (st', Err, e') /\ Inv (n + 1) st' D A1 \/
    (exists b, In (Some b) (snd e) /\
      (let '(s, r, e0) := act in (releaseFile p1 (Handle ino (geom_of f)) s, r, e0)) =
        (half_make path (half_bytes (w_size st2) (w_cap st2) b) st', Err, e') /\ Inv (n + 1) st' D A1) \/
    (let '(s, r, e0) := act in (releaseFile p1 (Handle ino (geom_of f)) s, r, e0)) = (st', Ok true, e') /\
      Inv (n + 1) st' D (aput name (AM (a_first am1) (AF (w_cap st2) (w_size st2) [v] :: a_files am1)) A1)).
Proof.
  intros HI2 HA1 Hfs1 Pp2 Hv Hfit Hn p1 path act.
  pose proof (i_bound _ _ _ _ HI2) as Hb.
  assert (HI2' : Inv (n + 1) st2 D A1) by (apply inv_mono with (n := n); [exact HI2|lia]).
  assert (Hge1 : a_first am1 <= a_last am1).
  { unfold a_last. rewrite Hfs1, len_cons. pose proof (len_nonneg older1). lia. }
  destruct (i_num _ _ _ _ HI2 name am1 HA1) as (Hf1 & _ & Hl1).
  assert (Hfree : mget beqb path (w_files st2) = None).
  { apply (path_free n st2 D A1 name (a_last am1 + 1) HI2); [unfold is_i64; lia|].
    intros am Ha. rewrite HA1 in Ha. injection Ha as <-. lia. }
  assert (Ho2 : openFile (contents st2 ino) = Ok (geom_of f)).
  { destruct (i_file _ _ _ _ HI2 name am1 0%nat f HA1) as (ino' & c' & HF'); [now rewrite Hfs1|].
    rewrite Z.sub_0_r in HF'. pose proof HF' as (P' & _). rewrite Pp2 in P'. injection P' as <-.
    now destruct (file_at_open _ _ _ _ _ _ HF'). }
  destruct (acquireF_false (n + 1) st2 D A1 path e HI2' Hfree) as (cc & e2 & HI3 & Hcap & S2 & C).
  destruct C as [C|[(b & Hb1 & C)|C]].
  - unfold act. rewrite C.
    destruct (release_spec (n + 1) (set_fch st2 (w_toks st2) cc) D A1 p1 (Handle ino (geom_of f)) HI3 Pp2 Ho2) as (t & c2 & E & HI4 & Hcap2).
    rewrite E. exists (set_fch (set_fch st2 (w_toks st2) cc) t c2), e2. split; [exact S2|]. split; [unfold same_opts; cbn in *; intuition congruence|]. left. split; [reflexivity|exact HI4].
  - unfold act. rewrite C, release_half.
    destruct (release_spec (n + 1) (set_fch st2 (w_toks st2) cc) D A1 p1 (Handle ino (geom_of f)) HI3 Pp2 Ho2) as (t & c2 & E & HI4 & Hcap2).
    rewrite E. exists (set_fch (set_fch st2 (w_toks st2) cc) t c2), e2. split; [exact S2|]. split; [unfold same_opts; cbn in *; intuition congruence|]. right; left.
    exists b. split; [exact Hb1|]. split; [reflexivity|exact HI4].
  - unfold act. rewrite C.
    destruct (create_spec (n + 1) st2 D A1 name (a_first am1) (a_files am1)) as (ino3 & c3 & st3 & E3 & HI4 & Hso3 & HF3 & Hfr3).
    { exact HI2'. } { exact Hf1. } { unfold a_last in Hl1. lia. } { right. rewrite HA1. destruct am1; reflexivity. }
    replace (a_first am1 + len (a_files am1)) with (a_last am1 + 1) in * by (unfold a_last; lia).
    fold path in E3. rewrite E3. cbn [h_geom g_size g_cap].
    destruct (i_opts _ _ _ _ HI2) as (Hs0 & _).
    assert (Hnum3 : numRecords (len (v_data v)) (w_size st2) = Ok (nrec (w_size st2) v))
      by (now destruct (recs_spec (w_size st2) v Hs0 Hv) as (_ & ? & _)).
    rewrite Hnum3. pose proof (nrec_pos (w_size st2) v ltac:(lia)) as Hnp3.
    destruct (Z.eqb_spec (nrec (w_size st2) v) 0); [lia|].
    destruct (Z.ltb_spec (w_cap st2 - nrec (w_size st2) v) 0); [lia|].
    pose proof HF3 as (Pp3 & _ & Hrep3). destruct (file_at_open _ _ _ _ _ _ HF3) as (Hc3 & _).
    assert (Er3 : w_root st3 = w_root st2) by (destruct Hso3 as (_ & _ & _ & ? & _); congruence).
    set (am3 := AM (a_first am1) (AF (w_cap st2) (w_size st2) [] :: a_files am1)) in *.
    assert (Hlast3 : a_last am3 = a_last am1 + 1).
    { unfold am3, a_last; cbn [a_first a_files]. rewrite len_cons. lia. }
    unfold write_into. cbn [h_geom h_ino]. rewrite Hc3.
    destruct (write_records_spec (AF (w_cap st2) (w_size st2) []) c3 v Hrep3 Hv) as (c4 & E4 & Hrep4).
    { unfold used; cbn [a_size a_vals a_cap used_]. lia. } { exact I. }
    unfold used in E4; cbn [a_size a_vals a_cap used_] in E4. rewrite Z.sub_0_r in E4.
    change (geom_of (AF (w_cap st2) (w_size st2) [])) with (Geom (w_cap st2) (w_size st2)) in E4.
    rewrite E4. cbn [a_size a_vals a_cap] in Hrep4. rewrite <- Hlast3 in HF3.
    destruct (store_spec (n + 1) st3 D _ name am3 _ (a_files am1) ino3 c3 _ c4 HI4 (aput_same _ _ _) eq_refl HF3 Hrep4 eq_refl)
      as (HI5 & Hso4 & HF4).
    rewrite Hlast3 in HF4. cbn [a_first am3] in HI5.
    set (st4 := set_contents st3 ino3 c4) in *. set (am4 := AM (a_first am1) (AF (w_cap st2) (w_size st2) [v] :: a_files am1)) in *.
    assert (Er4 : w_root st4 = w_root st2) by (destruct Hso4 as (_ & _ & _ & ? & _); congruence).
    pose proof HF4 as (Pp4 & _). rewrite Er4 in Pp4. fold path in Pp4.
    destruct (file_at_open _ _ _ _ _ _ HF4) as (_ & Ho4).
    destruct (release_spec (n + 1) st4 D _ path (Handle ino3 (Geom (w_cap st2) (w_size st2))) HI5 Pp4 Ho4) as (t5 & c5 & E5 & HI6 & Hcap5).
    rewrite E5. set (st5 := set_fch st4 t5 c5) in *.
    assert (P5 : mget beqb p1 (w_files st5) = Some ino).
    { change (w_files st5) with (w_files st3). rewrite Hfr3; [exact Pp2|]. intros Ex.
      apply (path_neq st2 n D A1 name am1 (a_last am1) name (a_last am1 + 1)) in Ex; auto; [lia|lia|unfold is_i64; lia]. }
    assert (HAm : aput name am4 (aput name am3 A1) name = Some am4) by apply aput_same.
    destruct (i_file _ _ _ _ HI6 name am4 1%nat f HAm) as (ino' & c' & HF').
    { unfold am4. cbn [a_files nth_error]. rewrite Hfs1. reflexivity. }
    assert (Hl5 : a_last am4 - Z.of_nat 1 = a_last am1).
    { unfold am4, a_last; cbn [a_first a_files]. rewrite len_cons. lia. }
    rewrite Hl5 in HF'. pose proof HF' as (P' & _).
    change (w_root st5) with (w_root st4) in P'. rewrite Er4 in P'. fold p1 in P'.
    rewrite P5 in P'. injection P' as <-.
    destruct (file_at_open _ _ _ _ _ _ HF') as (_ & Ho5).
    destruct (release_spec (n + 1) st5 D _ p1 (Handle ino (geom_of f)) HI6 P5 Ho5) as (t6 & c6 & E6 & HI7 & Hcap6).
    rewrite E6. exists (set_fch st5 t6 c6), e2. split; [exact S2|]. split.
    + eapply same_opts_trans; [exact Hso3|]. eapply same_opts_trans; [exact Hso4|]. unfold same_opts; cbn in *. intuition congruence.
    + right; right. split; [reflexivity|]. eapply inv_ext; [|exact HI7]. intros x. apply aput_aput.
Qed.

(** what a write leaves of a metric when it fails after the oldest file was removed *)
Definition dropped (am : ametric) : ametric := AM (a_first am + 1) (removelast (a_files am)).
Definition full (max : Z) (am : ametric) : bool := (max <=? a_last am - a_first am) && (0 <? max).

Lemma m_WriteF_spec n st D A name am v e : Inv n st D A -> A name = Some am -> am_ok am ->
  val_ok v -> nrec (w_size st) v <= w_cap st -> n + 1 < 2 ^ 62 ->
  let m := Metric (dir_of (w_root st) name) (a_first am) (a_last am) in
  exists st' e' am' r, (forall x, In x (snd e') -> In x (snd e)) /\ same_opts st st' /\ Inv (n + 1) st' D (aput name am' A) /\
   (m_WriteF m (v_start v) (v_end v) (v_data v) e st = (st', r, e') /\
      ((am', r) = a_write (w_size st) (w_cap st) (w_max st) am v \/ (am', r) = a_write (w_size st) (w_cap st) 0 am v \/
       r = Err /\ (am' = am \/ full (w_max st) am = true /\ am' = dropped am)) \/
    (exists b, In (Some b) (snd e) /\ (am' = am \/ full (w_max st) am = true /\ am' = dropped am) /\ a_last am' = a_last am /\
      m_WriteF m (v_start v) (v_end v) (v_data v) e st =
       (half_make (path_of (w_root st) name (a_last am + 1)) (half_bytes (w_size st) (w_cap st) b) st', Err, e'))).
Proof.
  intros HI HA (Hdesc & Hnn & Hall) Hv Hfit Hn m.
  destruct (a_files am) as [|f older] eqn:Hfs; [contradiction|].
  assert (Hne : older = [] \/ a_vals f <> []).
  { destruct older; [now left|right]. inversion Hall; subst; assumption. }
  pose proof (i_bound _ _ _ _ HI) as Hb.
  assert (Hln : a_last am - a_first am + 1 = len (a_files am)) by (unfold a_last; lia).
  assert (Hle : a_first am <= a_last am).
  { unfold a_last. rewrite Hfs, len_cons. pose proof (len_nonneg older). lia. }
  unfold m_WriteF, acquireLastF. cbn [t_last t_first m]. rewrite Hln. unfold len. rewrite Nat2Z.id, Hfs. cbn [length acquireLastF_ t_last t_first m].
  destruct (Z.ltb_spec (a_last am) (a_first am)); [lia|].
  change (filenameAt m (a_last am)) with (path_of (w_root st) name (a_last am)).
  destruct (acquireF_true n st D A (path_of (w_root st) name (a_last am)) e HI) as (cc & r0 & e1 & E0 & S1 & HI1 & Hcap1 & C0).
  rewrite E0. set (st1 := set_fch st (w_toks st) cc) in *.
  assert (Hso1 : same_opts st st1) by (unfold same_opts; cbn; auto).
  assert (S1' : forall x, In x (snd e1) -> In x (snd e)) by (now rewrite S1).
  assert (HIn1 : Inv (n + 1) st1 D A) by (apply inv_mono with (n := n); [exact HI1|lia]).
  destruct C0 as [->|C0].
  { exists st1, e1, am, Err. split; [exact S1'|]. split; [exact Hso1|]. split; [eapply inv_ext; [|exact HIn1]; now apply aput_id|].
    left. split; [reflexivity|]. right; right. auto. }
  destruct (acquire_spec n st D A name am 0 f HI HA) as (ino & c & cc' & E1 & _ & _ & HF); [rewrite Hfs; reflexivity|].
  rewrite Z.sub_0_r in *. rewrite E1 in C0. injection C0 as Hcc Hr0. subst r0. subst cc'. clear E1.
  assert (HF1 : file_at st1 name (a_last am) f ino c) by exact HF.
  destruct (file_at_open _ _ _ _ _ _ HF1) as (Hc1 & Ho1).
  pose proof HF1 as (Pp & Pc & Prep). pose proof Prep as (((Hs & Hcp & Hprod) & Hvs & Hu & Hdf) & _).
  cbn [h_geom h_ino]. rewrite Hc1, (file_rep_head f c Prep). cbn [g_cap geom_of].
  assert (Hone : (a_cap f - used f - 1 =? a_cap f - 1) && (a_first am <? a_last am) = false).
  { destruct (Z.eqb_spec (a_cap f - used f - 1) (a_cap f - 1)) as [Eu|]; [|reflexivity]. cbn [andb].
    destruct (Z.ltb_spec (a_first am) (a_last am)); [|reflexivity]. exfalso. destruct Hne as [->|Hne].
    - unfold a_last in *. rewrite Hfs in *. change (len [f]) with 1 in *. lia.
    - unfold used in Eu. destruct (a_vals f) as [|w vs]; [contradiction|].
      cbn [used_] in Eu. pose proof (nrec_pos (a_size f) w ltac:(lia)). pose proof (used_nonneg (a_size f) vs ltac:(lia)). lia. }
  rewrite Hone. clear Hone.
  destruct (has_newest f c Prep) as (Hhas & Hrec).
  destruct (recs_spec (a_size f) v Hs Hv) as (_ & Hnum & _ & Hnp & _).
  set (p1 := path_of (w_root st1) name (a_last am)) in *.
  change (filenameAt m (t_last m)) with p1.
  assert (Stay : forall r, a_write (w_size st) (w_cap st) (w_max st) am v = (am, r) ->
     exists st' e' am' r', (forall x, In x (snd e') -> In x (snd e)) /\ same_opts st st' /\ Inv (n + 1) st' D (aput name am' A) /\
      ((releaseFile p1 (Handle ino (geom_of f)) st1, r, e1) = (st', r', e') /\
      ((am', r') = a_write (w_size st) (w_cap st) (w_max st) am v \/ (am', r') = a_write (w_size st) (w_cap st) 0 am v \/
       r' = Err /\ (am' = am \/ full (w_max st) am = true /\ am' = dropped am)) \/
      (exists b, In (Some b) (snd e) /\ (am' = am \/ full (w_max st) am = true /\ am' = dropped am) /\ a_last am' = a_last am /\
      (releaseFile p1 (Handle ino (geom_of f)) st1, r, e1) =
       (half_make (path_of (w_root st) name (a_last am + 1)) (half_bytes (w_size st) (w_cap st) b) st', Err, e')))).
  { intros r Er.
    destruct (release_spec n st1 D A p1 (Handle ino (geom_of f)) HI1 Pp Ho1) as (t & c2 & -> & HI2 & Hcap2).
    exists (set_fch st1 t c2), e1, am, r. split; [exact S1'|]. split; [eapply same_opts_trans; [exact Hso1|]; unfold same_opts; cbn; auto|].
    split; [apply inv_mono with (n := n); [|lia]; eapply inv_ext; [|exact HI2]; now apply aput_id|].
    left. split; [reflexivity|]. left. congruence. }
  unfold write_withF. cbn [h_geom h_ino]. rewrite Hc1.
  replace (a_cap f - used f - 1 + 1) with (a_cap f - used f) by lia. rewrite Hhas.
  unfold a_write in Stay |- *. rewrite Hfs in Stay |- *.
  destruct (match a_vals f with [] => false | w :: _ => v_end v <=? v_end w end) eqn:Eold.
  { destruct (a_vals f) as [|w ws] eqn:Ev; [discriminate|].
    destruct (Hrec w ws eq_refl) as (r & Er & Ee). rewrite Er, Ee, Eold. now apply Stay. }
  replace (if match a_vals f with [] => false | _ => true end
           then match f_record (geom_of f) (a_cap f - used f) c with
                | Ok r => if v_end v <=? r_end r then Some (Ok false) else None
                | Err => Some Err | Panic => Some Panic | Diverge => Some Diverge end
           else None) with (@None (res bool)).
  2:{ destruct (a_vals f) as [|w ws] eqn:Ev; [reflexivity|].
      destruct (Hrec w ws eq_refl) as (r & Er & Ee). now rewrite Er, Ee, Eold. }
  cbn [g_size geom_of g_cap]. rewrite Hnum.
  destruct (Z.eqb_spec (nrec (a_size f) v) 0); [lia|].
  assert (Hdv : desc (v :: a_vals f)).
  { apply desc_cons; [exact Hdf|]. intros w r Ew. rewrite Ew in Eold. apply Z.leb_gt in Eold. exact Eold. }
  destruct (Z.leb_spec (used f + nrec (a_size f) v) (a_cap f)) as [Hlef|Hgt];
    destruct (Z.ltb_spec (a_cap f - used f - nrec (a_size f) v) 0); try lia.
  - (* fits *)
    clear Stay. unfold write_into. cbn [h_geom h_ino]. rewrite Hc1.
    destruct (write_records_spec f c v Prep Hv Hlef Hdv) as (c' & -> & Hrep').
    destruct (store_spec n st1 D A name am f older ino c _ c' HI1 HA Hfs HF1 Hrep' eq_refl) as (HI2 & Hso2 & HF2).
    destruct (file_at_open _ _ _ _ _ _ HF2) as (_ & Ho2).
    destruct (release_spec n _ D _ p1 (Handle ino (geom_of f)) HI2 Pp Ho2) as (t & c2 & -> & HI3 & Hcap3).
    exists (set_fch (set_contents st1 ino c') t c2), e1, (AM (a_first am) (AF (a_cap f) (a_size f) (v :: a_vals f) :: older)), (Ok true).
    split; [exact S1'|]. split.
    { eapply same_opts_trans; [exact Hso1|]. eapply same_opts_trans; [exact Hso2|]. unfold same_opts; cbn; auto. }
    split; [apply inv_mono with (n := n); [exact HI3|lia]|]. left. split; [reflexivity|]. left. reflexivity.
  - cbn [t_last m].
    replace (a_cap f - used f =? a_cap f - 1) with (used f =? 1)
      by (destruct (Z.eqb_spec (used f) 1), (Z.eqb_spec (a_cap f - used f) (a_cap f - 1)); lia).
    destruct ((a_last am =? 1) && (used f =? 1)) eqn:Eerr.
    { now apply Stay. }
    clear Stay. unfold roll_overF. cbn [t_first t_last m]. change (w_max st1) with (w_max st). fold (full (w_max st) am).
    change (filenameAt m (a_first am)) with (path_of (w_root st1) name (a_first am)).
    change (filenameAt m (a_last am + 1)) with (path_of (w_root st1) name (a_last am + 1)).
    (* the three ways of making room *)
    assert (Room : exists st2 A1 am1 e2 older1,
      (if full (w_max st) am then osRemoveF (path_of (w_root st1) name (a_first am)) e1 (evictFile (path_of (w_root st1) name (a_first am)) st1) else (st1, e1)) = (st2, e2) /\
      snd e2 = snd e1 /\ A1 name = Some am1 /\ (forall x, aput name am1 A x = A1 x) /\ Inv n st2 D A1 /\ same_opts st1 st2 /\
      mget beqb p1 (w_files st2) = Some ino /\ a_files am1 = f :: older1 /\ a_last am1 = a_last am /\
      (full (w_max st) am = true /\ am1 = dropped am \/ am1 = am)).
    { destruct (full (w_max st) am) eqn:Ed.
      2:{ exists st1, A, am, e1, older. split; [reflexivity|]. split; [reflexivity|]. split; [exact HA|]. split; [intros x; symmetry; now apply aput_id|].
          split; [exact HI1|]. split; [apply same_opts_refl|]. split; [exact Pp|]. split; [exact Hfs|]. auto. }
      unfold osRemoveF. destruct (next_call e1) as [x e2] eqn:E2. pose proof (call_snd _ _ _ E2) as S2. destruct x.
      - destruct (evict_spec n st1 D A (path_of (w_root st1) name (a_first am)) HI1) as (t & c2 & -> & HI2 & Hcap2).
        exists (set_fch st1 t c2), A, am, e2, older. split; [reflexivity|]. split; [exact S2|]. split; [exact HA|]. split; [intros x; symmetry; now apply aput_id|].
        split; [exact HI2|]. split; [unfold same_opts; cbn; auto|]. split; [exact Pp|]. split; [exact Hfs|]. auto.
      - unfold full in Ed. apply andb_true_iff in Ed. destruct Ed as [Ed1 Ed2]. apply Z.leb_le in Ed1. apply Z.ltb_lt in Ed2.
        assert (H2 : (2 <= length (a_files am))%nat) by (unfold len in Hln; lia).
        destruct (drop_spec n st1 D A name am HI1 HA H2) as (HI2 & Hso2).
        assert (Hol : exists older1, removelast (a_files am) = f :: older1).
        { rewrite Hfs in *. destruct older as [|g older]; [cbn in H2; lia|]. eexists. reflexivity. }
        destruct Hol as (older1 & Hol).
        eexists _, _, (dropped am), e2, older1. split; [reflexivity|]. split; [exact S2|]. split; [apply aput_same|]. split; [reflexivity|].
        split; [exact HI2|]. split; [exact Hso2|]. split.
        + unfold osRemove, set_files; cbn [w_files]. rewrite evict_files.
          rewrite mget_del_other; [exact Pp|apply eqb_ok_bytes|]. intros Ex.
          symmetry in Ex. apply (path_neq st1 n D A name am (a_last am) name (a_first am)) in Ex; auto; [lia|lia|].
          apply (num_range n st1 D A name am); auto. lia.
        + split; [exact Hol|]. split; [|auto].
          unfold dropped, a_last; cbn [a_first a_files]. rewrite len_removelast by (rewrite Hfs; discriminate). lia. }
    destruct Room as (st2 & A1 & am1 & e2 & older1 & -> & S2 & HA1 & Hext & HI2 & Hso2 & Pp2 & Hfs1 & Hl1 & Hdr).
    assert (Er2 : w_root st2 = w_root st1) by (destruct Hso2 as (_ & _ & _ & ? & _); assumption).
    assert (Es2 : w_size st2 = w_size st) by (destruct Hso2 as (? & _); assumption).
    assert (Ec2 : w_cap st2 = w_cap st) by (destruct Hso2 as (_ & ? & _); assumption).
    destruct (tail_spec n st2 D A1 name am1 f older1 ino v e2 HI2 HA1 Hfs1) as (st' & e' & S3 & Hso3 & C).
    { rewrite Hl1, Er2. exact Pp2. } { exact Hv. } { now rewrite Es2, Ec2. } { exact Hn. }
    rewrite Hl1, Er2 in C. rewrite Es2, Ec2 in C. fold p1 in C.
    assert (S3' : forall x, In x (snd e') -> In x (snd e)) by (intros x Hx; apply S1'; rewrite <- S2; auto).
    assert (Hso : same_opts st st') by (eapply same_opts_trans; [exact Hso1|]; eapply same_opts_trans; eassumption).
    assert (Hsub : forall b, In (Some b) (snd e2) -> In (Some b) (snd e)) by (intros b; rewrite S2; apply S1').
    assert (Hdr' : am1 = am \/ full (w_max st) am = true /\ am1 = dropped am) by tauto.
    assert (Back : forall am4 x, aput name am4 A1 x = aput name am4 A x).
    { intros am4 x. unfold aput. destruct (beqb name x) eqn:Ex; [reflexivity|]. rewrite <- Hext. unfold aput. now rewrite Ex. }
    destruct C as [(C & HI3)|[(b & Hb1 & C & HI3)|(C & HI3)]].
    + exists st', e', am1, Err. split; [exact S3'|]. split; [exact Hso|]. split; [eapply inv_ext; [|exact HI3]; intros x; symmetry; apply Hext|].
      left. split; [exact C|]. right; right. auto.
    + exists st', e', am1, Err. split; [exact S3'|]. split; [exact Hso|]. split; [eapply inv_ext; [|exact HI3]; intros x; symmetry; apply Hext|].
      right. exists b. split; [now apply Hsub|]. split; [exact Hdr'|]. split; [exact Hl1|exact C].
    + exists st', e', (AM (a_first am1) (AF (w_cap st) (w_size st) [v] :: a_files am1)), (Ok true).
      split; [exact S3'|]. split; [exact Hso|]. split; [eapply inv_ext; [|exact HI3]; apply Back|].
      left. split; [exact C|]. destruct Hdr as [(Hf & ->)| ->].
      * left. rewrite Hf. cbn [dropped a_first a_files]. now rewrite Hfs.
      * right; left. cbn [Z.leb Z.ltb]. rewrite andb_false_r, Hfs. reflexivity.
Qed.

(** ** a query *)
Fixpoint seq_vals (e : Z) (fs : list afile) : list value :=
  match fs with
  | [] => []
  | f :: r => if e <=? match oldest_end f with Some o => o | None => 0 end then []
              else filter (fun v => v_end v <? e) (a_vals f) ++ seq_vals e r
  end.
Lemma seq_read_run {X} (cb : callback X) e : forall fs acc, finish_cb (seq_read cb e fs acc) = finish_cb (run_cb cb acc (seq_vals e fs)).
Proof.
  induction fs as [|f r IH]; intros acc; cbn [seq_read seq_vals]; [reflexivity|]. destruct (e <=? _); [reflexivity|].
  rewrite run_cb_app. destruct (run_cb cb acc _) as [acc' [[]| | |]]; try reflexivity. apply IH.
Qed.
Lemma seq_vals_query am e : am_ok am -> seq_vals e (a_files am) = a_query am e.
Proof.
  intros Hok. pose proof (seq_read_query collect_cb am e [] Hok) as H. rewrite seq_read_run, !collect_run in H.
  cbn in H. now injection H.
Qed.
Lemma seq_pre {X} (cb : callback X) e : forall pre post acc acc', seq_read cb e pre acc = (acc', Ok true) ->
  run_cb cb acc (seq_vals e pre) = (acc', Ok true) /\ seq_vals e (pre ++ post) = seq_vals e pre ++ seq_vals e post.
Proof.
  induction pre as [|f r IH]; intros post acc acc' H; cbn [seq_read seq_vals app] in *; [auto|].
  destruct (e <=? _); [discriminate|]. rewrite run_cb_app.
  destruct (run_cb cb acc _) as [acc1 [[]| | |]]; try discriminate.
  destruct (IH post acc1 acc' H) as (E1 & E2). rewrite E1, E2, app_assoc. auto.
Qed.

Lemma m_ReadF__spec {X} (cb : callback X) n D A name am e : A name = Some am ->
  forall rest pre st acc v, Inv n st D A -> a_files am = pre ++ rest ->
  exists st' v' res,
    m_ReadF_ cb (length rest) (Metric (dir_of (w_root st) name) (a_first am) (a_last am))
      (a_last am - len pre) e acc v st = (st', res, v') /\ snd v' = snd v /\
    Inv n st' D A /\ same_opts st st' /\
    (res = finish_cb (seq_read cb e rest acc) \/
     exists r1 r2 acc', rest = r1 ++ r2 /\ seq_read cb e r1 acc = (acc', Ok true) /\ res = (acc', Err)).
Proof.
  intros HA. induction rest as [|f rest IH]; intros pre st acc v HI Hfs.
  - cbn [length m_ReadF_ seq_read t_first]. rewrite app_nil_r in Hfs.
    assert (E : (a_last am - len pre <? a_first am) = true)
      by (apply Z.ltb_lt; unfold a_last; rewrite Hfs; lia).
    rewrite E. exists st, v, (acc, Ok tt). split; [reflexivity|]. split; [reflexivity|]. split; [exact HI|]. split; [apply same_opts_refl|auto].
  - cbn [length m_ReadF_ t_first].
    assert (E : (a_last am - len pre <? a_first am) = false).
    { apply Z.ltb_ge. unfold a_last. rewrite Hfs, len_app, len_cons. pose proof (len_nonneg rest). lia. }
    rewrite E.
    change (filenameAt _ (a_last am - len pre)) with (path_of (w_root st) name (a_last am - len pre)).
    destruct (acquireF_true n st D A (path_of (w_root st) name (a_last am - len pre)) v HI) as (cc & r0 & v1 & E0 & S1 & HI1 & Hcap & C0).
    rewrite E0. set (st1 := set_fch st (w_toks st) cc) in *.
    assert (Hso1 : same_opts st st1) by (unfold same_opts; cbn in *; auto).
    destruct C0 as [->|C0].
    { exists st1, v1, (acc, Err). split; [reflexivity|]. split; [exact S1|]. split; [exact HI1|]. split; [exact Hso1|].
      right. exists [], (f :: rest), acc. auto. }
    destruct (acquire_spec n st D A name am (length pre) f HI HA) as (ino & c & cc' & Ea & _ & _ & HF).
    { rewrite Hfs, nth_error_app2, Nat.sub_diag by lia. reflexivity. }
    fold (len pre) in Ea, HF. rewrite Ea in C0. injection C0 as Hcc Hr0. subst r0 cc'.
    cbn [h_geom h_ino].
    assert (HF1 : file_at st1 name (a_last am - len pre) f ino c) by exact HF.
    destruct (file_at_open _ _ _ _ _ _ HF1) as (Hc & Ho). rewrite Hc.
    pose proof HF1 as (Pp & _ & Hrep). rewrite (read_file_spec cb f c e acc Hrep).
    destruct (release_spec n st1 D A (path_of (w_root st) name (a_last am - len pre))
                (Handle ino (geom_of f)) HI1 Pp Ho) as (t & c2 & Er & HI2 & Hcap2).
    set (st2 := set_fch st1 t c2) in *.
    assert (Hso : same_opts st st2).
    { unfold same_opts; cbn in *. intuition congruence. }
    cbn [seq_read]. destruct (e <=? _) eqn:Eq.
    + rewrite Er. exists st2, v1, (acc, Ok tt). split; [reflexivity|]. split; [exact S1|]. split; [exact HI2|]. split; [exact Hso|]. left. reflexivity.
    + destruct (run_cb cb acc _) as [acc' [[]| | |]] eqn:Ecb; rewrite Er;
        try (eexists st2, v1, _; split; [reflexivity|]; split; [exact S1|]; split; [exact HI2|]; split; [exact Hso|]; left; reflexivity).
      specialize (IH (pre ++ [f]) st2 acc' v1 HI2).
      rewrite <- app_assoc in IH. specialize (IH Hfs).
      rewrite len_app in IH. change (len [f]) with 1 in IH.
      destruct IH as (st' & v' & res & Es & S2 & HI3 & Hso3 & C).
      replace (a_last am - len pre - 1) with (a_last am - (len pre + 1)) by lia.
      exists st', v', res. split; [exact Es|]. split; [congruence|]. split; [exact HI3|]. split; [eapply same_opts_trans; eassumption|].
      destruct C as [C|(r1 & r2 & acc2 & E1 & E2 & E3)]; [left; exact C|].
      right. exists (f :: r1), r2, acc2. split; [now rewrite E1|]. split; [|exact E3].
      cbn [seq_read]. rewrite Eq, Ecb. exact E2.
Qed.

(** the answer to a query: all of it, or the newest part of it and an error *)
Definition answer {X} (cb : callback X) (acc : X) (l : list value) (res : X * Base.res unit) : Prop :=
  res = finish_cb (run_cb cb acc l) \/
  exists l1 l2 acc', l = l1 ++ l2 /\ run_cb cb acc l1 = (acc', Ok true) /\ res = (acc', Err).

Lemma m_ReadF_spec {X} (cb : callback X) n st D A name am e acc v :
  Inv n st D A -> A name = Some am -> am_ok am ->
  exists st' v' res,
    m_ReadF cb (Metric (dir_of (w_root st) name) (a_first am) (a_last am)) e acc v st = (st', res, v') /\ snd v' = snd v /\
    Inv n st' D A /\ same_opts st st' /\ answer cb acc (a_query am e) res.
Proof.
  intros HI HA Hok. unfold m_ReadF. cbn [t_last t_first].
  replace (a_last am - a_first am + 1) with (len (a_files am)) by (unfold a_last; lia).
  unfold len. rewrite Nat2Z.id.
  destruct (m_ReadF__spec cb n D A name am e HA (a_files am) [] st acc v HI eq_refl) as (st' & v' & res & E & S & HI' & Hso & C).
  change (len (@nil afile)) with 0 in E. rewrite Z.sub_0_r in E. exists st', v', res.
  split; [exact E|]. split; [exact S|]. split; [exact HI'|]. split; [exact Hso|].
  rewrite <- (seq_vals_query am e Hok). destruct C as [->|(r1 & r2 & acc' & E1 & E2 & ->)].
  - left. apply seq_read_run.
  - right. destruct (seq_pre cb e r1 r2 acc acc' E2) as (E3 & E4). rewrite E1, E4. eauto 7.
Qed.
