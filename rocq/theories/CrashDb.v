(** What a process started after a crash reads. *)
From Coq Require Import ZArith List Lia Bool.
From Verif Require Import Base Maps Record Convert File FileProofs Cache CacheProofs
  Metric MetricSpec MetricFile MetricPaths MetricProofs MetricRead DbSpec DbProofs Crash CrashFile.
Import ListNotations.
Open Scope Z_scope.

(** A query of [name] whose bound is after every stored value gives the
    callback exactly the values [l], newest first. *)
Definition reads (st : db) (name : list Z) (l : list value) : Prop :=
  forall X (cb : callback X) e acc, 0 < e -> (forall x, In x l -> v_end x < e) ->
  snd (db_query cb name e acc st) = finish_cb (run_cb cb acc l).

(** the metric does not exist: a query answers with an error *)
Definition unknown (st : db) (name : list Z) : Prop :=
  forall X (cb : callback X) e acc, snd (db_query cb name e acc st) = (acc, Err).

(** ** handles in a state whose files may be damaged *)
Record Wk (st : db) : Prop := MkWk {
  k_cache : cinv (w_cache st);
  k_rand : rand_ok (c_rand (w_cache st));
  k_tokle : forall p t, mget beqb p (w_toks st) = Some t -> t <= c_tok (w_cache st);
  k_toks : forall p t h, mget beqb p (w_toks st) = Some t -> lookup (w_cache st) t = Some h ->
    mget beqb p (w_files st) = Some (h_ino h) /\
    openFile (contents st (h_ino h)) = Ok (h_geom h)
}.

Lemma wk_release st path h : Wk st ->
  mget beqb path (w_files st) = Some (h_ino h) ->
  openFile (contents st (h_ino h)) = Ok (h_geom h) ->
  exists t c, releaseFile path h st = set_fch st t c /\ Wk (set_fch st t c).
Proof.
  intros HI Hp Ho. unfold releaseFile.
  pose proof (put_spec handle_zero (w_cache st) h (k_cache _ HI) (k_rand _ HI)) as P.
  destruct (cache_put handle_zero (w_cache st) h) as [[c tok] ev].
  destruct P as (Hc & Hr & Hcap & Ht & Ht' & Hl).
  eexists _, _. split; [reflexivity|].
  constructor; auto.
  - cbn [w_toks w_cache set_fch]. intros p k. rewrite mget_put by apply eqb_ok_bytes. destruct (beqb path p).
    + intros [= <-]. lia.
    + intros G. apply (k_tokle _ HI) in G. lia.
  - cbn [w_toks w_cache set_fch w_files]. intros p k g. rewrite mget_put by apply eqb_ok_bytes. destruct (beqb path p) eqn:E.
    + apply beqb_eq in E. subst p. intros [= <-] G. apply Hl in G. destruct G as [[_ ->]|[? _]]; [auto|lia].
    + intros G1 G2. apply Hl in G2. destruct G2 as [[-> _]|[_ G2]].
      * apply (k_tokle _ HI) in G1. lia.
      * exact (k_toks _ HI p k g G1 G2).
Qed.

Lemma wk_acquire st path ino g : Wk st ->
  mget beqb path (w_files st) = Some ino -> openFile (contents st ino) = Ok g ->
  exists cc, acquireFile path true st = (set_fch st (w_toks st) cc, Ok (Handle ino g)) /\
             Wk (set_fch st (w_toks st) cc).
Proof.
  intros HI Hp Ho. unfold acquireFile. destruct (mget beqb path (w_toks st)) as [tok|] eqn:E.
  - pose proof (take_spec handle_zero (w_cache st) tok (k_cache _ HI)) as P.
    destruct (cache_take handle_zero (w_cache st) tok) as [c r].
    destruct P as (Hc & Hr & Hcap & Ht & Hres & Hl & _).
    exists c. split.
    + destruct r as [h|].
      * destruct (k_toks _ HI path tok h E (eq_sym Hres)) as (P1 & P2).
        rewrite Hp in P1. injection P1 as P1. rewrite <- P1, Ho in P2. injection P2 as P2.
        now rewrite (handle_eq h ino g).
      * unfold do_open. cbn [w_files set_fch]. rewrite Hp.
        change (contents (set_fch st (w_toks st) c) ino) with (contents st ino). now rewrite Ho.
    + constructor; auto.
      * cbn [w_cache set_fch]. rewrite Hr. exact (k_rand _ HI).
      * cbn [w_cache w_toks set_fch]. intros p k G. rewrite Ht. exact (k_tokle _ HI p k G).
      * cbn [w_cache w_toks w_files set_fch]. intros p k h G1 G2. rewrite Hl in G2. destruct (k =? tok); [discriminate|].
        exact (k_toks _ HI p k h G1 G2).
  - exists (w_cache st). assert (E1 : set_fch st (w_toks st) (w_cache st) = st) by (destruct st; reflexivity).
    rewrite E1. split; [|exact HI]. unfold do_open. now rewrite Hp, Ho.
Qed.

(** reading files of given contents one after the other *)
Fixpoint seq_rd {X} (cb : callback X) (e : Z) (cs : list (geom * list Z)) (acc : X) : X * res bool :=
  match cs with
  | [] => (acc, Ok true)
  | (g, c) :: r =>
      match read_file cb g c e acc with
      | (acc, Ok true) => seq_rd cb e r acc
      | other => other
      end
  end.

Lemma wk_read {X} (cb : callback X) m e : forall (fl : list (Z * geom * list Z)) num st acc,
  Wk st -> num - t_first m + 1 = len fl ->
  (forall k ino g c, nth_error fl k = Some (ino, g, c) ->
     mget beqb (filenameAt m (num - Z.of_nat k)) (w_files st) = Some ino /\
     contents st ino = c /\ openFile c = Ok g) ->
  snd (m_Read_ cb (length fl) m num e acc st) =
  finish_cb (seq_rd cb e (map (fun x => (snd (fst x), snd x)) fl) acc).
Proof.
  induction fl as [|[[ino g] c] fl IH]; intros num st acc HW Hnum Hfl; cbn [length m_Read_ map seq_rd].
  - change (len (@nil (Z * geom * list Z))) with 0 in Hnum.
    destruct (Z.ltb_spec num (t_first m)); [reflexivity|lia].
  - rewrite len_cons in Hnum. pose proof (len_nonneg fl).
    destruct (Z.ltb_spec num (t_first m)); [lia|].
    destruct (Hfl 0%nat ino g c eq_refl) as (P1 & P2 & P3). cbn [Z.of_nat] in P1. rewrite Z.sub_0_r in P1.
    rewrite <- P2 in P3. destruct (wk_acquire st _ ino g HW P1 P3) as (cc & -> & HW1).
    cbn [h_geom h_ino fst snd]. change (contents (set_fch st (w_toks st) cc) ino) with (contents st ino).
    rewrite P2. destruct (read_file cb g c e acc) as [acc1 r].
    destruct (wk_release _ _ (Handle ino g) HW1 P1 P3) as (t2 & c2 & -> & HW2).
    destruct r as [[]| | |]; try reflexivity.
    apply IH; [exact HW2|lia|]. intros k ino' g' c' E.
    specialize (Hfl (S k) ino' g' c' E).
    replace (num - 1 - Z.of_nat k) with (num - Z.of_nat (S k)) by lia. exact Hfl.
Qed.

(** ** where the files of a metric are *)
Lemma inv_files n st D A name am : Inv n st D A -> A name = Some am ->
  exists fl : list (Z * geom * list Z),
    map (fun x => snd (fst x)) fl = map geom_of (a_files am) /\
    length fl = length (a_files am) /\
    forall k ino g c, nth_error fl k = Some (ino, g, c) ->
      exists f, nth_error (a_files am) k = Some f /\ g = geom_of f /\
                file_at st name (a_last am - Z.of_nat k) f ino c.
Proof.
  intros HI HA.
  assert (H : forall rest pre, a_files am = pre ++ rest ->
    exists fl : list (Z * geom * list Z),
    map (fun x => snd (fst x)) fl = map geom_of rest /\ length fl = length rest /\
    forall k ino g c, nth_error fl k = Some (ino, g, c) ->
      exists f, nth_error rest k = Some f /\ g = geom_of f /\
                file_at st name (a_last am - Z.of_nat (length pre + k)) f ino c).
  { induction rest as [|f rest IH]; intros pre E.
    - exists []. split; [reflexivity|]. split; [reflexivity|]. intros [|k]; discriminate.
    - destruct (IH (pre ++ [f])) as (fl & E1 & E2 & H); [now rewrite <- app_assoc|].
      destruct (i_file _ _ _ _ HI name am (length pre) f HA) as (ino & c & HF).
      { rewrite E, nth_error_app2, Nat.sub_diag by lia. reflexivity. }
      exists ((ino, geom_of f, c) :: fl). cbn [map length fst snd]. rewrite E1, E2.
      split; [reflexivity|]. split; [reflexivity|]. intros [|k] ino' g' c' Ek; cbn [nth_error] in *.
      + injection Ek as <- <- <-. exists f. rewrite Nat.add_0_r. auto.
      + destruct (H k ino' g' c' Ek) as (f' & F1 & F2 & F3). exists f'. split; [exact F1|]. split; [exact F2|].
        rewrite app_length in F3. cbn [length] in F3.
        replace (length pre + S k)%nat with (length pre + 1 + k)%nat by lia. exact F3. }
  destruct (H (a_files am) [] eq_refl) as (fl & E1 & E2 & E3). exists fl. auto.
Qed.

Lemma seq_rd_files {X} (cb : callback X) e : forall (cs : list (geom * list Z)) fs acc,
  Forall2 (fun x f => fst x = geom_of f /\ file_rep f (snd x)) cs fs ->
  seq_rd cb e cs acc = seq_read cb e fs acc.
Proof.
  intros cs fs acc H. revert acc. induction H as [|[g c] f cs fs [E HF] H IH]; intros acc; [reflexivity|].
  cbn [fst snd] in *. subst g. cbn [seq_rd seq_read]. rewrite (read_file_spec cb f c e acc HF).
  destruct (_ <=? _); [reflexivity|]. destruct (run_cb cb acc _) as [acc' [[]| | |]]; auto.
Qed.

Lemma located : forall (fl : list (Z * geom * list Z)) rest, length fl = length rest ->
  (forall k ino g c, nth_error fl k = Some (ino, g, c) ->
     exists f, nth_error rest k = Some f /\ g = geom_of f /\ file_rep f c) ->
  Forall2 (fun (x : geom * list Z) f => fst x = geom_of f /\ file_rep f (snd x))
          (map (fun x => (snd (fst x), snd x)) fl) rest.
Proof.
  induction fl as [|[[i1 g1] c1] fl IH]; intros rest L H; destruct rest as [|f1 rest]; try discriminate; [constructor|].
  cbn [map fst snd]. constructor.
  - destruct (H 0%nat i1 g1 c1 eq_refl) as (f2 & E1 & E2 & E3). cbn in E1. injection E1 as <-. auto.
  - apply IH; [cbn in L; lia|]. intros k i2 g2 c2 Ek. exact (H (S k) i2 g2 c2 Ek).
Qed.

(** newMetric looks at names only *)
Lemma newMetric_same n st D A name am t : Inv n st D A -> A name = Some am ->
  w_files t = w_files st -> w_dirs t = w_dirs st -> w_root t = w_root st ->
  newMetric name true t = (t, Ok (Metric (dir_of (w_root st) name) (a_first am) (a_last am))).
Proof.
  intros HI HA E1 E2 E3. pose proof (newMetric_some n st D A name am true HI HA) as H.
  unfold newMetric in *. rewrite E3 in *.
  assert (Ed : dir_exists (metricDir (w_root st) name) t = dir_exists (metricDir (w_root st) name) st)
    by (unfold dir_exists; now rewrite E2).
  assert (El : listdir (metricDir (w_root st) name) t = listdir (metricDir (w_root st) name) st)
    by (unfold listdir; now rewrite E1, E2).
  rewrite Ed.
  assert (Hd : dir_exists (metricDir (w_root st) name) st = true).
  { fold (dir_of (w_root st) name). apply dir_exists_iff; [exact (i_root _ _ _ _ HI)|]. rewrite (i_dirs _ _ _ _ HI).
    exact (i_dir _ _ _ _ HI name am HA). }
  rewrite Hd in *. cbv zeta in *. cbn [negb] in *. rewrite El.
  destruct (fold_left scan_step _ _) as [[first last] fs] eqn:Es.
  assert (Hfs : fs = true).
  { destruct (i_num _ _ _ _ HI name am HA) as (H1 & H2 & H3).
    assert (a_first am <= a_last am).
    { unfold a_last, len. destruct (a_files am); [contradiction|cbn [length]; lia]. }
    rewrite (scan_range _ (a_first am) (a_last am)) in Es; auto.
    - now injection Es.
    - intros i Hi. apply (listing n st D A name i HI) in Hi. destruct Hi as (am' & HA' & Hr).
      rewrite HA in HA'. injection HA' as <-. exact Hr.
    - apply (listing n st D A name _ HI). exists am. split; [exact HA|]. lia.
    - apply (listing n st D A name _ HI). exists am. split; [exact HA|]. lia. }
  subst fs. congruence.
Qed.

(** ** reading a damaged state: the contents of one inode have been replaced *)
Lemma wk_reopen st size cap max handles rand : process_ok size cap handles rand ->
  Wk (db_reopen size cap max handles rand st).
Proof.
  intros (Ho & Hh & Hr). constructor; cbn; try discriminate; auto. now apply cinv_new.
Qed.

Lemma values_all vs e : (forall x, In x vs -> v_end x < e) -> filter (fun v => v_end v <? e) vs = vs.
Proof. intros H. apply filter_all. intros x Hx. apply Z.ltb_lt. auto. Qed.

(** the metric whose newest file is damaged *)
Lemma damaged_reads n st D A name am f older ino c ct vs size cap max handles rand :
  Inv n st D A -> A name = Some am -> a_files am = f :: older ->
  file_at st name (a_last am) f ino c ->
  process_ok size cap handles rand ->
  Forall (fun g => a_vals g <> []) (removelast older) ->
  openFile ct = Ok (geom_of f) ->
  (forall x, In x (a_vals f) -> In x vs) ->
  (forall X (cb : callback X) e acc, read_file cb (geom_of f) ct e acc =
      if e <=? smallest_of f then (acc, Ok false)
      else run_cb cb acc (filter (fun v => v_end v <? e) vs)) ->
  reads (db_reopen size cap max handles rand (set_contents st ino ct)) name
        (vs ++ flat_map a_vals older).
Proof.
  intros HI HA Hfs HF Hp Hne Ho Hin Hrd X cb e acc He Hlt.
  set (t := db_reopen _ _ _ _ _ _). unfold db_query.
  rewrite (newMetric_same n st D A name am t HI HA) by reflexivity.
  unfold m_Read. cbn [t_last t_first].
  destruct (inv_files n st D A name am HI HA) as (fl & G1 & G2 & G3).
  destruct fl as [|[[ino0 g0] c0] fl]; [rewrite Hfs in G2; discriminate|].
  destruct (G3 0%nat ino0 g0 c0 eq_refl) as (f0 & F1 & -> & F3).
  rewrite Hfs in F1. cbn in F1. injection F1 as <-.
  cbn [Z.of_nat] in F3. rewrite Z.sub_0_r in F3.
  pose proof HF as (P1 & P2 & P3). pose proof F3 as (Q1 & Q2 & Q3).
  rewrite P1 in Q1. injection Q1 as <-.
  replace (a_last am - a_first am + 1) with (len (a_files am)) by (unfold a_last; lia).
  unfold len. rewrite Nat2Z.id, Hfs. cbn [length].
  assert (Hlen : length fl = length older) by (rewrite Hfs in G2; cbn in G2; lia).
  rewrite <- Hlen.
  change (S (length fl)) with (length ((ino, geom_of f, ct) :: fl)).
  rewrite (wk_read cb _ e ((ino, geom_of f, ct) :: fl)).
  - cbn [map seq_rd fst snd]. rewrite Hrd.
    assert (Hs : e <=? smallest_of f = false).
    { unfold smallest_of. destruct (oldest_end f) as [o|] eqn:Eo; [|apply Z.leb_gt; lia].
      destruct (oldest_in f o Eo) as (w & Hw & <-). apply Z.leb_gt. apply Hlt, in_app_iff. left. auto. }
    rewrite Hs, values_all by (intros x Hx; apply Hlt, in_app_iff; now left).
    rewrite run_cb_app. destruct (run_cb cb acc vs) as [acc' [[]| | |]]; try reflexivity.
    rewrite (seq_rd_files cb e _ older).
    + apply seq_read_all; [exact Hne|]. intros x Hx. apply Hlt, in_app_iff. now right.
    + apply located; [exact Hlen|].
      intros k i2 g2 c2 Ek.
      destruct (G3 (S k) i2 g2 c2 Ek) as (f2 & E1 & E2 & E3). exists f2.
      rewrite Hfs in E1. cbn in E1. split; [exact E1|]. split; [exact E2|]. apply E3.
  - now apply wk_reopen.
  - cbn [t_first]. rewrite len_cons. unfold len at 1. rewrite Hlen. fold (len older).
    unfold a_last. rewrite Hfs, len_cons. lia.
  - intros [|k] i2 g2 c2 Ek; cbn [nth_error] in Ek.
    + injection Ek as <- <- <-. cbn [Z.of_nat]. rewrite Z.sub_0_r. split; [exact P1|].
      split; [|exact Ho]. unfold t, contents, db_reopen, set_contents, set_ino; cbn [w_ino].
      now rewrite mget_put_same by apply eqb_ok_Z.
    + destruct (G3 (S k) i2 g2 c2 Ek) as (f2 & E1 & E2 & E3). pose proof E3 as (R1 & R2 & R3).
      split; [exact R1|].
      assert (i2 <> ino).
      { intros ->. pose proof (i_inj _ _ _ _ HI _ _ _ P1 R1) as Ex.
        apply (path_neq st n D A name am (a_last am) name) in Ex; auto.
        - destruct Ex as [_ Ex]. lia.
        - unfold a_last. rewrite Hfs, len_cons. pose proof (len_nonneg older). lia.
        - apply (num_range n st D A name am); auto.
          assert (S k < length (a_files am))%nat as Hk by (apply nth_error_Some; congruence).
          apply (last_range am (S k) Hk). }
      split.
      * unfold t, contents, db_reopen, set_contents, set_ino; cbn [w_ino].
        rewrite mget_put_other by (auto using eqb_ok_Z). now rewrite R2.
      * subst g2. now apply file_rep_open.
Qed.

(** the other metrics *)
Lemma damaged_others n st D A name i f ino c ct name' am' size cap max handles rand am :
  Inv n st D A -> A name = Some am -> a_first am <= i <= a_last am -> file_at st name i f ino c ->
  process_ok size cap handles rand ->
  A name' = Some am' -> am_ok am' -> name' <> name ->
  reads (db_reopen size cap max handles rand (set_contents st ino ct)) name' (a_values am').
Proof.
  intros HI HA Hi HF Hp HA' (Hd & Hne & Hall) Hnn X cb e acc He Hlt.
  set (t := db_reopen _ _ _ _ _ _). unfold db_query.
  rewrite (newMetric_same n st D A name' am' t HI HA') by reflexivity.
  unfold m_Read. cbn [t_last t_first].
  destruct (inv_files n st D A name' am' HI HA') as (fl & G1 & G2 & G3).
  replace (a_last am' - a_first am' + 1) with (len (a_files am')) by (unfold a_last; lia).
  unfold len. rewrite Nat2Z.id, <- G2.
  rewrite (wk_read cb _ e fl).
  - rewrite (seq_rd_files cb e _ (a_files am')).
    + unfold a_values. apply seq_read_all; [exact Hall|exact Hlt].
    + apply located; [exact G2|].
      intros k i2 g2 c2 Ek. destruct (G3 k i2 g2 c2 Ek) as (f2 & E1 & E2 & E3).
      exists f2. split; [exact E1|]. split; [exact E2|]. apply E3.
  - now apply wk_reopen.
  - cbn [t_first]. unfold len. rewrite G2. fold (len (a_files am')). unfold a_last. lia.
  - intros k i2 g2 c2 Ek. destruct (G3 k i2 g2 c2 Ek) as (f2 & E1 & E2 & E3). pose proof E3 as (R1 & R2 & R3).
    split; [exact R1|]. pose proof HF as (P1 & P2 & P3).
    assert (i2 <> ino).
    { intros ->. pose proof (i_inj _ _ _ _ HI _ _ _ P1 R1) as Ex.
      apply (path_neq st n D A name am i name') in Ex; auto.
      - destruct Ex as [Ex _]. congruence.
      - apply (num_range n st D A name' am'); auto.
        assert (k < length (a_files am'))%nat as Hk by (apply nth_error_Some; congruence).
        apply (last_range am' k Hk). }
    split.
    + unfold t, contents, db_reopen, set_contents, set_ino; cbn [w_ino].
      rewrite mget_put_other by (auto using eqb_ok_Z). now rewrite R2.
    + subst g2. now apply file_rep_open.
Qed.

(** a clean state *)
Lemma inv_reads n st D A name am : Inv n st D A -> A name = Some am -> am_ok am ->
  reads st name (a_values am).
Proof.
  intros HI HA Hok X cb e acc He Hlt. unfold db_query.
  rewrite (newMetric_some n st D A name am true HI HA).
  destruct (m_Read_spec cb n st D A name am e acc HI HA Hok) as (st' & -> & _). cbn [snd].
  f_equal. f_equal. unfold a_query. unfold a_values in *.
  destruct (a_files am) as [|f older] eqn:Hfs; [reflexivity|].
  destruct (oldest_end f) as [o|] eqn:Eo.
  - destruct (oldest_in f o Eo) as (w & Hw & <-).
    destruct (Z.leb_spec e (v_end w)) as [Hle|_].
    + specialize (Hlt w). cbn [flat_map] in Hlt. rewrite in_app_iff in Hlt. specialize (Hlt (or_introl Hw)). lia.
    + now apply values_all.
  - now apply values_all.
Qed.

Lemma inv_unknown n st D A name : Inv n st D A -> A name = None ->
  (existsb (beqb (clean_dir (dir_of (w_root st) name))) D = false /\ unknown st name) \/
  reads st name [].
Proof.
  intros HI HA. destruct (newMetric_none n st D A name true HI HA) as [(_ & Ee & E)|(He & st' & E & Hso & HI')].
  - left. split; [exact Ee|]. intros X cb e acc. unfold db_query. now rewrite E.
  - right. intros X cb e acc He0 _. unfold db_query. rewrite E.
    destruct Hso as (S1 & S2 & S3 & S4 & S5).
    destruct (m_Read_spec cb n st' _ _ name (a_fresh (w_size st) (w_cap st)) e acc HI'
                  (aput_same _ _ _) (a_fresh_ok _ _)) as (st2 & Er & HI2 & Hso2).
    rewrite S4 in Er. change (a_first (a_fresh (w_size st) (w_cap st))) with 1 in Er.
    change (a_last (a_fresh (w_size st) (w_cap st))) with 1 in Er. rewrite Er. reflexivity.
Qed.
