(** Files that createFile left unfinished do not disturb other metrics: the
    calls of Fault.v commute with hiding them, and never touch their contents. *)
From Coq Require Import ZArith List Lia Bool.
From Verif Require Import Base Maps Record Convert ConvertProofs File FileProofs Cache CacheProofs
  Metric MetricSpec MetricFile MetricPaths MetricProofs MetricRead DbSpec DbProofs DbLog Fault FaultProofs.
Import ListNotations.
Open Scope Z_scope.

(** ** the state without the files of [P] *)
Definition kept (P : list (list Z)) (x : list Z * Z) : bool := negb (existsb (beqb (fst x)) P).
Definition rm (P : list (list Z)) (st : db) : db := set_files st (filter (kept P) (w_files st)).

(** nothing of [P] is in [dir] *)
Definition off (P : list (list Z)) (dir : list Z) : Prop :=
  (forall p, In p P -> child_of (clean_dir dir) p = []) /\ forall i, ~ In (metricFilenameAt dir i) P.

Lemma in_existsb p P : existsb (beqb p) P = true <-> In p P.
Proof.
  rewrite existsb_exists. split; [intros (x & Hx & E); apply beqb_eq in E; now subst|].
  intros H. exists p. split; [exact H|apply beqb_refl].
Qed.
Lemma kept_true P p (x : Z) : ~ In p P -> kept P (p, x) = true.
Proof. intros H. unfold kept. cbn [fst]. destruct (existsb _ _) eqn:E; [|reflexivity]. apply in_existsb in E. contradiction. Qed.
Lemma mget_kept P p (m : list (list Z * Z)) : ~ In p P -> mget beqb p (filter (kept P) m) = mget beqb p m.
Proof.
  intros H. induction m as [|[q x] m IH]; [reflexivity|]. cbn [filter].
  destruct (kept P (q, x)) eqn:K; cbn [mget]; [now rewrite IH|].
  destruct (beqb p q) eqn:E; [|exact IH]. apply beqb_eq in E. subst q. rewrite kept_true in K by assumption. discriminate.
Qed.
Lemma mget_gone P p (m : list (list Z * Z)) : In p P -> mget beqb p (filter (kept P) m) = None.
Proof.
  intros H. induction m as [|[q x] m IH]; [reflexivity|]. cbn [filter].
  destruct (kept P (q, x)) eqn:K; [|exact IH]. cbn [mget].
  destruct (beqb p q) eqn:E; [|exact IH]. apply beqb_eq in E. subst q. unfold kept in K. cbn [fst] in K.
  apply in_existsb in H. rewrite H in K. discriminate.
Qed.
Lemma filter_comm {X} (f g : X -> bool) l : filter f (filter g l) = filter g (filter f l).
Proof.
  induction l as [|x l IH]; [reflexivity|]. cbn. destruct (f x) eqn:F, (g x) eqn:G; cbn; rewrite ?F, ?G, IH; reflexivity.
Qed.
Lemma mdel_kept P p (m : list (list Z * Z)) : mdel beqb p (filter (kept P) m) = filter (kept P) (mdel beqb p m).
Proof. unfold mdel. apply filter_comm. Qed.
Lemma mput_kept P p (x : Z) (m : list (list Z * Z)) : ~ In p P -> mput beqb p x (filter (kept P) m) = filter (kept P) (mput beqb p x m).
Proof. intros H. unfold mput. cbn [filter]. rewrite kept_true by assumption. now rewrite mdel_kept. Qed.

Lemma rm_listdir P dir st : off P dir -> listdir dir (rm P st) = listdir dir st.
Proof.
  intros (H & _). unfold listdir. f_equal. cbn [rm w_files set_files].
  induction (w_files st) as [|[q x] m IH]; [reflexivity|]. cbn [filter].
  destruct (kept P (q, x)) eqn:K; cbn [map flat_map fst]; rewrite IH; [reflexivity|].
  unfold kept in K. apply negb_false_iff in K. apply in_existsb in K. cbn [fst] in K. now rewrite (H q K).
Qed.

(** one call gives the same answer, and leaves the same state, with and without them *)
Definition same {T} (P : list (list Z)) (big small : db * T * env) : Prop :=
  small = (rm P (fst (fst big)), snd (fst big), snd big).

Lemma c_open P p e st : ~ In p P -> do_openF p e (rm P st) = do_openF p e st.
Proof. intros H. unfold do_openF. cbn [rm w_files set_files]. now rewrite mget_kept. Qed.
Lemma c_create P p e st : ~ In p P -> same P (do_createF p e st) (do_createF p e (rm P st)).
Proof.
  intros H. unfold same, do_createF. destruct (next_call e) as [[]]; [reflexivity|]. destruct (next_make e0) as [k e1].
  cbn [rm w_files w_size w_cap w_next w_ino set_files]. rewrite mget_kept by assumption.
  destruct (match createFile (w_size st) (w_cap st) with (_, _) => _ end) as [c r].
  destruct (mget beqb p (w_files st)); cbn [fst snd]; [reflexivity|]. f_equal. f_equal.
  unfold rm, set_contents, set_files. cbn [w_files w_dirs w_toks w_cache w_size w_cap w_max w_root w_ino w_next]. rewrite mput_kept by assumption. reflexivity.
Qed.
Lemma c_acquire P p ex e st : ~ In p P -> same P (acquireFileF p ex e st) (acquireFileF p ex e (rm P st)).
Proof.
  intros H. unfold same, acquireFileF. cbn [rm w_toks w_cache set_files].
  destruct (mget beqb p (w_toks st)) as [tok|].
  - destruct (cache_take handle_zero (w_cache st) tok) as [c [f|]]; [reflexivity|].
    change (set_fch (rm P st) (w_toks st) c) with (rm P (set_fch st (w_toks st) c)).
    fold (rm P st). change (set_fch (rm P st) (w_toks st) c) with (rm P (set_fch st (w_toks st) c)).
    destruct ex; [|now apply c_create]. rewrite c_open by assumption. destruct (do_openF _ _ _). reflexivity.
  - fold (rm P st). destruct ex; [|now apply c_create]. rewrite c_open by assumption. destruct (do_openF _ _ _). reflexivity.
Qed.
Lemma c_release P p h st : releaseFile p h (rm P st) = rm P (releaseFile p h st).
Proof. unfold releaseFile. cbn [rm w_cache set_files]. destruct (cache_put _ _ _) as [[c t] ev]. reflexivity. Qed.
Lemma c_evict P p st : evictFile p (rm P st) = rm P (evictFile p st).
Proof. unfold evictFile. cbn [rm w_cache w_toks set_files]. destruct (mget _ _ _); [|reflexivity]. destruct (cache_take _ _ _) as [c t]. reflexivity. Qed.
Lemma c_remove P p e st : osRemoveF p e (rm P st) = (rm P (fst (osRemoveF p e st)), snd (osRemoveF p e st)).
Proof.
  unfold osRemoveF. destruct (next_call e) as [[] e1]; [reflexivity|]. cbn [fst snd]. f_equal.
  unfold osRemove, rm, set_files. cbn [w_files w_dirs w_toks w_cache w_size w_cap w_max w_root w_ino w_next]. now rewrite mdel_kept.
Qed.
Lemma c_dir P dir ro e st : same P (open_dirF dir ro e st) (open_dirF dir ro e (rm P st)).
Proof.
  unfold same, open_dirF. destruct (next_call e) as [[] e1]; [reflexivity|].
  change (dir_exists dir (rm P st)) with (dir_exists dir st). unfold mkdirAll.
  destruct (dir_exists dir st); [destruct (next_call e1) as [[] e2]; reflexivity|]. destruct ro; [reflexivity|].
  destruct (next_call e1) as [[] e2]; [reflexivity|]. destruct (len dir =? 0); [reflexivity|].
  destruct (next_call e2) as [[] e3]; [reflexivity|]. destruct (next_call e3) as [[] e4]; reflexivity.
Qed.
Lemma c_new P name ro e st : off P (metricDir (w_root st) name) -> same P (newMetricF name ro e st) (newMetricF name ro e (rm P st)).
Proof.
  intros Ho. unfold same, newMetricF. change (w_root (rm P st)) with (w_root st).
  set (dir := metricDir (w_root st) name) in *. pose proof (c_dir P dir ro e st) as C. unfold same in C.
  destruct (open_dirF dir ro e st) as [[st1 ok] e1]. cbn [fst snd] in C. rewrite C. destruct ok; [|reflexivity]. cbn [negb].
  rewrite rm_listdir by exact Ho. destruct (fold_left _ _ _) as [[first last] []]; [reflexivity|].
  pose proof (c_acquire P (metricFilenameAt dir 1) false e1 st1 (proj2 Ho 1)) as C2. unfold same in C2.
  destruct (acquireFileF _ false e1 st1) as [[st2 r2] e2]. cbn [fst snd] in C2. rewrite C2.
  destruct r2; try reflexivity. cbn [fst snd]. now rewrite c_release.
Qed.
Lemma c_last P dir fuel : off P dir -> forall m e st, t_dir m = dir -> same P (acquireLastF_ fuel m e st) (acquireLastF_ fuel m e (rm P st)).
Proof.
  intros Ho. induction fuel as [|fuel IH]; intros m e st Hm; cbn [acquireLastF_]; unfold same; destruct (t_last m <? t_first m); try reflexivity.
  assert (Hp : ~ In (filenameAt m (t_last m)) P) by (unfold filenameAt; rewrite Hm; apply Ho).
  pose proof (c_acquire P (filenameAt m (t_last m)) true e st Hp) as C. unfold same in C.
  destruct (acquireFileF _ true e st) as [[st1 r1] e1]. cbn [fst snd] in C. rewrite C. destruct r1 as [f| | |]; try reflexivity.
  change (contents (rm P st1) (h_ino f)) with (contents st1 (h_ino f)).
  destruct (getHeadPointer _ _) as [head| | |]; try reflexivity; [|cbn [fst snd]; now rewrite c_release].
  destruct ((head =? _) && _); [|reflexivity]. rewrite c_release, c_remove.
  destruct (osRemoveF _ e1 _) as [st2 e2]. cbn [fst snd]. now apply IH.
Qed.
Lemma c_into P f head nr s e d st : write_into f head nr s e d (rm P st) = (rm P (fst (write_into f head nr s e d st)), snd (write_into f head nr s e d st)).
Proof.
  unfold write_into. change (contents (rm P st) (h_ino f)) with (contents st (h_ino f)).
  repeat match goal with |- context [match ?x with _ => _ end] => destruct x end; reflexivity.
Qed.
Lemma c_roll P m s en d e st : off P (t_dir m) -> same P (roll_overF m s en d e st) (roll_overF m s en d e (rm P st)).
Proof.
  intros Ho. unfold same, roll_overF. change (w_max (rm P st)) with (w_max st).
  assert (Hp : ~ In (filenameAt m (t_last m + 1)) P) by (apply Ho).
  assert (C0 : (if (w_max st <=? t_last m - t_first m) && (0 <? w_max st)
          then osRemoveF (filenameAt m (t_first m)) e (evictFile (filenameAt m (t_first m)) (rm P st)) else (rm P st, e)) =
     let '(a, b) := (if (w_max st <=? t_last m - t_first m) && (0 <? w_max st)
          then osRemoveF (filenameAt m (t_first m)) e (evictFile (filenameAt m (t_first m)) st) else (st, e)) in (rm P a, b)).
  { destruct ((w_max st <=? _) && _); [|reflexivity]. rewrite c_evict, c_remove. destruct (osRemoveF _ _ _). reflexivity. }
  rewrite C0. clear C0. destruct (if _ && _ then _ else _) as [st1 e1].
  pose proof (c_acquire P (filenameAt m (t_last m + 1)) false e1 st1 Hp) as C. unfold same in C.
  destruct (acquireFileF _ false e1 st1) as [[st2 r2] e2]. cbn [fst snd] in C. rewrite C. destruct r2 as [f| | |]; try reflexivity.
  destruct (numRecords _ _) as [nr| | |]; cbn [fst snd]; try (now rewrite c_release).
  destruct (nr =? 0); cbn [fst snd]; [now rewrite c_release|]. destruct (g_cap (h_geom f) - nr <? 0); cbn [fst snd]; [now rewrite c_release|].
  rewrite c_into. destruct (write_into _ _ _ _ _ _ st2) as [st3 r3]. cbn [fst snd]. now rewrite c_release.
Qed.
Lemma last_dir fuel : forall m e st f head m1, snd (fst (acquireLastF_ fuel m e st)) = Ok (f, head, m1) -> t_dir m1 = t_dir m.
Proof.
  induction fuel as [|fuel IH]; intros m e st f head m1; cbn [acquireLastF_]; destruct (t_last m <? t_first m); try discriminate.
  destruct (acquireFileF _ true e st) as [[st1 [h| | |]] e1]; try discriminate.
  destruct (getHeadPointer _ _) as [hd| | |]; try discriminate. destruct ((hd =? _) && _).
  - destruct (osRemoveF _ _ _) as [st2 e2]. intros H. apply IH in H. exact H.
  - cbn. intros [= _ _ <-]. reflexivity.
Qed.
Lemma c_write P m s en d e st : off P (t_dir m) -> same P (m_WriteF m s en d e st) (m_WriteF m s en d e (rm P st)).
Proof.
  intros Ho. unfold same, m_WriteF, acquireLastF.
  pose proof (c_last P (t_dir m) (Z.to_nat (t_last m - t_first m + 1)) Ho m e st eq_refl) as C. unfold same in C.
  pose proof (last_dir (Z.to_nat (t_last m - t_first m + 1)) m e st) as Hd.
  destruct (acquireLastF_ _ m e st) as [[st1 r1] e1]. cbn [fst snd] in C. rewrite C. destruct r1 as [[[f head] m1]| | |]; try reflexivity.
  specialize (Hd f head m1 eq_refl). rewrite <- Hd in Ho.
  assert (C2 : same P (write_withF m1 f head s en d e1 st1) (write_withF m1 f head s en d e1 (rm P st1))).
  { unfold same, write_withF. change (contents (rm P st1) (h_ino f)) with (contents st1 (h_ino f)).
    destruct (if f_has_record _ _ _ then _ else _); [reflexivity|].
    destruct (numRecords _ _) as [nr| | |]; try reflexivity. destruct (nr =? 0); [reflexivity|].
    destruct (head + 1 - nr <? 0).
    - destruct (_ && _); [reflexivity|]. now apply c_roll.
    - rewrite c_into. destruct (write_into _ _ _ _ _ _ st1). reflexivity. }
  unfold same in C2. destruct (write_withF m1 f head s en d e1 st1) as [[st2 r2] e2]. cbn [fst snd] in C2. rewrite C2. cbn [fst snd]. now rewrite c_release.
Qed.
Lemma c_read {X} (cb : callback X) P m end_ fuel : off P (t_dir m) -> forall num acc e st,
  same P (m_ReadF_ cb fuel m num end_ acc e st) (m_ReadF_ cb fuel m num end_ acc e (rm P st)).
Proof.
  intros Ho. induction fuel as [|fuel IH]; intros num acc e st; unfold same; cbn [m_ReadF_]; destruct (num <? t_first m); try reflexivity.
  pose proof (c_acquire P (filenameAt m num) true e st (proj2 Ho num)) as C. unfold same in C.
  destruct (acquireFileF _ true e st) as [[st1 r1] e1]. cbn [fst snd] in C. rewrite C. destruct r1 as [f| | |]; try reflexivity.
  change (contents (rm P st1) (h_ino f)) with (contents st1 (h_ino f)).
  destruct (read_file _ _ _ _ _) as [acc1 [[]| | |]]; cbn [fst snd]; rewrite c_release; try reflexivity. apply IH.
Qed.

Lemma new_dir name ro e st m : snd (fst (newMetricF name ro e st)) = Ok m -> t_dir m = metricDir (w_root st) name.
Proof.
  unfold newMetricF. destruct (open_dirF _ ro e st) as [[st1 []] e1]; [|discriminate]. cbn [negb].
  destruct (fold_left _ _ _) as [[first last] []]; [cbn; intros [= <-]; reflexivity|].
  destruct (acquireFileF _ false e1 st1) as [[st2 [| | |]] e2]; try discriminate. cbn. intros [= <-]. reflexivity.
Qed.

(** the metric an operation is about *)
Definition op_name (o : op) : option (list Z) :=
  match o with OWrite name _ | OQuery name _ | OLatest name => Some name | OReopen _ _ _ _ _ => None end.

Lemma f_step_rm P o e st : (forall name, op_name o = Some name -> off P (metricDir (w_root st) name)) ->
  f_step o e (rm P st) = (rm P (fst (f_step o e st)), snd (f_step o e st)).
Proof.
  intros Ho. destruct o as [name v|name end_|name|]; cbn [f_step op_name] in *; [| | |reflexivity].
  - specialize (Ho name eq_refl). unfold db_writeF. pose proof (c_new P name false e st Ho) as C. unfold same in C.
    pose proof (new_dir name false e st) as Hd.
    destruct (newMetricF name false e st) as [[st1 r1] e1]. cbn [fst snd] in C. rewrite C. destruct r1 as [m| | |]; try reflexivity.
    specialize (Hd m eq_refl). rewrite <- Hd in Ho. pose proof (c_write P m (v_start v) (v_end v) (v_data v) e1 st1 Ho) as C2. unfold same in C2.
    rewrite C2. destruct (m_WriteF m _ _ _ e1 st1) as [[st2 r2] e2]. reflexivity.
  - specialize (Ho name eq_refl). unfold db_queryF. pose proof (c_new P name true e st Ho) as C. unfold same in C.
    pose proof (new_dir name true e st) as Hd.
    destruct (newMetricF name true e st) as [[st1 r1] e1]. cbn [fst snd] in C. rewrite C. destruct r1 as [m| | |]; try reflexivity.
    specialize (Hd m eq_refl). rewrite <- Hd in Ho. unfold m_ReadF.
    pose proof (c_read collect_cb P m end_ (Z.to_nat (t_last m - t_first m + 1)) Ho (t_last m) [] e1 st1) as C2. unfold same in C2.
    rewrite C2. destruct (m_ReadF_ collect_cb _ m _ _ _ e1 st1) as [[st2 [l2 r2]] e2]. reflexivity.
  - specialize (Ho name eq_refl). unfold db_queryF. pose proof (c_new P name true e st Ho) as C. unfold same in C.
    pose proof (new_dir name true e st) as Hd.
    destruct (newMetricF name true e st) as [[st1 r1] e1]. cbn [fst snd] in C. rewrite C. destruct r1 as [m| | |]; try reflexivity.
    specialize (Hd m eq_refl). rewrite <- Hd in Ho. unfold m_ReadF.
    pose proof (c_read latest_cb P m (2 ^ 63 - 1) (Z.to_nat (t_last m - t_first m + 1)) Ho (t_last m) None e1 st1) as C2. unfold same in C2.
    rewrite C2. destruct (m_ReadF_ latest_cb _ m _ _ _ e1 st1) as [[st2 [l2 r2]] e2]. reflexivity.
Qed.

(** ** the contents of an inode nobody can reach stay as they are *)
Record J (x : Z) (c : list Z) (st : db) : Prop := MkJ {
  j_cache : cinv (w_cache st);
  j_rand : rand_ok (c_rand (w_cache st));
  j_tokle : forall p t, mget beqb p (w_toks st) = Some t -> t <= c_tok (w_cache st);
  j_toks : forall p t h, mget beqb p (w_toks st) = Some t -> lookup (w_cache st) t = Some h -> h_ino h <> x;
  j_next : x < w_next st;
  j_files : forall p, mget beqb p (w_files st) <> Some x;
  j_cont : contents st x = c
}.
Definition J2 {T} (x : Z) (c : list Z) (r : db * T * env) : Prop := J x c (fst (fst r)).

Lemma j_dirs x c st D : J x c st -> J x c (set_dirs st D).
Proof. intros []. constructor; assumption. Qed.
Lemma j_write x c st ino d : J x c st -> ino <> x -> J x c (set_contents st ino d).
Proof.
  intros [] Hn. constructor; try assumption. rewrite <- j_cont0. unfold contents, set_contents. cbn [w_ino set_ino].
  rewrite mget_put_other; [reflexivity|apply eqb_ok_Z|exact Hn].
Qed.
Lemma j_take x c st tok : J x c st -> forall p, mget beqb p (w_toks st) = Some tok ->
  J x c (set_fch st (w_toks st) (fst (cache_take handle_zero (w_cache st) tok))) /\
  J x c (set_fch st (mdel beqb p (w_toks st)) (fst (cache_take handle_zero (w_cache st) tok))) /\
  (forall h, snd (cache_take handle_zero (w_cache st) tok) = Some h -> h_ino h <> x).
Proof.
  intros HJ p Hp. destruct HJ. pose proof (take_spec handle_zero (w_cache st) tok j_cache0) as T.
  destruct (cache_take handle_zero (w_cache st) tok) as [cc r]. cbn [fst snd].
  destruct T as (Hc & Hr & Hcap & Ht & Hres & Hlk & _).
  split; [|split].
  - constructor; cbn [set_fch w_cache w_toks w_files w_next]; try assumption.
    + now rewrite Hr.
    + rewrite Ht. exact j_tokle0.
    + intros q t h G1 G2. rewrite Hlk in G2. destruct (t =? tok); [discriminate|]. eapply j_toks0; eauto.
  - constructor; cbn [set_fch w_cache w_toks w_files w_next]; try assumption.
    + now rewrite Hr.
    + intros q t. rewrite mget_del by apply eqb_ok_bytes. destruct (beqb p q); [discriminate|]. rewrite Ht. apply j_tokle0.
    + intros q t h. rewrite mget_del by apply eqb_ok_bytes. destruct (beqb p q); [discriminate|].
      intros G1 G2. rewrite Hlk in G2. destruct (t =? tok); [discriminate|]. eapply j_toks0; eauto.
  - intros h ->. symmetry in Hres. eapply j_toks0; eauto.
Qed.
Lemma j_release x c st p h : J x c st -> h_ino h <> x -> J x c (releaseFile p h st).
Proof.
  intros HJ Hh. destruct HJ. unfold releaseFile. pose proof (put_spec handle_zero (w_cache st) h j_cache0 j_rand0) as T.
  destruct (cache_put handle_zero (w_cache st) h) as [[cc tok] ev]. destruct T as (Hc & Hr & Hcap & Htok & Ht & Hlk).
  constructor; cbn [set_fch w_cache w_toks w_files w_next]; try assumption.
  - intros q t. rewrite mget_put by apply eqb_ok_bytes. destruct (beqb p q); [intros [= <-]; lia|].
    intros G. specialize (j_tokle0 _ _ G). lia.
  - intros q t g G1 G2. destruct (Hlk t g G2) as [(-> & ->)|(Hne & G3)]; [exact Hh|].
    rewrite mget_put in G1 by apply eqb_ok_bytes. destruct (beqb p q); [congruence|]. eapply j_toks0; eauto.
Qed.
Lemma j_evict x c st p : J x c st -> J x c (evictFile p st).
Proof.
  intros HJ. unfold evictFile. destruct (mget beqb p (w_toks st)) as [tok|] eqn:E; [|exact HJ].
  destruct (j_take x c st tok HJ p E) as (_ & H & _). destruct (cache_take _ _ _). exact H.
Qed.
Lemma j_remove x c st p e : J x c st -> J x c (fst (osRemoveF p e st)).
Proof.
  intros HJ. unfold osRemoveF. destruct (next_call e) as [[] e1]; [exact HJ|]. cbn [fst]. destruct HJ. constructor; try assumption.
  intros q. unfold osRemove. cbn [set_files w_files]. rewrite mget_del by apply eqb_ok_bytes. destruct (beqb p q); [discriminate|apply j_files0].
Qed.
Lemma j_open x c st p e h : J x c st -> fst (do_openF p e st) = Ok h -> h_ino h <> x.
Proof.
  intros HJ. unfold do_openF. destruct (next_call e) as [[] e1]; [discriminate|].
  destruct (mget beqb p (w_files st)) as [ino|] eqn:E; [|discriminate].
  destruct (next_call e1) as [[] e2]; [discriminate|]. destruct (_ <? recordHeaderSize); [discriminate|].
  destruct (next_call e2) as [[] e3]; [discriminate|]. cbn [fst]. destruct (openFile _); try discriminate. intros [= <-]. cbn.
  intros ->. exact (j_files _ _ _ HJ p E).
Qed.
Lemma j_create x c st p e : J x c st -> J2 x c (do_createF p e st) /\ forall h, snd (fst (do_createF p e st)) = Ok h -> h_ino h <> x.
Proof.
  intros HJ. unfold J2, do_createF. destruct (next_call e) as [[] e1]; [split; [exact HJ|discriminate]|].
  destruct (next_make e1) as [k e2]. destruct (match createFile (w_size st) (w_cap st) with (_, _) => _ end) as [d r].
  destruct (mget beqb p (w_files st)) as [ino|] eqn:E; cbn [fst snd].
  - assert (Hn : ino <> x) by (intros ->; exact (j_files _ _ _ HJ p E)).
    split; [now apply j_write|]. destruct r; try discriminate. intros h [= <-]. exact Hn.
  - assert (Hn : w_next st <> x) by (pose proof (j_next _ _ _ HJ); lia).
    split.
    + apply j_write; [|exact Hn]. destruct HJ. constructor; try assumption; cbn [w_next w_files]; [lia|].
      intros q. rewrite mget_put by apply eqb_ok_bytes. destruct (beqb p q); [congruence|apply j_files0].
    + destruct r; try discriminate. intros h [= <-]. exact Hn.
Qed.
Lemma j_acquire x c st p ex e : J x c st -> J2 x c (acquireFileF p ex e st) /\ forall h, snd (fst (acquireFileF p ex e st)) = Ok h -> h_ino h <> x.
Proof.
  intros HJ. unfold J2, acquireFileF. destruct (mget beqb p (w_toks st)) as [tok|] eqn:E.
  - destruct (j_take x c st tok HJ p E) as (H1 & _ & H2). destruct (cache_take handle_zero (w_cache st) tok) as [cc [f|]]; cbn [fst snd] in *.
    + split; [exact H1|]. intros h [= <-]. now apply H2.
    + destruct ex; [|now apply j_create]. pose proof (fun h => j_open x c _ p e h H1) as Ho'. destruct (do_openF p e _) as [r e1]. cbn [fst snd] in *. auto.
  - destruct ex; [|now apply j_create].
    pose proof (fun h => j_open x c _ p e h HJ) as Ho'. destruct (do_openF p e st) as [r e1]. cbn [fst snd] in *. auto.
Qed.
Lemma j_into x c f head nr s e d st : J x c st -> h_ino f <> x -> J x c (fst (write_into f head nr s e d st)).
Proof.
  intros HJ Hf. unfold write_into.
  repeat match goal with |- context [match ?y with _ => _ end] => destruct y end; cbn [fst]; try exact HJ; now apply j_write.
Qed.
Lemma j_opendir x c dir ro e st : J x c st -> J2 x c (open_dirF dir ro e st).
Proof.
  intros HJ. unfold J2, open_dirF, mkdirAll. destruct (next_call e) as [[] e1]; [exact HJ|].
  destruct (dir_exists dir st); [destruct (next_call e1) as [[] e2]; exact HJ|]. destruct ro; [exact HJ|].
  destruct (next_call e1) as [[] e2]; [now apply j_dirs|]. destruct (len dir =? 0); [exact HJ|].
  destruct (next_call e2) as [[] e3]; [now apply j_dirs|]. destruct (next_call e3) as [[] e4]; now apply j_dirs.
Qed.
Lemma j_new x c name ro e st : J x c st -> J2 x c (newMetricF name ro e st).
Proof.
  intros HJ. unfold J2, newMetricF. pose proof (j_opendir x c (metricDir (w_root st) name) ro e st HJ) as H1. unfold J2 in H1.
  destruct (open_dirF _ ro e st) as [[st1 []] e1]; cbn [fst snd] in *; [|exact H1]. cbn [negb].
  destruct (fold_left _ _ _) as [[first last] []]; [exact H1|].
  destruct (j_acquire x c st1 (metricFilenameAt (metricDir (w_root st) name) 1) false e1 H1) as (H2 & H3). unfold J2 in H2.
  destruct (acquireFileF _ false e1 st1) as [[st2 [f| | |]] e2]; cbn [fst snd] in *; try exact H2. apply j_release; auto.
Qed.
Lemma j_last x c fuel : forall m e st, J x c st -> J2 x c (acquireLastF_ fuel m e st) /\
  forall f head m1, snd (fst (acquireLastF_ fuel m e st)) = Ok (f, head, m1) -> h_ino f <> x.
Proof.
  induction fuel as [|fuel IH]; intros m e st HJ; unfold J2; cbn [acquireLastF_]; destruct (t_last m <? t_first m); try (split; [exact HJ|discriminate]).
  destruct (j_acquire x c st (filenameAt m (t_last m)) true e HJ) as (H2 & H3). unfold J2 in H2.
  destruct (acquireFileF _ true e st) as [[st1 [f| | |]] e1]; cbn [fst snd] in *; try (split; [exact H2|discriminate]).
  destruct (getHeadPointer _ _) as [head| | |]; cbn [fst snd]; try (split; [exact H2|discriminate]).
  2:{ split; [apply j_release; auto|discriminate]. }
  destruct ((head =? _) && _).
  - pose proof (j_remove x c (releaseFile (filenameAt m (t_last m)) f st1) (filenameAt m (t_last m)) e1 (j_release x c _ _ f H2 (H3 f eq_refl))) as H4.
    destruct (osRemoveF _ _ _) as [st2 e2]. cbn [fst] in H4. now apply IH.
  - split; [exact H2|]. cbn [fst snd]. intros f0 head0 m1 [= <- _ _]. now apply H3.
Qed.
Lemma j_roll x c m s en d e st : J x c st -> J2 x c (roll_overF m s en d e st).
Proof.
  intros HJ. unfold J2, roll_overF.
  assert (H0 : J x c (fst (if (w_max st <=? t_last m - t_first m) && (0 <? w_max st)
     then osRemoveF (filenameAt m (t_first m)) e (evictFile (filenameAt m (t_first m)) st) else (st, e)))).
  { destruct (_ && _); [|exact HJ]. now apply j_remove, j_evict. }
  destruct (if _ && _ then _ else _) as [st1 e1]. cbn [fst] in H0.
  destruct (j_acquire x c st1 (filenameAt m (t_last m + 1)) false e1 H0) as (H2 & H3). unfold J2 in H2.
  destruct (acquireFileF _ false e1 st1) as [[st2 [f| | |]] e2]; cbn [fst snd] in *; try exact H2. specialize (H3 f eq_refl).
  destruct (numRecords _ _) as [nr| | |]; cbn [fst snd]; try (now apply j_release).
  destruct (nr =? 0); cbn [fst snd]; [now apply j_release|]. destruct (g_cap (h_geom f) - nr <? 0); cbn [fst snd]; [now apply j_release|].
  pose proof (j_into x c f (g_cap (h_geom f)) nr s en d st2 H2 H3) as H4. destruct (write_into _ _ _ _ _ _ st2) as [st3 r3]. cbn [fst snd] in *. now apply j_release.
Qed.
Lemma j_writeF x c m s en d e st : J x c st -> J2 x c (m_WriteF m s en d e st).
Proof.
  intros HJ. unfold J2, m_WriteF, acquireLastF.
  destruct (j_last x c (Z.to_nat (t_last m - t_first m + 1)) m e st HJ) as (H2 & H3). unfold J2 in H2.
  destruct (acquireLastF_ _ m e st) as [[st1 [[[f head] m1]| | |]] e1]; cbn [fst snd] in *; try exact H2. specialize (H3 f head m1 eq_refl).
  assert (H4 : J2 x c (write_withF m1 f head s en d e1 st1)).
  { unfold J2, write_withF. destruct (if f_has_record _ _ _ then _ else _); [exact H2|].
    destruct (numRecords _ _) as [nr| | |]; try exact H2. destruct (nr =? 0); [exact H2|].
    destruct (head + 1 - nr <? 0); [destruct (_ && _); [exact H2|now apply j_roll]|].
    pose proof (j_into x c f (head + 1) nr s en d st1 H2 H3) as H4. destruct (write_into _ _ _ _ _ _ st1). exact H4. }
  unfold J2 in H4. destruct (write_withF m1 f head s en d e1 st1) as [[st2 r2] e2]. cbn [fst snd] in *. now apply j_release.
Qed.
Lemma j_readF {X} (cb : callback X) x c m end_ fuel : forall num acc e st, J x c st -> J2 x c (m_ReadF_ cb fuel m num end_ acc e st).
Proof.
  induction fuel as [|fuel IH]; intros num acc e st HJ; unfold J2; cbn [m_ReadF_]; destruct (num <? t_first m); try exact HJ.
  destruct (j_acquire x c st (filenameAt m num) true e HJ) as (H2 & H3). unfold J2 in H2.
  destruct (acquireFileF _ true e st) as [[st1 [f| | |]] e1]; cbn [fst snd] in *; try exact H2. specialize (H3 f eq_refl).
  pose proof (j_release x c st1 (filenameAt m num) f H2 H3) as H4.
  destruct (read_file _ _ _ _ _) as [acc1 [[]| | |]]; try exact H4. now apply IH.
Qed.
Lemma j_step x c o e st : J x c st -> (forall size cap max handles rand, o = OReopen size cap max handles rand -> 0 <= handles < 2 ^ 32 /\ rand_ok rand) ->
  J x c (fst (f_step o e st)).
Proof.
  intros HJ Hre. destruct o as [name v|name end_|name|size cap max handles rand]; cbn [f_step].
  - unfold db_writeF. pose proof (j_new x c name false e st HJ) as H1. unfold J2 in H1.
    destruct (newMetricF name false e st) as [[st1 [m| | |]] e1]; cbn [fst snd] in *; try exact H1.
    pose proof (j_writeF x c m (v_start v) (v_end v) (v_data v) e1 st1 H1) as H2. unfold J2 in H2.
    destruct (m_WriteF m _ _ _ e1 st1) as [[st2 r2] e2]. exact H2.
  - unfold db_queryF. pose proof (j_new x c name true e st HJ) as H1. unfold J2 in H1.
    destruct (newMetricF name true e st) as [[st1 [m| | |]] e1]; cbn [fst snd] in *; try exact H1.
    pose proof (j_readF collect_cb x c m end_ (Z.to_nat (t_last m - t_first m + 1)) (t_last m) [] e1 st1 H1) as H2. unfold J2 in H2. unfold m_ReadF.
    destruct (m_ReadF_ collect_cb _ m _ _ _ e1 st1) as [[st2 [l2 r2]] e2]. exact H2.
  - unfold db_queryF. pose proof (j_new x c name true e st HJ) as H1. unfold J2 in H1.
    destruct (newMetricF name true e st) as [[st1 [m| | |]] e1]; cbn [fst snd] in *; try exact H1.
    pose proof (j_readF latest_cb x c m (2 ^ 63 - 1) (Z.to_nat (t_last m - t_first m + 1)) (t_last m) None e1 st1 H1) as H2. unfold J2 in H2. unfold m_ReadF.
    destruct (m_ReadF_ latest_cb _ m _ _ _ e1 st1) as [[st2 [l2 r2]] e2]. exact H2.
  - destruct (Hre _ _ _ _ _ eq_refl) as (Hh & Hr). destruct HJ. constructor; try assumption; cbn [fst db_reopen w_cache w_toks]; try discriminate.
    + now apply cinv_new.
Qed.
