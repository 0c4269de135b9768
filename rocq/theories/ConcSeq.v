(** A call running alone: the program of Conc.v does what the functions of
    Metric.v do, and what it does on the file system of ConcFs.v. *)
From Coq Require Import ZArith List Bool Lia.
From Verif Require Import Base Maps Record Meta Convert File FileProofs Cache CacheProofs
  Metric MetricSpec MetricFile MetricPaths MetricProofs DbSpec LockPool Conc ConcFs ConcSim.
Import ListNotations.
Open Scope Z_scope.

(** running a program without interruption *)
Fixpoint runw {X} (p : prog X) (h : held_handles) (st : db) : db * held_handles * X :=
  match p with
  | PRet x => (st, h, x)
  | PExists d k => runw (k (dir_exists d st)) h st
  | PMkdir d k => let '(st', ok) := mkdirAll d st in runw (k ok) h st'
  | PScan d k => runw (k (fold_left scan_step (listdir d st) (0, 0, false))) h st
  | PAcquire q e k =>
      let '(st', r) := acquireFile q e st in
      match r with
      | Ok f => runw (k (Ok (h_geom f))) (mput beqb q f h) st'
      | Err => runw (k Err) h st' | Panic => runw (k Panic) h st' | Diverge => runw (k Diverge) h st'
      end
  | POpen q e k =>
      let '(st', r) := if e then (st, do_open q st) else do_create q st in
      match r with
      | Ok f => runw (k (Ok (h_geom f))) (mput beqb q f h) st'
      | Err => runw (k Err) h st' | Panic => runw (k Panic) h st' | Diverge => runw (k Diverge) h st'
      end
  | PLoad q k => runw (k (contents st (h_ino (held_at h q)))) h st
  | PStore q c k => runw k h (set_contents st (h_ino (held_at h q)) c)
  | PRelease q k => runw k (mdel beqb q h) (releaseFile q (held_at h q) st)
  | PEvict q k => runw k h (evictFile q st)
  | PRemove q k => runw k h (osRemove q st)
  end.

Lemma runw_bind {X Y} (p : prog X) (K : X -> prog Y) : forall h st,
  runw (pbind p K) h st = let '(st', h', x) := runw p h st in runw (K x) h' st'.
Proof.
  induction p; intros h st; cbn [pbind runw]; auto.
  - destruct (mkdirAll d st). auto.
  - destruct (acquireFile q e st) as [st' [f| | |]]; auto.
  - destruct (if e then (st, do_open q st) else do_create q st) as [st' [f| | |]]; auto.
Qed.

(** ** runs simulate *)
Lemma runw_sim {X} nc size cap name root (p : prog X) : forall st h f hs ev st' h' x,
  w_root st = root -> sim nc size cap (dir_of root name) st h p f hs ev ->
  runw p h st = (st', h', x) ->
  exists f', run0 size cap p f = (f', x) /\ world st' /\ sees st' f' /\ nc_ok nc st' /\ same_opts st st'.
Proof.
  assert (Step : forall X (p : prog X) st h f hs ev, w_root st = root ->
    sim nc size cap (dir_of root name) st h p f hs ev -> is_ret p = false ->
    let '(st1, h1, p1) := prog_step p h st in
    exists f1 hs1 ev1, sim nc size cap (dir_of root name) st1 h1 p1 f1 hs1 ev1 /\
      run0 size cap p f = run0 size cap p1 f1 /\ same_opts st st1 /\ w_root st1 = root).
  { intros Y p0 st h f hs ev Er Hs Hr. destruct (prog_step p0 h st) as [[st1 h1] p1] eqn:E. subst root.
    destruct (act_sim _ _ _ name _ _ _ _ _ _ _ _ _ Hs Hr E) as (f1 & hs1 & ev1 & A & B & (C & _) & _).
    exists f1, hs1, ev1. split; [exact A|]. split; [exact B|]. split; [exact C|]. apply C. }
  induction p as [x0|d k IH|d k IH|d k IH|q e k IH|q e k IH|q k IH|q c k IH|q k IH|q k IH|q k IH];
    intros st h f hs ev st' h' x Er Hs Hrun.
  - cbn [runw] in Hrun. injection Hrun as <- <- <-. exists f. split; [reflexivity|].
    destruct Hs as (W & Se & _ & _ & Hnc & _). split; [exact W|]. split; [exact Se|]. split; [exact Hnc|apply same_opts_refl].
  - destruct Hs as (_ & _ & _ & _ & _ & _ & HL & _). cbn [local] in HL; contradiction.
  - destruct Hs as (_ & _ & _ & _ & _ & _ & HL & _). cbn [local] in HL; contradiction.
  - pose proof (Step _ _ _ _ _ _ _ Er Hs eq_refl) as S. cbn [prog_step] in S. cbn [runw] in Hrun.
    destruct S as (f1 & hs1 & ev1 & S1 & S2 & S3 & S4). rewrite S2.
    destruct (IH _ _ _ _ _ _ _ _ _ S4 S1 Hrun) as (f' & A & B & C & D & E). exists f'.
    split; [exact A|]. split; [exact B|]. split; [exact C|]. split; [exact D|]. exact (same_opts_trans _ _ _ S3 E).
  - pose proof (Step _ _ _ _ _ _ _ Er Hs eq_refl) as S. cbn [prog_step] in S. cbn [runw] in Hrun. unfold acquireFile in Hrun.
    destruct (match mget beqb q (w_toks st) with
       | Some tok => let '(c, r) := cache_take handle_zero (w_cache st) tok in (set_fch st (w_toks st) c, r)
       | None => (st, None) end) as [st1 hit].
    destruct hit as [x1|].
    + destruct S as (f1 & hs1 & ev1 & S1 & S2 & S3 & S4). rewrite S2.
      destruct (IH _ _ _ _ _ _ _ _ _ S4 S1 Hrun) as (f' & A & B & C & D & E). exists f'.
      split; [exact A|]. split; [exact B|]. split; [exact C|]. split; [exact D|]. exact (same_opts_trans _ _ _ S3 E).
    + destruct S as (f1 & hs1 & ev1 & S1 & S2 & S3 & S4). rewrite S2.
      pose proof (Step _ _ _ _ _ _ _ S4 S1 eq_refl) as S. cbn [prog_step] in S.
      destruct (if e then (st1, do_open q st1) else do_create q st1) as [st2 r].
      destruct r; (destruct S as (f2 & hs2 & ev2 & T1 & T2 & T3 & T4); rewrite T2;
        destruct (IH _ _ _ _ _ _ _ _ _ T4 T1 Hrun) as (f' & A & B & C & D & E); exists f';
        split; [exact A|]; split; [exact B|]; split; [exact C|]; split; [exact D|];
        exact (same_opts_trans _ _ _ S3 (same_opts_trans _ _ _ T3 E))).
  - pose proof (Step _ _ _ _ _ _ _ Er Hs eq_refl) as S. cbn [prog_step] in S. cbn [runw] in Hrun.
    destruct (if e then (st, do_open q st) else do_create q st) as [st2 r].
    destruct r; (destruct S as (f2 & hs2 & ev2 & T1 & T2 & T3 & T4); rewrite T2;
        destruct (IH _ _ _ _ _ _ _ _ _ T4 T1 Hrun) as (f' & A & B & C & D & E); exists f';
        split; [exact A|]; split; [exact B|]; split; [exact C|]; split; [exact D|]; exact (same_opts_trans _ _ _ T3 E)).
  - pose proof (Step _ _ _ _ _ _ _ Er Hs eq_refl) as S. cbn [prog_step] in S. cbn [runw] in Hrun.
    destruct S as (f1 & hs1 & ev1 & S1 & S2 & S3 & S4). rewrite S2.
    destruct (IH _ _ _ _ _ _ _ _ _ S4 S1 Hrun) as (f' & A & B & C & D & E). exists f'.
    split; [exact A|]. split; [exact B|]. split; [exact C|]. split; [exact D|]. exact (same_opts_trans _ _ _ S3 E).
  - pose proof (Step _ _ _ _ _ _ _ Er Hs eq_refl) as S. cbn [prog_step] in S. cbn [runw] in Hrun.
    destruct S as (f1 & hs1 & ev1 & S1 & S2 & S3 & S4). rewrite S2.
    destruct (IH _ _ _ _ _ _ _ _ S4 S1 Hrun) as (f' & A & B & C & D & E). exists f'.
    split; [exact A|]. split; [exact B|]. split; [exact C|]. split; [exact D|]. exact (same_opts_trans _ _ _ S3 E).
  - pose proof (Step _ _ _ _ _ _ _ Er Hs eq_refl) as S. cbn [prog_step] in S. cbn [runw] in Hrun.
    destruct S as (f1 & hs1 & ev1 & S1 & S2 & S3 & S4). rewrite S2.
    destruct (IH _ _ _ _ _ _ _ _ S4 S1 Hrun) as (f' & A & B & C & D & E). exists f'.
    split; [exact A|]. split; [exact B|]. split; [exact C|]. split; [exact D|]. exact (same_opts_trans _ _ _ S3 E).
  - pose proof (Step _ _ _ _ _ _ _ Er Hs eq_refl) as S. cbn [prog_step] in S. cbn [runw] in Hrun.
    destruct S as (f1 & hs1 & ev1 & S1 & S2 & S3 & S4). rewrite S2.
    destruct (IH _ _ _ _ _ _ _ _ S4 S1 Hrun) as (f' & A & B & C & D & E). exists f'.
    split; [exact A|]. split; [exact B|]. split; [exact C|]. split; [exact D|]. exact (same_opts_trans _ _ _ S3 E).
  - pose proof (Step _ _ _ _ _ _ _ Er Hs eq_refl) as S. cbn [prog_step] in S. cbn [runw] in Hrun.
    destruct S as (f1 & hs1 & ev1 & S1 & S2 & S3 & S4). rewrite S2.
    destruct (IH _ _ _ _ _ _ _ _ S4 S1 Hrun) as (f' & A & B & C & D & E). exists f'.
    split; [exact A|]. split; [exact B|]. split; [exact C|]. split; [exact D|]. exact (same_opts_trans _ _ _ S3 E).
Qed.

(** ** worlds with the same contents *)
Definition eqv (a b : db) : Prop :=
  w_next a = w_next b /\ w_files a = w_files b /\ w_dirs a = w_dirs b /\ w_toks a = w_toks b /\
  w_cache a = w_cache b /\ w_size a = w_size b /\ w_cap a = w_cap b /\ w_max a = w_max b /\ w_root a = w_root b /\
  forall i, contents a i = contents b i.
Lemma eqv_refl a : eqv a a. Proof. unfold eqv. auto 20. Qed.
Lemma eqv_sym a b : eqv a b -> eqv b a.
Proof. unfold eqv. intuition congruence. Qed.
Lemma eqv_trans a b c : eqv a b -> eqv b c -> eqv a c.
Proof. unfold eqv. intuition congruence. Qed.
Lemma eqv_set a b i c : eqv a b -> eqv (set_contents a i c) (set_contents b i c).
Proof.
  intros (H1 & H2 & H3 & H4 & H5 & H6 & H7 & H8 & H9 & H10). unfold eqv. cbn [w_next w_files w_dirs w_toks w_cache w_size w_cap w_max w_root set_contents set_ino].
  do 9 (split; [assumption|]). intros j. rewrite !contents_set. destruct (i =? j); auto.
Qed.
Lemma eqv_set_set a i c c' : eqv (set_contents (set_contents a i c) i c') (set_contents a i c').
Proof.
  unfold eqv. do 9 (split; [reflexivity|]). intros j. rewrite !contents_set. destruct (i =? j); auto.
Qed.
Lemma eqv_set_same a i : eqv (set_contents a i (contents a i)) a.
Proof.
  unfold eqv. do 9 (split; [reflexivity|]). intros j. rewrite !contents_set. destruct (Z.eqb_spec i j) as [->|]; auto.
Qed.
Lemma eqv_release a b q x : eqv a b -> eqv (releaseFile q x a) (releaseFile q x b).
Proof.
  intros (H1 & H2 & H3 & H4 & H5 & H6 & H7 & H8 & H9 & H10). unfold releaseFile. rewrite H5, H4.
  destruct (cache_put handle_zero (w_cache b) x) as [[c t] o]. unfold eqv.
  cbn [w_next w_files w_dirs w_toks w_cache w_size w_cap w_max w_root set_fch]. auto 20.
Qed.
Lemma eqv_world a b : eqv a b -> world a -> world b.
Proof.
  intros (H1 & H2 & H3 & H4 & H5 & H6 & H7 & H8 & H9 & H10) []. constructor; rewrite <- ?H1, <- ?H2, <- ?H3, <- ?H4, <- ?H5, <- ?H9; try assumption.
  intros p t h G1 G2. rewrite <- H10. eauto.
Qed.
Lemma eqv_sees a b f : eqv a b -> sees a f -> sees b f.
Proof.
  intros (H1 & H2 & H3 & H4 & H5 & H6 & H7 & H8 & H9 & H10) (S1 & S2). split.
  - intros q. rewrite S1, H2. destruct (mget beqb q (w_files b)); [|reflexivity]. cbn [option_map]. now rewrite H10.
  - intros d. rewrite <- H3. apply S2.
Qed.

(** ** the programs do what the functions do *)
Lemma held_at_put h q f : held_at (mput beqb q f h) q = f.
Proof. unfold held_at. now rewrite mget_put_same by apply eqb_ok_bytes. Qed.
Lemma held_at_put_other h q f p : q <> p -> held_at (mput beqb q f h) p = held_at h p.
Proof. intros H. unfold held_at. now rewrite mget_put_other by (auto using eqb_ok_bytes). Qed.
Lemma held_at_del_other h q p : q <> p -> held_at (mdel beqb q h) p = held_at h p.
Proof. intros H. unfold held_at. now rewrite mget_del_other by (auto using eqb_ok_bytes). Qed.

Lemma runw_scan dir h st :
  exists h', runw (p_scan dir) h st =
    (let '(first, last, first_set) := fold_left scan_step (listdir dir st) (0, 0, false) in
     if first_set then (st, h', Ok (Metric dir first last))
     else let path := metricFilenameAt dir 1 in
       match acquireFile path false st with
       | (st, Ok f) => (releaseFile path f st, h', Ok (Metric dir 1 1))
       | (st, Err) => (st, h', Err)
       | (st, Panic) => (st, h', Panic)
       | (st, Diverge) => (st, h', Diverge)
       end).
Proof.
  unfold p_scan. cbn [runw]. destruct (fold_left scan_step (listdir dir st) (0, 0, false)) as [[first last] []].
  - exists h. reflexivity.
  - cbn [runw]. destruct (acquireFile (metricFilenameAt dir 1) false st) as [st1 [f| | |]]; cbn [on_ok runw]; eauto.
    rewrite held_at_put. eauto.
Qed.
Lemma runw_newMetric root name ro h st : w_root st = root ->
  exists h', runw (p_newMetric root name ro) h st = (let '(st', r) := newMetric name ro st in (st', h', r)).
Proof.
  intros <-. unfold p_newMetric, newMetric. cbn [runw].
  destruct (dir_exists (metricDir (w_root st) name) st).
  - destruct (runw_scan (metricDir (w_root st) name) h st) as (h' & ->). exists h'. cbn [negb].
    destruct (fold_left _ _ _) as [[first last] []]; [reflexivity|].
    cbn zeta. destruct (acquireFile _ false st) as [st1 [f| | |]]; reflexivity.
  - destruct ro; [exists h; reflexivity|]. cbn [runw].
    destruct (mkdirAll (metricDir (w_root st) name) st) as [st1 ok]. destruct ok; [|exists h; reflexivity]. cbn [negb].
    destruct (runw_scan (metricDir (w_root st) name) h st1) as (h' & ->). exists h'.
    destruct (fold_left _ _ _) as [[first last] []]; [reflexivity|].
    cbn zeta. destruct (acquireFile _ false st1) as [st2 [f| | |]]; reflexivity.
Qed.

Lemma runw_read {A} (cb : callback A) e m : forall fuel num acc h st,
  exists h', runw (p_Read_ cb fuel m num e acc) h st =
    (let '(st', r) := m_Read_ cb fuel m num e acc st in (st', h', r)).
Proof.
  induction fuel as [|fuel IH]; intros num acc h st; cbn [p_Read_ m_Read_].
  - destruct (num <? t_first m); exists h; reflexivity.
  - destruct (num <? t_first m); [exists h; reflexivity|]. cbn [runw].
    destruct (acquireFile (filenameAt m num) true st) as [st1 [f| | |]]; try (exists h; reflexivity).
    cbn [runw]. rewrite held_at_put. destruct (read_file cb (h_geom f) (contents st1 (h_ino f)) e acc) as [acc1 r].
    cbn [runw]. rewrite held_at_put. destruct r as [[]| | |]; try (eexists; reflexivity). apply IH.
Qed.

Lemma acquire_opts q e st : w_max (fst (acquireFile q e st)) = w_max st.
Proof.
  unfold acquireFile. 
  assert (forall st1 hit, (match mget beqb q (w_toks st) with
     | Some tok => let '(c, r) := cache_take handle_zero (w_cache st) tok in (set_fch st (w_toks st) c, r)
     | None => (st, None) end) = (st1, hit) -> w_max st1 = w_max st) as H.
  { intros st1 hit. destruct (mget beqb q (w_toks st)); [|congruence].
    destruct (cache_take handle_zero (w_cache st) z). intros [= <- _]. reflexivity. }
  destruct (match mget beqb q (w_toks st) with Some _ => _ | None => _ end) as [st1 hit]. specialize (H _ _ eq_refl).
  destruct hit; [exact H|]. destruct e; [exact H|]. unfold do_create. destruct (createFile _ _) as [c r].
  destruct (mget beqb q (w_files st1)); exact H.
Qed.
Lemma release_max q f st : w_max (releaseFile q f st) = w_max st.
Proof. unfold releaseFile. destruct (cache_put _ _ _) as [[c t] o]. reflexivity. Qed.
Lemma evict_max q st : w_max (evictFile q st) = w_max st.
Proof. unfold evictFile. destruct (mget _ _ _); [|reflexivity]. destruct (cache_take _ _ _). reflexivity. Qed.

Lemma runw_acquireLast : forall fuel m h st,
  let '(st', r) := acquireLast_ fuel m st in
  exists h', runw (p_acquireLast_ fuel m) h st =
     (st', h', match r with Ok (f, head, m') => Ok (h_geom f, head, m') | Err => Err | Panic => Panic | Diverge => Diverge end) /\
     w_max st' = w_max st /\
     match r with
     | Ok (f, head, m') => held_at h' (filenameAt m' (t_last m')) = f /\ t_dir m' = t_dir m /\ t_first m' = t_first m /\
                           t_first m <= t_last m' <= t_last m
     | _ => True
     end.
Proof.
  induction fuel as [|fuel IH]; intros m h st; cbn [acquireLast_ p_acquireLast_].
  - destruct (Z.ltb_spec (t_last m) (t_first m)); exists h; auto.
  - destruct (Z.ltb_spec (t_last m) (t_first m)); [exists h; auto|]. cbn [runw].
    pose proof (acquire_opts (filenameAt m (t_last m)) true st) as Ho.
    destruct (acquireFile (filenameAt m (t_last m)) true st) as [st1 [f| | |]]; cbn [fst] in Ho; cbn [on_ok runw]; try (exists h; auto).
    rewrite held_at_put. destruct (getHeadPointer (h_geom f) (contents st1 (h_ino f))) as [head| | |]; cbn [runw].
    + destruct ((head =? g_cap (h_geom f) - 1) && (t_first m <? t_last m)) eqn:Eb; cbn [runw].
      * apply andb_true_iff in Eb. destruct Eb as [_ Eb]. apply Z.ltb_lt in Eb. rewrite held_at_put.
        match goal with |- context[runw (p_acquireLast_ fuel ?m2) ?h2 ?st2] => specialize (IH m2 h2 st2) end.
        destruct (acquireLast_ fuel _ _) as [st' r]. destruct IH as (h' & E & Em & P). exists h'. rewrite E. split; [reflexivity|].
        split; [rewrite Em; cbn [w_max osRemove set_files]; now rewrite release_max|].
        destruct r as [[[f' hd] m']| | |]; auto. cbn [t_dir t_first t_last] in P. destruct P as (P1 & P2 & P3 & P4).
        split; [exact P1|]. split; [exact P2|]. split; [exact P3|lia].
      * eexists. split; [reflexivity|]. split; [exact Ho|]. rewrite held_at_put. split; [reflexivity|]. split; [reflexivity|].
        split; [reflexivity|]. lia.
    + rewrite held_at_put. eexists. split; [reflexivity|]. split; [now rewrite release_max|exact I].
    + eexists. split; [reflexivity|]. split; [exact Ho|exact I].
    + eexists. split; [reflexivity|]. split; [exact Ho|exact I].
Qed.

Lemma runw_set_records path g : forall recs head h st,
  let i := h_ino (held_at h path) in
  let '(c, r) := set_records g head recs (contents st i) in
  exists st', runw (p_set_records path g head recs) h st = (st', h, r) /\ eqv st' (set_contents st i c).
Proof.
  induction recs as [|r recs IH]; intros head h st i; cbn [set_records p_set_records].
  - exists st. split; [reflexivity|]. apply eqv_sym, eqv_set_same.
  - cbn [runw]. fold i. destruct (f_set_record g head r (contents st i)) as [c'| | |]; cbn [on_ok runw].
    + fold i. specialize (IH (head + 1) h (set_contents st i c')). cbn zeta in IH. fold i in IH.
      rewrite contents_set, Z.eqb_refl in IH. destruct (set_records g (head + 1) recs c') as [c2 r2].
      destruct IH as (st' & E & V). exists st'. split; [exact E|]. eapply eqv_trans; [exact V|]. apply eqv_set_set.
    + exists st. split; [reflexivity|]. apply eqv_sym, eqv_set_same.
    + exists st. split; [reflexivity|]. apply eqv_sym, eqv_set_same.
    + exists st. split; [reflexivity|]. apply eqv_sym, eqv_set_same.
Qed.

Lemma runw_write_records path f head nr s e data h st : held_at h path = f ->
  let '(st', r) := write_into f head nr s e data st in
  exists st1, runw (p_write_records path (h_geom f) head nr s e data) h st = (st1, h, r) /\ eqv st1 st'.
Proof.
  intros Hf. unfold write_into, write_records, p_write_records.
  destruct (iterateRecords s e data (g_size (h_geom f))) as [recs| | |]; cbn [on_ok runw];
    try (exists st; split; [reflexivity|apply eqv_sym, eqv_set_same]).
  pose proof (runw_set_records path (h_geom f) recs (head - nr) h st) as S. cbn zeta in S. rewrite Hf in S.
  rewrite runw_bind. destruct (set_records (h_geom f) (head - nr) recs (contents st (h_ino f))) as [c r].
  destruct S as (st1 & -> & V). destruct r as [u| | |]; cbn [on_ok runw]; try (exists st1; auto; fail).
  assert (Ec : contents st1 (h_ino f) = c).
  { destruct V as (_ & _ & _ & _ & _ & _ & _ & _ & _ & V). rewrite V, contents_set, Z.eqb_refl. reflexivity. }
  rewrite Hf, Ec. destruct (f_metadata (h_geom f) c) as [m| | |]; cbn [on_ok runw]; try (exists st1; auto; fail).
  destruct (f_set_metadata (h_geom f) (next_meta m (head - nr - 1) s e) c) as [c'| | |]; cbn [on_ok runw]; try (exists st1; auto; fail).
  rewrite Hf. eexists. split; [reflexivity|]. eapply eqv_trans; [apply eqv_set; exact V|]. apply eqv_set_set.
Qed.

Lemma runw_write_with max m f head s e data h st : w_max st = max ->
  held_at h (filenameAt m (t_last m)) = f -> filenameAt m (t_last m + 1) <> filenameAt m (t_last m) ->
  let '(st', r) := write_with m f head s e data st in
  exists st1 h1, runw (p_write_with max m (h_geom f) head s e data) h st = (st1, h1, r) /\ eqv st1 st' /\
    held_at h1 (filenameAt m (t_last m)) = f.
Proof.
  intros Hmax Hf Hne. unfold write_with, p_write_with. cbn [runw]. rewrite Hf.
  match goal with |- context[match ?x with Some _ => _ | None => _ end] => destruct x as [r|] end.
  { exists st, h. split; [reflexivity|]. split; [apply eqv_refl|exact Hf]. }
  destruct (numRecords (len data) (g_size (h_geom f))) as [nr| | |]; cbn [on_ok runw];
    try (exists st, h; split; [reflexivity|split; [apply eqv_refl|exact Hf]]).
  destruct (nr =? 0); [exists st, h; split; [reflexivity|split; [apply eqv_refl|exact Hf]]|].
  destruct (head + 1 - nr <? 0).
  2:{ pose proof (runw_write_records _ f (head + 1) nr s e data h st Hf) as S.
      destruct (write_into f (head + 1) nr s e data st) as [st' r]. destruct S as (st1 & E & V). exists st1, h. auto. }
  destruct ((t_last m =? 1) && (head + 1 =? g_cap (h_geom f) - 1)); [exists st, h; split; [reflexivity|split; [apply eqv_refl|exact Hf]]|].
  rewrite Hmax.
  match goal with |- context[if ?b then PEvict ?a (PRemove ?c ?rest) else ?rest] =>
    replace (runw (if b then PEvict a (PRemove c rest) else rest) h st) with
      (runw rest h (if b then osRemove c (evictFile a st) else st)) by (destruct b; reflexivity) end.
  match goal with |- context[match acquireFile ?p false ?s with _ => _ end] => set (st0 := s) end.
  cbn [runw]. destruct (acquireFile (filenameAt m (t_last m + 1)) false st0) as [st1 [f2| | |]]; cbn [on_ok runw];
    try (exists st1, h; split; [reflexivity|split; [apply eqv_refl|exact Hf]]).
  set (h2 := mput beqb (filenameAt m (t_last m + 1)) f2 h).
  assert (H2 : held_at h2 (filenameAt m (t_last m + 1)) = f2) by apply held_at_put.
  assert (H2' : held_at h2 (filenameAt m (t_last m)) = f) by (unfold h2; now rewrite held_at_put_other).
  rewrite runw_bind.
  match goal with |- let '(_, _) := (let '(_, _) := ?w in _) in _ => destruct w as [stw rw] eqn:Ew end.
  match goal with |- context[runw ?p h2 st1] => assert (W : exists stv, runw p h2 st1 = (stv, h2, rw) /\ eqv stv stw) end.
  { destruct (numRecords (len data) (g_size (h_geom f2))) as [nr2| | |]; cbn [on_ok runw] in *;
      try (injection Ew as <- <-; exists st1; split; [reflexivity|apply eqv_refl]).
    destruct (nr2 =? 0); [injection Ew as <- <-; exists st1; split; [reflexivity|apply eqv_refl]|].
    destruct (g_cap (h_geom f2) - nr2 <? 0); [injection Ew as <- <-; exists st1; split; [reflexivity|apply eqv_refl]|].
    pose proof (runw_write_records _ f2 (g_cap (h_geom f2)) nr2 s e data h2 st1 H2) as S. rewrite Ew in S. exact S. }
  destruct W as (stv & -> & V). cbn [runw]. rewrite H2. eexists _, _. split; [reflexivity|]. split; [now apply eqv_release|].
  rewrite held_at_del_other by exact Hne. exact H2'.
Qed.

Lemma runw_Write max m s e data h st : w_max st = max ->
  (forall i, t_first m <= i <= t_last m -> filenameAt m (i + 1) <> filenameAt m i) ->
  let '(st', r) := m_Write m s e data st in
  exists st1 h1, runw (p_Write max m s e data) h st = (st1, h1, r) /\ eqv st1 st'.
Proof.
  intros Hmax Hne. unfold m_Write, p_Write, acquireLast, p_acquireLast.
  pose proof (runw_acquireLast (Z.to_nat (t_last m - t_first m + 1)) m h st) as S.
  destruct (acquireLast_ _ m st) as [st1 r]. destruct S as (h1 & E & Em & P). rewrite runw_bind, E.
  destruct r as [[[f head] m']| | |]; cbn [on_ok runw]; try (exists st1, h1; split; [reflexivity|apply eqv_refl]).
  destruct P as (P1 & P2 & P3 & P4). rewrite runw_bind.
  assert (Hfn : forall i, filenameAt m' i = filenameAt m i) by (intros i; unfold filenameAt; now rewrite P2).
  pose proof (runw_write_with max m' f head s e data h1 st1) as S.
  destruct (write_with m' f head s e data st1) as [st2 r].
  destruct S as (st3 & h3 & -> & V & H3); [congruence|exact P1|rewrite !Hfn; apply Hne; lia|].
  cbn [runw]. rewrite H3. eexists _, _. split; [reflexivity|]. now apply eqv_release.
Qed.

(** a call as a whole *)
Lemma newMetric_max name ro st : w_max (fst (newMetric name ro st)) = w_max st.
Proof.
  unfold newMetric.
  assert (H : forall st0 ok, (if dir_exists (metricDir (w_root st) name) st then (st, true)
     else if ro then (st, false) else mkdirAll (metricDir (w_root st) name) st) = (st0, ok) -> w_max st0 = w_max st).
  { intros st0 ok. destruct (dir_exists _ _); [congruence|]. destruct ro; [congruence|]. unfold mkdirAll.
    destruct (_ =? 0); intros [= <- _]; reflexivity. }
  destruct (if dir_exists _ _ then _ else _) as [st0 ok]. specialize (H _ _ eq_refl).
  destruct (negb ok); [exact H|]. destruct (fold_left _ _ _) as [[first last] []]; [exact H|].
  pose proof (acquire_opts (metricFilenameAt (metricDir (w_root st) name) 1) false st0) as Ho.
  destruct (acquireFile _ _ st0) as [st1 [f| | |]]; cbn [fst] in *; try congruence. rewrite release_max. congruence.
Qed.

Definition numbered (root name : list Z) (m : metric) : Prop :=
  t_dir m = dir_of root name /\ 1 <= t_first m /\ t_last m < 2 ^ 62.
Lemma numbered_paths root name m : root <> [] -> numbered root name m ->
  forall i, t_first m <= i <= t_last m -> filenameAt m (i + 1) <> filenameAt m i.
Proof.
  intros Hr (Hd & H1 & H2) i Hi. unfold filenameAt. rewrite Hd. fold (path_of root name (i + 1)) (path_of root name i).
  intros E. apply path_inj in E; auto; unfold is_i64; lia.
Qed.

Lemma runw_call root max o st : w_root st = root -> root <> [] -> w_max st = max -> is_call o ->
  (forall name v st1 m, o = OWrite name v -> newMetric name false st = (st1, Ok m) -> numbered root name m) ->
  let '(st', r) := c_step o st in
  exists st1 h1, runw (prog_of root max o) [] st = (st1, h1, r) /\ eqv st1 st'.
Proof.
  intros Hr Hne Hm Hc Hnum. destruct o as [name v|name e|name|]; [| | |contradiction Hc]; unfold c_step, prog_of.
  - unfold db_write, p_write. rewrite !runw_bind.
    destruct (runw_newMetric root name false [] st Hr) as (h1 & E). rewrite E.
    pose proof (newMetric_max name false st) as Hmx. specialize (Hnum name v).
    destruct (newMetric name false st) as [st1 [m| | |]]; cbn [on_ok runw fst] in *;
      try (exists st1, h1; split; [reflexivity|apply eqv_refl]).
    specialize (Hnum st1 m eq_refl eq_refl).
    pose proof (runw_Write max m (v_start v) (v_end v) (v_data v) h1 st1 ltac:(congruence) (numbered_paths root name m Hne Hnum)) as S.
    destruct (m_Write m (v_start v) (v_end v) (v_data v) st1) as [st2 r]. destruct S as (st3 & h3 & -> & V). eauto.
  - unfold db_query, p_query. rewrite !runw_bind.
    destruct (runw_newMetric root name true [] st Hr) as (h1 & E). rewrite E.
    destruct (newMetric name true st) as [st1 [m| | |]]; cbn [runw];
      try (exists st1, h1; split; [reflexivity|apply eqv_refl]).
    unfold m_Read. destruct (runw_read collect_cb e m (Z.to_nat (t_last m - t_first m + 1)) (t_last m) [] h1 st1) as (h2 & ->).
    destruct (m_Read_ _ _ _ _ _ _ _) as [st2 [l r]]. cbn [runw]. exists st2, h2. split; [reflexivity|apply eqv_refl].
  - unfold db_query_latest, db_query, p_query. rewrite !runw_bind.
    destruct (runw_newMetric root name true [] st Hr) as (h1 & E). rewrite E.
    destruct (newMetric name true st) as [st1 [m| | |]]; cbn [runw];
      try (exists st1, h1; split; [reflexivity|apply eqv_refl]).
    unfold m_Read. destruct (runw_read latest_cb (2 ^ 63 - 1) m (Z.to_nat (t_last m - t_first m + 1)) (t_last m) None h1 st1) as (h2 & ->).
    destruct (m_Read_ _ _ _ _ _ _ _) as [st2 [l r]]. cbn [runw]. exists st2, h2. split; [reflexivity|apply eqv_refl].
Qed.
