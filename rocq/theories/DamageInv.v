(** The invariants of MetricProofs.v and MetricRead.v once more, for any way of
    representing an abstract file by bytes ([FR]: metric name, whether the file
    is the newest one of its metric, abstract file, contents) in which some
    values may be unreadable ([keep] tells which ones can be read). *)
From Coq Require Import ZArith List Lia Bool Permutation.
From Verif Require Import Base Maps Crc Record RecordSpec RecordProofs Convert ConvertSpec
  ConvertProofs File FileProofs Cache CacheProofs Metric MetricSpec MetricFile MetricPaths
  MetricProofs MetricRead DbSpec DbProofs.
Import ListNotations.
Open Scope Z_scope.

(** a callback that is not called for unreadable values *)
Definition skip_cb {X} (keep : value -> bool) (cb : callback X) : callback X :=
  fun acc v => if keep v then cb acc v else (acc, Ok true).
Lemma run_skip {X} keep (cb : callback X) l : forall acc,
  run_cb (skip_cb keep cb) acc l = run_cb cb acc (filter keep l).
Proof.
  induction l as [|v l IH]; intros acc; cbn [run_cb filter]; [reflexivity|].
  unfold skip_cb at 1. destruct (keep v); cbn [run_cb]; [|apply IH].
  destruct (cb acc v) as [acc' [[]| | |]]; auto.
Qed.

Record repr_ok (FR : list Z -> bool -> afile -> list Z -> Prop) (keep : list Z -> value -> bool) : Prop := MkRepr {
  fr_ok : forall nm b f c, FR nm b f c -> afile_ok f;
  fr_open : forall nm b f c, FR nm b f c -> openFile c = Ok (geom_of f);
  fr_head : forall nm f c, FR nm true f c -> getHeadPointer (geom_of f) c = Ok (a_cap f - used f - 1);
  fr_newest : forall nm f c, FR nm true f c ->
    f_has_record (geom_of f) (a_cap f - used f) c = match a_vals f with [] => false | _ => true end /\
    (forall v vs, a_vals f = v :: vs ->
       exists r, f_record (geom_of f) (a_cap f - used f) c = Ok r /\ r_end r = v_end v);
  fr_fresh : forall nm size cap, opts_ok size cap ->
    exists c, createFile size cap = (c, Ok (Geom cap size)) /\ FR nm true (AF cap size []) c;
  fr_write : forall nm f c v, FR nm true f c -> val_ok v -> used f + nrec (a_size f) v <= a_cap f ->
    desc (v :: a_vals f) -> keep nm v = true ->
    exists c', write_records (geom_of f) (a_cap f - used f) (nrec (a_size f) v)
                 (v_start v) (v_end v) (v_data v) c = (c', Ok true) /\
               FR nm true (AF (a_cap f) (a_size f) (v :: a_vals f)) c';
  fr_old : forall nm f c, FR nm true f c -> FR nm false f c;
  fr_read : forall X (cb : callback X) nm b f c e acc, FR nm b f c ->
    read_file cb (geom_of f) c e acc =
    if e <=? match oldest_end f with Some o => o | None => 0 end then (acc, Ok false)
    else run_cb (skip_cb (keep nm) cb) acc (filter (fun v => v_end v <? e) (a_vals f))
}.

Section Repr.
Variable FR : list Z -> bool -> afile -> list Z -> Prop.
Variable keep : list Z -> value -> bool.
Hypothesis HFR : repr_ok FR keep.

Definition nw (k : nat) : bool := match k with O => true | _ => false end.
Definition dfile (st : db) (name : list Z) (b : bool) (i : Z) (f : afile) (ino : Z) (c : list Z) : Prop :=
  mget beqb (path_of (w_root st) name i) (w_files st) = Some ino /\
  mget Z.eqb ino (w_ino st) = Some c /\ FR name b f c.

(** the world [st] stores the metrics [A], all file numbers at most [n] *)
Record DInv (n : Z) (st : db) (D : list (list Z)) (A : amap) : Prop := MkDInv {
  di_cache : cinv (w_cache st);
  di_rand : rand_ok (c_rand (w_cache st));
  di_opts : opts_ok (w_size st) (w_cap st);
  di_root : w_root st <> [];
  di_bound : 1 <= n < 2 ^ 62;
  di_dirs : w_dirs st = D;
  di_fine : forall d, In d D -> dir_fine (w_root st) d;
  di_num : forall name am, A name = Some am ->
    1 <= a_first am /\ a_files am <> [] /\ a_last am <= n;
  di_dir : forall name am, A name = Some am -> In (clean_dir (dir_of (w_root st) name)) D;
  di_file : forall name am k f, A name = Some am -> nth_error (a_files am) k = Some f ->
    exists ino c, dfile st name (nw k) (a_last am - Z.of_nat k) f ino c;
  di_paths : forall p ino, mget beqb p (w_files st) = Some ino ->
    ino < w_next st /\ exists name am i, p = path_of (w_root st) name i /\ A name = Some am /\
      a_first am <= i <= a_last am;
  di_inj : forall p q ino, mget beqb p (w_files st) = Some ino ->
    mget beqb q (w_files st) = Some ino -> p = q;
  di_nodup : NoDup (map fst (w_files st));
  di_tokle : forall p t, mget beqb p (w_toks st) = Some t -> t <= c_tok (w_cache st);
  di_toks : forall p t h, mget beqb p (w_toks st) = Some t -> lookup (w_cache st) t = Some h ->
    mget beqb p (w_files st) = Some (h_ino h) /\
    openFile (contents st (h_ino h)) = Ok (h_geom h)
}.

Lemma num_range_d n st D A name am i : DInv n st D A -> A name = Some am ->
  a_first am <= i <= a_last am -> is_i64 i.
Proof.
  intros HI HA Hi. destruct (di_num _ _ _ _ HI name am HA) as (? & _ & ?).
  pose proof (di_bound _ _ _ _ HI). unfold is_i64. lia.
Qed.

(** ** changing only the cache *)
Lemma inv_fch_d n st D A t c : DInv n st D A ->
  cinv c -> rand_ok (c_rand c) ->
  (forall p k, mget beqb p t = Some k -> k <= c_tok c) ->
  (forall p k h, mget beqb p t = Some k -> lookup c k = Some h ->
     mget beqb p (w_files st) = Some (h_ino h) /\ openFile (contents st (h_ino h)) = Ok (h_geom h)) ->
  DInv n (set_fch st t c) D A.
Proof. intros [] H1 H2 H3 H4. constructor; try assumption. Qed.

Lemma release_spec_d n st D A path h : DInv n st D A ->
  mget beqb path (w_files st) = Some (h_ino h) ->
  openFile (contents st (h_ino h)) = Ok (h_geom h) ->
  exists t c, releaseFile path h st = set_fch st t c /\ DInv n (set_fch st t c) D A /\
              c_cap c = c_cap (w_cache st).
Proof.
  intros HI Hp Ho. unfold releaseFile.
  pose proof (put_spec handle_zero (w_cache st) h (di_cache _ _ _ _ HI) (di_rand _ _ _ _ HI)) as P.
  destruct (cache_put handle_zero (w_cache st) h) as [[c tok] ev].
  destruct P as (Hc & Hr & Hcap & Ht & Ht' & Hl).
  eexists _, _. split; [reflexivity|]. split; [|exact Hcap].
  apply inv_fch_d; auto.
  - intros p k. rewrite mget_put by apply eqb_ok_bytes. destruct (beqb path p).
    + intros [= <-]. lia.
    + intros G. apply (di_tokle _ _ _ _ HI) in G. lia.
  - intros p k g. rewrite mget_put by apply eqb_ok_bytes. destruct (beqb path p) eqn:E.
    + apply beqb_eq in E. subst p. intros [= <-] G. apply Hl in G. destruct G as [[_ ->]|[? _]]; [auto|lia].
    + intros G1 G2. apply Hl in G2. destruct G2 as [[-> _]|[_ G2]].
      * apply (di_tokle _ _ _ _ HI) in G1. lia.
      * exact (di_toks _ _ _ _ HI p k g G1 G2).
Qed.

(** the lookup step of acquireFile *)
Lemma acquire_hit_d n st D A path : DInv n st D A ->
  exists c hit,
    (match mget beqb path (w_toks st) with
     | None => (st, None)
     | Some tok =>
         let '(c, r) := cache_take handle_zero (w_cache st) tok in
         (set_fch st (w_toks st) c, r)
     end) = (set_fch st (w_toks st) c, hit) /\
    DInv n (set_fch st (w_toks st) c) D A /\ c_cap c = c_cap (w_cache st) /\
    forall h, hit = Some h -> mget beqb path (w_files st) = Some (h_ino h) /\
      openFile (contents st (h_ino h)) = Ok (h_geom h).
Proof.
  intros HI. destruct (mget beqb path (w_toks st)) as [tok|] eqn:E.
  - pose proof (take_spec handle_zero (w_cache st) tok (di_cache _ _ _ _ HI)) as P.
    destruct (cache_take handle_zero (w_cache st) tok) as [c r].
    destruct P as (Hc & Hr & Hcap & Ht & Hres & Hl & _).
    eexists c, r. split; [reflexivity|]. split; [|split; [exact Hcap|]].
    + apply inv_fch_d; auto.
      * rewrite Hr. exact (di_rand _ _ _ _ HI).
      * intros p k G. rewrite Ht. exact (di_tokle _ _ _ _ HI p k G).
      * intros p k h G1 G2. rewrite Hl in G2. destruct (k =? tok); [discriminate|].
        exact (di_toks _ _ _ _ HI p k h G1 G2).
    + intros h ->. exact (di_toks _ _ _ _ HI path tok h E (eq_sym Hres)).
  - exists (w_cache st), None. split; [destruct st; reflexivity|].
    split; [destruct st; exact HI|]. split; [reflexivity|discriminate].
Qed.

(** opening an existing file *)
Lemma acquire_spec_d n st D A name am k f : DInv n st D A -> A name = Some am ->
  nth_error (a_files am) k = Some f ->
  exists ino c cc,
    acquireFile (path_of (w_root st) name (a_last am - Z.of_nat k)) true st =
      (set_fch st (w_toks st) cc, Ok (Handle ino (geom_of f))) /\
    DInv n (set_fch st (w_toks st) cc) D A /\ c_cap cc = c_cap (w_cache st) /\
    dfile st name (nw k) (a_last am - Z.of_nat k) f ino c.
Proof.
  intros HI HA Hk. destruct (di_file _ _ _ _ HI name am k f HA Hk) as (ino & c & HF).
  pose proof HF as (Hp & Hc & Hrep).
  assert (Hcont : contents st ino = c) by (unfold contents; now rewrite Hc).
  unfold acquireFile. set (path := path_of _ _ _) in *.
  destruct (acquire_hit_d n st D A path HI) as (cc & hit & -> & HI' & Hcap & Hh).
  exists ino, c, cc. split; [|auto].
  destruct hit as [h|].
  - destruct (Hh h eq_refl) as (P & O). rewrite Hp in P. injection P as P.
    rewrite <- P, Hcont, (fr_open _ _ HFR _ _ f c Hrep) in O. injection O as O.
    now rewrite (handle_eq h ino (geom_of f)).
  - unfold do_open. cbn [w_files set_fch]. fold path. rewrite Hp.
    change (contents (set_fch st (w_toks st) cc) ino) with (contents st ino).
    rewrite Hcont, (fr_open _ _ HFR _ _ f c Hrep). reflexivity.
Qed.

(** the open of a file we know *)
Lemma file_at_open_d st name b i f ino c : dfile st name b i f ino c ->
  contents st ino = c /\ openFile (contents st ino) = Ok (geom_of f).
Proof.
  intros (_ & Hc & Hr). unfold contents. rewrite Hc. split; [reflexivity|]. exact (fr_open _ _ HFR _ _ _ _ Hr).
Qed.

Lemma inv_mono_d n m st D A : DInv n st D A -> n <= m < 2 ^ 62 -> DInv m st D A.
Proof.
  intros [] H. constructor; try assumption; [lia|].
  intros name am HA. destruct (di_num0 name am HA) as (? & ? & ?). split; [|split]; auto; lia.
Qed.

Lemma path_neq_d st n D A name am i name' i' : DInv n st D A -> A name = Some am ->
  a_first am <= i <= a_last am -> is_i64 i' ->
  path_of (w_root st) name i = path_of (w_root st) name' i' -> name = name' /\ i = i'.
Proof.
  intros HI HA Hi Hi' E. apply path_inj in E; auto; [exact (di_root _ _ _ _ HI)|].
  eapply num_range_d; eauto.
Qed.

(** creating the next file *)
Lemma create_spec_d n st D A name first older : DInv n st D A -> 1 <= first ->
  first + len older <= n ->
  (A name = None /\ older = [] /\ In (clean_dir (dir_of (w_root st) name)) D \/
   A name = Some (AM first older)) ->
  exists ino c st',
    acquireFile (path_of (w_root st) name (first + len older)) false st =
      (st', Ok (Handle ino (Geom (w_cap st) (w_size st)))) /\
    DInv n st' D (aput name (AM first (AF (w_cap st) (w_size st) [] :: older)) A) /\
    same_opts st st' /\
    dfile st' name true (first + len older) (AF (w_cap st) (w_size st) []) ino c /\
    (forall p, p <> path_of (w_root st) name (first + len older) ->
       mget beqb p (w_files st') = mget beqb p (w_files st)).
Proof.
  intros HI Hf Hn HA. set (path := path_of (w_root st) name (first + len older)).
  pose proof (di_bound _ _ _ _ HI) as Hb. pose proof (len_nonneg older) as Hlo.
  assert (Hi64 : is_i64 (first + len older)) by (unfold is_i64; lia).
  assert (Hnone : mget beqb path (w_files st) = None).
  { destruct (mget beqb path (w_files st)) as [ino|] eqn:E; [|reflexivity].
    destruct (di_paths _ _ _ _ HI path ino E) as (_ & name' & am' & i' & Ep & HA' & Hr).
    symmetry in Ep. destruct (path_neq_d st n D A name' am' i' _ _ HI HA' Hr Hi64 Ep) as [-> ->].
    destruct HA as [(HA & _)|HA]; rewrite HA in HA'; [discriminate|].
    injection HA' as <-. unfold a_last in Hr. cbn [a_first a_files] in Hr. lia. }
  destruct (fr_fresh _ _ HFR name (w_size st) (w_cap st) (di_opts _ _ _ _ HI)) as (c & Ec & Hrep).
  unfold acquireFile.
  destruct (acquire_hit_d n st D A path HI) as (cc & hit & -> & HI' & Hcap & Hh).
  destruct hit as [h|]; [destruct (Hh h eq_refl) as (P & _); congruence|].
  unfold do_create. cbn [w_size w_cap w_files set_fch]. fold path. rewrite Ec, Hnone. cbn [bind].
  set (st1 := DB _ _ _ _ _ _ _ _ _ _).
  assert (Hother : forall p ino, mget beqb p (w_files st) = Some ino ->
            p <> path /\ ino <> w_next st /\ mget beqb p (w_files st1) = Some ino /\
            mget Z.eqb ino (w_ino (set_contents st1 (w_next st) c)) = mget Z.eqb ino (w_ino st)).
  { intros p ino G. destruct (di_paths _ _ _ _ HI p ino G) as (Hlt & _).
    assert (p <> path) by congruence. split; [auto|]. split; [lia|]. split.
    - unfold st1; cbn [w_files set_fch]. rewrite mget_put_other; auto using eqb_ok_bytes.
    - unfold set_contents, set_ino, st1; cbn [w_ino set_fch].
      rewrite mget_put_other; auto using eqb_ok_Z. lia. }
  assert (Hnew : mget beqb path (w_files st1) = Some (w_next st)).
  { unfold st1; cbn [w_files set_fch]. apply mget_put_same, eqb_ok_bytes. }
  exists (w_next st), c, (set_contents st1 (w_next st) c).
  assert (HFA : dfile (set_contents st1 (w_next st) c) name true (first + len older)
                  (AF (w_cap st) (w_size st) []) (w_next st) c).
  { split; [exact Hnew|]. split; [|exact Hrep].
    unfold set_contents, set_ino; cbn [w_ino]. apply mget_put_same, eqb_ok_Z. }
  split; [reflexivity|]. split; [|split; [unfold same_opts; cbn; auto|split; [exact HFA|]]].
  2:{ intros p Hp. unfold set_contents, set_ino, st1; cbn [w_files set_fch].
      apply mget_put_other; [apply eqb_ok_bytes|]. congruence. }
  destruct HI. constructor; try assumption.
  - apply (di_cache _ _ _ _ HI').
  - apply (di_rand _ _ _ _ HI').
  - intros name' am'. destruct (bytes_eq_dec name name') as [<-|Hne].
    + rewrite aput_same. intros [= <-]. cbn [a_first a_files]. unfold a_last. cbn [a_first a_files].
      rewrite len_cons. split; [lia|]. split; [discriminate|lia].
    + rewrite aput_other by auto. apply di_num0.
  - intros name' am'. destruct (bytes_eq_dec name name') as [<-|Hne].
    + intros _. destruct HA as [(_ & _ & HD)|HA]; [exact HD|]. exact (di_dir0 name _ HA).
    + rewrite aput_other by auto. apply di_dir0.
  - intros name' am' k f. destruct (bytes_eq_dec name name') as [<-|Hne].
    + rewrite aput_same. intros [= <-]. cbn [a_files]. unfold a_last; cbn [a_first a_files].
      rewrite len_cons. destruct k as [|k]; cbn [nth_error].
      * intros [= <-]. exists (w_next st), c.
        replace (first + (1 + len older) - 1 - Z.of_nat 0) with (first + len older) by lia. exact HFA.
      * intros Hk. destruct HA as [(_ & -> & _)|HA]; [destruct k; discriminate|].
        destruct (di_file0 name _ k f HA Hk) as (ino & c' & P1 & P2 & P3).
        exists ino, c'. unfold a_last in P1; cbn [a_first a_files] in P1.
        replace (first + (1 + len older) - 1 - Z.of_nat (S k))
          with (first + len older - 1 - Z.of_nat k) by lia.
        destruct (Hother _ _ P1) as (_ & _ & Q1 & Q2).
        split; [exact Q1|]. split; [rewrite Q2; exact P2|destruct k; [exact (fr_old _ _ HFR _ _ _ P3)|exact P3]].
    + rewrite aput_other by auto. intros HA' Hk.
      destruct (di_file0 name' am' k f HA' Hk) as (ino & c' & P1 & P2 & P3).
      exists ino, c'. destruct (Hother _ _ P1) as (_ & _ & Q1 & Q2).
      split; [exact Q1|]. split; [rewrite Q2; exact P2|exact P3].
  - intros p ino. unfold set_contents, set_ino, st1; cbn [w_files w_next w_root set_fch].
    rewrite mget_put by apply eqb_ok_bytes. destruct (beqb path p) eqn:E.
    + apply beqb_eq in E. intros [= <-]. split; [lia|].
      exists name, (AM first (AF (w_cap st) (w_size st) [] :: older)), (first + len older).
      split; [symmetry; exact E|]. rewrite aput_same. split; [reflexivity|].
      unfold a_last; cbn [a_first a_files]. rewrite len_cons. lia.
    + intros G. destruct (di_paths0 p ino G) as (Hlt & name' & am' & i' & -> & HA' & Hr). split; [lia|].
      destruct (bytes_eq_dec name name') as [<-|Hne].
      * exists name, (AM first (AF (w_cap st) (w_size st) [] :: older)), i'.
        split; [reflexivity|]. rewrite aput_same. split; [reflexivity|].
        destruct HA as [(HA & _)|HA]; rewrite HA in HA'; [discriminate|]. injection HA' as <-.
        unfold a_last in *; cbn [a_first a_files] in *. rewrite len_cons. lia.
      * exists name', am', i'. rewrite aput_other by auto. auto.
  - intros p q ino. unfold set_contents, set_ino, st1; cbn [w_files set_fch].
    rewrite !mget_put by apply eqb_ok_bytes. destruct (beqb path p) eqn:E1, (beqb path q) eqn:E2.
    + apply beqb_eq in E1, E2. congruence.
    + intros [= <-] G. destruct (di_paths0 q _ G). lia.
    + intros G [= <-]. destruct (di_paths0 p _ G). lia.
    + apply di_inj0.
  - unfold set_contents, set_ino, st1; cbn [w_files set_fch]. now apply nodup_mput.
  - apply (di_tokle _ _ _ _ HI').
  - intros p t h G1 G2. destruct (di_toks _ _ _ _ HI' p t h G1 G2) as (P & O).
    cbn [w_files set_fch] in P. destruct (Hother _ _ P) as (_ & Hni & Q1 & Q2).
    split; [exact Q1|]. unfold contents in *. rewrite Q2. exact O.
Qed.

(** the file numbers found in the directory of [name] *)
Lemma listing_d n st D A name i : DInv n st D A ->
  In i (numbers (listdir (dir_of (w_root st) name) st)) <->
  exists am, A name = Some am /\ a_first am <= i <= a_last am.
Proof.
  intros HI. pose proof (di_root _ _ _ _ HI) as Hroot. unfold listdir. rewrite numbers_app, in_app_iff. split.
  - intros [Hin|Hin]; apply in_numbers in Hin; destruct Hin as (nm & Hin & E).
    + apply in_flat_map in Hin. destruct Hin as (p & Hp & Hc).
      apply in_mget in Hp. destruct Hp as (ino & G).
      destruct (di_paths _ _ _ _ HI p ino G) as (_ & name' & am & j & -> & HA & Hr).
      pose proof (num_range_d _ _ _ _ _ _ j HI HA Hr) as Hj.
      rewrite child_of_path in Hc by auto. destruct (beqb name' name) eqn:En; [|contradiction].
      apply beqb_eq in En. subst name'. destruct Hc as [<-|[]].
      rewrite dataFileNumber_itoa in E by auto. injection E as <-. eauto.
    + apply in_flat_map in Hin. destruct Hin as (d & Hd & Hc).
      rewrite (di_dirs _ _ _ _ HI) in Hd. pose proof (di_fine _ _ _ _ HI d Hd) as Hfine.
      unfold child_of in Hc. destruct (split_last d) as [[d' m]|] eqn:Es; [|contradiction].
      destruct (beqb d' _) eqn:Ed; [|contradiction]. apply beqb_eq in Ed. destruct Hc as [<-|[]].
      destruct (Hfine d' m Es) as [Hlt|Hnd].
      * subst d'. pose proof (dir_length (w_root st) name Hroot). lia.
      * rewrite suffix_has_dot in E by auto. discriminate.
  - intros (am & HA & Hr). left. apply in_numbers.
    exists (itoa i ++ s_data). pose proof (num_range_d _ _ _ _ _ _ i HI HA Hr) as Hi.
    split; [|now apply dataFileNumber_itoa].
    apply in_flat_map. exists (path_of (w_root st) name i). split.
    + set (k := Z.to_nat (a_last am - i)).
      assert (Hk : (k < length (a_files am))%nat) by (unfold a_last, len in *; lia).
      destruct (nth_error (a_files am) k) as [f|] eqn:Ef; [|apply nth_error_None in Ef; lia].
      destruct (di_file _ _ _ _ HI name am k f HA Ef) as (ino & c & P & _).
      replace (a_last am - Z.of_nat k) with i in P by lia. exact (mget_in _ _ _ P).
    + rewrite child_of_path by auto. rewrite beqb_refl. now left.
Qed.

Lemma newMetric_some_d n st D A name am ro : DInv n st D A -> A name = Some am ->
  newMetric name ro st = (st, Ok (Metric (dir_of (w_root st) name) (a_first am) (a_last am))).
Proof.
  intros HI HA. unfold newMetric. fold (dir_of (w_root st) name).
  assert (E : dir_exists (dir_of (w_root st) name) st = true).
  { apply dir_exists_iff; [exact (di_root _ _ _ _ HI)|]. rewrite (di_dirs _ _ _ _ HI).
    exact (di_dir _ _ _ _ HI name am HA). }
  rewrite E. cbn [negb]. destruct (di_num _ _ _ _ HI name am HA) as (H1 & H2 & H3).
  assert (a_first am <= a_last am).
  { unfold a_last, len. destruct (a_files am); [contradiction|cbn [length]; lia]. }
  rewrite (scan_range _ (a_first am) (a_last am)); auto.
  - intros i Hi. apply (listing_d n st D A name i HI) in Hi. destruct Hi as (am' & HA' & Hr).
    rewrite HA in HA'. injection HA' as <-. exact Hr.
  - apply (listing_d n st D A name _ HI). exists am. split; [auto|lia].
  - apply (listing_d n st D A name _ HI). exists am. split; [auto|lia].
Qed.

Lemma inv_mkdir_d n st D A name : DInv n st D A ->
  DInv n (set_dirs st (ancestors [] (clean_dir (dir_of (w_root st) name)) ++ D))
      (ancestors [] (clean_dir (dir_of (w_root st) name)) ++ D) A.
Proof.
  intros []. constructor; try assumption.
  - reflexivity.
  - intros d Hd. apply in_app_iff in Hd. destruct Hd as [Hd|Hd]; [|now apply di_fine0].
    now apply mkdir_fine in Hd.
  - intros name' am HA. apply in_app_iff. right. now apply (di_dir0 name' am).
Qed.

Lemma numbers_none_d n st D A name : DInv n st D A -> A name = None ->
  numbers (listdir (dir_of (w_root st) name) st) = [].
Proof.
  intros HI HA. destruct (numbers _) as [|i l] eqn:E; [reflexivity|].
  assert (In i (numbers (listdir (dir_of (w_root st) name) st))) as Hi by (rewrite E; now left).
  apply (listing_d n st D A name i HI) in Hi. destruct Hi as (am & HA' & _). congruence.
Qed.

Lemma newMetric_none_d n st D A name ro : DInv n st D A -> A name = None ->
  let exists_ := existsb (beqb (clean_dir (dir_of (w_root st) name))) D in
  (ro = true /\ exists_ = false /\ newMetric name ro st = (st, Err)) \/
  ((ro = false \/ exists_ = true) /\
   exists st', newMetric name ro st = (st', Ok (Metric (dir_of (w_root st) name) 1 1)) /\
     same_opts st st' /\
     DInv n st' (a_dirs (w_root st) D name)
       (aput name (a_fresh (w_size st) (w_cap st)) A)).
Proof.
  intros HI HA exists_. pose proof (di_root _ _ _ _ HI) as Hroot.
  assert (Edir : dir_exists (dir_of (w_root st) name) st = exists_).
  { unfold dir_exists. rewrite dir_nonempty by auto. cbn [andb]. now rewrite (di_dirs _ _ _ _ HI). }
  assert (Main : forall st0 D0, DInv n st0 D0 A -> w_root st0 = w_root st ->
     w_size st0 = w_size st -> w_cap st0 = w_cap st -> same_opts st st0 ->
     In (clean_dir (dir_of (w_root st) name)) D0 ->
     exists st', 
       (let '(first, last, first_set) := fold_left scan_step (listdir (dir_of (w_root st) name) st0) (0, 0, false) in
        if first_set then (st0, Ok (Metric (dir_of (w_root st) name) first last))
        else
          let path := metricFilenameAt (dir_of (w_root st) name) 1 in
          match acquireFile path false st0 with
          | (st, Ok f) => (releaseFile path f st, Ok (Metric (dir_of (w_root st0) name) 1 1))
          | (st, Err) => (st, Err)
          | (st, Panic) => (st, Panic)
          | (st, Diverge) => (st, Diverge)
          end) = (st', Ok (Metric (dir_of (w_root st) name) 1 1)) /\ same_opts st st' /\
       DInv n st' D0 (aput name (a_fresh (w_size st) (w_cap st)) A)).
  { intros st0 D0 HI0 Er Es Ecap Hso HD.
    rewrite scan_none by (rewrite <- Er; now apply (numbers_none_d n st0 D0 A name)).
    cbn zeta. fold (path_of (w_root st) name 1).
    destruct (create_spec_d n st0 D0 A name 1 [] HI0) as (ino & c & st1 & E1 & HI1 & Hso1 & HF1 & _).
    - lia.
    - change (len (@nil afile)) with 0. pose proof (di_bound _ _ _ _ HI0). lia.
    - left. rewrite Er. auto.
    - change (1 + len (@nil afile)) with 1 in *. rewrite Er in E1. rewrite E1.
      rewrite Es, Ecap in *.
      destruct (file_at_open_d _ _ _ _ _ _ _ HF1) as (_ & Ho).
      assert (Er1 : w_root st1 = w_root st) by (destruct Hso1 as (_ & _ & _ & ? & _); congruence).
      destruct (release_spec_d n st1 D0 _ (path_of (w_root st) name 1)
                  (Handle ino (Geom (w_cap st) (w_size st))) HI1) as (t & cc & -> & HI2 & Hcap).
      + destruct HF1 as (P & _). rewrite Er1 in P. exact P.
      + exact Ho.
      + exists (set_fch st1 t cc). rewrite Er. split; [reflexivity|]. split; [|exact HI2].
        eapply same_opts_trans; [exact Hso|]. eapply same_opts_trans; [exact Hso1|].
        unfold same_opts; cbn. auto. }
  unfold newMetric. fold (dir_of (w_root st) name). rewrite Edir. unfold a_dirs. fold exists_.
  destruct exists_ eqn:Ee; cbn [negb].
  - right. split; [auto|].
    destruct (Main st D HI eq_refl eq_refl eq_refl (same_opts_refl st)) as (st' & E & R).
    { rewrite <- (di_dirs _ _ _ _ HI). apply dir_exists_iff; [exact Hroot|]. rewrite Edir. reflexivity. }
    exists st'. split; [exact E|exact R].
  - destruct ro.
    + left. auto.
    + right. split; [auto|]. unfold mkdirAll.
      pose proof (dir_nonempty (w_root st) name Hroot) as Hne. apply Z.ltb_lt in Hne.
      destruct (Z.eqb_spec (len (dir_of (w_root st) name)) 0); [lia|]. cbn [negb].
      rewrite (di_dirs _ _ _ _ HI).
      destruct (Main _ _ (inv_mkdir_d n st D A name HI) eq_refl eq_refl eq_refl) as (st' & E & R).
      * unfold same_opts; cbn; auto.
      * apply in_app_iff. left. exact (ancestors_self _ []).
      * exists st'. split; [exact E|exact R].
Qed.

Lemma drop_spec_d n st D A name am : DInv n st D A -> A name = Some am ->
  (2 <= length (a_files am))%nat ->
  let fp := path_of (w_root st) name (a_first am) in
  let st' := osRemove fp (evictFile fp st) in
  DInv n st' D (aput name (AM (a_first am + 1) (removelast (a_files am))) A) /\ same_opts st st'.
Proof.
  intros HI HA Hl fp st'.
  assert (Hne : a_files am <> []) by (destruct (a_files am); [cbn in Hl; lia|discriminate]).
  assert (Ev : exists t cc, evictFile fp st = set_fch st t cc /\ DInv n (set_fch st t cc) D A /\
             c_cap cc = c_cap (w_cache st) /\
             forall k h, mget beqb fp t = Some k -> lookup cc k = Some h -> False).
  { unfold evictFile. destruct (mget beqb fp (w_toks st)) as [tok|] eqn:E.
    - pose proof (take_spec handle_zero (w_cache st) tok (di_cache _ _ _ _ HI)) as P.
      destruct (cache_take handle_zero (w_cache st) tok) as [c r].
      destruct P as (Hc & Hr & Hcap & Ht & Hres & Hlk & _).
      eexists _, _. split; [reflexivity|]. split; [|split; [exact Hcap|]].
      + apply inv_fch_d; auto.
        * rewrite Hr. exact (di_rand _ _ _ _ HI).
        * intros p k. rewrite mget_del by apply eqb_ok_bytes. destruct (beqb fp p); [discriminate|].
          rewrite Ht. apply (di_tokle _ _ _ _ HI).
        * intros p k h. rewrite mget_del by apply eqb_ok_bytes. destruct (beqb fp p); [discriminate|].
          intros G1 G2. rewrite Hlk in G2. destruct (k =? tok); [discriminate|].
          exact (di_toks _ _ _ _ HI p k h G1 G2).
      + intros k h. rewrite mget_del_same by apply eqb_ok_bytes. discriminate.
    - exists (w_toks st), (w_cache st). split; [destruct st; reflexivity|].
      split; [destruct st; exact HI|]. split; [reflexivity|]. intros k h G. congruence. }
  destruct Ev as (t & cc & Ee & HI' & Hcap & Hno). unfold st'. rewrite Ee.
  split; [|unfold same_opts; cbn; auto].
  pose proof (num_range_d n st D A name am (a_first am) HI HA) as Hfi.
  assert (Hff : is_i64 (a_first am)) by (apply Hfi; unfold a_last, len; destruct (a_files am); [contradiction|cbn [length]; lia]).
  assert (Hneq : forall name' am' i, A name' = Some am' -> a_first am' <= i <= a_last am' ->
     (name <> name' \/ a_first am < i) -> fp <> path_of (w_root st) name' i).
  { intros name' am' i HA' Hr Hd E. unfold fp in E. symmetry in E.
    destruct (path_neq_d st n D A name' am' i _ _ HI HA' Hr Hff E) as [-> ->]. destruct Hd; [congruence|lia]. }
  assert (Hlast : a_last (AM (a_first am + 1) (removelast (a_files am))) = a_last am).
  { unfold a_last; cbn [a_first a_files]. rewrite len_removelast by auto. lia. }
  assert (Hdel : forall p ino, mget beqb p (mdel beqb fp (w_files st)) = Some ino ->
            p <> fp /\ mget beqb p (w_files st) = Some ino).
  { intros p ino. rewrite mget_del by apply eqb_ok_bytes. destruct (beqb fp p) eqn:E; [discriminate|].
    apply beqb_neq in E. auto. }
  destruct HI'. constructor; try assumption.
  - intros name' am'. destruct (bytes_eq_dec name name') as [<-|Hn].
    + rewrite aput_same. intros [= <-]. rewrite Hlast. cbn [a_first a_files].
      destruct (di_num0 name am HA) as (? & _ & ?). split; [lia|]. split; [|lia].
      intros E. apply (f_equal (@len afile)) in E. rewrite len_removelast in E by auto.
      change (len (@nil afile)) with 0 in E. unfold len in E. lia.
    + rewrite aput_other by auto. apply di_num0.
  - intros name' am'. destruct (bytes_eq_dec name name') as [<-|Hn].
    + intros _. exact (di_dir0 name am HA).
    + rewrite aput_other by auto. apply di_dir0.
  - intros name' am' k f. destruct (bytes_eq_dec name name') as [<-|Hn].
    + rewrite aput_same. intros [= <-]. rewrite Hlast. cbn [a_files].
      intros Hk. apply nth_error_removelast in Hk. destruct Hk as [Hk Hlt].
      destruct (di_file0 name am k f HA Hk) as (ino & c & P1 & P2 & P3). exists ino, c.
      split; [|split; [exact P2|exact P3]]. unfold osRemove, set_files; cbn [w_files w_root set_fch].
      rewrite mget_del_other; [exact P1|apply eqb_ok_bytes|].
      apply (Hneq name am); auto; [unfold a_last, len; lia|right; unfold a_last, len; lia].
    + rewrite aput_other by auto. intros HA' Hk.
      destruct (di_file0 name' am' k f HA' Hk) as (ino & c & P1 & P2 & P3). exists ino, c.
      split; [|split; [exact P2|exact P3]]. unfold osRemove, set_files; cbn [w_files w_root set_fch].
      rewrite mget_del_other; [exact P1|apply eqb_ok_bytes|].
      apply (Hneq name' am'); auto. apply last_range. apply nth_error_Some. congruence.
  - intros p ino G. unfold osRemove, set_files in G; cbn [w_files set_fch] in G.
    apply Hdel in G. destruct G as [Hp G]. destruct (di_paths0 p ino G) as (Hlt & name' & am' & i & -> & HA' & Hr).
    split; [exact Hlt|]. destruct (bytes_eq_dec name name') as [<-|Hn].
    + rewrite HA in HA'. injection HA' as <-.
      exists name, (AM (a_first am + 1) (removelast (a_files am))), i.
      split; [reflexivity|]. rewrite aput_same. split; [reflexivity|]. rewrite Hlast. cbn [a_first].
      assert (i <> a_first am) by (intros ->; now apply Hp). lia.
    + exists name', am', i. rewrite aput_other by auto. auto.
  - intros p q ino G1 G2. unfold osRemove, set_files in G1, G2; cbn [w_files set_fch] in G1, G2.
    apply Hdel in G1, G2. apply (di_inj0 p q ino); tauto.
  - unfold osRemove, set_files; cbn [w_files set_fch]. now apply nodup_mdel.
  - intros p k h G1 G2. destruct (di_toks0 p k h G1 G2) as (P & O). split; [|exact O].
    unfold osRemove, set_files; cbn [w_files set_fch].
    rewrite mget_del_other; [exact P|apply eqb_ok_bytes|].
    intros <-. exact (Hno k h G1 G2).
Qed.

(** ** storing into the newest file *)
Lemma store_spec_d n st D A name am f older ino c f' c' : DInv n st D A -> A name = Some am ->
  a_files am = f :: older -> dfile st name true (a_last am) f ino c ->
  FR name true f' c' -> geom_of f' = geom_of f ->
  DInv n (set_contents st ino c') D (aput name (AM (a_first am) (f' :: older)) A) /\
  same_opts st (set_contents st ino c') /\
  dfile (set_contents st ino c') name true (a_last am) f' ino c'.
Proof.
  intros HI HA Hfs HF Hrep Hg. pose proof HF as (P0 & C0 & R0).
  assert (Hlast : a_last (AM (a_first am) (f' :: older)) = a_last am).
  { unfold a_last; cbn [a_first a_files]. rewrite Hfs, !len_cons. reflexivity. }
  assert (Hr0 : a_first am <= a_last am <= a_last am).
  { unfold a_last. rewrite Hfs, len_cons. pose proof (len_nonneg older). lia. }
  assert (HF' : dfile (set_contents st ino c') name true (a_last am) f' ino c').
  { split; [exact P0|]. split; [|exact Hrep]. unfold set_contents, set_ino; cbn [w_ino].
    apply mget_put_same, eqb_ok_Z. }
  split; [|split; [unfold same_opts; cbn; auto|exact HF']].
  assert (Hoth : forall p ino', mget beqb p (w_files st) = Some ino' ->
            p <> path_of (w_root st) name (a_last am) -> ino' <> ino).
  { intros p ino' G Hp ->. apply Hp. exact (di_inj _ _ _ _ HI p _ ino G P0). }
  assert (Hget : forall ino', ino' <> ino ->
            mget Z.eqb ino' (w_ino (set_contents st ino c')) = mget Z.eqb ino' (w_ino st)).
  { intros ino' H. unfold set_contents, set_ino; cbn [w_ino].
    apply mget_put_other; [apply eqb_ok_Z|congruence]. }
  assert (Hi0 : is_i64 (a_last am)) by (eapply num_range_d; eauto).
  pose proof HI as HI0. destruct HI. constructor; try assumption.
  - intros name' am'. destruct (bytes_eq_dec name name') as [<-|Hn].
    + rewrite aput_same. intros [= <-]. rewrite Hlast. cbn [a_first a_files].
      destruct (di_num0 name am HA) as (? & _ & ?). split; [lia|]. split; [discriminate|lia].
    + rewrite aput_other by auto. apply di_num0.
  - intros name' am'. destruct (bytes_eq_dec name name') as [<-|Hn].
    + intros _. exact (di_dir0 name am HA).
    + rewrite aput_other by auto. apply di_dir0.
  - intros name' am' k g. destruct (bytes_eq_dec name name') as [<-|Hn].
    + rewrite aput_same. intros [= <-]. rewrite Hlast. cbn [a_files].
      destruct k as [|k]; cbn [nth_error].
      * intros [= <-]. exists ino, c'. rewrite Z.sub_0_r. exact HF'.
      * intros Hk. assert (Hk' : nth_error (a_files am) (S k) = Some g) by (rewrite Hfs; exact Hk).
        destruct (di_file0 name am (S k) g HA Hk') as (ino' & c1 & P1 & P2 & P3).
        exists ino', c1. split; [exact P1|]. split; [|exact P3].
        rewrite Hget; [exact P2|]. apply (Hoth _ _ P1).
        intros E. apply (path_neq_d st n D A name am) in E; auto; [lia|].
        apply last_range. apply nth_error_Some. congruence.
    + rewrite aput_other by auto. intros HA' Hk.
      destruct (di_file0 name' am' k g HA' Hk) as (ino' & c1 & P1 & P2 & P3).
      exists ino', c1. split; [exact P1|]. split; [|exact P3].
      rewrite Hget; [exact P2|]. apply (Hoth _ _ P1).
      intros E. apply (path_neq_d st n D A name' am') in E; auto; [destruct E; congruence|].
      apply last_range. apply nth_error_Some. congruence.
  - intros p ino' G. destruct (di_paths0 p ino' G) as (Hlt & name' & am' & i & -> & HA' & Hr).
    split; [exact Hlt|]. destruct (bytes_eq_dec name name') as [<-|Hn].
    + exists name, (AM (a_first am) (f' :: older)), i. split; [reflexivity|]. rewrite aput_same.
      split; [reflexivity|]. rewrite Hlast. cbn [a_first]. rewrite HA in HA'. injection HA' as <-. exact Hr.
    + exists name', am', i. rewrite aput_other by auto. auto.
  - intros p t h G1 G2. destruct (di_toks0 p t h G1 G2) as (P & O). split; [exact P|].
    unfold contents in *. destruct (Z.eq_dec (h_ino h) ino) as [E|E].
    + rewrite E in *. destruct HF' as (_ & -> & _).
      rewrite C0, (fr_open _ _ HFR _ _ f c R0) in O. rewrite (fr_open _ _ HFR _ _ f' c' Hrep). congruence.
    + rewrite Hget by exact E. exact O.
Qed.

(** acquireLast on a well formed metric *)
Lemma acquireLast_spec_d n st D A name am f older : DInv n st D A -> A name = Some am ->
  a_files am = f :: older -> (older = [] \/ a_vals f <> []) ->
  let m := Metric (dir_of (w_root st) name) (a_first am) (a_last am) in
  exists ino c cc,
    acquireLast m st = (set_fch st (w_toks st) cc,
                        Ok (Handle ino (geom_of f), a_cap f - used f - 1, m)) /\
    DInv n (set_fch st (w_toks st) cc) D A /\ c_cap cc = c_cap (w_cache st) /\
    dfile st name true (a_last am) f ino c.
Proof.
  intros HI HA Hfs Hne m. unfold acquireLast. cbn [t_last t_first m].
  assert (Hln : a_last am - a_first am + 1 = len (a_files am)) by (unfold a_last; lia).
  rewrite Hln. unfold len. rewrite Nat2Z.id, Hfs. cbn [length acquireLast_ t_last t_first m].
  assert (Hle : a_first am <= a_last am).
  { unfold a_last. rewrite Hfs, len_cons. pose proof (len_nonneg older). lia. }
  destruct (Z.ltb_spec (a_last am) (a_first am)); [lia|].
  destruct (acquire_spec_d n st D A name am 0 f HI HA) as (ino & c & cc & E & HI' & Hcap & HF);
    [rewrite Hfs; reflexivity|].
  rewrite Z.sub_0_r in *. exists ino, c, cc. 
  change (filenameAt m (a_last am)) with (path_of (w_root st) name (a_last am)). rewrite E.
  split; [|auto]. cbn [h_geom h_ino].
  change (contents (set_fch st (w_toks st) cc) ino) with (contents st ino).
  destruct (file_at_open_d _ _ _ _ _ _ _ HF) as (-> & _). destruct HF as (_ & _ & Hrep).
  rewrite (fr_head _ _ HFR _ f c Hrep). cbn [g_cap geom_of].
  destruct (Z.eqb_spec (a_cap f - used f - 1) (a_cap f - 1)) as [Eu|]; [|reflexivity]. cbn [andb].
  destruct (Z.ltb_spec (a_first am) (a_last am)); [|reflexivity]. exfalso.
  destruct Hne as [->|Hne].
  - unfold a_last in *. rewrite Hfs in *. change (len [f]) with 1 in *. lia.
  - destruct (fr_ok _ _ HFR _ _ _ _ Hrep) as ((Hs & _) & _). unfold used in Eu. destruct (a_vals f) as [|v vs]; [contradiction|].
    cbn [used_] in Eu. pose proof (nrec_pos (a_size f) v ltac:(lia)).
    pose proof (used_nonneg (a_size f) vs ltac:(lia)). lia.
Qed.

Lemma inv_ext_d n st D A A' : (forall x, A x = A' x) -> DInv n st D A -> DInv n st D A'.
Proof.
  intros E []. constructor; try assumption.
  - intros name am. rewrite <- E. apply di_num0.
  - intros name am. rewrite <- E. apply di_dir0.
  - intros name am k f. rewrite <- E. apply di_file0.
  - intros p ino G. destruct (di_paths0 p ino G) as (H & name & am & i & ? & ? & ?).
    split; [exact H|]. exists name, am, i. rewrite <- E. auto.
Qed.

Lemma m_Write_any_spec_d n st D A name am v : DInv n st D A -> A name = Some am -> am_ok am ->
  val_ok v -> n + 1 < 2 ^ 62 ->
  ((forall w, In w (a_values am) -> v_end w < v_end v) -> keep name v = true) ->
  let aw := a_write_any (w_size st) (w_cap st) (w_max st) am v in
  exists st',
    m_Write (Metric (dir_of (w_root st) name) (a_first am) (a_last am))
            (v_start v) (v_end v) (v_data v) st = (st', snd aw) /\
    DInv (n + 1) st' D (aput name (fst aw) A) /\ same_opts st st'.
Proof.
  intros HI HA (Hdesc & Hnn & Hall) Hv Hn Hkeep aw.
  destruct (a_files am) as [|f older] eqn:Hfs; [contradiction|].
  assert (Hne : older = [] \/ a_vals f <> []).
  { destruct older; [now left|right]. inversion Hall; subst; assumption. }
  pose proof (di_bound _ _ _ _ HI) as Hb.
  destruct (acquireLast_spec_d n st D A name am f older HI HA Hfs Hne) as (ino & c & cc & E & HI1 & Hcap1 & HF).
  set (m := Metric _ _ _) in *. unfold m_Write. rewrite E. clear E.
  set (st1 := set_fch st (w_toks st) cc) in *.
  assert (HF1 : dfile st1 name true (a_last am) f ino c) by exact HF.
  assert (Hso1 : same_opts st st1) by (unfold same_opts; cbn; auto).
  destruct (file_at_open_d _ _ _ _ _ _ _ HF1) as (Hc1 & Ho1).
  pose proof HF1 as (Pp & Pc & Prep). pose proof (fr_ok _ _ HFR _ _ _ _ Prep) as ((Hs & Hcp & Hprod) & Hvs & Hu & Hdf).
  destruct (fr_newest _ _ HFR _ f c Prep) as (Hhas & Hrec).
  destruct (recs_spec (a_size f) v Hs Hv) as (_ & Hnum & _ & Hnp & _).
  set (p1 := path_of (w_root st1) name (a_last am)) in *.
  change (filenameAt m (t_last m)) with p1.
  (* results that leave the state alone *)
  assert (Stay : forall r, aw = (am, r) -> exists st',
            (releaseFile p1 (Handle ino (geom_of f)) st1, r) = (st', snd aw) /\
            DInv (n + 1) st' D (aput name (fst aw) A) /\ same_opts st st').
  { intros r ->. cbn [fst snd].
    destruct (release_spec_d n st1 D A p1 (Handle ino (geom_of f)) HI1 Pp Ho1) as (t & c2 & -> & HI2 & Hcap2).
    eexists. split; [reflexivity|]. split.
    - apply inv_mono_d with (n := n); [|lia]. eapply inv_ext_d; [|exact HI2]. now apply aput_id.
    - eapply same_opts_trans; [exact Hso1|]. unfold same_opts; cbn; auto. }
  unfold write_with. cbn [h_geom h_ino]. rewrite Hc1.
  replace (a_cap f - used f - 1 + 1) with (a_cap f - used f) by lia. rewrite Hhas.
  unfold aw, a_write_any in Stay |- *. rewrite Hfs in Stay |- *.
  destruct (match a_vals f with [] => false | w :: _ => v_end v <=? v_end w end) eqn:Eold.
  { (* not newer *)
    destruct (a_vals f) as [|w ws] eqn:Ev; [discriminate|].
    destruct (Hrec w ws eq_refl) as (r & Er & Ee). rewrite Er, Ee, Eold. now apply Stay. }
  replace (if match a_vals f with [] => false | _ => true end
           then match f_record (geom_of f) (a_cap f - used f) c with
                | Ok r => if v_end v <=? r_end r then Some (Ok false) else None
                | Err => Some Err | Panic => Some Panic | Diverge => Some Diverge end
           else None) with (@None (res bool)).
  2:{ destruct (a_vals f) as [|w ws] eqn:Ev; [reflexivity|].
      destruct (Hrec w ws eq_refl) as (r & Er & Ee). now rewrite Er, Ee, Eold. }
  cbn [g_size geom_of g_cap]. rewrite Hnum.
  destruct (Z.eqb_spec (nrec (a_size f) v) 0); [lia|].
  assert (Hdv : desc (v :: a_vals f)).
  { apply desc_cons; [exact Hdf|]. intros w r Ew. rewrite Ew in Eold. apply Z.leb_gt in Eold. exact Eold. }
  assert (Hkv : keep name v = true).
  { apply Hkeep. intros w Hw. unfold a_values in Hw, Hdesc. rewrite Hfs in Hw. cbn [flat_map] in Hw, Hdesc.
    destruct (a_vals f) as [|w0 ws] eqn:Ev.
    - destruct Hne as [->|Hne]; [contradiction|congruence].
    - apply Z.leb_gt in Eold. rewrite Hfs in Hdesc. cbn [flat_map] in Hdesc. rewrite Ev in Hdesc.
      cbn [app] in Hw, Hdesc. destruct Hw as [<-|Hw]; [exact Eold|].
      apply (desc_app_inv [w0] _) in Hdesc. destruct Hdesc as (_ & Hd).
      specialize (Hd w0 w (or_introl eq_refl) Hw). lia. }
  destruct (Z.leb_spec (used f + nrec (a_size f) v) (a_cap f)) as [Hle|Hgt];
    destruct (Z.ltb_spec (a_cap f - used f - nrec (a_size f) v) 0); try lia.
  - (* fits *)
    clear Stay. unfold write_into. cbn [h_geom h_ino]. rewrite Hc1.
    destruct (fr_write _ _ HFR _ f c v Prep Hv Hle Hdv Hkv) as (c' & -> & Hrep').
    destruct (store_spec_d n st1 D A name am f older ino c _ c' HI1 HA Hfs HF1 Hrep' eq_refl)
      as (HI2 & Hso2 & HF2).
    destruct (file_at_open_d _ _ _ _ _ _ _ HF2) as (_ & Ho2).
    destruct (release_spec_d n _ D _ p1 (Handle ino (geom_of f)) HI2 Pp Ho2) as (t & c2 & -> & HI3 & Hcap3).
    eexists. split; [reflexivity|]. cbn [fst]. split.
    + apply inv_mono_d with (n := n); [exact HI3|lia].
    + eapply same_opts_trans; [exact Hso1|]. eapply same_opts_trans; [exact Hso2|].
      unfold same_opts; cbn; auto.
  - cbn [t_last m].
    replace (a_cap f - used f =? a_cap f - 1) with (used f =? 1)
      by (destruct (Z.eqb_spec (used f) 1), (Z.eqb_spec (a_cap f - used f) (a_cap f - 1)); lia).
    destruct ((a_last am =? 1) && (used f =? 1)) eqn:Eerr.
    { now apply Stay. }
    clear Stay. cbn [t_first m]. change (w_max st1) with (w_max st).
    set (drop := (w_max st <=? a_last am - a_first am) && (0 <? w_max st)) in *.
    set (am1 := if drop then AM (a_first am + 1) (removelast (a_files am)) else am).
    set (st2 := if drop then osRemove (filenameAt m (a_first am)) (evictFile (filenameAt m (a_first am)) st1) else st1).
    assert (Hlen : a_last am - a_first am + 1 = len (a_files am)) by (unfold a_last; lia).
    assert (Hge1 : a_first am <= a_last am) by (rewrite Hfs, len_cons in Hlen; pose proof (len_nonneg older); lia).
    assert (Hl1 : a_first am1 + len (a_files am1) = a_last am + 1).
    { unfold am1. destruct drop; cbn [a_first a_files]; [|unfold a_last; lia].
      rewrite len_removelast by (rewrite Hfs; discriminate). unfold a_last. lia. }
    assert (Hstep : exists A1, A1 name = Some am1 /\ (forall x, aput name am1 A x = A1 x) /\ DInv n st2 D A1 /\ same_opts st1 st2 /\
              mget beqb p1 (w_files st2) = Some ino /\ (2 <= length (a_files am))%nat \/
              A1 name = Some am1 /\ (forall x, aput name am1 A x = A1 x) /\ DInv n st2 D A1 /\ same_opts st1 st2 /\
              mget beqb p1 (w_files st2) = Some ino /\ drop = false).
    { destruct drop eqn:Ed.
      - exists (aput name am1 A). left. unfold drop in Ed. apply andb_true_iff in Ed. destruct Ed as [Ed1 Ed2].
        apply Z.leb_le in Ed1. apply Z.ltb_lt in Ed2.
        assert (H2 : (2 <= length (a_files am))%nat) by (unfold len in Hlen; lia).
        destruct (drop_spec_d n st1 D A name am HI1 HA H2) as (HI2 & Hso2).
        split; [apply aput_same|]. split; [reflexivity|]. split; [exact HI2|]. split; [exact Hso2|]. split; [|exact H2].
        unfold st2, osRemove, set_files; cbn [w_files]. rewrite evict_files.
        rewrite mget_del_other; [exact Pp|apply eqb_ok_bytes|]. intros Ex.
        symmetry in Ex. apply (path_neq_d st1 n D A name am (a_last am) name (a_first am)) in Ex; auto; [lia|lia|].
        apply (num_range_d n st1 D A name am); auto. lia.
      - exists A. right. split; [exact HA|]. split; [intros x; symmetry; now apply aput_id|].
        split; [exact HI1|]. split; [apply same_opts_refl|]. split; [exact Pp|reflexivity]. }
    assert (Hstep' : exists A1, A1 name = Some am1 /\ (forall x, aput name am1 A x = A1 x) /\ DInv n st2 D A1 /\ same_opts st1 st2 /\
              mget beqb p1 (w_files st2) = Some ino /\ exists olderr, a_files am1 = f :: olderr).
    { destruct Hstep as (A1 & [(? & ? & ? & ? & ? & H2)|(? & ? & ? & ? & ? & Ed)]); exists A1; do 5 (split; [assumption|]).
      - unfold am1. destruct drop; [|eexists; exact Hfs]. cbn [a_files]. rewrite Hfs in *.
        destruct older as [|g older]; [cbn in H2; lia|]. eexists. reflexivity.
      - unfold am1. rewrite Ed. eexists; exact Hfs. }
    clear Hstep. destruct Hstep' as (A1 & HA1 & Hext & HI2 & Hso2 & Pp2 & older1 & Hfs1).
    assert (Er2 : w_root st2 = w_root st) by (destruct Hso2 as (_ & _ & _ & ? & _); assumption).
    assert (Es2 : w_size st2 = w_size st) by (destruct Hso2 as (? & _); assumption).
    assert (Ec2 : w_cap st2 = w_cap st) by (destruct Hso2 as (_ & ? & _); assumption).
    destruct (create_spec_d (n + 1) st2 D A1 name (a_first am1) (a_files am1)) as (ino3 & c3 & st3 & E3 & HI3 & Hso3 & HF3 & Hfr3).
    + apply inv_mono_d with (n := n); [exact HI2|lia].
    + destruct (di_num _ _ _ _ HI2 name am1 HA1). assumption.
    + rewrite Hl1. destruct (di_num _ _ _ _ HI1 name am HA) as (_ & _ & ?). lia.
    + right. rewrite HA1. destruct am1; reflexivity.
    + rewrite Hl1, Er2 in E3.
      change (filenameAt m (a_last am + 1)) with (path_of (w_root st) name (a_last am + 1)).
      rewrite E3. cbn [h_geom g_size g_cap]. rewrite Es2, Ec2 in *.
      assert (Hnum3 : numRecords (len (v_data v)) (w_size st) = Ok (nrec (w_size st) v)).
      { destruct (di_opts _ _ _ _ HI) as (Hs0 & _). now destruct (recs_spec (w_size st) v Hs0 Hv) as (_ & ? & _). }
      rewrite Hnum3. destruct (di_opts _ _ _ _ HI) as (Hs0 & _).
      pose proof (nrec_pos (w_size st) v ltac:(lia)) as Hnp3.
      destruct (Z.eqb_spec (nrec (w_size st) v) 0); [lia|].
      pose proof HF3 as (Pp3 & _ & Hrep3). rewrite Hl1 in HF3, Pp3.
      destruct (file_at_open_d _ _ _ _ _ _ _ HF3) as (Hc3 & _).
      assert (Er3 : w_root st3 = w_root st) by (destruct Hso3 as (_ & _ & _ & ? & _); congruence).
      set (am3 := AM (a_first am1) (AF (w_cap st) (w_size st) [] :: a_files am1)) in *.
      assert (Hlast3 : a_last am3 = a_last am + 1).
      { unfold am3, a_last; cbn [a_first a_files]. rewrite len_cons. lia. }
      (* releasing both files *)
      assert (Tail : forall st4 vs c4, let am4 := AM (a_first am1) (AF (w_cap st) (w_size st) vs :: a_files am1) in
        DInv (n + 1) st4 D (aput name am4 (aput name am3 A1)) ->
        dfile st4 name true (a_last am + 1) (AF (w_cap st) (w_size st) vs) ino3 c4 ->
        w_files st4 = w_files st3 -> same_opts st3 st4 ->
        exists st6, releaseFile p1 (Handle ino (geom_of f))
            (releaseFile (path_of (w_root st) name (a_last am + 1)) (Handle ino3 (Geom (w_cap st) (w_size st))) st4) = st6 /\
          DInv (n + 1) st6 D (aput name am4 A) /\ same_opts st st6).
      { intros st4 vs c4 am4 HI4 HF4 Ef4 Hso4.
        assert (Er4 : w_root st4 = w_root st) by (destruct Hso4 as (_ & _ & _ & ? & _); congruence).
        pose proof HF4 as (Pp4 & _). rewrite Er4 in Pp4.
        destruct (file_at_open_d _ _ _ _ _ _ _ HF4) as (_ & Ho4).
        destruct (release_spec_d (n + 1) st4 D _ (path_of (w_root st) name (a_last am + 1))
                   (Handle ino3 (Geom (w_cap st) (w_size st))) HI4 Pp4 Ho4) as (t5 & c5 & E5 & HI5 & Hcap5).
        rewrite E5. set (st5 := set_fch st4 t5 c5) in *.
        assert (P5 : mget beqb p1 (w_files st5) = Some ino).
        { change (w_files st5) with (w_files st4). rewrite Ef4, Hfr3; [exact Pp2|]. rewrite Hl1, Er2.
          intros Ex. apply (path_neq_d st1 n D A name am (a_last am) name (a_last am + 1)) in Ex; auto; try lia.
          destruct (di_num _ _ _ _ HI1 name am HA) as (? & _ & ?). unfold is_i64. lia. }
        destruct (di_file _ _ _ _ HI5 name _ 1%nat f (aput_same _ _ _)) as (ino' & c' & HF').
        { unfold am4. cbn [a_files nth_error]. rewrite Hfs1. reflexivity. }
        assert (Hl5 : a_last am4 - Z.of_nat 1 = a_last am).
        { unfold am4, a_last; cbn [a_first a_files]. rewrite len_cons. lia. }
        rewrite Hl5 in HF'. pose proof HF' as (P' & _).
        change (w_root st5) with (w_root st4) in P'. rewrite Er4 in P'.
        change p1 with (path_of (w_root st) name (a_last am)) in P5. rewrite P5 in P'. injection P' as <-.
        destruct (file_at_open_d _ _ _ _ _ _ _ HF') as (_ & Ho5).
        destruct (release_spec_d (n + 1) st5 D _ p1 (Handle ino (geom_of f)) HI5 P5 Ho5) as (t6 & c6 & E6 & HI6 & Hcap6).
        rewrite E6. eexists. split; [reflexivity|]. split.
        - eapply inv_ext_d; [|exact HI6]. intros x. rewrite aput_aput.
          unfold aput. destruct (beqb name x) eqn:Ex; [reflexivity|]. rewrite <- Hext.
          unfold aput. now rewrite Ex.
        - eapply same_opts_trans; [exact Hso1|]. eapply same_opts_trans; [exact Hso2|].
          eapply same_opts_trans; [exact Hso3|]. eapply same_opts_trans; [exact Hso4|].
          unfold same_opts; cbn in *. intuition congruence. }
      cbn zeta in Tail. change (filenameAt m (a_last am)) with p1.
      destruct (Z.leb_spec (nrec (w_size st) v) (w_cap st)) as [Hfit|Hbig];
        destruct (Z.ltb_spec (w_cap st - nrec (w_size st) v) 0); try lia.
      * unfold write_into. cbn [h_geom h_ino]. rewrite Hc3.
        destruct (fr_write _ _ HFR _ (AF (w_cap st) (w_size st) []) c3 v Hrep3 Hv) as (c4 & E4 & Hrep4).
        { unfold used; cbn [a_size a_vals a_cap used_]. lia. }
        { exact I. } { exact Hkv. }
        unfold used in E4; cbn [a_size a_vals a_cap used_] in E4. rewrite Z.sub_0_r in E4.
        change (geom_of (AF (w_cap st) (w_size st) [])) with (Geom (w_cap st) (w_size st)) in E4.
        rewrite E4. cbn [a_size a_vals a_cap] in Hrep4.
        rewrite <- Hlast3 in HF3.
        destruct (store_spec_d (n + 1) st3 D _ name am3 _ (a_files am1) ino3 c3 _ c4 HI3 (aput_same _ _ _) eq_refl HF3 Hrep4 eq_refl)
          as (HI4 & Hso4 & HF4).
        rewrite Hlast3 in HF4.
        destruct (Tail _ _ _ HI4 HF4 eq_refl Hso4) as (st6 & -> & HI6 & Hso6).
        exists st6. split; [reflexivity|]. cbn [fst]. split; [|exact Hso6].
        eapply inv_ext_d; [|exact HI6]. intros x.
        unfold am1. fold drop. destruct drop; cbn [a_first a_files]; rewrite Hfs; reflexivity.
      * destruct (Tail st3 [] c3) as (st6 & -> & HI6 & Hso6).
        { eapply inv_ext_d; [|exact HI3]. intros x. symmetry. apply aput_aput. }
        { exact HF3. } { reflexivity. } { apply same_opts_refl. }
        exists st6. split; [reflexivity|]. cbn [fst]. split; [|exact Hso6].
        eapply inv_ext_d; [|exact HI6]. intros x.
        unfold am1. fold drop. destruct drop; cbn [a_first a_files]; rewrite Hfs; reflexivity.
Qed.

Lemma m_Read__spec_d {X} (cb : callback X) n D A name am e : A name = Some am ->
  forall rest pre st acc, DInv n st D A -> a_files am = pre ++ rest ->
  exists st',
    m_Read_ cb (length rest) (Metric (dir_of (w_root st) name) (a_first am) (a_last am))
      (a_last am - len pre) e acc st = (st', finish_cb (seq_read (skip_cb (keep name) cb) e rest acc)) /\
    DInv n st' D A /\ same_opts st st'.
Proof.
  intros HA. induction rest as [|f rest IH]; intros pre st acc HI Hfs.
  - cbn [length m_Read_ seq_read t_first]. rewrite app_nil_r in Hfs.
    assert (E : (a_last am - len pre <? a_first am) = true)
      by (apply Z.ltb_lt; unfold a_last; rewrite Hfs; lia).
    rewrite E. exists st. split; [reflexivity|]. split; [exact HI|apply same_opts_refl].
  - cbn [length m_Read_ seq_read t_first].
    assert (E : (a_last am - len pre <? a_first am) = false).
    { apply Z.ltb_ge. unfold a_last. rewrite Hfs, len_app, len_cons. pose proof (len_nonneg rest). lia. }
    rewrite E.
    destruct (acquire_spec_d n st D A name am (length pre) f HI HA) as (ino & c & cc & Ea & HI1 & Hcap & HF).
    { rewrite Hfs, nth_error_app2, Nat.sub_diag by lia. reflexivity. }
    fold (len pre) in Ea, HF.
    change (filenameAt _ (a_last am - len pre)) with (path_of (w_root st) name (a_last am - len pre)).
    rewrite Ea. cbn [h_geom h_ino]. set (st1 := set_fch st (w_toks st) cc) in *.
    assert (HF1 : dfile st1 name (nw (length pre)) (a_last am - len pre) f ino c) by exact HF.
    destruct (file_at_open_d _ _ _ _ _ _ _ HF1) as (Hc & Ho). rewrite Hc.
    pose proof HF1 as (Pp & _ & Hrep). rewrite (fr_read _ _ HFR _ cb _ _ f c e acc Hrep).
    destruct (release_spec_d n st1 D A (path_of (w_root st) name (a_last am - len pre))
                (Handle ino (geom_of f)) HI1 Pp Ho) as (t & c2 & Er & HI2 & Hcap2).
    assert (Hso : same_opts st (set_fch st1 t c2)).
    { unfold same_opts; cbn in *. intuition congruence. }
    destruct (e <=? _).
    + rewrite Er. eexists. split; [reflexivity|]. split; [exact HI2|exact Hso].
    + destruct (run_cb (skip_cb (keep name) cb) acc _) as [acc' [[]| | |]]; rewrite Er;
        try (eexists; split; [reflexivity|]; split; [exact HI2|exact Hso]).
      specialize (IH (pre ++ [f]) (set_fch st1 t c2) acc' HI2).
      rewrite <- app_assoc in IH. specialize (IH Hfs).
      rewrite len_app in IH. change (len [f]) with 1 in IH.
      destruct IH as (st' & Es & HI3 & Hso3).
      replace (a_last am - len pre - 1) with (a_last am - (len pre + 1)) by lia.
      exists st'. split; [exact Es|]. split; [exact HI3|]. eapply same_opts_trans; eassumption.
Qed.

Lemma m_Read_spec_d {X} (cb : callback X) n st D A name am e acc :
  DInv n st D A -> A name = Some am -> am_ok am ->
  exists st',
    m_Read cb (Metric (dir_of (w_root st) name) (a_first am) (a_last am)) e acc st =
      (st', finish_cb (run_cb cb acc (filter (keep name) (a_query am e)))) /\
    DInv n st' D A /\ same_opts st st'.
Proof.
  intros HI HA Hok. unfold m_Read. cbn [t_last t_first].
  replace (a_last am - a_first am + 1) with (len (a_files am)) by (unfold a_last; lia).
  unfold len. rewrite Nat2Z.id.
  destruct (m_Read__spec_d cb n D A name am e HA (a_files am) [] st acc HI eq_refl) as (st' & E & R).
  change (len (@nil afile)) with 0 in E. rewrite Z.sub_0_r in E. rewrite E.
  rewrite seq_read_query, run_skip by assumption. eauto.
Qed.

(** *** a_write keeps metrics well formed *)

End Repr.
