(** One action of a goroutine on the shared world simulates the run of its
    program on the file system of ConcFs.v. *)
From Coq Require Import ZArith List Bool Lia Permutation.
From Verif Require Import Base Maps Record Meta Convert File FileProofs Cache CacheProofs FileCacheProofs
  Metric MetricPaths MetricProofs DbSpec RejectProofs LockPool Conc ConcFs.
Import ListNotations.
Open Scope Z_scope.

(** the world is consistent: a cached handle is the file its path names *)
Record world (st : db) : Prop := World {
  wd_cache : cinv (w_cache st);
  wd_rand : rand_ok (c_rand (w_cache st));
  wd_root : w_root st <> [];
  wd_fine : forall d, In d (w_dirs st) -> dir_fine (w_root st) d;
  wd_next : forall p ino, mget beqb p (w_files st) = Some ino -> ino < w_next st;
  wd_inj : forall p q ino, mget beqb p (w_files st) = Some ino -> mget beqb q (w_files st) = Some ino -> p = q;
  wd_tokle : forall p t, mget beqb p (w_toks st) = Some t -> t <= c_tok (w_cache st);
  wd_toks : forall p t h, mget beqb p (w_toks st) = Some t -> lookup (w_cache st) t = Some h ->
    mget beqb p (w_files st) = Some (h_ino h) /\ openFile (contents st (h_ino h)) = Ok (h_geom h)
}.

(** the file system of the world, without inodes *)
Definition sees (st : db) (f : fs) : Prop :=
  (forall q, fget q f = option_map (contents st) (mget beqb q (w_files st))) /\
  (forall d, In d (w_dirs st) <-> In d (fs_dirs f)).
Definition held_ok (st : db) (hs : list (list Z)) (h : held_handles) : Prop :=
  forall q, In q hs -> exists x, mget beqb q h = Some x /\
    mget beqb q (w_files st) = Some (h_ino x) /\ openFile (contents st (h_ino x)) = Ok (h_geom x).
(** no handle of [q] is in the cache *)
Definition cold (st : db) (q : list Z) : Prop :=
  forall t, mget beqb q (w_toks st) = Some t -> lookup (w_cache st) t = None.
Definition ev_ok (st : db) (ev : option (list Z)) : Prop := forall q, ev = Some q -> cold st q.
Definition nc_ok (nc : bool) (st : db) : Prop := nc = true -> c_cap (w_cache st) = 0.
(** what is outside directory [d] stays *)
Definition frame (d : list Z) (st st' : db) : Prop :=
  same_opts st st' /\ w_dirs st' = w_dirs st /\
  forall q, ~ own d q ->
    mget beqb q (w_files st') = mget beqb q (w_files st) /\
    (forall ino, mget beqb q (w_files st) = Some ino -> contents st' ino = contents st ino) /\
    (cold st q -> cold st' q).

Lemma frame_held d st st' hs h : frame d st st' -> (forall q, In q hs -> ~ own d q) ->
  held_ok st hs h -> held_ok st' hs h.
Proof.
  intros (_ & _ & F) Hn H q Hq. destruct (H q Hq) as (x & H1 & H2 & H3). exists x. split; [exact H1|].
  destruct (F q (Hn q Hq)) as (F1 & F2 & _). rewrite F1, (F2 _ H2). auto.
Qed.
Lemma frame_ev d st st' ev : frame d st st' -> (forall q, ev = Some q -> ~ own d q) -> ev_ok st ev -> ev_ok st' ev.
Proof. intros (_ & _ & F) Hn H q Hq. destruct (F q (Hn q Hq)) as (_ & _ & F3). auto. Qed.
Lemma frame_refl d st : frame d st st.
Proof. split; [apply same_opts_refl|]. auto. Qed.
Lemma frame_trans d a b c : frame d a b -> frame d b c -> frame d a c.
Proof.
  intros (S1 & D1 & F1) (S2 & D2 & F2). split; [eapply same_opts_trans; eauto|]. split; [congruence|].
  intros q Hq. destruct (F1 q Hq) as (A1 & A2 & A3), (F2 q Hq) as (B1 & B2 & B3).
  split; [congruence|]. split; [|auto]. intros ino E. rewrite B2, A2; auto. congruence.
Qed.

(** ** changes of the cache *)
Lemma world_fch st t c : world st -> cinv c -> rand_ok (c_rand c) ->
  (forall p k, mget beqb p t = Some k -> k <= c_tok c) ->
  (forall p k h, mget beqb p t = Some k -> lookup c k = Some h ->
     mget beqb p (w_files st) = Some (h_ino h) /\ openFile (contents st (h_ino h)) = Ok (h_geom h)) ->
  world (set_fch st t c).
Proof. intros [] H1 H2 H3 H4. constructor; assumption. Qed.
Lemma frame_fch d st t c : c_cap c = c_cap (w_cache st) ->
  (forall q, ~ own d q -> cold st q -> cold (set_fch st t c) q) -> frame d st (set_fch st t c).
Proof.
  intros H1 H2. split; [unfold same_opts; cbn; auto|]. split; [reflexivity|]. intros q Hq. auto.
Qed.

Lemma put_world st path x : world st ->
  mget beqb path (w_files st) = Some (h_ino x) -> openFile (contents st (h_ino x)) = Ok (h_geom x) ->
  exists t c, releaseFile path x st = set_fch st t c /\ world (set_fch st t c) /\
    c_cap c = c_cap (w_cache st) /\ (forall q, q <> path -> cold st q -> cold (set_fch st t c) q).
Proof.
  intros W Hp Ho. unfold releaseFile.
  pose proof (put_spec handle_zero (w_cache st) x (wd_cache _ W) (wd_rand _ W)) as P.
  destruct (cache_put handle_zero (w_cache st) x) as [[c tok] ev].
  destruct P as (Hc & Hr & Hcap & Ht & Ht' & Hl).
  eexists _, _. split; [reflexivity|]. split; [|split; [exact Hcap|]].
  - apply world_fch; auto.
    + intros p k. rewrite mget_put by apply eqb_ok_bytes. destruct (beqb path p).
      * intros [= <-]. lia.
      * intros G. apply (wd_tokle _ W) in G. lia.
    + intros p k g. rewrite mget_put by apply eqb_ok_bytes. destruct (beqb path p) eqn:E.
      * apply beqb_eq in E. subst p. intros [= <-] G. apply Hl in G. destruct G as [[_ ->]|[? _]]; [auto|lia].
      * intros G1 G2. apply Hl in G2. destruct G2 as [[-> _]|[_ G2]].
        -- apply (wd_tokle _ W) in G1. lia.
        -- exact (wd_toks _ W p k g G1 G2).
  - intros q Hq HC k. cbn [w_toks w_cache set_fch]. rewrite mget_put by apply eqb_ok_bytes.
    rewrite (proj2 (beqb_neq path q)) by congruence. intros G. specialize (HC k G).
    destruct (lookup c k) as [g|] eqn:E; [|reflexivity]. apply Hl in E. destruct E as [[-> _]|[_ E]]; [|congruence].
    apply (wd_tokle _ W) in G. lia.
Qed.

(** a take through the tokens, which lose some paths *)
Lemma take_world st path tok (t : list (list Z * Z)) : world st -> mget beqb path (w_toks st) = Some tok ->
  (forall q k, mget beqb q t = Some k -> mget beqb q (w_toks st) = Some k) ->
  let '(c, r) := cache_take handle_zero (w_cache st) tok in
  world (set_fch st t c) /\ c_cap c = c_cap (w_cache st) /\
  (forall q, cold st q -> cold (set_fch st t c) q) /\ cold (set_fch st t c) path /\
  match r with
  | Some x => mget beqb path (w_files st) = Some (h_ino x) /\ openFile (contents st (h_ino x)) = Ok (h_geom x)
  | None => True
  end.
Proof.
  intros W E Ht. pose proof (take_spec handle_zero (w_cache st) tok (wd_cache _ W)) as P.
  destruct (cache_take handle_zero (w_cache st) tok) as [c r].
  destruct P as (Hc & Hr & Hcap & Htk & Hres & Hl & _). split; [|split; [exact Hcap|split; [|split]]].
  - apply world_fch; auto.
    + rewrite Hr. exact (wd_rand _ W).
    + intros p k G. rewrite Htk. apply (wd_tokle _ W p). auto.
    + intros p k x G1 G2. rewrite Hl in G2. destruct (k =? tok); [discriminate|].
      apply (wd_toks _ W p k x); auto.
  - intros q HC k G. cbn [w_toks w_cache set_fch] in *. rewrite Hl. destruct (k =? tok); [reflexivity|]. apply HC. auto.
  - intros k G. cbn [w_toks w_cache set_fch] in *. rewrite Hl. apply Ht in G. rewrite E in G. injection G as <-.
    now rewrite Z.eqb_refl.
  - destruct r as [x|]; [|exact I]. exact (wd_toks _ W path tok x E (eq_sym Hres)).
Qed.
Lemma close_world st : world st -> world (close_cache st) /\ frame [] st (close_cache st) /\
  (forall f, sees st f -> sees (close_cache st) f) /\ (forall q, cold (close_cache st) q).
Proof.
  intros W. unfold close_cache. pose proof (take_all_spec handle_zero (w_cache st) (wd_cache _ W)) as P.
  destruct (cache_take_all handle_zero (w_cache st)) as [c l]. destruct P as (P1 & P2 & P3 & P4 & P5 & P6 & _). cbn [fst].
  assert (HC : forall q, cold (set_fch st [] c) q) by (intros q t; discriminate).
  split; [|split; [|split; [auto|exact HC]]].
  - apply world_fch; auto; [rewrite P2; exact (wd_rand _ W)|discriminate|discriminate].
  - apply frame_fch; auto.
Qed.

(** ** changes of the files *)
Lemma contents_set st i c j : contents (set_contents st i c) j = if i =? j then c else contents st j.
Proof.
  unfold contents, set_contents, set_ino. cbn [w_ino]. rewrite mget_put by apply eqb_ok_Z. destruct (i =? j); reflexivity.
Qed.
Lemma store_world st q i c : world st -> mget beqb q (w_files st) = Some i ->
  openFile c = openFile (contents st i) -> world (set_contents st i c).
Proof.
  intros [] Hq Hc. constructor; try assumption. intros p t x G1 G2.
  destruct (wd_toks0 p t x G1 G2) as (H1 & H2). split; [exact H1|]. rewrite contents_set.
  destruct (Z.eqb_spec i (h_ino x)) as [->|]; [congruence|exact H2].
Qed.
Lemma store_frame d st q i c : world st -> own d q -> mget beqb q (w_files st) = Some i ->
  frame d st (set_contents st i c).
Proof.
  intros W Hd Hq. split; [unfold same_opts; cbn; auto|]. split; [reflexivity|]. intros p Hp.
  split; [reflexivity|]. split; [|auto]. intros j Hj. rewrite contents_set. destruct (Z.eqb_spec i j) as [->|]; [|reflexivity].
  rewrite (wd_inj _ W p q j Hj Hq) in Hp. contradiction.
Qed.
Lemma store_sees st q i c f : world st -> sees st f -> mget beqb q (w_files st) = Some i ->
  sees (set_contents st i c) (fput q c f).
Proof.
  intros W (H1 & H2) Hq. split; [|exact H2]. intros p. rewrite fget_put.
  change (w_files (set_contents st i c)) with (w_files st). destruct (beqb q p) eqn:E.
  - apply beqb_eq in E. subst p. rewrite Hq. cbn [option_map]. now rewrite contents_set, Z.eqb_refl.
  - rewrite H1. destruct (mget beqb p (w_files st)) as [j|] eqn:Ej; [|reflexivity]. cbn [option_map]. rewrite contents_set.
    destruct (Z.eqb_spec i j) as [->|]; [|reflexivity]. rewrite (wd_inj _ W p q j Ej Hq), beqb_refl in E. discriminate.
Qed.
Lemma sees_some st f q i : sees st f -> mget beqb q (w_files st) = Some i -> fcont q f = contents st i.
Proof. intros (H & _) E. unfold fcont. rewrite H, E. reflexivity. Qed.

(** a file is created where there was none *)
Lemma create_world d st f q : world st -> sees st f -> fget q f = None -> own d q ->
  let '(st', r) := do_create q st in
  let '(c, r0) := createFile (w_size st) (w_cap st) in
  world st' /\ sees st' (fput q c f) /\ frame d st st' /\
  mget beqb q (w_files st') = Some (w_next st) /\ contents st' (w_next st) = c /\
  (forall p i, mget beqb p (w_files st) = Some i -> mget beqb p (w_files st') = Some i /\ contents st' i = contents st i) /\
  r = (do g <- r0; Ok (Handle (w_next st) g)).
Proof.
  intros W (S1 & S2) Hq Hd. unfold do_create. destruct (createFile (w_size st) (w_cap st)) as [c r0].
  assert (Hnone : mget beqb q (w_files st) = None).
  { rewrite S1 in Hq. destruct (mget beqb q (w_files st)); [discriminate|reflexivity]. }
  rewrite Hnone. set (st1 := DB _ _ _ _ _ _ _ _ _ _).
  assert (Hold : forall p i, mget beqb p (w_files st) = Some i ->
     mget beqb p (w_files (set_contents st1 (w_next st) c)) = Some i /\ contents (set_contents st1 (w_next st) c) i = contents st i).
  { intros p i G. assert (p <> q) by congruence. split.
    - unfold set_contents, set_ino, st1; cbn [w_files]. rewrite mget_put_other; auto using eqb_ok_bytes.
    - rewrite contents_set. destruct (Z.eqb_spec (w_next st) i) as [<-|]; [|reflexivity]. apply (wd_next _ W) in G. lia. }
  assert (Hnew : mget beqb q (w_files (set_contents st1 (w_next st) c)) = Some (w_next st)).
  { unfold set_contents, set_ino, st1; cbn [w_files]. apply mget_put_same, eqb_ok_bytes. }
  assert (Hcont : contents (set_contents st1 (w_next st) c) (w_next st) = c) by (now rewrite contents_set, Z.eqb_refl).
  assert (Hget : forall p, mget beqb p (w_files (set_contents st1 (w_next st) c)) =
                  if beqb q p then Some (w_next st) else mget beqb p (w_files st)).
  { intros p. unfold set_contents, set_ino, st1; cbn [w_files]. apply mget_put, eqb_ok_bytes. }
  split; [|split; [|split; [|split; [exact Hnew|split; [exact Hcont|split; [exact Hold|reflexivity]]]]]].
  - destruct W. constructor; try assumption.
    + intros p i. rewrite Hget. change (w_next (set_contents st1 (w_next st) c)) with (w_next st + 1).
      destruct (beqb q p); [intros [= <-]; lia|]. intros G. specialize (wd_next0 p i G). lia.
    + intros p1 p2 i. rewrite !Hget. destruct (beqb q p1) eqn:E1, (beqb q p2) eqn:E2.
      * apply beqb_eq in E1, E2. congruence.
      * intros [= <-] G. apply wd_next0 in G. lia.
      * intros G [= <-]. apply wd_next0 in G. lia.
      * apply wd_inj0.
    + intros p t x G1 G2. destruct (wd_toks0 p t x G1 G2) as (H1 & H2). destruct (Hold _ _ H1) as [O1 O2].
      rewrite O1, O2. auto.
  - split; [|exact S2]. intros p. rewrite fget_put, Hget. destruct (beqb q p).
    + cbn [option_map]. now rewrite Hcont.
    + rewrite S1. destruct (mget beqb p (w_files st)) as [i|] eqn:Ei; [|reflexivity]. cbn [option_map].
      now rewrite (proj2 (Hold p i Ei)).
  - split; [unfold same_opts; cbn; auto|]. split; [reflexivity|]. intros p Hp.
    assert (beqb q p = false) as E by (apply beqb_neq; intros ->; contradiction).
    split; [rewrite Hget, E; reflexivity|]. split; [|auto]. intros i Hi. apply (Hold p i Hi).
Qed.

(** a file without a cached handle is removed *)
Lemma remove_world d st f q : world st -> sees st f -> cold st q -> own d q ->
  world (osRemove q st) /\ sees (osRemove q st) (fdel q f) /\ frame d st (osRemove q st).
Proof.
  intros W (S1 & S2) HC Hd.
  assert (Hget : forall p, mget beqb p (w_files (osRemove q st)) = if beqb q p then None else mget beqb p (w_files st)).
  { intros p. unfold osRemove, set_files. cbn [w_files]. apply mget_del, eqb_ok_bytes. }
  split; [|split].
  - destruct W. constructor; try assumption.
    + intros p i. rewrite Hget. destruct (beqb q p); [discriminate|]. apply wd_next0.
    + intros p1 p2 i. rewrite !Hget. destruct (beqb q p1), (beqb q p2); try discriminate. apply wd_inj0.
    + intros p t x G1 G2. destruct (wd_toks0 p t x G1 G2) as (H1 & H2).
      rewrite Hget. destruct (beqb q p) eqn:E; [|auto]. apply beqb_eq in E. subst p.
      pose proof (HC t G1) as X. change (w_cache (osRemove q st)) with (w_cache st) in G2. congruence.
  - split; [|exact S2]. intros p. rewrite fget_del, Hget. destruct (beqb q p); [reflexivity|]. apply S1.
  - split; [unfold same_opts; cbn; auto|]. split; [reflexivity|]. intros p Hp.
    assert (beqb q p = false) as E by (apply beqb_neq; intros ->; contradiction).
    split; [rewrite Hget, E; reflexivity|]. split; [reflexivity|auto].
Qed.
Lemma remove_held q st hs h : ~ In q hs -> held_ok st hs h -> held_ok (osRemove q st) hs h.
Proof.
  intros Hn H p Hp. destruct (H p Hp) as (x & H1 & H2 & H3). exists x. split; [exact H1|]. split; [|exact H3].
  unfold osRemove, set_files. cbn [w_files]. rewrite mget_del_other; auto using eqb_ok_bytes. intros ->. contradiction.
Qed.

(** ** the directories *)
Lemma sees_exists st f d : sees st f -> dir_exists d st = exists0 d f.
Proof.
  intros (_ & H). unfold dir_exists, exists0. f_equal. apply eq_true_iff_eq. rewrite !existsb_exists.
  split; intros (x & Hx & E); exists x; (split; [apply H; exact Hx|exact E]).
Qed.
Lemma mkdir_world st f name : world st -> sees st f ->
  let '(st', ok) := mkdirAll (dir_of (w_root st) name) st in
  let '(f', ok0) := mkdir0 (dir_of (w_root st) name) f in
  ok = true /\ ok0 = true /\ world st' /\ sees st' f' /\ same_opts st st' /\
  st' = set_dirs st (ancestors [] (clean_dir (dir_of (w_root st) name)) ++ w_dirs st) /\
  f' = FS (fs_files f) (ancestors [] (clean_dir (dir_of (w_root st) name)) ++ fs_dirs f).
Proof.
  intros W (S1 & S2). pose proof (dir_nonempty (w_root st) name (wd_root _ W)) as Hne. apply Z.ltb_lt in Hne.
  unfold mkdirAll, mkdir0. destruct (Z.eqb_spec (len (dir_of (w_root st) name)) 0); [lia|].
  split; [reflexivity|]. split; [reflexivity|]. split; [|split; [|split; [unfold same_opts; cbn; auto|split; reflexivity]]].
  - destruct W. constructor; try assumption. intros d Hd. cbn [w_dirs set_dirs] in Hd. apply in_app_iff in Hd.
    destruct Hd as [Hd|Hd]; [|auto]. now apply mkdir_fine in Hd.
  - split; [exact S1|]. intros d. cbn [w_dirs set_dirs fs_dirs]. rewrite !in_app_iff, S2. tauto.
Qed.
Lemma sees_scan st f name : world st -> sees st f ->
  fold_left scan_step (listdir (dir_of (w_root st) name) st) (0, 0, false) = scan0 (dir_of (w_root st) name) f.
Proof.
  intros W (S1 & S2). unfold scan0. apply scan_ext. intros i. rewrite in_scan0. unfold listdir. rewrite numbers_app, in_app_iff.
  split.
  - intros [H|H].
    + pose proof (proj1 (in_scan0 (dir_of (w_root st) name) i (FS (map (fun p => (p, [])) (map fst (w_files st))) []))) as G.
      cbn [fs_files] in G. rewrite map_map in G. cbn [fst] in G. rewrite map_id in G.
      destruct (G H) as (q & n & Hq & Hc & E). exists q, n. split; [|auto]. rewrite S1.
      assert (In q (map fst (w_files st))) as Hin.
      { unfold fget in Hq. cbn [fs_files] in Hq. destruct (mget beqb q _) eqn:Eg in Hq; [|contradiction].
        apply mget_in in Eg. rewrite map_map in Eg. cbn [fst] in Eg. now rewrite map_id in Eg. }
      apply in_mget in Hin. destruct Hin as (j & ->). discriminate.
    + exfalso. apply in_numbers in H. destruct H as (nm & Hin & E). apply in_flat_map in Hin. destruct Hin as (d & Hd & Hc).
      pose proof (wd_fine _ W d Hd) as Hfine. unfold child_of in Hc.
      destruct (split_last d) as [[d' m]|] eqn:Es; [|contradiction].
      destruct (beqb d' _) eqn:Ed; [|contradiction]. apply beqb_eq in Ed. destruct Hc as [<-|[]].
      destruct (Hfine d' m Es) as [Hlt|Hnd].
      * subst d'. pose proof (dir_length (w_root st) name (wd_root _ W)). lia.
      * rewrite suffix_has_dot in E by auto. discriminate.
  - intros (q & n & Hq & Hc & E). left. rewrite S1 in Hq. destruct (mget beqb q (w_files st)) as [j|] eqn:Ej; [|contradiction].
    apply in_numbers. exists n. split; [|exact E]. apply in_flat_map. exists q. split; [exact (mget_in _ _ _ Ej)|].
    rewrite Hc. now left.
Qed.

(** ** one action *)
Definition sim {X} (nc : bool) (size cap : Z) (d : list Z) (st : db) (h : held_handles) (p : prog X) (f : fs)
    (hs : list (list Z)) (ev : option (list Z)) : Prop :=
  world st /\ sees st f /\ held_ok st hs h /\ ev_ok st ev /\ nc_ok nc st /\
  safe size cap nc hs ev p f /\ local d p /\ (forall q, In q hs -> own d q) /\ (forall q, ev = Some q -> own d q) /\
  w_size st = size /\ w_cap st = cap /\ opts_ok size cap.

Lemma held_put st hs h q x : ~ In q hs -> held_ok st hs h ->
  mget beqb q (w_files st) = Some (h_ino x) -> openFile (contents st (h_ino x)) = Ok (h_geom x) ->
  held_ok st (q :: hs) (mput beqb q x h).
Proof.
  intros Hn H H1 H2 p [<-|Hp].
  - exists x. rewrite mget_put_same by apply eqb_ok_bytes. auto.
  - destruct (H p Hp) as (y & Hy). exists y. rewrite mget_put_other; [exact Hy|apply eqb_ok_bytes|]. intros ->. contradiction.
Qed.
Lemma in_filter_neq q p hs : In p (filter (fun x => negb (beqb q x)) hs) <-> In p hs /\ p <> q.
Proof.
  rewrite filter_In. split; intros [H1 H2]; (split; [exact H1|]).
  - intros ->. now rewrite beqb_refl in H2.
  - rewrite (proj2 (beqb_neq q p)); [reflexivity|congruence].
Qed.
Lemma held_del st hs h q : held_ok st hs h -> held_ok st (filter (fun x => negb (beqb q x)) hs) (mdel beqb q h).
Proof.
  intros H p Hp. apply in_filter_neq in Hp. destruct Hp as [Hp Hn]. destruct (H p Hp) as (x & H1 & H2).
  exists x. rewrite mget_del_other; [auto|apply eqb_ok_bytes|congruence].
Qed.
Lemma held_eq st st' hs h : held_ok st hs h -> w_files st' = w_files st -> w_ino st' = w_ino st -> held_ok st' hs h.
Proof. intros H E1 E2 q Hq. unfold contents. rewrite E1, E2. exact (H q Hq). Qed.

Lemma act_sim {X} nc size cap name (p : prog X) st h f hs ev st' h' p' :
  sim nc size cap (dir_of (w_root st) name) st h p f hs ev -> is_ret p = false ->
  prog_step p h st = (st', h', p') ->
  exists f' hs' ev', sim nc size cap (dir_of (w_root st) name) st' h' p' f' hs' ev' /\
    run0 size cap p f = run0 size cap p' f' /\ frame (dir_of (w_root st) name) st st' /\
    (forall q, ~ own (dir_of (w_root st) name) q -> fget q f' = fget q f) /\ fs_dirs f' = fs_dirs f.
Proof.
  set (d := dir_of (w_root st) name). intros (W & Se & Hh & He & Hnc & Hsafe & Hloc & Hown & Hevo & Es & Ec & Hopts) Hr Hstep.
  assert (Hne : forall q p, own d q -> ~ own d p -> beqb q p = false).
  { intros q x H1 H2. apply beqb_neq. intros ->. contradiction. }
  destruct p as [x|d0 k|d0 k|d0 k|q e k|q e k|q k|q c k|q k|q k|q k]; cbn [is_ret] in Hr; try discriminate;
    cbn [local] in Hloc; try contradiction; cbn [prog_step] in Hstep; cbn [safe] in Hsafe.
  - (* scan *)
    destruct Hloc as [-> Hloc]. assert (st' = st /\ h' = h /\ p' = k (scan0 d f)) as (-> & -> & ->).
    { pose proof (sees_scan st f name W Se) as E. fold d in E. rewrite E in Hstep. injection Hstep as <- <- <-. auto. }
    exists f, hs, None. split; [|split; [reflexivity|split; [apply frame_refl|auto]]].
    exact (conj W (conj Se (conj Hh (conj (fun q (E : None = Some q) => ltac:(discriminate E)) (conj Hnc (conj Hsafe (conj (Hloc _) (conj Hown (conj (fun q (E : None = Some q) => ltac:(discriminate E)) (conj Es (conj Ec Hopts))))))))))).
  - (* acquire *)
    destruct Hloc as [Hq Hloc]. destruct Hsafe as (H1 & H2 & H3).
    assert (Miss : forall c t, world (set_fch st t c) -> c_cap c = c_cap (w_cache st) ->
      (forall q, cold st q -> cold (set_fch st t c) q) ->
      sim nc size cap d (set_fch st t c) h (POpen q e k) f hs None /\ frame d st (set_fch st t c)).
    { intros c t W' Hcap HC. split; [|apply frame_fch; auto].
      split; [exact W'|]. split; [exact Se|]. split; [eapply held_eq; eauto|]. split; [intros ? ?; discriminate|].
      split; [unfold nc_ok; cbn [w_cache set_fch]; rewrite Hcap; exact Hnc|]. split; [cbn [safe]; auto|].
      split; [cbn [local]; auto|]. split; [exact Hown|]. split; [intros ? ?; discriminate|]. auto. }
    destruct (mget beqb q (w_toks st)) as [tok|] eqn:Et.
    + pose proof (take_world st q tok (w_toks st) W Et (fun _ _ E => E)) as T.
      destruct (cache_take handle_zero (w_cache st) tok) as [c hit]. destruct T as (W' & Hcap & HC & _ & Hhit).
      destruct (Miss c (w_toks st) W' Hcap HC) as [Msim Mfr].
      destruct hit as [x|].
      * injection Hstep as <- <- <-. destruct Hhit as [P O].
        assert (Ef : fget q f = Some (contents st (h_ino x))) by (destruct Se as [S1 _]; rewrite S1, P; reflexivity).
        destruct e; [|rewrite (H1 eq_refl) in Ef; discriminate].
        cbn [open0] in H3. rewrite Ef, O in H3.
        exists f, (q :: hs), None. split; [|split; [cbn [run0 open0]; rewrite Ef, O; reflexivity|split; [exact Mfr|auto]]].
        split; [exact W'|]. split; [exact Se|]. split; [apply held_put; auto; eapply held_eq; eauto|].
        split; [intros ? ?; discriminate|]. destruct Msim as (_ & _ & _ & _ & M5 & _).
        split; [exact M5|]. split; [exact H3|]. split; [apply Hloc|]. split; [intros ? [<-|?]; auto|].
        split; [intros ? ?; discriminate|]. auto.
      * injection Hstep as <- <- <-. exists f, hs, None. split; [exact Msim|]. split; [reflexivity|]. split; [exact Mfr|auto].
    + injection Hstep as <- <- <-. exists f, hs, None.
      destruct (Miss (w_cache st) (w_toks st)) as [Msim Mfr]; [destruct st; exact W|reflexivity|auto|].
      split; [destruct st; exact Msim|]. split; [reflexivity|]. split; [apply frame_refl|auto].
  - (* open *)
    destruct Hloc as [Hq Hloc]. destruct Hsafe as (H1 & H2 & H3). destruct e.
    + cbn [open0] in H3. unfold do_open in Hstep. cbn [run0 open0].
      assert (Ef : fget q f = option_map (contents st) (mget beqb q (w_files st))) by apply Se.
      assert (Fin : forall r, (match fget q f with None => Err | Some c => openFile c end) = r ->
         forall hs' h', held_ok st hs' h' -> (forall q0, In q0 hs' -> own d q0) -> safe size cap nc hs' None (k r) f ->
         sim nc size cap d st h' (k r) f hs' None).
      { intros r _ hs' h1 A1 A2 A3. split; [exact W|]. split; [exact Se|]. split; [exact A1|]. split; [intros ? ?; discriminate|].
        split; [exact Hnc|]. split; [exact A3|]. split; [apply Hloc|]. split; [exact A2|]. split; [intros ? ?; discriminate|]. auto. }
      destruct (mget beqb q (w_files st)) as [i|] eqn:Ei.
      * cbn [option_map] in Ef. rewrite Ef in *. destruct (openFile (contents st i)) as [g| | |] eqn:Eo; cbn [bind] in Hstep;
          injection Hstep as <- <- <-.
        -- exists f, (q :: hs), None. split; [|split; [reflexivity|split; [apply frame_refl|auto]]].
           apply Fin; auto. apply held_put; auto. intros ? [<-|?]; auto.
        -- exists f, hs, None. split; [apply Fin; auto|split; [reflexivity|split; [apply frame_refl|auto]]].
        -- exists f, hs, None. split; [apply Fin; auto|split; [reflexivity|split; [apply frame_refl|auto]]].
        -- exists f, hs, None. split; [apply Fin; auto|split; [reflexivity|split; [apply frame_refl|auto]]].
      * cbn [option_map] in Ef. rewrite Ef in *. injection Hstep as <- <- <-.
        exists f, hs, None. split; [apply Fin; auto|split; [reflexivity|split; [apply frame_refl|auto]]].
    + pose proof (create_world d st f q W Se (H1 eq_refl) Hq) as C. destruct (do_create q st) as [st1 r].
      cbn [run0 open0] in H3 |- *. rewrite Es, Ec in C.
      destruct (createFile size cap) as [c r0] eqn:Ecr. destruct C as (W' & S' & F' & N1 & N2 & Old & ->).
      assert (Hh' : held_ok st1 hs h).
      { intros p Hp. destruct (Hh p Hp) as (x & A1 & A2 & A3). destruct (Old _ _ A2) as [O1 O2].
        exists x. rewrite O1, O2. auto. }
      assert (Hopt : w_size st1 = size /\ w_cap st1 = cap /\ nc_ok nc st1).
      { destruct F' as ((E1 & E2 & E3 & E4 & E5) & _). unfold nc_ok. rewrite E5. split; [congruence|]. split; [congruence|exact Hnc]. }
      assert (Hfr : (forall p, ~ own d p -> fget p (fput q c f) = fget p f) /\ fs_dirs (fput q c f) = fs_dirs f).
      { split; [|reflexivity]. intros p Hp. rewrite fget_put, (Hne q p Hq Hp). reflexivity. }
      assert (Fin : forall hs' h' (p' : prog X), held_ok st1 hs' h' -> (forall q0, In q0 hs' -> own d q0) ->
         safe size cap nc hs' None p' (fput q c f) -> local d p' ->
         sim nc size cap d st1 h' p' (fput q c f) hs' None).
      { intros hs' h1 p1 A1 A2 A3 A4. split; [exact W'|]. split; [exact S'|]. split; [exact A1|]. split; [intros ? ?; discriminate|].
        split; [apply Hopt|]. split; [exact A3|]. split; [exact A4|]. split; [exact A2|]. split; [intros ? ?; discriminate|].
        split; [apply Hopt|]. split; [apply Hopt|exact Hopts]. }
      destruct r0 as [g| | |]; cbn [bind] in Hstep; injection Hstep as <- <- <-.
      * exists (fput q c f), (q :: hs), None. split; [|split; [reflexivity|split; [exact F'|exact Hfr]]].
        apply Fin; auto; [|intros ? [<-|?]; auto]. apply held_put; auto; cbn [h_ino h_geom].
        rewrite N2. destruct (rep_create size cap Hopts) as (c' & Ec' & Hrep). rewrite Ecr in Ec'. injection Ec' as -> ->. exact (rep_open _ _ _ _ Hrep eq_refl).
      * exists (fput q c f), hs, None. split; [apply Fin; auto|split; [reflexivity|split; [exact F'|exact Hfr]]].
      * exists (fput q c f), hs, None. split; [apply Fin; auto|split; [reflexivity|split; [exact F'|exact Hfr]]].
      * exists (fput q c f), hs, None. split; [apply Fin; auto|split; [reflexivity|split; [exact F'|exact Hfr]]].
  - (* load *)
    destruct Hloc as [Hq Hloc], Hsafe as [H1 H2]. destruct (Hh q H1) as (x & A1 & A2 & A3).
    injection Hstep as <- <- <-. unfold held_at. rewrite A1, <- (sees_some st f q _ Se A2).
    exists f, hs, None. split; [|split; [reflexivity|split; [apply frame_refl|auto]]].
    split; [exact W|]. split; [exact Se|]. split; [exact Hh|]. split; [intros ? ?; discriminate|].
    split; [exact Hnc|]. split; [exact H2|]. split; [apply Hloc|]. split; [exact Hown|]. split; [intros ? ?; discriminate|]. auto.
  - (* store *)
    destruct Hloc as [Hq Hloc], Hsafe as (H1 & H2 & H3). destruct (Hh q H1) as (x & A1 & A2 & A3).
    injection Hstep as <- <- <-. unfold held_at. rewrite A1. rewrite (sees_some st f q _ Se A2) in H2.
    exists (fput q c f), hs, None. split; [|split; [reflexivity|split; [eapply store_frame; eauto|]]].
    + split; [eapply store_world; eauto|]. split; [eapply store_sees; eauto|].
      split. { intros p Hp. destruct (Hh p Hp) as (y & B1 & B2 & B3). exists y. split; [exact B1|]. split; [exact B2|].
               rewrite contents_set. destruct (Z.eqb_spec (h_ino x) (h_ino y)) as [E|]; [|exact B3]. congruence. }
      split; [intros ? ?; discriminate|]. split; [exact Hnc|]. split; [exact H3|]. split; [exact Hloc|]. split; [exact Hown|].
      split; [intros ? ?; discriminate|]. auto.
    + split; [|reflexivity]. intros p Hp. rewrite fget_put, (Hne q p Hq Hp). reflexivity.
  - (* release *)
    destruct Hloc as [Hq Hloc], Hsafe as [H1 H2]. destruct (Hh q H1) as (x & A1 & A2 & A3).
    injection Hstep as <- <- <-. unfold held_at. rewrite A1.
    destruct (put_world st q x W A2 A3) as (t & c & -> & W' & Hcap & HC).
    exists f, (filter (fun x => negb (beqb q x)) hs), None. split; [|split; [reflexivity|split; [|auto]]].
    + split; [exact W'|]. split; [exact Se|]. split; [apply held_del; eapply held_eq; eauto|]. split; [intros ? ?; discriminate|].
      split; [unfold nc_ok; cbn [w_cache set_fch]; rewrite Hcap; exact Hnc|]. split; [exact H2|]. split; [exact Hloc|].
      split; [intros p Hp; apply in_filter_neq in Hp; apply Hown, Hp|]. split; [intros ? ?; discriminate|]. auto.
    + apply frame_fch; [exact Hcap|]. intros p Hp. apply HC. intros ->. contradiction.
  - (* evict *)
    destruct Hloc as [Hq Hloc]. injection Hstep as <- <- <-. unfold evictFile. exists f, hs, (Some q).
    assert (Fin : forall t c, world (set_fch st t c) -> c_cap c = c_cap (w_cache st) ->
      (forall p, cold st p -> cold (set_fch st t c) p) -> cold (set_fch st t c) q ->
      sim nc size cap d (set_fch st t c) h k f hs (Some q) /\ frame d st (set_fch st t c)).
    { intros t c W' Hcap HC HCq. split; [|apply frame_fch; auto].
      split; [exact W'|]. split; [exact Se|]. split; [eapply held_eq; eauto|]. split; [intros ? [= <-]; exact HCq|].
      split; [unfold nc_ok; cbn [w_cache set_fch]; rewrite Hcap; exact Hnc|]. split; [exact Hsafe|].
      split; [exact Hloc|]. split; [exact Hown|]. split; [intros ? [= <-]; exact Hq|]. auto. }
    destruct (mget beqb q (w_toks st)) as [tok|] eqn:Et.
    + pose proof (take_world st q tok (mdel beqb q (w_toks st)) W Et) as T.
      destruct (cache_take handle_zero (w_cache st) tok) as [c hit].
      destruct T as (W' & Hcap & HC & HCq & _).
      { intros p t. rewrite mget_del by apply eqb_ok_bytes. destruct (beqb q p); [discriminate|auto]. }
      destruct (Fin _ _ W' Hcap HC HCq) as [F1 F2]. split; [exact F1|]. split; [reflexivity|]. split; [exact F2|auto].
    + destruct (Fin (w_toks st) (w_cache st)) as [F1 F2]; [destruct st; exact W|reflexivity|auto| |].
      * intros t Ht. cbn [w_toks set_fch] in Ht. congruence.
      * split; [destruct st; exact F1|]. split; [reflexivity|]. split; [apply frame_refl|auto].
  - (* remove *)
    destruct Hloc as [Hq Hloc], Hsafe as (H1 & H2 & H3). injection Hstep as <- <- <-.
    assert (HC : cold st q).
    { destruct H1 as [H1|H1]; [|now apply He]. intros t _. apply no_handles; [exact (wd_cache _ W)|auto]. }
    destruct (remove_world d st f q W Se HC Hq) as (W' & S' & F').
    exists (fdel q f), hs, None. split; [|split; [reflexivity|split; [exact F'|]]].
    + split; [exact W'|]. split; [exact S'|]. split; [apply remove_held; auto|]. split; [intros ? ?; discriminate|].
      split; [exact Hnc|]. split; [exact H3|]. split; [exact Hloc|]. split; [exact Hown|]. split; [intros ? ?; discriminate|]. auto.
    + split; [|reflexivity]. intros p Hp. rewrite fget_del, (Hne q p Hq Hp). reflexivity.
Qed.
