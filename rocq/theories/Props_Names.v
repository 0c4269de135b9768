(** Properties C29-C32: the name set, the metric name cache, the directory walk. *)
From Coq Require Import ZArith List Bool Lia Sorted.
From Verif Require Import Base Maps Cache CacheProofs Convert ConvertSpec ConvertProofs Sset SsetProofs Names NamesProofs
  Populate PopulateProofs.
Import ListNotations.
Open Scope Z_scope.

(** * C29 *)
(** After any program of New/Add/Merge/Copy over any number of sets, set k has
    exactly the names the program put into it: Has answers membership, Iter
    visits them in strictly increasing order (hence each once), Len counts them,
    and stopping Iter early visits a prefix. *)
Theorem C29_sorted_set :
  forall ops k,
  let s := s_get (fold_left s_step ops []) k in
  let names := nth k (fold_left n_step ops []) [] in
  let visited := s_iter (fun acc x => (acc ++ [x], true)) s [] in
  (forall x, s_has x s = true <-> In x names) /\
  (forall x, In x visited <-> In x names) /\
  StronglySorted (fun a b => blt a b = true) visited /\
  s_len s = len visited.
Proof.
  intros ops k. cbn zeta. pose proof (srel_nth _ _ k (srel_run ops [] [] (Forall2_nil _))) as [[H1 H2] H3].
  set (s := s_get (fold_left s_step ops []) k) in *.
  assert (E : s_iter (fun acc x => (acc ++ [x], true)) s [] = s_order s).
  { unfold s_iter.
    assert (G : forall l acc, s_iter_ (fun acc x => (acc ++ [x], true)) l acc = acc ++ l).
    { induction l as [|x l IH]; intros acc; cbn; [now rewrite app_nil_r|]. rewrite IH, <- app_assoc. reflexivity. }
    apply (G (s_order s) []). }
  rewrite E. split; [|split; [exact H3|split; [exact H1|reflexivity]]].
  intros x. rewrite has_in, H2. apply H3.
Qed.
(** the byte order is a strict total order, so the visiting order is unique *)
Theorem C29_order_is_total : forall a b, a <> b -> (blt a b = true <-> blt b a = false).
Proof.
  intros a b Hne. split.
  - intros H. destruct (blt b a) eqn:E; [|reflexivity]. pose proof (blt_trans _ _ _ H E). now rewrite blt_irrefl in H0.
  - intros H. apply blt_total; congruence.
Qed.
(** a callback that stops after n names sees the first n *)
Theorem C29_early_stop : forall s n,
  s_iter (fun acc x => if (S (length acc) <? n)%nat then (acc ++ [x], true) else (acc ++ [x], false)) s [] =
  firstn (max n 1) (s_order s).
Proof.
  intros s n. unfold s_iter.
  assert (G : forall l acc, (length acc < max n 1)%nat ->
    s_iter_ (fun acc x => if (S (length acc) <? n)%nat then (acc ++ [x], true) else (acc ++ [x], false)) l acc =
    acc ++ firstn (max n 1 - length acc) l).
  { induction l as [|x l IH]; intros acc Ha; cbn [s_iter_]; [now rewrite firstn_nil, app_nil_r|].
    destruct (Nat.ltb_spec (S (length acc)) n).
    - rewrite IH by (rewrite app_length; cbn; lia). rewrite app_length. cbn [length].
      replace (max n 1 - length acc)%nat with (S (max n 1 - (length acc + 1))) by lia.
      cbn [firstn]. now rewrite <- app_assoc.
    - replace (max n 1 - length acc)%nat with 1%nat by lia. reflexivity. }
  rewrite (G (s_order s) []) by (cbn; lia). cbn. now rewrite Nat.sub_0_r.
Qed.
(** a program with two sets, a copy and a merge *)
Example C29_example :
  let ops := [SNew; SAdd 0 [98]; SAdd 0 [97; 1]; SCopy 0; SAdd 0 [97]; SNew; SAdd 2 [99]; SAdd 2 [97]; SMerge 1 2] in
  map s_order (fold_left s_step ops []) = [[[97]; [97; 1]; [98]]; [[97]; [97; 1]; [98]; [99]]; [[97]; [99]]].
Proof. vm_compute. reflexivity. Qed.
Print Assumptions C29_sorted_set.
Print Assumptions C29_order_is_total.
Print Assumptions C29_early_stop.

(** * C30 *)
(** Any number of workers write concurrently with one caller of Metrics and
    PopulateMetrics.  Whenever a Metrics call has called back, it did so for all
    names acknowledged (or populated) before the call, only for names
    acknowledged or populated, in strictly increasing order. *)
Theorem C30_metrics_partial :
  forall workers s start res,
  n_reach workers 1 s -> n_maint s = [MGot start res] ->
  incl start res /\ incl res (n_known s) /\ StronglySorted (fun a b => blt a b = true) res.
Proof.
  intros workers s start res H E. destruct (ni_maint _ (ninv_reach _ _ H)) as (m & Em & Ok).
  rewrite E in Em. injection Em as <-. cbn in Ok. tauto.
Qed.
(** a call that nothing overlaps is exact: [start] is what was known when it was made *)
Theorem C30_metrics_exact_partial :
  forall workers s start res,
  n_reach workers 1 s -> n_maint s = [MGot start res] -> incl (n_known s) start ->
  (forall x, In x res <-> In x start) /\ StronglySorted (fun a b => blt a b = true) res.
Proof.
  intros workers s start res H E Hs. destruct (C30_metrics_partial _ _ _ _ H E) as (A & B & C).
  split; [|exact C]. intros x. split; [intros X; apply Hs, B, X|apply A].
Qed.
(** what [start] is *)
Theorem C30_start_is_known_at_call :
  forall s s' m, n_do (AMetrics m) s = Some s' ->
  exists l, nth_error (n_maint s') m = Some (MAt l) /\ ml_start l = n_known s /\ n_known s' = n_known s.
Proof.
  intros s s' m. cbn [n_do]. destruct (nth_error (n_maint s) m) as [[]|] eqn:E; try discriminate.
  destruct (n_names s); intros [= <-]; cbn [n_setm n_with n_maint n_known];
    (eexists; split; [eapply QueueProofs.nth_error_set_same, E|split; reflexivity]).
Qed.

Definition na : mname := [97].
Definition nb : mname := [98].

Lemma n_exec_reach workers maints acts : forall s s', n_reach workers maints s -> n_exec acts s = Some s' -> n_reach workers maints s'.
Proof.
  induction acts as [|a acts IH]; intros s s' H; cbn; [intros [= <-]; exact H|].
  destruct (n_do a s) eqn:E; [|discriminate]. apply IH. eapply n_reach_step; eauto.
Qed.

(** two workers, a populate and a call *)
Example C30_example :
  exists s start res, n_reach 2 1 s /\ n_maint s = [MGot start res] /\ res = [na; nb] /\ incl (n_known s) start.
Proof.
  pose (acts := [APopulate 0 [nb]; AStore 0; AWrite 1 na; ACheck 1; AAdd 1; AWrite 0 nb; ACheck 0;
                 AMetrics 0; AStep 0; AStep 0; AStep 0; AStep 0; AStep 0; AStep 0; AStep 0]).
  destruct (n_exec acts (n_init 2 1)) as [s|] eqn:E; [|vm_compute in E; discriminate].
  pose proof (n_exec_reach 2 1 acts _ s (n_reach_init 2 1) E) as R.
  vm_compute in E. injection E as <-. eexists. exists [nb; na; nb]. exists [na; nb].
  split; [exact R|]. split; [reflexivity|]. split; [reflexivity|]. intros x X. exact X.
Qed.

(** With two overlapping Metrics calls an acknowledged name is lost for good:
    the second call clears a worker set that is not the one it merged, and later
    calls, made when nothing else runs, do not report the name. *)
Theorem C30_refuted :
  exists acts s start res,
  n_exec acts (n_init 1 2) = Some s /\ nth_error (n_maint s) 0 = Some (MGot start res) /\
  In nb start /\ ~ In nb res.
Proof.
  pose (acts := [AWrite 0 na; ACheck 0; AAdd 0; AMetrics 0; AStep 0; AStep 0; AMetrics 1; AStep 1; AStep 1;
                 AStep 0; AStep 0; AStep 0; AWrite 0 nb; ACheck 0; AAdd 0; AStep 1; AStep 1; AStep 1;
                 ADone 0; ADone 1; AMetrics 0; AStep 0; AStep 0; AStep 0]).
  exists acts. destruct (n_exec acts (n_init 1 2)) as [s|] eqn:E; [|vm_compute in E; discriminate].
  vm_compute in E. injection E as <-. eexists. exists [nb; na], [na].
  split; [reflexivity|]. split; [reflexivity|]. split; [now left|]. intros [X|[]]. discriminate.
Qed.
(** PopulateMetrics overlapping one write and one Metrics call loses the name too *)
Theorem C30_populate_refuted :
  exists acts s start res,
  n_exec acts (n_init 1 2) = Some s /\ nth_error (n_maint s) 0 = Some (MGot start res) /\
  In nb start /\ ~ In nb res.
Proof.
  pose (acts := [APopulate 1 [na]; AWrite 0 nb; ACheck 0; AAdd 0;
                 AMetrics 0; AStep 0; AStep 0; AStep 0; AStep 0; AStep 0; ADone 0; AStore 1;
                 AMetrics 0; AStep 0; AStep 0; AStep 0]).
  exists acts. destruct (n_exec acts (n_init 1 2)) as [s|] eqn:E; [|vm_compute in E; discriminate].
  vm_compute in E. injection E as <-. eexists. exists [na; nb], [na].
  split; [reflexivity|]. split; [reflexivity|]. split; [cbn; auto|]. intros [X|[]]. discriminate.
Qed.
(** even without overlapping calls, Metrics may change, without a lock that the
    workers take, the very set that the workers look names up in: a data race *)
Theorem C30_published_set_mutated :
  exists acts s s' q x, n_exec acts (n_init 1 1) = Some s /\ n_do (AStep 0) s = Some s' /\
  n_names s = Some q /\ n_names s' = Some q /\ s_has x (hget s q) = false /\ s_has x (hget s' q) = true.
Proof.
  pose (acts := [APopulate 0 []; AStore 0; AWrite 0 na; ACheck 0; AAdd 0;
                 AMetrics 0; AStep 0; AStep 0; AStep 0]).
  exists acts. do 2 eexists. exists 1%nat, na.
  split; [vm_compute; reflexivity|]. split; [vm_compute; reflexivity|].
  split; [reflexivity|]. split; [reflexivity|]. split; vm_compute; reflexivity.
Qed.
Print Assumptions C30_metrics_partial.
Print Assumptions C30_metrics_exact_partial.
Print Assumptions C30_start_is_known_at_call.
Print Assumptions C30_refuted.
Print Assumptions C30_populate_refuted.
Print Assumptions C30_published_set_mutated.

(** * C31 *)
(** Any tree (any order of entries) whose regular files are data files of some
    metrics: the walk succeeds and finds exactly the metrics with a data file, in
    increasing order.  Directories may be empty; their names have no dot (C02). *)
Theorem C31_populate_finds_exactly_the_metrics :
  forall t, okTree t -> t <> NFile ->
  (forall p, In p (files t []) -> exists m n, is_i64 n /\ p = metricToPath [] m n) ->
  exists out, populate t [] s_new = Ok out /\
    StronglySorted (fun a b => blt a b = true) (s_order out) /\
    forall m, In m (s_order out) <-> exists n, is_i64 n /\ In (metricToPath [] m n) (files t []).
Proof.
  intros t Hok Hnf Hdb. destruct (pop_spec t [] s_new Hok new_wf Hdb Hnf) as (out & E & [W _] & I).
  exists out. split; [exact E|]. split; [exact W|]. intros m. rewrite I. cbn. tauto.
Qed.
(** the trees the database makes: any sequence of creations of data files *)
Theorem C31_populate_created_files :
  forall l, Forall (fun e => is_i64 (snd e)) l ->
  exists out, populate (dbTree l) [] s_new = Ok out /\
    StronglySorted (fun a b => blt a b = true) (s_order out) /\
    forall m, In m (s_order out) <-> exists n, In (m, n) l.
Proof.
  intros l Hl. destruct (dbTree_spec l Hl) as (A & B & C).
  assert (D : forall p, In p (files (dbTree l) []) -> exists m n, is_i64 n /\ p = metricToPath [] m n).
  { intros p Hp. apply C in Hp. destruct Hp as ([m n] & X & ->). exists m, n. split; [|reflexivity].
    rewrite Forall_forall in Hl. exact (Hl _ X). }
  destruct (C31_populate_finds_exactly_the_metrics (dbTree l) (okTree2_ok _ A) B D) as (out & E & W & I).
  exists out. split; [exact E|]. split; [exact W|]. intros m. rewrite I. split.
  - intros (n & Hn & X). apply C in X. destruct X as ([m' n'] & X & Y). cbn in Y.
    apply metricToPath_inj_ in Y; [|exact Hn|rewrite Forall_forall in Hl; exact (Hl _ X)]. destruct Y as [-> ->]. eauto.
  - intros (n & X). exists n. split; [rewrite Forall_forall in Hl; exact (Hl _ X)|]. apply C. exists (m, n). auto.
Qed.
(** metrics "b", "b.c", "" and ".b", the first with two files *)
Example C31_example :
  let t := dbTree [([98], 0); ([98; 46; 99], 0); ([98], -1); ([], 0); ([46; 98], 7)] in
  t = NDir [([98], NDir [([48; 46; 100; 97; 116; 97], NFile);
                         ([99], NDir [([48; 46; 100; 97; 116; 97], NFile)]);
                         ([45; 49; 46; 100; 97; 116; 97], NFile)]);
            ([48; 46; 100; 97; 116; 97], NFile);
            ([37; 50; 101], NDir [([98], NDir [([55; 46; 100; 97; 116; 97], NFile)])])] /\
  match populate t [] s_new with Ok out => s_order out | _ => [] end = [[]; [46; 98]; [98]; [98; 46; 99]].
Proof. vm_compute. split; reflexivity. Qed.
(** one stray file (%z/x.data) makes the walk fail for every metric *)
Example C31_stray_file_fails :
  populate (NDir [([98], NDir [([48; 46; 100; 97; 116; 97], NFile)]);
                  ([37; 122], NDir [([120; 46; 100; 97; 116; 97], NFile)])]) [] s_new = Err.
Proof. vm_compute. reflexivity. Qed.
Print Assumptions C31_populate_finds_exactly_the_metrics.
Print Assumptions C31_populate_created_files.

(** * C32 *)
(** [d_enc] lays out a directory entry as the kernel does (inode, offset, record
    length, type, name, NUL, padding of any content).  Parsing any sequence of
    entries yields the names of those with a non-zero inode other than . and .. *)
Theorem C32_parse_entries_partial :
  forall es, Forall d_ok es ->
  scanDirents (flat_map d_enc es) =
  Ok (map d_name (filter (fun e => negb (d_ino e =? 0) &&
        (negb (beqb (d_name e) [46]) && negb (beqb (d_name e) [46; 46]))) es)).
Proof. intros es H. apply scan_enc; [exact H|]. lia. Qed.
(** on any bytes, each call consumes something unless the record length field is
    0 (the caller then loops forever) or 18 (the slice expression panics) *)
Theorem C32_progress_partial :
  forall buf, buf <> [] -> is_bytes buf ->
  direntReadReclen buf <> Some 0 -> direntReadReclen buf <> Some 18 ->
  exists buf' name ok, nextDirent buf = Ok (buf', name, ok) /\ (length buf' < length buf)%nat.
Proof.
  intros buf H1 H2 H3 H4. destruct (nextDirent_progress buf H1 H2) as [H|[[H _]|[H _]]]; [exact H|contradiction..].
Qed.
Theorem C32_refuted :
  (exists buf, is_bytes buf /\ buf <> [] /\ nextDirent buf = Ok (buf, [], false)) /\
  (exists buf, is_bytes buf /\ nextDirent buf = Panic).
Proof.
  split.
  - exists (repeat 0 24). split; [|split; [discriminate|vm_compute; reflexivity]].
    apply Forall_forall. intros x Hx. apply repeat_spec in Hx. subst. unfold is_byte. lia.
  - exists (le 8 1 ++ le 8 0 ++ le 2 18). split; [|vm_compute; reflexivity].
    vm_compute. repeat constructor; discriminate.
Qed.
(** entries "..", "a.b" with inode 0 and "ab" with padding *)
Example C32_example :
  let es := [Dent 5 1 4 [46; 46] [0; 0]; Dent 0 2 8 [97; 46; 98] []; Dent 7 3 4 [97; 98] [1; 2; 3]] in
  Forall d_ok es /\ scanDirents (flat_map d_enc es) = Ok [[97; 98]].
Proof.
  cbn zeta. split; [|vm_compute; reflexivity].
  repeat (constructor; [unfold d_ok, d_reclen, len; cbn; split; [lia|split; [lia|intuition discriminate]]|]). constructor.
Qed.
Print Assumptions C32_parse_entries_partial.
Print Assumptions C32_progress_partial.
Print Assumptions C32_refuted.
