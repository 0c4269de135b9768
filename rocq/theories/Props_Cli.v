(** Property C73 (the command line: init, run and demo), C74 (the options a
    database works with) and C75 (SIGINT). *)
From Coq Require Import ZArith List Lia Bool String.
From Verif Require Import Base Typeassert Registry Config Run Server InitialConfig TomlSpec Cli NewDb Signal FileProofs CacheProofs DbSpec.
Import ListNotations.
Open Scope Z_scope.
Local Open Scope list_scope.

(** * C73: init *)
(** as long as no other process writes the file meanwhile *)
Definition alone : option (list Z) -> option (list Z) := fun f => f.

Theorem C73_init : forall narg stat_fails w f status out f',
  init_main narg stat_fails alone w f = ((status, out), f') ->
  (* the status is 0 exactly when there was no file, and then the file is the initial configuration *)
  (status = 0 <-> narg = 0 /\ stat_fails = false /\ f = None /\ w = WWorks) /\
  (status = 0 -> f' = Some initial_config /\ out = [MWrote]) /\
  (status <> 0 -> status = 1 /\ out <> [] /\ ~ In MWrote out) /\
  (* a file that was there is left as it was *)
  (f <> None -> f' = f) /\
  (* and the failures say which it was *)
  (narg <> 0 -> f' = f /\ out = [MUsage]) /\
  (narg = 0 -> stat_fails = false -> f <> None -> out = [MExists]).
Proof.
  unfold init_main, init_action, check_args, alone. intros narg sf w f status out f'.
  destruct (Z.eqb_spec narg 0) as [Hn|Hn]; cbn [negb app];
    [destruct sf; [|destruct f as [c|]; [|destruct w; cbn [write_file]]]|];
    unfold main; cbn [fst snd app]; intros E; injection E as <- <- <-.
  all: split; [split; [intros H; try discriminate H; repeat split; auto | intros (? & ? & ? & ?); try reflexivity; congruence]|].
  all: split; [intros H; try discriminate H; auto|].
  all: split; [intros H; try (exfalso; now apply H); (split; [reflexivity|split; [discriminate|cbn; intuition discriminate]])|].
  all: split; [intros H; try reflexivity; congruence|].
  all: split; intros; try congruence; auto.
Qed.
Print Assumptions C73_init.
Example C73_init_case : init_main 0 false alone WWorks None = ((0, [MWrote]), Some initial_config) /\
  init_main 0 false alone WWorks (Some [1; 2]) = ((1, [MExists]), Some [1; 2]) /\
  init_main 1 false alone WWorks None = ((1, [MUsage]), None) /\
  init_main 0 true alone WWorks None = ((1, [MUnexpected]), None) /\
  init_main 0 false alone WNoOpen None = ((1, [MUnexpected]), None).
Proof. repeat split. Qed.

(** even then, whatever other processes do to the file: when os.Stat saw a file
    this process does not change it *)
Theorem C73_seen_kept : forall narg stat_fails other w c,
  snd (init_main narg stat_fails other w (Some c)) = Some c /\ fst (fst (init_main narg stat_fails other w (Some c))) = 1.
Proof.
  intros. unfold init_main, init_action, check_args. destruct (negb (narg =? 0)); [now cbn|].
  destruct stat_fails; now cbn.
Qed.
Print Assumptions C73_seen_kept.

(** but the existence test and the writing are two steps: a file that another
    process makes in between is replaced, and the status is 0 *)
Theorem C73_race_refuted : ~ forall other w f, (forall g, other g <> None) ->
  fst (fst (init_main 0 false other w f)) = 0 -> snd (init_main 0 false other w f) = other f.
Proof.
  intros H. specialize (H (fun _ => Some [1; 2; 3]) WWorks None ltac:(discriminate) eq_refl).
  vm_compute in H. discriminate.
Qed.
Print Assumptions C73_race_refuted.
(** and a failure while writing leaves a part of the text, which the next init
    refuses to repair: failing does not mean that nothing was done *)
Theorem C73_partial_write_refuted : ~ forall w, fst (fst (init_main 0 false alone w None)) = 1 ->
  snd (init_main 0 false alone w None) = None.
Proof. intros H. specialize (H (WShort 5) eq_refl). vm_compute in H. discriminate. Qed.
Print Assumptions C73_partial_write_refuted.
Theorem C73_no_repair : forall k w, let f := snd (init_main 0 false alone (WShort k) None) in
  f = Some (firstn k initial_config) /\ init_main 0 false alone w f = ((1, [MExists]), f).
Proof. intros. split; reflexivity. Qed.
Print Assumptions C73_no_repair.

(** * C73: run and demo *)
(** the status tells how it ended: 0 exactly when the configuration was read,
    loaded and started and everything ended without an error.  (run and demo
    return an error whenever they did not start, run.go:72-131.) *)
Theorem C73_start_status : forall C narg file (load : list Z -> res C) start status out,
  (forall c, fst (start c) = false -> snd (start c) = true) ->
  main (start_action narg file load start) = (status, out) ->
  (status = 0 <-> narg = 1 /\ exists data c, file = Some data /\ load data = Ok c /\ start c = (true, false)) /\
  (status = 0 -> out = []) /\
  (status <> 0 -> status = 1 /\ exists m, out = [m] /\
    (m = MUsage <-> narg <> 1) /\
    (m = MInvalid <-> narg = 1 /\ exists data c, file = Some data /\ load data = Ok c /\ fst (start c) = false) /\
    (m = MUnexpected <-> narg = 1 /\ (file = None \/ exists data, file = Some data /\
       ((forall c, load data <> Ok c) \/ exists c, load data = Ok c /\ start c = (true, true))))).
Proof.
  intros C narg file load start status out Hs. unfold start_action, check_args.
  destruct (Z.eqb_spec narg 1) as [Hn|Hn]; cbn [negb].
  2:{ unfold main. cbn [fst snd]. intros E. injection E as <- <-.
      split; [split; [discriminate|tauto]|]. split; [discriminate|]. intros _. split; [reflexivity|].
      exists MUsage. split; [reflexivity|]. split; [tauto|]. split; (split; [discriminate|tauto]). }
  destruct file as [data|].
  2:{ unfold main. cbn [fst snd app]. intros E. injection E as <- <-.
      split; [split; [discriminate|intros (_ & d & c & E & _); discriminate]|]. split; [discriminate|]. intros _. split; [reflexivity|].
      exists MUnexpected. split; [reflexivity|]. split; [split; [discriminate|tauto]|].
      split; [split; [discriminate|intros (_ & d & c & E & _); discriminate]|]. split; auto. }
  destruct (load data) as [c| | |] eqn:El.
  1:{ specialize (Hs c). destruct (start c) as [[|] [|]] eqn:Es; cbn [fst snd] in Hs; unfold main; cbn [fst snd app];
      try (discriminate (Hs eq_refl)); intros E; injection E as <- <-.
      - split; [split; [discriminate|]|].
        { intros (_ & d & c' & E & L & S). injection E as <-. rewrite El in L. injection L as <-. rewrite Es in S. discriminate. }
        split; [discriminate|]. intros _. split; [reflexivity|]. exists MUnexpected. split; [reflexivity|].
        split; [split; [discriminate|tauto]|]. split; [split; [discriminate|]|].
        { intros (_ & d & c' & E & L & S). injection E as <-. rewrite El in L. injection L as <-. rewrite Es in S. discriminate. }
        split; auto. intros _. split; auto. right. exists data. split; auto. right. eauto.
      - split; [split; auto; intros _; split; auto; eauto|]. split; [auto|]. intros H. now destruct H.
      - split; [split; [discriminate|]|].
        { intros (_ & d & c' & E & L & S). injection E as <-. rewrite El in L. injection L as <-. rewrite Es in S. discriminate. }
        split; [discriminate|]. intros _. split; [reflexivity|]. exists MInvalid. split; [reflexivity|].
        split; [split; [discriminate|tauto]|]. split; [split; [|auto]|].
        { intros _. split; auto. exists data, c. rewrite Es. auto. }
        split; [discriminate|]. intros (_ & [E|(d & E & [L|(c' & L & S)])]); [discriminate| |]; injection E as <-.
        + exfalso. now apply (L c).
        + rewrite El in L. injection L as <-. rewrite Es in S. discriminate. }
  all: unfold main; cbn [fst snd app]; intros E; injection E as <- <-;
    (split; [split; [discriminate|intros (_ & d & c & E & L & _); injection E as <-; rewrite El in L; discriminate]|]);
    (split; [discriminate|]); intros _; (split; [reflexivity|]);
    exists MUnexpected; (split; [reflexivity|]); (split; [split; [discriminate|tauto]|]);
    (split; [split; [discriminate|intros (_ & d & c & E & L & _); injection E as <-; rewrite El in L; discriminate]|]);
    (split; auto); intros _; (split; auto); right; exists data; (split; auto); left; intros c L; rewrite El in L; discriminate.
Qed.
Print Assumptions C73_start_status.
Example C73_start_status_case :
  let load d := if len d =? 0 then Err else Ok (len d) in
  let start c := (2 <? c, negb (c =? 5)) in
  (forall c, fst (start c) = false -> snd (start c) = true) /\
  main (start_action 1 (Some [1;2;3;4;5]) load start) = (0, []) /\
  main (start_action 1 (Some [1;2;3;4]) load start) = (1, [MUnexpected]) /\
  main (start_action 1 (Some [1]) load start) = (1, [MInvalid]) /\
  main (start_action 1 (Some []) load start) = (1, [MUnexpected]) /\
  main (start_action 2 (Some [1]) load start) = (1, [MUsage]).
Proof.
  cbn zeta. repeat split. cbn. intros c H. destruct (Z.eqb_spec c 5); [subst; discriminate|reflexivity].
Qed.

(** the written text starts and ends with a character that is not white space
    (tab, line feed, vertical tab, form feed, carriage return, space), and is not empty *)
Theorem C73_initial_trimmed : ~ In (hd 32 initial_config) [9; 10; 11; 12; 13; 32] /\ ~ In (last initial_config 32) [9; 10; 11; 12; 13; 32].
Proof. split; intros H; vm_compute in H; intuition discriminate. Qed.
Print Assumptions C73_initial_trimmed.

(** ** the configuration that init writes starts *)
(** what the text says, read with the small reader of TomlSpec.v *)
Definition initial_toml : toml_config := {|
  t_duration := 600 * 10 ^ 9; t_plugins := [];
  t_listeners := [(bytes_of "graphite", [VMap [(bytes_of "address", VStr (bytes_of ":1111"))]])];
  t_database := [(bytes_of "files", VMap [(bytes_of "directory", VStr (bytes_of "data")); (bytes_of "size", VInt64 256);
                                          (bytes_of "cap", VInt64 400); (bytes_of "files", VInt64 2)])];
  t_dist := [(bytes_of "tdigest", VMap [(bytes_of "compression", VFloat 4617315517961601024)])];
  t_address := bytes_of ":8080"; t_origin := bytes_of "*"; t_key := []; t_cert := []; t_username := []; t_password := [] |}.
Theorem C73_initial_text : toml_decode initial_config = Some initial_toml.
Proof. vm_compute. reflexivity. Qed.
Print Assumptions C73_initial_text.

Definition initial_launch : launched := {|
  g_db := FilesDB (bytes_of "data") {| fo_size := 256; fo_cap := 400; fo_files := 2; fo_buffer := 0; fo_drop := false;
                                       fo_handles := 0; fo_workers := 0 |};
  g_params := TDigest 4617315517961601024;
  g_listeners := [Graphite (bytes_of ":1111")];
  g_period := 600 * 10 ^ 9;
  g_api := {| address := bytes_of ":8080"; origin := bytes_of "*"; tls_key := []; tls_cert := []; username := []; password := [] |} |}.
(** for every decoder that reads this text that way: after init, "run
    rothko.toml" starts, with the files database, the digest, the listener and
    the server the text describes; the dumper starts, and the database's sizes
    are ones for which the guarantees of its histories hold *)
Theorem C73_initial_runs : forall decode open f', decode initial_config = toml_decode initial_config ->
  init_main 0 false alone WWorks None = ((0, [MWrote]), f') ->
  (exists data, f' = Some data /\ run_command decode open true data = Ok initial_launch) /\
  dumper_start initial_launch = Ok tt /\
  opts_ok 256 400.
Proof.
  intros decode open f' Hd E. injection E as <-. split; [|split].
  - eexists. split; [reflexivity|]. unfold run_command, load. rewrite Hd, C73_initial_text. vm_compute. reflexivity.
  - reflexivity.
  - unfold opts_ok. lia.
Qed.
Print Assumptions C73_initial_runs.
Example C73_initial_runs_case : init_main 0 false alone WWorks None = ((0, [MWrote]), Some initial_config) /\
  toml_decode initial_config = toml_decode initial_config.
Proof. split; reflexivity. Qed.

(** * C74: the options a database works with *)
(** New panics exactly when the buffer or the number of workers is negative, and
    otherwise keeps what was asked for and replaces 0 *)
Theorem C74_new : forall procs limit o,
  (new_db procs limit o = Panic <-> fo_buffer o < 0 \/ fo_workers o < 0) /\
  (new_db procs limit o = Panic \/ exists o', new_db procs limit o = Ok o' /\
    fo_size o' = fo_size o /\ fo_cap o' = fo_cap o /\ fo_files o' = fo_files o /\
    fo_buffer o' = fo_buffer o /\ fo_drop o' = fo_drop o /\
    (* workers: at least one *)
    1 <= fo_workers o' /\ (fo_workers o <> 0 -> fo_workers o' = fo_workers o) /\
    (fo_workers o = 0 -> fo_workers o' = Z.max 1 (procs - 1)) /\
    (* handles: never negative *)
    0 <= fo_handles o' /\ (0 < fo_handles o -> fo_handles o' = fo_handles o) /\ (fo_handles o < 0 -> fo_handles o' = 0)).
Proof.
  intros procs limit o. unfold new_db. cbn [fo_buffer fo_workers].
  assert (W : forall w, 0 <= w -> 1 <= new_workers procs w /\ (w <> 0 -> new_workers procs w = w) /\ (w = 0 -> new_workers procs w = Z.max 1 (procs - 1))).
  { intros w Hw. unfold new_workers. destruct (Z.eqb_spec w 0); [destruct (Z.leb_spec (procs - 1) 0)|]; lia. }
  assert (Wn : forall w, w < 0 -> new_workers procs w = w).
  { intros w Hw. unfold new_workers. destruct (Z.eqb_spec w 0); lia. }
  assert (H : forall h, 0 <= new_handles limit h /\ (0 < h -> new_handles limit h = h) /\ (h < 0 -> new_handles limit h = 0)).
  { intros h. unfold new_handles. cbn zeta. destruct (Z.eqb_spec h 0).
    - match goal with |- context [?x <? 0] => destruct (Z.ltb_spec x 0) end; lia.
    - destruct (Z.ltb_spec h 0); lia. }
  destruct (Z.lt_ge_cases (fo_workers o) 0) as [Hw|Hw].
  { rewrite (Wn _ Hw). assert (fo_workers o <? 0 = true) as -> by now apply Z.ltb_lt. rewrite orb_true_r. split; [tauto|auto]. }
  destruct (W _ Hw) as (W1 & W2 & W3).
  assert (new_workers procs (fo_workers o) <? 0 = false) as -> by (apply Z.ltb_ge; lia). rewrite orb_false_r.
  destruct (Z.ltb_spec (fo_buffer o) 0).
  - split; [tauto|auto].
  - split; [split; [discriminate|lia]|]. right. eexists. split; [reflexivity|]. cbn. destruct (H (fo_handles o)) as (H1 & H2 & H3). tauto.
Qed.
Print Assumptions C74_new.
(** it is what the files database does when it is made from a configuration *)
Theorem C74_made : forall procs limit c, files_db_maker c = Panic <->
  exists dir o, files_maker c = Ok (dir, o) /\ new_db procs limit o = Panic.
Proof.
  intros procs limit c. unfold files_db_maker. destruct (files_maker c) as [[dir o]| | |] eqn:E; cbn.
  2:{ split; [discriminate|]. intros (d & o & F & _). discriminate. }
  3:{ split; [discriminate|]. intros (d & o & F & _). discriminate. }
  - unfold new_panics. split.
    + intros H. exists dir, o. split; auto. apply (proj1 (C74_new procs limit o)).
      destruct (Z.ltb_spec (fo_buffer o) 0); [auto|]. destruct (Z.ltb_spec (fo_workers o) 0); [auto|]. discriminate.
    + intros (d & o' & F & G). injection F as <- <-. apply (proj1 (C74_new procs limit o)) in G.
      destruct G as [G|G]; apply Z.ltb_lt in G; rewrite G; [|rewrite orb_true_r]; reflexivity.
  - exfalso. revert E. unfold files_maker. repeat (match goal with |- context [let (_, _) := ?x in _] => destruct x end).
    match goal with |- context [match ?e with Some _ => _ | None => _ end] => destruct e end; discriminate.
Qed.
Print Assumptions C74_made.
(** the default number of handles leaves 512 below the limit the system reports *)
Theorem C74_default_handles : forall procs limit o o', 0 <= limit < 2 ^ 63 -> fo_handles o = 0 -> new_db procs (Some limit) o = Ok o' ->
  fo_handles o' = Z.max 0 (limit - 512) /\ fo_handles o' <= limit.
Proof.
  intros procs limit o o' Hl H0. unfold new_db. destruct (_ || _); [discriminate|]. intros E. injection E as <-. cbn [fo_handles].
  unfold new_handles. rewrite H0, Z.eqb_refl. cbn zeta. rewrite Z.eqb_refl.
  assert (forall x, - 2 ^ 63 <= x < 2 ^ 63 -> i64 x = x) as I by (intros x Hx; unfold i64; rewrite Z.mod_small; lia).
  rewrite (I limit) by lia. rewrite I by lia. destruct (Z.ltb_spec (limit - 512) 0); lia.
Qed.
Print Assumptions C74_default_handles.
(** so with a limit that fits an uint32 the guarantees of the histories hold for
    every database New makes, given sizes for which they hold *)
Theorem C74_guarantees : forall procs limit o o' rand, 0 <= limit < 2 ^ 32 -> fo_handles o < 2 ^ 32 ->
  opts_ok (fo_size o) (fo_cap o) -> rand_ok rand -> new_db procs (Some limit) o = Ok o' ->
  process_ok (fo_size o') (fo_cap o') (fo_handles o') rand.
Proof.
  intros procs limit o o' rand Hl Hh Ho Hr E. unfold process_ok. destruct (C74_new procs (Some limit) o) as [_ [P|(o2 & E2 & S)]].
  { rewrite P in E. discriminate. }
  rewrite E in E2. injection E2 as <-. destruct S as (S1 & S2 & _ & _ & _ & _ & _ & _ & S9 & S10 & S11).
  rewrite S1, S2. split; auto. split; auto.
  destruct (Z.eq_dec (fo_handles o) 0) as [Z0|Z0].
  - destruct (C74_default_handles procs limit o o') as [A B]; auto; lia.
  - lia.
Qed.
Print Assumptions C74_guarantees.
Example C74_case : exists o', new_db 1 (Some 1024) {| fo_size := 256; fo_cap := 400; fo_files := 2; fo_buffer := 0; fo_drop := false;
    fo_handles := 0; fo_workers := 0 |} = Ok o' /\ fo_handles o' = 512 /\ fo_workers o' = 1 /\
  new_db 1 (Some 1024) {| fo_size := 256; fo_cap := 400; fo_files := 2; fo_buffer := -1; fo_drop := false;
    fo_handles := 0; fo_workers := 0 |} = Panic.
Proof. eexists. repeat split. Qed.
(** the documentation of the option says 1024 below the limit (db.go:55-57) *)
Theorem C74_documented_handles_refuted : ~ forall procs limit o o', 1024 <= limit < 2 ^ 63 -> fo_handles o = 0 ->
  new_db procs (Some limit) o = Ok o' -> fo_handles o' = limit - 1024.
Proof.
  intros H. specialize (H 2 2048 (Build_fopts 256 400 2 0 false 0 0) _ ltac:(lia) eq_refl eq_refl). vm_compute in H. discriminate.
Qed.
Print Assumptions C74_documented_handles_refuted.
(** and with no limit at all (RLIM_INFINITY) no handle is kept *)
Theorem C74_unlimited_refuted : ~ forall procs limit o o', 1024 <= limit < 2 ^ 64 -> fo_handles o = 0 ->
  new_db procs (Some limit) o = Ok o' -> 0 < fo_handles o'.
Proof.
  intros H. specialize (H 2 (2 ^ 64 - 1) (Build_fopts 256 400 2 0 false 0 0) _ ltac:(lia) eq_refl eq_refl). vm_compute in H. discriminate.
Qed.
Print Assumptions C74_unlimited_refuted.

(** * C75: SIGINT *)
Definition sinv (s : sstate) : Prop :=
  (s_killed s = true -> s_reg s = false /\ (2 <= s_sigs s)%nat) /\
  (s_reg s = false -> s_go s = GEnd /\ s_done s = true /\ (1 <= s_sigs s)%nat) /\
  (s_chan s = true -> (1 <= s_sigs s)%nat) /\
  (s_go s = GGot \/ s_go s = GStop -> (1 <= s_sigs s)%nat) /\
  (s_go s = GStop -> s_done s = true) /\
  (s_go s = GEnd -> s_done s = true) /\
  (s_done s = true -> (1 <= s_sigs s + s_cancels s)%nat) /\
  ((1 <= s_sigs s)%nat -> s_chan s = true \/ s_go s <> GSelect) /\
  ((1 <= s_cancels s)%nat -> s_done s = true) /\
  (s_go s = GEnd -> s_reg s = true -> (1 <= s_cancels s)%nat) /\
  (s_go s = GSelect \/ s_go s = GGot -> s_done s = true -> (1 <= s_cancels s)%nat).
Lemma sinv_reach s : s_reach s_init s -> sinv s.
Proof.
  intros H. remember s_init as s0. induction H as [s|s t u H IH St]; subst.
  - repeat split; cbn; try discriminate; try lia; intuition discriminate.
  - specialize (IH eq_refl). unfold sinv in *.
    destruct IH as (I1 & I2 & I3 & I4 & I5 & I6 & I7 & I8 & I9 & I10 & I11).
    destruct St; cbn [s_go s_done s_chan s_reg s_killed s_sigs s_cancels] in *;
      repeat (match goal with |- _ /\ _ => split end); intros;
      repeat match goal with H : _ /\ _ |- _ => destruct H end; try discriminate; try congruence; try lia; auto.
    all: try (right; discriminate).
    all: repeat match goal with H : ?b = ?b -> _ |- _ => specialize (H eq_refl) end.
    all: repeat match goal with H : _ /\ _ |- _ => destruct H end; try discriminate; try congruence; try lia; auto.
    all: try match goal with H : ?P -> _ /\ _, H' : ?P |- _ => destruct (H H'); lia end.
    all: try match goal with H : _ \/ _ -> ?P |- ?P => apply H; tauto end.
    all: try match goal with H : _ = _ \/ _ = _ |- _ => solve [destruct H; discriminate] end.
    all: try (apply I11; solve [auto]).
    all: try (destruct (I2 ltac:(assumption)) as (? & ? & ?); try discriminate; auto).
    all: try (specialize (I4 (or_introl eq_refl)); lia).
    all: try (apply I9; assumption).
Qed.

(** SIGINT never ends the process at once: it takes a second one, and by then
    the context is done *)
Theorem C75_first_is_graceful : forall s, s_reach s_init s ->
  (s_killed s = true -> (2 <= s_sigs s)%nat /\ s_done s = true) /\
  ((s_sigs s <= 1)%nat -> s_killed s = false).
Proof.
  intros s H. apply sinv_reach in H. destruct H as (I1 & I2 & _). split.
  - intros K. destruct (I1 K) as [R N]. destruct (I2 R) as (_ & D & _). auto.
  - intros N. destruct (s_killed s) eqn:K; auto. destruct (I1 eq_refl). lia.
Qed.
Print Assumptions C75_first_is_graceful.

(** the context is done only because of a SIGINT or because its parent was done
    or cancel was called *)
Theorem C75_done_because : forall s, s_reach s_init s -> s_done s = true -> (1 <= s_sigs s)%nat \/ (1 <= s_cancels s)%nat.
Proof. intros s H D. apply sinv_reach in H. destruct H as (_ & _ & _ & _ & _ & _ & I7 & _). specialize (I7 D). lia. Qed.
Print Assumptions C75_done_because.

(** the steps of the goroutine *)
Definition g_step (s t : sstate) : Prop := s_step s t /\ s_sigs t = s_sigs s /\ s_cancels t = s_cancels s.
Definition g_left (s : sstate) : nat := match s_go s with GSelect => 3 | GGot => 2 | GStop => 1 | GEnd => 0 end.
(** a SIGINT makes the context done: the goroutine makes at most three steps, and
    when it can make none, after a SIGINT or a cancel, the context is done *)
Theorem C75_signal_cancels : forall s, s_reach s_init s ->
  (forall t, g_step s t -> (g_left t < g_left s)%nat) /\
  ((1 <= s_sigs s)%nat \/ (1 <= s_cancels s)%nat -> (exists t, g_step s t) \/ (s_go s = GEnd /\ s_done s = true)).
Proof.
  intros s H. apply sinv_reach in H. split.
  - intros t (St & N & X). inversion St; subst; cbn [s_sigs s_cancels g_left s_go] in *; cbn [g_left s_go]; try lia.
  - destruct H as (_ & _ & _ & _ & _ & I6 & _ & I8 & I9 & _ & _). destruct s as [g d c r k n x].
    cbn [s_go s_done s_chan s_reg s_killed s_sigs s_cancels] in *. intros N. destruct g.
    + left. destruct (Nat.le_gt_cases 1 n) as [Hn|Hn].
      * destruct (I8 Hn) as [->|F]; [|congruence]. eexists. split; [apply st_recv|auto].
      * destruct N as [N|N]; [lia|]. rewrite (I9 N). eexists. split; [apply st_done|auto].
    + left. eexists. split; [apply st_got|auto].
    + left. eexists. split; [apply st_stop|auto].
    + right. auto.
Qed.
Print Assumptions C75_signal_cancels.

(** when it was the signal that made it done, another SIGINT ends the process:
    a hanging shutdown can be interrupted *)
Theorem C75_second_kills : forall s, s_reach s_init s -> s_go s = GEnd -> s_cancels s = 0%nat ->
  s_reg s = false /\ forall t, s_step s t -> s_sigs t = S (s_sigs s) -> s_killed t = true.
Proof.
  intros s H G X. apply sinv_reach in H. destruct H as (_ & _ & _ & _ & _ & _ & _ & _ & _ & I10 & _).
  assert (R : s_reg s = false). { destruct (s_reg s); auto. specialize (I10 G eq_refl). lia. }
  split; auto. intros t St N. inversion St; subst; cbn [s_sigs s_go s_reg s_killed] in *; try congruence; lia.
Qed.
Print Assumptions C75_second_kills.
Example C75_second_kills_case : exists s t, s_reach s_init s /\ s_go s = GEnd /\ s_cancels s = 0%nat /\ s_step s t /\ s_killed t = true.
Proof.
  exists (SS GEnd true false false false 1 0), (SS GEnd true false false true 2 0). repeat split; try apply st_sig_kill.
  eapply sr_step; [eapply sr_step; [eapply sr_step; [eapply sr_step; [apply sr_refl|apply st_sig_notify]|apply st_recv]|apply st_got]|apply st_stop].
Qed.

(** but not when the services ended first (run.go:191 defers cancel): the signal
    stays registered and SIGINT is ignored from then on, for instance while the
    database finishes (run.go:193-195 and 209-216) *)
Theorem C75_after_cancel_refuted : ~ forall s, s_reach s_init s -> s_go s = GEnd ->
  forall t, s_step s t -> s_sigs t = S (s_sigs s) -> s_killed t = true.
Proof.
  intros H. specialize (H (SS GEnd true false true false 0 1)). 
  assert (R : s_reach s_init (SS GEnd true false true false 0 1)).
  { eapply sr_step; [eapply sr_step; [apply sr_refl|apply st_cancel]|apply st_done]. }
  specialize (H R eq_refl _ (st_sig_notify _ _ _ _ _ _) eq_refl). discriminate.
Qed.
Print Assumptions C75_after_cancel_refuted.
Theorem C75_ignored_forever : forall s t, s_reach s_init s -> s_go s = GEnd -> s_reg s = true -> s_reach s t ->
  s_killed t = false /\ s_reg t = true.
Proof.
  intros s t H G R Ht. apply sinv_reach in H. destruct H as (I1 & _).
  assert (K : s_killed s = false). { destruct (s_killed s); auto. destruct (I1 eq_refl). congruence. }
  assert (s_go t = GEnd /\ s_killed t = false /\ s_reg t = true) as (_ & ? & ?); auto.
  induction Ht as [s|s t u Ht IH St]; auto. destruct (IH I1 G R K) as (G' & K' & R').
  inversion St; subst; cbn in *; try congruence; auto.
Qed.
Print Assumptions C75_ignored_forever.
Example C75_ignored_forever_case : exists s t, s_reach s_init s /\ s_go s = GEnd /\ s_reg s = true /\ s_reach s t /\ s_sigs t = 3%nat.
Proof.
  exists (SS GEnd true false true false 0 1), (SS GEnd true true true false 3 1). repeat split.
  - eapply sr_step; [eapply sr_step; [apply sr_refl|apply st_cancel]|apply st_done].
  - eapply sr_step; [eapply sr_step; [eapply sr_step; [apply sr_refl|apply st_sig_notify]|apply st_sig_notify]|apply st_sig_notify].
Qed.
