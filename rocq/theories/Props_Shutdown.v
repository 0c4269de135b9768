(** Property C60: stopping the process. *)
From Coq Require Import ZArith List Lia Bool.
From Verif Require Import Base Cache LockPool LockPoolProofs Queue QueueProofs Launcher LauncherProofs Props_Concurrency Shutdown.
Import ListNotations.
Open Scope nat_scope.

(** ** facts about one launcher *)
Lemma cancelled_sent n s : n <> 0 -> l_reach n s -> l_cancelled s = true -> l_sent s <> [].
Proof.
  intros Hn H. induction H as [|s s' H IH T]; [discriminate|].
  destruct (laun_reach _ _ H) as [I1 I2 (rcv & I3 & I4)].
  destruct T; unfold ltask; cbn [l_cancelled l_sent]; auto.
  - intros _ X. apply app_eq_nil in X as [_ X]. discriminate.
  - intros _ X. rewrite I3, H1 in X. apply app_eq_nil in X as [_ X]. discriminate.
  - intros _ X. rewrite I3 in X. apply app_eq_nil in X as [-> _]. rewrite H0 in I4. destruct I4 as [A B].
    destruct e; [discriminate|]. specialize (B eq_refl). cbn in B. congruence.
Qed.

Definition t0 (s : lstate) := nth_error (l_tasks s) 0.

Lemma nth_set_other k (t : task) l i : k <> i -> nth_error (set_nth k t l) i = nth_error l i.
Proof. intros. apply nth_error_set_other. auto. Qed.

Lemma t0_step s o e : l_step s o -> t0 s <> Some TRun -> (t0 s = Some (TRet e) \/ In e (l_sent s)) ->
  t0 o <> Some TRun /\ (t0 o = Some (TRet e) \/ In e (l_sent o)).
Proof.
  intros T Hn He. unfold t0 in *. destruct T; unfold ltask; cbn [l_tasks l_sent]; auto.
  - destruct n; [congruence|]. rewrite nth_set_other by lia. auto.
  - destruct n as [|n].
    + split.
      * intros X. apply nth_error_set in X. destruct X as [[_ X]|[X _]]; congruence.
      * right. apply in_or_app. destruct He as [He|He]; [right; left; congruence|now left].
    + rewrite nth_set_other by lia. split; [exact Hn|]. destruct He as [He|He]; [now left|]. right. apply in_or_app. now left.
  - destruct n as [|n].
    + split.
      * intros X. apply nth_error_set in X. destruct X as [[_ X]|[X _]]; congruence.
      * destruct He as [He|He]; [congruence|now right].
    + rewrite nth_set_other by lia. auto.
Qed.

Record rinv (n : nat) (s : rstate) : Prop := RInv {
  ri_out : l_reach 2 (outer s);
  ri_in : l_reach n (inner s);
  ri_t0 : t0 (outer s) <> Some TRun -> exists e, ph s = PRet e /\ (t0 (outer s) = Some (TRet e) \/ In e (l_sent (outer s)));
  ri_ph : match ph s with
          | PServices => cut s = false /\ timeout s = false
          | PDump => l_main (inner s) = MDone None /\ cut s = false
          | PRet None => l_main (inner s) = MDone None /\ (cut s = false -> pending s = []) /\ (cut s = true -> timeout s = true \/ l_cancelled (outer s) = true)
          | PRet (Some e) => l_main (inner s) = MDone (Some e) /\ cut s = false
          end;
  ri_vals : stored s ++ pending s = added s
}.

Lemma cancelled_mono s s' : l_step s s' -> l_cancelled s = true -> l_cancelled s' = true.
Proof. intros T H. destruct T; cbn; auto. Qed.

Lemma r_inv n s : r_reach n s -> rinv n s.
Proof.
  induction 1 as [|s s' H IH T].
  - split; cbn; auto; try constructor. unfold t0. cbn. congruence.
  - destruct IH as [A B C E F].
    destruct T as [s i P T|s k v P K|s k P K|s e P M|s P M|s P|s P|s a b P Q R|s o Z0 T|s e P Q].
    + split; cbn [outer inner ph added pending stored timeout cut]; auto.
      * econstructor; eauto.
      * now rewrite P in C.
      * now rewrite P in E.
    + split; cbn [outer inner ph added pending stored timeout cut]; auto.
      * rewrite P in *. exact E.
      * rewrite app_assoc, F. reflexivity.
    + split; cbn [outer inner ph added pending stored timeout cut]; auto.
      * rewrite P in *. exact E.
      * now rewrite app_nil_r.
    + split; cbn [outer inner ph added pending stored timeout cut]; auto.
      * intros X. destruct (C X) as (e' & Y & _). congruence.
      * rewrite P in E. tauto.
    + split; cbn [outer inner ph added pending stored timeout cut]; auto.
      * intros X. destruct (C X) as (e' & Y & _). congruence.
      * rewrite P in E. tauto.
    + split; cbn [outer inner ph added pending stored timeout cut]; auto.
      * intros X. destruct (C X) as (e' & Y & _). congruence.
      * rewrite P in E. destruct E as [E1 E2]. split; [exact E1|]. split; [auto|congruence].
      * now rewrite app_nil_r.
    + split; cbn [outer inner ph added pending stored timeout cut]; auto.
      rewrite P in *. exact E.
    + split; cbn [outer inner ph added pending stored timeout cut]; auto.
      * intros X. destruct (C X) as (e' & Y & _). congruence.
      * rewrite P in E. destruct E as [E1 E2]. split; [exact E1|]. split; [congruence|]. intros _. apply orb_true_iff in Q. exact Q.
      * rewrite <- app_assoc, <- R. exact F.
    + split; cbn [outer inner ph added pending stored timeout cut]; auto.
      * econstructor; eauto.
      * intros X. destruct (nth_error (l_tasks (outer s)) 0) as [t|] eqn:Et; [destruct t|].
        { exfalso. apply X. now apply Z0. }
        all: destruct C as (e' & Y & W); [unfold t0; rewrite Et; discriminate|]; exists e'; split; [exact Y|].
        all: eapply t0_step; eauto; unfold t0; rewrite Et; discriminate.
      * destruct (ph s) as [| |[e|]]; auto. destruct E as (E1 & E2 & E3). split; [exact E1|]. split; [exact E2|].
        intros X. destruct (E3 X); [auto|right; eapply cancelled_mono; eauto].
    + split; cbn [outer inner ph added pending stored timeout cut]; auto.
      * econstructor; [exact A|]. now apply ls_return.
      * intros _. exists e. split; [exact P|]. left. unfold t0, ltask. cbn [l_tasks]. eapply nth_error_set_same. exact Q.
Qed.

Lemma done_facts n s e : l_reach n s -> l_main s = MDone e ->
  Forall (eq TGone) (l_tasks s) /\ length (l_sent s) = n /\ e = first_error (l_sent s).
Proof. intros. eapply C28_returns_after_all_tasks_with_first_error; eauto. Qed.
Lemma first_error_all l : first_error l = None -> Forall (eq None) l.
Proof. induction l as [|[x|] l IH]; cbn; intros H; [constructor|discriminate|constructor; auto]. Qed.

(** * C60 *)
(** the last dump starts only after every service has returned nil, and no
    value can be added during or after it *)
Theorem C60_dump_after_services : forall n s, r_reach n s -> ph s = PDump ->
  Forall (eq TGone) (l_tasks (inner s)) /\ l_sent (inner s) = repeat None n /\
  forall s', r_step s s' -> added s' = added s.
Proof.
  intros n s H P. destruct (r_inv n s H) as [A B C E F]. rewrite P in E. destruct E as [E1 E2].
  destruct (done_facts _ _ _ B E1) as (G1 & G2 & G3). split; [exact G1|]. split.
  - symmetry in G3. apply first_error_all in G3. rewrite <- G2. clear - G3. induction G3; cbn; [reflexivity|]. now subst; f_equal.
  - intros s' T. destruct T; cbn; try reflexivity; congruence.
Qed.
Print Assumptions C60_dump_after_services.

(** while the services run and during the last dump, the database is not told to
    stop unless it has already returned by itself *)
Theorem C60_database_kept : forall n s, r_reach n s -> (forall e, ph s <> PRet e) ->
  db_cancelled s = true -> db_returned s.
Proof.
  intros n s H P Hc. destruct (r_inv n s H) as [A B C E F]. unfold db_cancelled, db_returned in *.
  assert (Ht : t0 (outer s) = Some TRun).
  { destruct (t0 (outer s)) as [t|] eqn:Et; [destruct t|]; auto; exfalso.
    all: destruct C as (e' & Y & _); [discriminate|]; eapply P; eauto. }
  pose proof (cancelled_sent 2 _ ltac:(lia) A Hc) as Hs. destruct (laun_reach _ _ A) as [I1 I2 _].
  intros X. unfold t0 in Ht. destruct (l_tasks (outer s)) as [|ta [|tb [|tc l]]]; cbn in *; try discriminate; try lia.
  injection Ht as ->. injection X as ->. destruct (l_sent (outer s)); [congruence|]. cbn [length unsent] in I2. cbn in I2. lia.
Qed.
Print Assumptions C60_database_kept.

(** run returns only after the database and all the services have; when it
    returns nil (every component stopped without an error) the last dump was
    performed *)
Theorem C60_returns : forall n s e, r_reach n s -> run_returned s e ->
  Forall (eq TGone) (l_tasks (outer s)) /\ Forall (eq TGone) (l_tasks (inner s)) /\
  exists e0, ph s = PRet e0 /\ (e = None -> e0 = None).
Proof.
  intros n s e H R. destruct (r_inv n s H) as [A B C E F]. destruct (done_facts _ _ _ A R) as (G1 & G2 & G3).
  split; [exact G1|].
  destruct C as (e0 & Y & W).
  { intros X. unfold t0 in X. rewrite Forall_forall in G1. apply nth_error_In, G1 in X. discriminate. }
  rewrite Y in E. assert (M : l_main (inner s) = MDone e0) by (destruct e0; tauto).
  destruct (done_facts _ _ _ B M) as (K1 & _ & _). split; [exact K1|]. exists e0. split; [exact Y|].
  intros ->. symmetry in G3. apply first_error_all in G3. destruct W as [W|W].
  - unfold t0 in W. rewrite Forall_forall in G1. apply nth_error_In, G1 in W. discriminate.
  - rewrite Forall_forall in G3. symmetry. now apply G3.
Qed.
Print Assumptions C60_returns.

(** a clean stop loses nothing: when run returns nil and the last dump was not
    cut short, every value a service added is stored; it is only cut short when
    its 60 seconds are over or its context was cancelled *)
Theorem C60_nothing_lost : forall n s, r_reach n s -> run_returned s None ->
  (cut s = false -> stored s = added s) /\
  (cut s = true -> timeout s = true \/ db_cancelled s = true).
Proof.
  intros n s H R. destruct (C60_returns n s None H R) as (_ & _ & e0 & P & E0). rewrite (E0 eq_refl) in P.
  destruct (r_inv n s H) as [A B C E F]. rewrite P in E. destruct E as (_ & E2 & E3). split; [|exact E3].
  intros X. rewrite <- F, (E2 X), app_nil_r. reflexivity.
Qed.
Print Assumptions C60_nothing_lost.

(** at the moment it is cut short by its context, the time is over or the
    database has returned *)
Theorem C60_cut_cause : forall n s s', r_reach n s -> r_step s s' -> cut s = false -> cut s' = true ->
  timeout s = true \/ db_returned s.
Proof.
  intros n s s' H T E1 E2. destruct T; cbn in E2; try congruence.
  apply orb_true_iff in H1 as [X|X]; [now left|right]. eapply C60_database_kept; eauto. intros e Y. congruence.
Qed.
Print Assumptions C60_cut_cause.

(** no deadlock: once the services and the database have returned, run gets to
    its end; every step except adding values, dumping and the timer makes the
    measure smaller *)
Definition pweight (p : phase) : nat := match p with PServices => 2 | PDump => 1 | PRet _ => 0 end.
Definition rweight (s : rstate) : nat := lweight (outer s) + lweight (inner s) + pweight (ph s).

Theorem C60_terminates :
  (forall s s', r_step s s' ->
     rweight s' < rweight s \/ (outer s' = outer s /\ inner s' = inner s /\ ph s' = ph s)) /\
  (forall n s, r_reach n s -> (forall k, nth_error (l_tasks (inner s)) k <> Some TRun) -> db_returned s ->
     (exists e, run_returned s e) \/ exists s', r_step s s' /\ rweight s' < rweight s).
Proof.
  split.
  - intros s s' T. destruct T; unfold rweight; cbn [outer inner ph]; auto.
    + left. apply lweight_step in H0. rewrite H. lia.
    + left. rewrite H. cbn. lia.
    + left. rewrite H. cbn. lia.
    + left. rewrite H. cbn. lia.
    + left. rewrite H. cbn. lia.
    + left. apply lweight_step in H0. lia.
    + left. pose proof (lweight_step _ _ (ls_return _ _ e H0)). lia.
  - intros n s H Hr Hd. destruct (r_inv n s H) as [A B C E F].
    destruct (ph s) as [| |e] eqn:P.
    + right. destruct (l_main (inner s)) as [k|e|e|e] eqn:Em.
      all: try (destruct (launch_progress n (inner s) (laun_reach _ _ B) Hr) as [i T]; [congruence|];
        eexists; split; [apply rs_inner; eauto|]; apply lweight_step in T; unfold rweight; cbn [outer inner ph]; rewrite P; lia).
      destruct e as [e|].
      * eexists. split; [eapply rs_fail; eauto|]. unfold rweight; cbn [outer inner ph]; rewrite P; cbn; lia.
      * eexists. split; [eapply rs_dump; eauto|]. unfold rweight; cbn [outer inner ph]; rewrite P; cbn; lia.
    + right. eexists. split; [now apply rs_dumped|]. unfold rweight; cbn [outer inner ph]; rewrite P; cbn; lia.
    + destruct (nth_error (l_tasks (outer s)) 0) as [t|] eqn:Et.
      2:{ exfalso. destruct (laun_reach _ _ A) as [I1 _ _]. apply nth_error_None in Et. lia. }
      assert (D : t = TRun \/ t <> TRun) by (destruct t; auto; right; discriminate). destruct D as [->|D].
      * right. eexists. split; [eapply rs_return; eauto|]. unfold rweight; cbn [outer inner ph].
        pose proof (lweight_step _ _ (ls_return _ _ e Et)). lia.
      * destruct (l_main (outer s)) as [k|e'|e'|e'] eqn:Em; [right..|left; exists e'; exact Em].
        all: destruct (launch_progress 2 (outer s) (laun_reach _ _ A)) as [o T]; 
          [intros j X; destruct (laun_reach _ _ A) as [I1 _ _]; destruct j as [|[|j]]; [congruence|apply Hd; exact X|assert (nth_error (l_tasks (outer s)) (S (S j)) <> None) as Y by congruence; apply nth_error_Some in Y; lia]|congruence|].
        all: eexists; (split; [apply rs_outer; [|exact T]; intros X; congruence|]); apply lweight_step in T; unfold rweight; cbn [outer inner ph]; lia.
Qed.
Print Assumptions C60_terminates.

(** ** runs *)
Lemma step_inner n s i : r_reach n s -> ph s = PServices -> l_step (inner s) i ->
  r_reach n (RS (outer s) i PServices (added s) (pending s) (stored s) (timeout s) (cut s)).
Proof. intros. eapply r_reach_step; [eassumption|]. now apply rs_inner. Qed.
Lemma step_outer n s o : r_reach n s -> (nth_error (l_tasks (outer s)) 0 = Some TRun -> nth_error (l_tasks o) 0 = Some TRun) -> l_step (outer s) o ->
  r_reach n (RS o (inner s) (ph s) (added s) (pending s) (stored s) (timeout s) (cut s)).
Proof. intros. eapply r_reach_step; [eassumption|]. now apply rs_outer. Qed.

Ltac inn H t := eapply step_inner in H; [|reflexivity|eapply t; (reflexivity || (cbn; lia) || (repeat constructor))]; cbn in H.
Ltac out H t := eapply step_outer in H; [|cbn; (reflexivity || discriminate || auto)|eapply t; (reflexivity || (cbn; lia) || (repeat constructor))]; cbn in H.

(** one service adds two values, is stopped, the last dump stores them, run
    returns nil *)
Example C60_ex : exists s, r_reach 1 s /\ run_returned s None /\ added s = [7; 8]%Z /\ stored s = [7; 8]%Z /\ cut s = false.
Proof.
  pose proof (r_reach_init 1) as H.
  eapply r_reach_step in H; [|eapply (rs_add _ 0 7%Z); reflexivity]; cbn in H.
  eapply r_reach_step in H; [|eapply (rs_periodic _ 0); reflexivity]; cbn in H.
  eapply r_reach_step in H; [|eapply (rs_add _ 0 8%Z); reflexivity]; cbn in H.
  inn H (fun s => ls_return s 0 None). inn H (fun s => ls_send s 0 None). inn H (fun s => ls_done s 0).
  inn H (fun s => ls_recv_nil s 0 []). inn H ls_loop_end. inn H (fun s => ls_cancel s None). inn H (fun s => ls_wait s None).
  eapply r_reach_step in H; [|eapply rs_dump; reflexivity]; cbn in H.
  eapply r_reach_step in H; [|eapply rs_dumped; reflexivity]; cbn in H.
  eapply r_reach_step in H; [|eapply rs_return; reflexivity]; cbn in H.
  out H (fun s => ls_send s 0 None). out H (fun s => ls_recv_nil s 1 []). out H (fun s => ls_done s 0).
  out H (fun s => ls_return s 1 None). out H (fun s => ls_send s 1 None). out H (fun s => ls_done s 1).
  out H (fun s => ls_recv_nil s 0 []). out H ls_loop_end. out H (fun s => ls_cancel s None). out H (fun s => ls_wait s None).
  eexists. split; [exact H|]. repeat split.
Qed.

(** when a service fails there is no last dump: values already accepted are
    lost (the writer is only flushed by the dumper) *)
Theorem C60_service_error_loses_refuted : exists s e, r_reach 1 s /\ run_returned s (Some e) /\ added s <> stored s.
Proof.
  pose proof (r_reach_init 1) as H.
  eapply r_reach_step in H; [|eapply (rs_add _ 0 7%Z); reflexivity]; cbn in H.
  inn H (fun s => ls_return s 0 (Some 5%Z)). inn H (fun s => ls_send s 0 (Some 5%Z)). inn H (fun s => ls_done s 0).
  inn H (fun s => ls_recv_err s 0 5%Z []). inn H (fun s => ls_cancel s (Some 5%Z)). inn H (fun s => ls_wait s (Some 5%Z)).
  eapply r_reach_step in H; [|eapply rs_fail; reflexivity]; cbn in H.
  eapply r_reach_step in H; [|eapply rs_return; reflexivity]; cbn in H.
  out H (fun s => ls_send s 0 (Some 5%Z)). out H (fun s => ls_recv_err s 1 5%Z []). out H (fun s => ls_done s 0).
  out H (fun s => ls_return s 1 None). out H (fun s => ls_send s 1 None). out H (fun s => ls_done s 1).
  out H (fun s => ls_cancel s (Some 5%Z)). out H (fun s => ls_wait s (Some 5%Z)).
  eexists _, 5%Z. split; [exact H|]. split; [reflexivity|]. cbn. discriminate.
Qed.
Print Assumptions C60_service_error_loses_refuted.
