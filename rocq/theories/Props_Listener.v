(** Property C78: stopping a graphite listener. *)
From Coq Require Import ZArith List Bool Lia String.
From Verif Require Import Base Cache CacheProofs LockPool LockPoolProofs Queue QueueProofs Server Graphite GraphiteSpec Listener ListenerSpec ListenerProofs.
Import ListNotations.
Open Scope Z_scope.
Open Scope list_scope.

Lemma ended s e : g_reach s -> returned s e -> Forall (fun c => c_h c = HDone) (g_conns s).
Proof.
  intros R H. apply ginv_reach in R. unfold returned in H. destruct R. destruct e as [e|].
  - destruct (gi_fail e H) as [_ [X|X]].
    + destruct (gi_none X) as [-> _]. constructor.
    + apply gi_waited. destruct (g_acc s); cbn in *; tauto.
  - apply gi_waited. now rewrite (gi_nil H).
Qed.

Lemma set_in n (c c' : conn) l : nth_error l n = Some c -> c_in c' = c_in c -> map c_in (set_nth n c' l) = map c_in l.
Proof.
  revert n. induction l as [|x l IH]; intros [|n] H E; cbn in *; try discriminate.
  - injection H as ->. now rewrite E.
  - now rewrite (IH n).
Qed.

(** Run returns only when every line read has been handled: those that the bytes
    received on a connection make up, in order, once, the last one even if its end of
    line is missing *)
Theorem C78_all_lines : forall s e, g_reach s -> returned s e ->
  forall n bytes, nth_error (received s) n = Some bytes -> handled n s = fst (scan bytes).
Proof.
  intros s e R H n bytes E. unfold received in E. rewrite nth_error_map in E.
  destruct (nth_error (g_conns s) n) as [c|] eqn:Ec; [|discriminate]. injection E as <-.
  pose proof (ended s e R H) as D. apply ginv_reach in R. destruct R.
  change (handled n s) with (lines_of n (g_log s)). rewrite (gi_log _ _ Ec). rewrite Forall_forall in D, gi_conns.
  apply nth_error_In in Ec. apply kinv_all; auto.
Qed.
Print Assumptions C78_all_lines.

(** until then: never a line twice, out of order, or one that was not sent *)
Theorem C78_lines_in_order : forall s, g_reach s ->
  forall n bytes, nth_error (received s) n = Some bytes -> exists rest, fst (scan bytes) = handled n s ++ rest.
Proof.
  intros s R n bytes E. unfold received in E. rewrite nth_error_map in E.
  destruct (nth_error (g_conns s) n) as [c|] eqn:Ec; [|discriminate]. injection E as <-.
  apply ginv_reach in R. destruct R. change (handled n s) with (lines_of n (g_log s)). rewrite (gi_log _ _ Ec).
  rewrite Forall_forall in gi_conns. apply nth_error_In in Ec. destruct (gi_conns _ Ec) as [I1 I2 _ _].
  rewrite scan_fed, <- I1. destruct (c_over c).
  - exists (hand c ++ c_buf c). exact I2.
  - rewrite app_nil_r in I2. rewrite I2. rewrite <- app_assoc. eauto.
Qed.
Print Assumptions C78_lines_in_order.

(** after Run has returned nothing is given to the writer any more *)
Theorem C78_nothing_after_return : forall s e t, g_reach s -> returned s e -> later s t ->
  returned t e /\ g_log t = g_log s /\ received t = received s.
Proof.
  intros s e t R H L.
  assert (X : g_reach t /\ returned t e /\ g_log t = g_log s /\ received t = received s); [|tauto].
  induction L as [|b s t u L IH T]; [auto|]. destruct (IH R H) as (Rt & Ht & <- & <-).
  split; [econstructor; eauto|]. pose proof (ended t e Rt Ht) as D. pose proof (ginv_reach t Rt) as G. destruct G.
  unfold returned in *. specialize (gi_ret e Ht). destruct T; gsimp; try congruence; auto.
  - split; [exact Ht|]. rewrite Forall_forall in D. pose proof (D _ (nth_error_In _ _ H0)) as Dc.
    destruct (done_stays _ _ _ _ _ H1 Dc) as [_ ->]. split; [reflexivity|]. unfold received. gsimp.
    assert (Ei : c_in c' = c_in c) by (destruct H1; cbn in *; congruence).
    eapply set_in; eauto.
Qed.
Print Assumptions C78_nothing_after_return.

(** nil only because the context was cancelled, an error only because the address
    could not be listened on or an accept failed; cancelling never makes an error *)
Theorem C78_result : forall s e, g_reach s -> returned s e ->
  match e with None => g_done s = true | Some _ => g_failed s = true end.
Proof.
  intros s e R H. apply ginv_reach in R. destruct R. unfold returned in H. destruct e as [e|].
  - now apply (gi_fail e).
  - apply gi_done. auto.
Qed.
Print Assumptions C78_result.

(** once the context is cancelled, Run returns by steps of its own goroutines, in a
    number of steps that is bounded in every schedule; nil unless an accept had failed *)
Theorem C78_returns : forall s, g_reach s -> g_done s = true ->
  (exists bound, forall n t, g_runs n s t -> (n <= bound)%nat) /\
  (forall n t, g_runs n s t -> (exists e, returned t e) \/ exists u, g_step false t u) /\
  (g_failed s = false -> forall n t e, g_runs n s t -> returned t e -> e = None).
Proof.
  assert (K : forall n s t, g_runs n s t -> g_reach s -> g_reach t /\ g_done t = g_done s /\ g_failed t = g_failed s).
  { induction 1 as [|n s t u T G IH]; intros R; [auto|]. destruct (g_done_step _ _ T) as [A B].
    destruct IH as (X & Y & Z); [econstructor; eauto|]. repeat split; congruence || assumption. }
  intros s R D. repeat split.
  - exists (gweight s). intros n t H. apply gweight_runs in H. lia.
  - intros n t H. destruct (K _ _ _ H R) as (Rt & Dt & _). destruct (g_main t) eqn:E.
    5: left; exists e; exact E.
    all: right; apply g_progress; [now apply ginv_reach|congruence|congruence].
  - intros F n t e H X. destruct (K _ _ _ H R) as (Rt & Dt & Ft). pose proof (C78_result t e Rt X) as Y.
    destruct e; [congruence|reflexivity].
Qed.
Print Assumptions C78_returns.
(** the clients cannot hold it up: when the socket and the connections are closed they
    can do nothing any more *)
Theorem C78_clients_shut_out : forall s t, g_reach s -> g_main s <> GListen -> g_open s = false ->
  Forall (fun c => c_closed c = true) (g_conns s) -> g_step true s t ->
  t = GS (g_main s) (g_acc s) (g_conns s) (g_open s) true (g_stop s) (g_errs s) (g_failed s) (g_log s).
Proof.
  intros s t R M O F T. apply ginv_reach in R. destruct R. inversion T; subst; gsimp; try congruence; try reflexivity.
  rewrite Forall_forall in F. match goal with A : nth_error _ _ = Some _ |- _ => pose proof (F _ (nth_error_In _ _ A)) as X end.
  match goal with B : c_step _ _ _ _ _ |- _ => inversion B; subst; cbn in X; discriminate end.
Qed.
Print Assumptions C78_clients_shut_out.

(** ** a line that was cut off *)
Lemma drop_cr_rev l : drop_cr (rev l) = no_cr l.
Proof.
  unfold drop_cr, no_cr. destruct l as [|x l] using rev_ind; [reflexivity|]. rewrite rev_app_distr, last_last. cbn [rev app].
  rewrite removelast_last. unfold ch_cr. destruct (x =? 13) eqn:E; rewrite rev_involutive; [reflexivity|]. reflexivity.
Qed.
Lemma split_unique a b a' b' : ~ In 32 a -> ~ In 32 a' -> a ++ 32 :: b = a' ++ 32 :: b' -> a = a' /\ b = b'.
Proof.
  revert a'. induction a as [|x a IH]; intros [|y a'] H H' E; cbn in *; injection E; intros; subst; auto; try tauto.
  destruct (IH a') as [-> ->]; auto.
Qed.
(** what the scanner makes of an unfinished line is rejected, or says the same as the
    whole line (if that says anything) *)
Theorem C78_cut_line : forall parse whole first rest, whole = first ++ rest ->
  forall m v m' v', says parse (no_cr first) m v -> says parse (no_cr whole) m' v' -> m' = m /\ v' = v.
Proof.
  intros parse whole first rest -> m v m' v' (val & r & (E & A & B & C) & P) (val' & r' & (E' & A' & B' & C') & P').
  assert (X : exists y, first = m ++ 32 :: val ++ 32 :: y).
  { unfold no_cr in E. destruct (last first 0 =? 13) eqn:L; [|eexists; exact E].
    destruct first as [|z f _] using rev_ind; [discriminate|]. rewrite removelast_last in E. subst f.
    exists (r ++ [z]). cbn. repeat rewrite <- app_assoc. cbn. rewrite <- app_assoc. reflexivity. }
  assert (X' : exists y, first ++ rest = m' ++ 32 :: val' ++ 32 :: y).
  { unfold no_cr in E'. destruct (last (first ++ rest) 0 =? 13) eqn:L; [|eexists; exact E'].
    destruct (first ++ rest) as [|z f _] using rev_ind; [discriminate|]. rewrite removelast_last in E'. subst f.
    exists (r' ++ [z]). cbn. repeat rewrite <- app_assoc. cbn. rewrite <- app_assoc. reflexivity. }
  destruct X as [y ->], X' as [y' X']. rewrite <- !app_assoc in X'. cbn in X'. rewrite <- app_assoc in X'. cbn in X'.
  apply split_unique in X' as [-> X']; auto. apply split_unique in X' as [-> X']; auto. split; [reflexivity|congruence].
Qed.
Print Assumptions C78_cut_line.

(** ** runs *)
Lemma next b s t : g_reach s -> g_step b s t -> g_reach t.
Proof. intros; econstructor; eauto. Qed.
Ltac go H t := eapply next in H; [|eapply t; try reflexivity; try discriminate; try (repeat constructor)]; cbn in H.
Definition ex_bytes : list Z := bytes_of "a 1 5" ++ [10] ++ bytes_of "b 2 5".
(** one client sends one line and a half, the context is cancelled *)
Example C78_ex : exists s, g_reach s /\ returned s None /\ received s = [ex_bytes] /\
  handled 0 s = [bytes_of "a 1 5"; bytes_of "b 2 5"].
Proof.
  pose proof g_reach_init as H. unfold g_init in H.
  go H gs_listen. go H gs_accept.
  eapply next in H; [|eapply gs_conn with (n := 0%nat); [reflexivity|eapply (cs_data _ _ _ _ _ ex_bytes); [discriminate|reflexivity]]]. vm_compute in H.
  eapply next in H; [|eapply gs_conn with (n := 0%nat); [reflexivity|eapply cs_scan]]. cbn in H.
  go H gs_ctx. go H gs_select_done.
  eapply next in H; [|eapply gs_conn with (n := 0%nat); [reflexivity|eapply cs_line]]. cbn in H.
  eapply next in H; [|eapply gs_conn with (n := 0%nat); [reflexivity|eapply cs_close; reflexivity]]. cbn in H.
  go H gs_close. 
  eapply next in H; [|eapply gs_conn with (n := 0%nat); [reflexivity|eapply cs_cut; reflexivity]]. cbn in H.
  eapply next in H; [|eapply gs_conn with (n := 0%nat); [reflexivity|eapply cs_scan]]. cbn in H.
  eapply next in H; [|eapply (gs_accept_closed _ 7)]. cbn in H. go H gs_acc_cancel.
  eapply next in H; [|eapply gs_conn with (n := 0%nat); [reflexivity|eapply cs_line]]. cbn in H.
  eapply next in H; [|eapply gs_conn with (n := 0%nat); [reflexivity|eapply cs_end; reflexivity]]. cbn in H.
  eapply next in H; [|eapply gs_conn with (n := 0%nat); [reflexivity|eapply cs_cancel]]. cbn in H.
  eapply next in H; [|eapply gs_conn with (n := 0%nat); [reflexivity|eapply cs_done]]. cbn in H.
  go H gs_acc_wait. go H gs_acc_send. go H gs_acc_done. go H gs_wait.
  eexists. split; [exact H|]. repeat split.
Qed.

(** REFUTED: the listener does not go on until it is told to stop.  One failing accept
    (a client makes the process run out of file descriptors, say) ends Run with an
    error, and closes the connections of all other clients in the middle of a line *)
Theorem C78_keeps_listening_refuted : exists s e, g_reach s /\ returned s (Some e) /\ g_done s = false /\
  received s = [bytes_of "a 1 5"].
Proof.
  pose proof g_reach_init as H. unfold g_init in H.
  go H gs_listen. go H gs_accept.
  eapply next in H; [|eapply gs_conn with (n := 0%nat); [reflexivity|eapply (cs_data _ _ _ _ _ (bytes_of "a 1 5")); [discriminate|reflexivity]]]. vm_compute in H.
  eapply next in H; [|eapply (gs_accept_fail _ 7)]. cbn in H. go H gs_acc_cancel.
  eapply next in H; [|eapply gs_conn with (n := 0%nat); [reflexivity|eapply cs_close; reflexivity]]. cbn in H.
  eapply next in H; [|eapply gs_conn with (n := 0%nat); [reflexivity|eapply cs_cut; reflexivity]]. cbn in H.
  eapply next in H; [|eapply gs_conn with (n := 0%nat); [reflexivity|eapply cs_scan]]. cbn in H.
  eapply next in H; [|eapply gs_conn with (n := 0%nat); [reflexivity|eapply cs_line]]. cbn in H.
  eapply next in H; [|eapply gs_conn with (n := 0%nat); [reflexivity|eapply cs_end; reflexivity]]. cbn in H.
  eapply next in H; [|eapply gs_conn with (n := 0%nat); [reflexivity|eapply cs_cancel]]. cbn in H.
  eapply next in H; [|eapply gs_conn with (n := 0%nat); [reflexivity|eapply cs_done]]. cbn in H.
  go H gs_acc_wait. go H gs_acc_send. go H gs_select_err.
  eexists _, 7. split; [exact H|]. repeat split.
Qed.
Print Assumptions C78_keeps_listening_refuted.
