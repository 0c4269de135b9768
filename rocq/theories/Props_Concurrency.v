(** Properties C25-C28: concurrent components.  Every theorem is about every
    reachable state, i.e. every schedule, of any number of goroutines. *)
From Coq Require Import ZArith List Lia Bool.
From Verif Require Import Base Maps Cache LockPool LockPoolProofs Queue QueueProofs Launcher LauncherProofs.
Import ListNotations.
Open Scope Z_scope.

(** * C25 *)
(** at most one goroutine is between Lock(k) and Unlock(k) *)
Theorem C25_mutual_exclusion :
  forall n p ts a b k i j,
  lp_reach n (p, ts) ->
  nth_error ts a = Some (LIn k i) -> nth_error ts b = Some (LIn k j) -> a = b.
Proof.
  intros n p ts a b k i j H Ha Hb. pose proof (linv_reach _ _ _ H) as HI.
  assert (i = j) as <-.
  { pose proof (li_key _ _ HI a k i (or_intror Ha)). pose proof (li_key _ _ HI b k j (or_intror Hb)). congruence. }
  destruct (Nat.eq_dec a b) as [|Hne]; [assumption|].
  pose proof (cnt_two (holds i) ts a b _ _ Ha Hb (Z.eqb_refl i) (Z.eqb_refl i) Hne).
  pose proof (li_mu _ _ HI i). destruct (lp_mu p i); lia.
Qed.
(** Unlock never panics *)
Theorem C25_unlock_never_panics :
  forall n p ts a, lp_reach n (p, ts) -> nth_error ts a <> Some LPanic.
Proof. intros n p ts a H. apply (li_panic _ _ (linv_reach _ _ _ H)). Qed.
(** a goroutine waiting in Lock(k) can proceed unless another one is inside the
    same key or is at the last statement of an Unlock, which never blocks *)
Theorem C25_other_keys_do_not_block :
  forall n p ts a k i k', lp_reach n (p, ts) -> nth_error ts a = Some (LWait k i) ->
  (exists p', lp_step k' p (LWait k i) = Some (p', LIn k i)) \/
  (exists b j, nth_error ts b = Some (LIn k j)) \/
  (exists b k0 j p', nth_error ts b = Some (LOut k0 j) /\ lp_step k' p (LOut k0 j) = Some (p', LIdle) /\
                     exists p'', lp_step k' p' (LWait k i) = Some (p'', LIn k i)).
Proof.
  intros n p ts a k i k' H Ha. pose proof (linv_reach _ _ _ H) as HI. cbn [lp_step].
  destruct (lp_mu p i) eqn:E; [|eauto].
  pose proof (li_mu _ _ HI i) as Hm. rewrite E in Hm.
  destruct (cnt_ex (holds i) ts ltac:(lia)) as (b & t & Hb & Ht).
  destruct t as [|k1 j|k1 j|k1 j|]; cbn in Ht; try discriminate; apply Z.eqb_eq in Ht; subst j.
  - right. left. exists b, i. pose proof (li_key _ _ HI b k1 i (or_intror Hb)) as K1.
    pose proof (li_key _ _ HI a k i (or_introl Ha)) as K2.
    rewrite <- (li_inj _ _ HI k1 k i K1 K2). exact Hb.
  - right. right. exists b, k1, i. rewrite E. eexists. split; [exact Hb|]. split; [reflexivity|].
    cbn [lp_mu]. rewrite upd_same. eauto.
Qed.
(** when nobody waits or is inside, the pool is empty *)
Theorem C25_no_state_when_idle :
  forall n p ts, lp_reach n (p, ts) ->
  (forall a k i, nth_error ts a <> Some (LWait k i) /\ nth_error ts a <> Some (LIn k i)) ->
  lp_locks p = [].
Proof.
  intros n p ts H Hidle. pose proof (linv_reach _ _ _ H) as HI. apply mget_all_none. intros k.
  destruct (mget beqb k (lp_locks p)) as [i|] eqn:E; [|reflexivity].
  destruct (li_ref _ _ HI k i E) as (R1 & R2 & _).
  destruct (cnt_ex (uses i) ts ltac:(lia)) as (a & t & Ha & Ht).
  destruct t as [|k1 j|k1 j| |]; cbn in Ht; try discriminate; apply Z.eqb_eq in Ht; subst j;
    destruct (Hidle a k1 i); contradiction.
Qed.
Print Assumptions C25_mutual_exclusion.
Print Assumptions C25_unlock_never_panics.
Print Assumptions C25_other_keys_do_not_block.
Print Assumptions C25_no_state_when_idle.

(** a run: goroutine 0 is inside key [7], 1 waits for it, 2 is inside [8] *)
Fixpoint lp_exec (sched : list (nat * key)) (s : lsys) : option lsys :=
  match sched with
  | [] => Some s
  | (n, k) :: sched =>
      match nth_error (snd s) n with
      | Some t => match lp_step k (fst s) t with
                  | Some (p', t') => lp_exec sched (p', set_nth n t' (snd s))
                  | None => None
                  end
      | None => None
      end
  end.
Lemma lp_exec_reach n sched : forall s s', lp_reach n s -> lp_exec sched s = Some s' -> lp_reach n s'.
Proof.
  induction sched as [|[m k] sched IH]; intros [p ts] s' H E; cbn in E; [now injection E as <-|].
  destruct (nth_error ts m) as [t|] eqn:Et; [|discriminate].
  destruct (lp_step k p t) as [[p' t']|] eqn:Es; [|discriminate].
  apply (IH _ _ (lp_next_ n _ _ H (lp_one p ts m k t p' t' Et Es)) E).
Qed.
Example C25_example : exists p, lp_reach 3 (p, [LIn [7] 0; LWait [7] 0; LIn [8] 1]) /\ lp_ref p 0 = 2 /\
  exists p', lp_reach 3 (p', [LIdle; LIdle; LIdle]) /\ lp_locks p' = [].
Proof.
  destruct (lp_exec [(0%nat, [7]); (1%nat, [7]); (2%nat, [8]); (2%nat, []); (0%nat, [])] (lp_new, repeat LIdle 3)) as [[p ts]|] eqn:E;
    [|exfalso; vm_compute in E; discriminate].
  assert (ts = [LIn [7] 0; LWait [7] 0; LIn [8] 1]) by (vm_compute in E; congruence). subst ts.
  pose proof (lp_exec_reach 3 _ _ _ (lp_init 3) E) as H. exists p. split; [exact H|].
  split; [vm_compute in E; injection E as <-; reflexivity|].
  destruct (lp_exec [(0%nat, []); (0%nat, []); (2%nat, []); (1%nat, []); (1%nat, []); (1%nat, []); (2%nat, [])] (p, [LIn [7] 0; LWait [7] 0; LIn [8] 1])) as [[p' ts']|] eqn:E2.
  - assert (ts' = [LIdle; LIdle; LIdle] /\ lp_locks p' = []) as [-> L].
    { vm_compute in E. injection E as <-. vm_compute in E2. injection E2 as <- <-. split; reflexivity. }
    exists p'. split; [|exact L]. exact (lp_exec_reach 3 _ _ _ H E2).
  - exfalso. vm_compute in E. injection E as <-. vm_compute in E2. discriminate.
Qed.

Ltac fwd H t :=
  (eapply q_reach_step in H || eapply l_reach_step in H);
  [|first [eapply t; reflexivity | eapply t; [reflexivity|repeat constructor] | eapply t; [reflexivity|cbn; lia]
          | eapply t; [reflexivity|reflexivity|cbn; lia]]];
  cbn in H.

(** * C26 *)
(** the callback of each Queue call runs at most once *)
Theorem C26_at_most_once :
  forall buffer workers callers runs s c,
  q_reach buffer workers callers runs s -> (c < callers)%nat ->
  (count_occ Nat.eq_dec (q_log s) c <= 1)%nat.
Proof.
  intros buffer workers callers runs s c H Hc. pose proof (qi_tok _ _ (qinv_reach _ _ _ _ _ H) c Hc) as T.
  unfold tokens in T.
  assert (E : Z.of_nat (count_occ Nat.eq_dec (q_log s) c) = sumz (is c) (q_log s)).
  { generalize (q_log s). induction l as [|x l IH]; [reflexivity|]. cbn [count_occ sumz]. unfold is at 1.
    destruct (Nat.eq_dec x c), (Nat.eqb_spec c x); try congruence; lia. }
  assert (0 <= tok_caller s c) by (unfold tok_caller; destruct (nth_error _ _) as [[]|]; lia).
  pose proof (sumz_nonneg (tok_buf c) (q_chans s) (tok_buf_nonneg c)).
  pose proof (sumz_nonneg (tok_run c) (q_runs s) (tok_run_nonneg c)). lia.
Qed.
(** and exactly once when Queue has returned (the call used queue [ch]) and a
    Run that worked on that queue has returned *)
Theorem C26_exactly_once_after_shutdown :
  forall buffer workers callers runs s c ch r,
  q_reach buffer workers callers runs s ->
  nth_error (q_callers s) c = Some (CDone ch) -> nth_error (q_runs s) r = Some (RDone ch) ->
  count_occ Nat.eq_dec (q_log s) c = 1%nat.
Proof.
  intros buffer workers callers runs s c ch r H Hc Hr. pose proof (qinv_reach _ _ _ _ _ H) as HI.
  assert (Hlt : (c < callers)%nat) by (rewrite <- (qi_len _ _ HI); apply nth_error_Some; congruence).
  pose proof (qi_tok _ _ HI c Hlt) as T. unfold tokens, tok_caller in T. rewrite Hc in T.
  assert (E : Z.of_nat (count_occ Nat.eq_dec (q_log s) c) = sumz (is c) (q_log s)).
  { generalize (q_log s). induction l as [|x l IH]; [reflexivity|]. cbn [count_occ sumz]. unfold is at 1.
    destruct (Nat.eq_dec x c), (Nat.eqb_spec c x); try congruence; lia. }
  assert (B : sumz (tok_buf c) (q_chans s) = 0).
  { apply sumz_zero. intros b Hb. apply In_nth_error in Hb. destruct Hb as (d & Hd).
    unfold tok_buf. apply sumz_zero. intros x Hx. unfold is. destruct (Nat.eqb_spec c x) as [->|]; [|reflexivity].
    exfalso. pose proof (qi_buf _ _ HI d b x Hd Hx) as X. rewrite Hc in X. injection X as ->.
    pose proof (qi_run _ _ HI r _ Hr) as Y. cbn in Y. rewrite Hd in Y. injection Y as ->. contradiction. }
  assert (Rn : sumz (tok_run c) (q_runs s) = 0).
  { apply sumz_zero. intros x Hx. apply In_nth_error in Hx. destruct Hx as (m & Hm).
    destruct x as [| | |d ws| | |d [y|]| | |]; try reflexivity; cbn [tok_run].
    - apply sumz_zero. intros w Hw. destruct w as [|y| |]; try reflexivity. cbn. unfold is.
      destruct (Nat.eqb_spec c y) as [->|]; [|reflexivity]. exfalso.
      pose proof (qi_hand _ _ HI m d ws y Hm Hw) as X. rewrite Hc in X. injection X as ->.
      pose proof (qi_distinct _ _ HI m r _ _ d Hm Hr eq_refl eq_refl). subst m. congruence.
    - unfold is. destruct (Nat.eqb_spec c y) as [->|]; [|reflexivity]. exfalso.
      pose proof (qi_drain _ _ HI m d y Hm) as X. rewrite Hc in X. injection X as ->.
      pose proof (qi_distinct _ _ HI m r _ _ d Hm Hr eq_refl eq_refl). subst m. congruence. }
  lia.
Qed.
(** a worker never receives from a closed queue, close never panics *)
Theorem C26_no_zero_values_no_double_close :
  forall buffer workers callers runs s r,
  q_reach buffer workers callers runs s ->
  nth_error (q_runs s) r <> Some RPanic /\
  forall ch ws, nth_error (q_runs s) r = Some (RWork ch ws) -> ~ In WZero ws.
Proof.
  intros buffer workers callers runs s r H. pose proof (qinv_reach _ _ _ _ _ H) as HI. split.
  - intros X. exact (qi_run _ _ HI r _ X).
  - intros ch ws X. apply (qi_run _ _ HI r _ X).
Qed.
(** A Queue call that begins offers its value on an open channel, the one of the Run
    that is working, if there is one. *)
Theorem C26_offered_to_the_running :
  forall buffer workers callers runs s s' n ch,
  q_reach buffer workers callers runs s -> q_step buffer workers s s' ->
  nth_error (q_callers s) n = Some CStart -> nth_error (q_callers s') n = Some (CSend ch) ->
  (exists buf, nth_error (q_chans s') ch = Some (Chan buf false)) /\
  forall r ch' ws, nth_error (q_runs s') r = Some (RWork ch' ws) -> ch' = ch.
Proof.
  intros buffer workers callers runs s s' n ch R T H H'. pose proof (qinv_reach _ _ _ _ _ R) as HI.
  assert (X : s' = set_caller s n (CSend (q_cur s))).
  { destruct T; cbn [set_caller set_run set_chan answer q_callers] in *; try congruence.
    all: match goal with A : nth_error (q_callers ?s) ?m = Some ?y |- _ => destruct (Nat.eq_dec m n) as [->|D];
      [first [reflexivity|congruence]|rewrite nth_error_set_other in H' by exact D; congruence] end. }
  subst s'. cbn [set_caller q_callers q_chans q_runs] in *. rewrite (nth_error_set_same n _ _ _ H) in H'. injection H' as <-.
  split; [apply HI|]. intros r ch' ws E. apply (qi_run _ _ HI _ _ E).
Qed.
(** While a Run is working, every value accepted by Queue and not answered yet is in
    the channel this Run serves or in the hands of one of its workers: values queued
    before it began, also during or after an earlier Run, are left to it. *)
Theorem C26_accepted_is_left_to_the_running :
  forall buffer workers callers runs s r ch ws c d,
  q_reach buffer workers callers runs s -> nth_error (q_runs s) r = Some (RWork ch ws) ->
  nth_error (q_callers s) c = Some (CDone d) -> ~ In c (q_log s) ->
  (exists buf, nth_error (q_chans s) ch = Some (Chan buf false) /\ In c buf) \/ In (WHand c) ws.
Proof.
  intros buffer workers callers runs s r ch ws c d R Hr Hc Hl. pose proof (qinv_reach _ _ _ _ _ R) as HI. pose proof (swept_reach _ _ _ _ _ R) as SW.
  assert (Hlt : (c < callers)%nat) by (rewrite <- (qi_len _ _ HI); apply nth_error_Some; congruence).
  pose proof (qi_tok _ _ HI c Hlt) as T. unfold tokens, tok_caller in T. rewrite Hc in T.
  pose proof (qi_run _ _ HI _ _ Hr) as [Ec _]. destruct (qi_cur _ _ HI) as (buf & Hb).
  destruct (in_dec Nat.eq_dec c buf) as [Hin|Hin]; [left; exists buf; subst ch; auto|right].
  assert (L : sumz (is c) (q_log s) = 0).
  { apply sumz_zero. intros x Hx. unfold is. destruct (Nat.eqb_spec c x) as [->|]; [contradiction|reflexivity]. }
  assert (B : sumz (tok_buf c) (q_chans s) = 0).
  { apply sumz_zero. intros b Hb2. apply In_nth_error in Hb2. destruct Hb2 as (e & He). unfold tok_buf. apply sumz_zero. intros x Hx. unfold is.
    destruct (Nat.eqb_spec c x) as [->|]; [|reflexivity]. exfalso. destruct (Nat.eq_dec e (q_cur s)) as [->|D].
    - rewrite Hb in He. injection He as <-. contradiction.
    - destruct (SW e b He D) as [->|(k & K)]; [contradiction|].
      assert (k = r) by (destruct K as [K|[h K]]; eapply only_active; try exact HI; try exact K; try exact Hr; reflexivity). subst k.
      destruct K as [K|[h K]]; congruence. }
  destruct (in_dec (ltac:(decide equality; apply Nat.eq_dec) : forall x y : worker, {x = y} + {x <> y}) (WHand c) ws) as [|N]; [assumption|exfalso].
  assert (Rn : sumz (tok_run c) (q_runs s) = 0).
  { apply sumz_zero. intros x Hx. apply In_nth_error in Hx. destruct Hx as (m & Hm).
    destruct (active x) eqn:A; [|destruct x; try discriminate A; reflexivity].
    assert (m = r) by (eapply only_active; try exact HI; try exact Hm; try exact Hr; [exact A|reflexivity]). subst m.
    assert (x = RWork ch ws) by congruence. subst x. cbn [tok_run]. apply sumz_zero. intros w Hw. destruct w as [|y| |]; try reflexivity. cbn. unfold is.
    destruct (Nat.eqb_spec c y) as [->|]; [contradiction|reflexivity]. }
  lia.
Qed.
Print Assumptions C26_at_most_once.
Print Assumptions C26_offered_to_the_running.
Print Assumptions C26_accepted_is_left_to_the_running.
Print Assumptions C26_exactly_once_after_shutdown.
Print Assumptions C26_no_zero_values_no_double_close.

(** a run with two calls: the first is handled by the worker, the second is
    still in the buffer at shutdown and answered by the drain *)
Example C26_example : exists s, q_reach 1 1 2 1 s /\ q_callers s = [CDone 0; CDone 0] /\
  q_runs s = [RDone 0] /\ q_log s = [1; 0]%nat.
Proof.
  pose proof (q_reach_init 1 1 2 1) as H.
  fwd H ((fun b w s => qs_load b w s 0%nat)).
  fwd H ((fun b w s => qs_load b w s 1%nat)).
  fwd H ((fun b w s => qs_start b w s 0%nat)).
  fwd H ((fun b w s => qs_launch b w s 0%nat)).
  fwd H ((fun b w s => qs_rendezvous b w s 0%nat 0%nat 0%nat [WLoop] 0%nat)).
  fwd H ((fun b w s => qs_written b w s 0%nat 0%nat [WHand 0] 0%nat 0%nat)).
  fwd H ((fun b w s => qs_send b w s 1%nat 0%nat [])).
  fwd H ((fun b w s => qs_cancel b w s 0%nat 0%nat [WLoop] 0%nat)).
  fwd H ((fun b w s => qs_waited b w s 0%nat 0%nat [WExit])).
  fwd H ((fun b w s => qs_store b w s 0%nat 0%nat)).
  fwd H ((fun b w s => qs_close b w s 0%nat 0%nat)).
  fwd H ((fun b w s => qs_drain b w s 0%nat 0%nat)).
  fwd H ((fun b w s => qs_drained b w s 0%nat 0%nat)).
  fwd H ((fun b w s => qs_end b w s 0%nat 0%nat)).
  fwd H ((fun b w s => qs_stop b w s 0%nat 0%nat)).
  eexists. split; [exact H|]. split; [reflexivity|]. split; reflexivity.
Qed.

(** a value queued after one Run has returned, and the next Run working *)
Example C26_second_run : exists s, q_reach 1 1 1 2 s /\ q_callers s = [CDone 1] /\
  q_runs s = [RDone 0; RWork 1 [WLoop]] /\ q_log s = [] /\ nth_error (q_chans s) 1 = Some (Chan [0%nat] false).
Proof.
  pose proof (q_reach_init 1 1 1 2) as H.
  fwd H ((fun b w s => qs_start b w s 0%nat)).
  fwd H ((fun b w s => qs_launch b w s 0%nat)).
  fwd H ((fun b w s => qs_cancel b w s 0%nat 0%nat [WLoop] 0%nat)).
  fwd H ((fun b w s => qs_waited b w s 0%nat 0%nat [WExit])).
  fwd H ((fun b w s => qs_store b w s 0%nat 0%nat)).
  fwd H ((fun b w s => qs_close b w s 0%nat 0%nat)).
  fwd H ((fun b w s => qs_end b w s 0%nat 0%nat)).
  fwd H ((fun b w s => qs_stop b w s 0%nat 0%nat)).
  fwd H ((fun b w s => qs_load b w s 0%nat)).
  fwd H ((fun b w s => qs_send b w s 0%nat 1%nat [])).
  fwd H ((fun b w s => qs_start b w s 1%nat)).
  fwd H ((fun b w s => qs_launch b w s 1%nat)).
  eexists. split; [exact H|]. repeat split.
Qed.

(** * C27 *)
(** at most one Run is active *)
Theorem C27_one_active_run :
  forall buffer workers callers runs s a b ra rb,
  q_reach buffer workers callers runs s ->
  nth_error (q_runs s) a = Some ra -> nth_error (q_runs s) b = Some rb ->
  active ra = true -> active rb = true -> a = b.
Proof. intros. eapply only_active; eauto using qinv_reach. Qed.
(** a Run call made while another is active can only return the error; one made
    when none is active can only start *)
Theorem C27_start_iff_none_active :
  forall buffer workers callers runs s r s' x,
  q_reach buffer workers callers runs s ->
  nth_error (q_runs s) r = Some RIdle -> q_step buffer workers s s' ->
  nth_error (q_runs s') r = Some x -> x <> RIdle ->
  (x = RErr <-> exists a y, nth_error (q_runs s) a = Some y /\ active y = true) /\
  (x = RErr \/ x = RLoad).
Proof.
  intros buffer workers callers runs s r s' x H Hr T Hx Hne. pose proof (qinv_reach _ _ _ _ _ H) as HI.
  pose proof (qi_active _ _ HI) as Ha.
  assert (Hon : q_on s = true <-> exists a y, nth_error (q_runs s) a = Some y /\ active y = true).
  { split.
    - intros E. rewrite E in Ha. apply cnt_ex. lia.
    - intros (a & y & Hy & Ay). pose proof (cnt_pos active _ _ _ Hy Ay). destruct (q_on s); [reflexivity|lia]. }
  assert (Hset : forall n old y, nth_error (q_runs s) n = Some old -> old <> RIdle ->
            nth_error (set_nth n y (q_runs s)) r = Some x -> False).
  { intros n old y Hn Ho Hs. apply nth_error_set in Hs. destruct Hs as [[-> ->]|[_ Hs]]; congruence. }
  destruct T; cbn [set_run set_chan set_caller answer q_runs] in Hx;
    try (rewrite Hr in Hx; congruence);
    try (exfalso; eapply Hset; [eassumption|discriminate|exact Hx]);
    (apply nth_error_set in Hx; destruct Hx as [[-> ->]|[_ Hx]]; [|congruence]).
  - split; [|auto]. rewrite <- Hon. split; [discriminate|congruence].
  - split; [|auto]. rewrite <- Hon. tauto.
Qed.
(** and it can: in every reachable state a pending Run call has a step *)
Theorem C27_start_not_blocked :
  forall buffer workers callers runs s r,
  q_reach buffer workers callers runs s -> nth_error (q_runs s) r = Some RIdle ->
  exists s', q_step buffer workers s s' /\ 
    (nth_error (q_runs s') r = Some RErr \/ nth_error (q_runs s') r = Some RLoad).
Proof.
  intros buffer workers callers runs s r H Hr. destruct (q_on s) eqn:E; eexists.
  - split; [apply qs_already; eauto|left]. eapply nth_error_set_same. exact Hr.
  - split; [apply qs_start; eauto|right]. eapply nth_error_set_same. exact Hr.
Qed.
Print Assumptions C27_one_active_run.
Print Assumptions C27_start_iff_none_active.
Print Assumptions C27_start_not_blocked.
Example C27_example : exists s, q_reach 1 1 0 2 s /\ q_runs s = [RWork 0 [WLoop]; RErr].
Proof.
  pose proof (q_reach_init 1 1 0 2) as H.
  fwd H ((fun b w s => qs_start b w s 0%nat)).
  fwd H ((fun b w s => qs_launch b w s 0%nat)).
  fwd H ((fun b w s => qs_already b w s 1%nat)).
  eexists. split; [exact H|]. reflexivity.
Qed.

(** * C28 *)
(** Launch returns only after every task has, and returns the first non-nil
    error in the order the results were delivered *)
Theorem C28_returns_after_all_tasks_with_first_error :
  forall n s e, l_reach n s -> l_main s = MDone e ->
  Forall (eq TGone) (l_tasks s) /\ length (l_sent s) = n /\ e = first_error (l_sent s).
Proof.
  intros n s e H E. destruct (laun_reach _ _ H) as [I1 I2 (rcv & I3 & I4)]. rewrite E in I4.
  destruct I4 as (A & B & C & D).
  assert (Hs : cnt unsent (l_tasks s) = 0).
  { clear - D. induction D; [reflexivity|]. subst. cbn. exact IHD. }
  assert (HL : length (l_sent s) = n) by lia.
  split; [exact D|]. split; [exact HL|].
  rewrite I3. destruct e as [x|].
  - clear - A. induction rcv as [|[y|] l IH]; cbn in *; auto. discriminate.
  - specialize (B eq_refl). assert (l_errch s = []) as ->.
    { rewrite I3, app_length in HL. destruct (l_errch s); [reflexivity|cbn in HL; lia]. }
    now rewrite app_nil_r.
Qed.
(** once a result is delivered the context is cancelled, or will be by the next
    or next but one step of the caller, which is not blocked *)
Theorem C28_cancels_after_first_result :
  forall n s, l_reach n s -> l_sent s <> [] ->
  l_cancelled s = true \/
  exists s1, l_step s s1 /\ (l_cancelled s1 = true \/ exists s2, l_step s1 s2 /\ l_cancelled s2 = true).
Proof.
  intros n s H Hne. destruct (laun_reach _ _ H) as [I1 I2 (rcv & I3 & I4)].
  destruct (l_main s) as [k|e|e|e] eqn:Em; [|right|tauto|tauto].
  - destruct I4 as (A & B & C). destruct rcv as [|r rcv]; [|left; apply C; discriminate].
    right. cbn [app length] in *. rewrite I3 in Hne.
    destruct (l_errch s) as [|[x|] rest] eqn:Er; [contradiction| |].
    + destruct k; [rewrite I3 in I2; pose proof (cnt_nonneg unsent (l_tasks s)); cbn [length] in I2; lia|].
      eexists. split; [eapply ls_recv_err; eauto|]. right. eexists. split; [eapply ls_cancel; reflexivity|reflexivity].
    + destruct k; [rewrite I3 in I2; pose proof (cnt_nonneg unsent (l_tasks s)); cbn [length] in I2; lia|].
      eexists. split; [eapply ls_recv_nil; eauto|]. now left.
  - eexists. split; [eapply ls_cancel; eauto|]. now left.
Qed.
(** Launch does return: every step of every schedule decreases a measure, and
    once the task functions have returned something can step until it has *)
Theorem C28_returns_once_tasks_do :
  exists measure : lstate -> nat,
    (forall s s', l_step s s' -> (measure s' < measure s)%nat) /\
    (forall n s, l_reach n s -> (forall k, nth_error (l_tasks s) k <> Some TRun) ->
       (exists e, l_main s = MDone e) \/ exists s', l_step s s').
Proof.
  exists lweight. split; [exact lweight_step|]. intros n s H Hr.
  destruct (l_main s) eqn:E; [right..|left; eauto]; eapply launch_progress; eauto using laun_reach; congruence.
Qed.
Print Assumptions C28_returns_after_all_tasks_with_first_error.
Print Assumptions C28_cancels_after_first_result.
Print Assumptions C28_returns_once_tasks_do.
Example C28_example : exists s, l_reach 2 s /\ l_main s = MDone (Some 5) /\ l_sent s = [None; Some 5].
Proof.
  pose proof (l_reach_init 2) as H.
  fwd H ((fun s => ls_return s 1%nat None)).
  fwd H ((fun s => ls_return s 0%nat (Some 5))).
  fwd H ((fun s => ls_send s 1%nat None)).
  fwd H ((fun s => ls_send s 0%nat (Some 5))).
  fwd H (ls_recv_nil).
  fwd H (ls_recv_err).
  fwd H (ls_cancel).
  fwd H ((fun s => ls_done s 0%nat)).
  fwd H ((fun s => ls_done s 1%nat)).
  fwd H (ls_wait).
  eexists. split; [exact H|]. split; reflexivity.
Qed.
