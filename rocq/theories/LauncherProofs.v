From Coq Require Import ZArith List Bool Lia.
From Verif Require Import Base Maps Cache LockPool LockPoolProofs Queue QueueProofs Launcher.
Import ListNotations.
Open Scope Z_scope.

Definition unsent (t : task) : bool := match t with TRun | TRet _ => true | _ => false end.

(** received: what the loop has received so far *)
Record laun (n : nat) (s : lstate) : Prop := Laun {
  la_len : length (l_tasks s) = n;
  la_cnt : Z.of_nat (length (l_sent s)) + cnt unsent (l_tasks s) = Z.of_nat n;
  la_main : exists rcv, l_sent s = rcv ++ l_errch s /\
    match l_main s with
    | MLoop k => (length rcv + k = n)%nat /\ Forall (eq None) rcv /\ (rcv <> [] -> l_cancelled s = true)
    | MRet e => first_error rcv = e /\ (e = None -> length rcv = n)
    | MWait e => first_error rcv = e /\ (e = None -> length rcv = n) /\ l_cancelled s = true
    | MDone e => first_error rcv = e /\ (e = None -> length rcv = n) /\ l_cancelled s = true /\ Forall (eq TGone) (l_tasks s)
    end
}.

Lemma cnt_repeat f n : f TRun = true -> cnt f (repeat TRun n) = Z.of_nat n.
Proof. intros H. induction n; cbn [repeat cnt]; [reflexivity|]. rewrite H, IHn. lia. Qed.

Lemma first_error_none l : Forall (eq None) l -> first_error l = None.
Proof. induction 1; cbn; [reflexivity|]. subst. assumption. Qed.
Lemma first_error_app a b : Forall (eq None) a -> first_error (a ++ b) = first_error b.
Proof. induction 1; cbn; [reflexivity|]. subst. assumption. Qed.

Lemma laun_init n : laun n (l_init n).
Proof.
  split; cbn [l_init l_tasks l_sent l_errch l_main l_cancelled].
  - apply repeat_length.
  - cbn [length]. rewrite cnt_repeat by reflexivity. lia.
  - exists []. split; [reflexivity|]. split; [reflexivity|]. split; [constructor|]. intros X. contradiction.
Qed.

Lemma gone_no n l t : Forall (eq TGone) l -> nth_error l n = Some t -> t = TGone.
Proof. intros H E. rewrite Forall_forall in H. symmetry. apply H. eapply nth_error_In; eauto. Qed.

Lemma laun_step n s s' : laun n s -> l_step s s' -> laun n s'.
Proof.
  intros [I1 I2 (rcv & I3 & I4)] T. destruct T; unfold ltask.
  - split; cbn [l_tasks l_sent l_errch l_main l_cancelled].
    + now rewrite set_nth_len.
    + rewrite (cnt_set _ _ _ _ _ H). cbn [unsent]. lia.
    + exists rcv. split; [exact I3|]. destruct (l_main s); auto.
      destruct I4 as (? & ? & ? & G). pose proof (gone_no _ _ _ G H). discriminate.
  - split; cbn [l_tasks l_sent l_errch l_main l_cancelled].
    + now rewrite set_nth_len.
    + rewrite (cnt_set _ _ _ _ _ H), app_length. cbn [unsent length]. lia.
    + exists rcv. split; [rewrite I3; now rewrite app_assoc|]. destruct (l_main s); auto.
      destruct I4 as (? & ? & ? & G). pose proof (gone_no _ _ _ G H). discriminate.
  - split; cbn [l_tasks l_sent l_errch l_main l_cancelled].
    + now rewrite set_nth_len.
    + rewrite (cnt_set _ _ _ _ _ H). cbn [unsent]. lia.
    + exists rcv. split; [exact I3|]. destruct (l_main s); auto.
      destruct I4 as (? & ? & ? & G). pose proof (gone_no _ _ _ G H). discriminate.
  - rewrite H, H0 in *. split; cbn [l_tasks l_sent l_errch l_main l_cancelled]; auto.
    exists (rcv ++ [None]). split; [rewrite I3, <- app_assoc; reflexivity|].
    destruct I4 as (A & B & C). rewrite app_length. cbn [length]. split; [lia|]. split; [|auto].
    apply Forall_app. auto.
  - rewrite H, H0 in *. split; cbn [l_tasks l_sent l_errch l_main l_cancelled]; auto.
    exists (rcv ++ [Some x]). split; [rewrite I3, <- app_assoc; reflexivity|].
    destruct I4 as (A & B & C). rewrite first_error_app by exact B. split; [reflexivity|discriminate].
  - rewrite H in *. split; cbn [l_tasks l_sent l_errch l_main l_cancelled]; auto.
    exists rcv. split; [exact I3|]. destruct I4 as (A & B & C). split; [now apply first_error_none|lia].
  - rewrite H in *. split; cbn [l_tasks l_sent l_errch l_main l_cancelled]; auto.
    exists rcv. tauto.
  - rewrite H in *. split; cbn [l_tasks l_sent l_errch l_main l_cancelled]; auto.
    exists rcv. tauto.
Qed.

Lemma laun_reach n s : l_reach n s -> laun n s.
Proof. induction 1; [apply laun_init|eapply laun_step; eauto]. Qed.

(** every step makes this smaller *)
Definition tweight (t : task) : Z := match t with TRun => 3 | TRet _ => 2 | TSent => 1 | TGone => 0 end.
Definition mweight (m : lmain) : Z := match m with MLoop k => Z.of_nat k + 3 | MRet _ => 2 | MWait _ => 1 | MDone _ => 0 end.
Definition lweight (s : lstate) : nat := Z.to_nat (sumz tweight (l_tasks s) + mweight (l_main s)).

Lemma tweight_nonneg t : 0 <= tweight t.
Proof. destruct t; cbn; lia. Qed.
Lemma mweight_nonneg m : 0 <= mweight m.
Proof. destruct m; cbn; lia. Qed.

Lemma lweight_step s s' : l_step s s' -> (lweight s' < lweight s)%nat.
Proof.
  intros T. unfold lweight.
  assert (P : forall l, 0 <= sumz tweight l) by (intros; apply sumz_nonneg, tweight_nonneg).
  pose proof (P (l_tasks s)). pose proof (P (l_tasks s')). pose proof (mweight_nonneg (l_main s)). pose proof (mweight_nonneg (l_main s')).
  apply Z2Nat.inj_lt; [lia|lia|].
  destruct T; unfold ltask; cbn [l_tasks l_main] in *;
    try (rewrite (sumz_set _ _ _ _ _ H3); cbn [tweight]; lia); rewrite H3; cbn [mweight]; lia.
Qed.

Lemma launch_progress n s : laun n s -> (forall k, nth_error (l_tasks s) k <> Some TRun) ->
  (forall e, l_main s <> MDone e) -> exists s', l_step s s'.
Proof.
  intros [I1 I2 (rcv & I3 & I4)] Hrun Hnd.
  (* a task that is not gone can step *)
  set (alive := fun t => match t with TGone => false | _ => true end).
  destruct (Z.lt_ge_cases 0 (cnt alive (l_tasks s))) as [Hc|Hc].
  - destruct (cnt_ex alive (l_tasks s) ltac:(lia)) as (k & t & Ht & Hg). destruct t as [|e| |]; try discriminate.
    + exfalso. eapply Hrun; eauto.
    + eexists. eapply ls_send; [exact Ht|].
      assert (1 <= cnt unsent (l_tasks s)) by (eapply cnt_pos; [exact Ht|reflexivity]).
      rewrite I1. rewrite I3, app_length in I2. lia.
    + eexists. eapply ls_done. exact Ht.
  - assert (G : Forall (eq TGone) (l_tasks s)).
    { apply Forall_forall. intros t Hin. apply In_nth_error in Hin. destruct Hin as (k & Hk).
      pose proof (cnt_zero alive (l_tasks s) Hc k t Hk) as X. unfold alive in X. destruct t; congruence. }
    assert (Hs : cnt unsent (l_tasks s) = 0).
    { clear - G. induction G; [reflexivity|]. subst. cbn. exact IHG. }
    destruct (l_main s) as [[|k]|e|e|e] eqn:Em.
    + eexists. apply ls_loop_end. exact Em.
    + destruct (l_errch s) as [|[x|] rest] eqn:Er.
      * exfalso. rewrite I3, app_nil_r in I2. destruct I4 as (A & _). lia.
      * eexists. eapply ls_recv_err; eauto.
      * eexists. eapply ls_recv_nil; eauto.
    + eexists. eapply ls_cancel; eauto.
    + eexists. eapply ls_wait; eauto.
    + exfalso. eapply Hnd; eauto.
Qed.
