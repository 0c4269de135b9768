(** Property C79: stopping the api server. *)
From Coq Require Import ZArith List Bool Lia.
From Verif Require Import Base Cache CacheProofs LockPool LockPoolProofs Queue QueueProofs Serve.
Import ListNotations.
Open Scope nat_scope.

Ltac vsimp := cbn [v_main v_watch v_conns v_open v_tracked v_shut v_done v_own v_minute v_failed v_raced] in *.
Definition early (w : watcher) : Prop := match w with VNone | VWait | VShut => True | _ => False end.
Record vinv (old : bool) (s : vstate) : Prop := VInv {
  vi_own : v_own s = true -> exists e, v_main s = SRet e;
  vi_none : v_watch s = VNone -> v_main s = SListen \/ exists e, v_main s = SRet (Some e);
  vi_listen : v_main s = SListen -> v_watch s = VNone /\ v_conns s = [] /\ v_open s = false /\ v_tracked s = false /\ v_shut s = false;
  vi_watch : v_watch s <> VNone -> v_watch s <> VWait -> v_done s = true \/ v_own s = true;
  vi_shut : v_shut s = true -> ~ early (v_watch s);
  vi_nil : v_main s = SOut None \/ v_main s = SRet None -> v_done s = true;
  vi_err : forall e, v_main s = SOut (Some e) \/ v_main s = SRet (Some e) -> v_failed s = true \/ (old = true /\ v_raced s = true);
  vi_ret : forall e, v_main s = SRet e -> v_open s = false;
  vi_serve : v_main s = SServe -> v_tracked s = false;
  vi_serve_open : v_main s = SServe -> v_open s = false -> v_shut s = true;
  vi_accept : v_main s = SAccept -> v_tracked s = true;
  vi_early : early (v_watch s) -> v_main s = SServe \/ v_main s = SAccept -> v_open s = true /\ v_shut s = false;
  vi_late : ~ early (v_watch s) -> v_main s = SAccept -> v_shut s = false -> old = true /\ v_raced s = true;
  vi_late_serve : ~ early (v_watch s) -> v_main s = SServe -> v_shut s = true /\ v_raced s = true;
  vi_new : old = false -> v_shut s = true -> v_main s = SAccept -> v_open s = false;
  vi_end : v_watch s = VEnd -> v_open s = false
}.
Ltac vauto := vsimp; try tauto; try congruence; try discriminate; try (intros [?|?]; discriminate); auto.
Lemma vinv_init old : vinv old v_init.
Proof. unfold v_init. split; vauto; intros; vauto; intuition discriminate. Qed.
Lemma vinv_step old b s s' : vinv old s -> v_step old b s s' -> vinv old s'.
Proof.
  intros [I1 I2 I3 I4 I5 I6 I7 I8 I9 I10 I11 I12 I13 I14 I15 I16] T.
  destruct T; vsimp.
  all: try (destruct old; vsimp).
  all: split; vsimp; unfold early in *.
  all: try assumption.
  all: try solve [intros; discriminate].
  all: try solve [intros [?|?]; discriminate].
  all: try solve [intros; match goal with H : _ \/ _ |- _ => destruct H end; discriminate].
  all: try solve [intros; exfalso; match goal with H : ?x = ?x -> _ |- _ => idtac | H : ~ True |- _ => apply H; exact I end].
  all: try solve [auto].
  all: try solve [intros X; destruct (I1 X) as [? ?]; discriminate].
  all: try solve [intros X; destruct (I3 X) as (? & ? & ? & ? & ?); discriminate || auto].
  all: try solve [intros X; destruct (I2 X) as [?|[? ?]]; discriminate].
  all: try solve [intros; right; eauto].
  all: try solve [intros X; destruct (I3 X) as (? & ? & ? & ? & ?); subst; repeat split; auto; discriminate].
  all: try solve [intros; split; discriminate].
  all: try solve [intros; apply I4; discriminate].
  all: try solve [intros _ _; apply orb_true_iff; assumption].
  all: try solve [intros []].
  all: try solve [intros e' X; rewrite (I8 e' X); destruct t; reflexivity].
  all: try solve [intros _; eexists; reflexivity].
  all: try solve [intros X; destruct (I3 X) as (_ & -> & _); destruct n; discriminate].
  all: try solve [intros [X|X]; injection X as ->; auto || discriminate].
  all: try solve [intros e' [X|X]; [discriminate|]; injection X as ->; apply (I7 e'); auto].
  all: try solve [intros e' X; destruct (I7 e' X) as [Y|[Y Z]]; [now left|right]; rewrite ?Z; auto].
  all: try solve [intros _ X; rewrite (I9 X); destruct r; auto].
  all: try solve [intros X _; apply I14; auto].
  all: try solve [intros _ _ X; rewrite (I11 X); reflexivity].
  all: try solve [destruct (I3 eq_refl) as (_ & _ & -> & -> & ->); auto; discriminate].
  all: try solve [intros X; specialize (I5 eq_refl); tauto].
  all: try solve [intros X _ _; split; [reflexivity|]; apply I14; auto].
  all: try solve [intros X; exact I5].
  all: try solve [intros [X|X]; try discriminate; try injection X as ->; auto].
  all: try solve [assert (D : h = true -> d = true) by (intros ->; specialize (I5 eq_refl); destruct I4 as [?|X]; auto;
      [intros ->; tauto|intros ->; tauto|destruct (I1 X); discriminate]); destruct h; intros [X|X]; try discriminate; auto].
  all: try solve [intros [X|X]; [|discriminate]; specialize (I5 eq_refl); destruct I4 as [?|Y]; auto; [intros ->; tauto|intros ->; tauto|destruct (I1 Y); discriminate]].
  all: try solve [intros e' [X|X]; [|discriminate]; destruct h; [discriminate|]; right; apply I13; auto; intros E; destruct (I12 E (or_intror eq_refl)); discriminate].
  all: try solve [intros X Y; congruence].
Qed.

Lemma vinv_reach old s : v_reach old s -> vinv old s.
Proof. induction 1; [apply vinv_init|eapply vinv_step; eauto]. Qed.

(** runServer has returned [e] (None: nil) *)
Definition server_returned (s : vstate) (e : option Z) : Prop := v_main s = SRet e.

(** nil only because the context was cancelled; an error only because listening, the
    certificate or an accept failed (or, with an old net/http, because the cancellation
    came before the server had started) *)
Theorem C79_result : forall old s e, v_reach old s -> server_returned s e ->
  match e with
  | None => v_done s = true
  | Some _ => v_failed s = true \/ (old = true /\ v_raced s = true)
  end.
Proof.
  intros old s e R H. apply vinv_reach in R. destruct R. unfold server_returned in H. destruct e as [e|].
  - apply (vi_err0 e). auto.
  - apply vi_nil0. auto.
Qed.
Print Assumptions C79_result.

(** when it has returned the address is free again, and no connection is accepted *)
Theorem C79_closed : forall old s e b t, v_reach old s -> server_returned s e -> v_step old b s t ->
  v_open s = false /\ server_returned t e /\ length (v_conns t) = length (v_conns s).
Proof.
  intros old s e b t R H T. apply vinv_reach in R. destruct R. unfold server_returned in *.
  split; [eauto|]. destruct T; vsimp; try discriminate; rewrite ?set_nth_length; auto.
Qed.
Print Assumptions C79_closed.

(** stopping never ends a request: a connection with a request in progress stays open
    until its handler has answered *)
Theorem C79_requests_kept : forall old b s t n a, v_step old b s t ->
  nth_error (v_conns s) n = Some (SConn QActive a) ->
  nth_error (v_conns t) n = Some (SConn QActive a) \/
  exists q, nth_error (v_conns t) n = Some (SConn q (S a)).
Proof.
  intros old b s t n a T H. destruct T; vsimp; auto.
  - destruct old; vsimp; auto.
  - left. now rewrite nth_error_app1 by (apply nth_error_Some; congruence).
  - left. destruct (Nat.eq_dec n0 n) as [->|Hn]; [congruence|]. now rewrite nth_error_set_other.
  - left. destruct (Nat.eq_dec n0 n) as [->|Hn]; [congruence|]. now rewrite nth_error_set_other.
  - destruct (Nat.eq_dec n0 n) as [->|Hn]; [|left; now rewrite nth_error_set_other].
    right. rewrite (nth_error_set_same _ _ _ _ H). replace a0 with a by congruence. eauto.
  - left. destruct (Nat.eq_dec n0 n) as [->|Hn]; [congruence|]. now rewrite nth_error_set_other.
Qed.
Print Assumptions C79_requests_kept.

(** ** it returns *)
Definition mweight (m : smain) : nat := match m with SListen => 4 | SServe => 3 | SAccept => 2 | SOut _ => 1 | SRet _ => 0 end.
Definition wweight (w : watcher) : nat := match w with VNone => 5 | VWait => 4 | VShut => 3 | VPoll => 2 | VLis => 1 | VEnd => 0 end.
Fixpoint opened (l : list sconn) : nat := match l with [] => 0 | c :: l => (if quiet c then 0 else 1) + opened l end.
Definition vweight (s : vstate) : nat := mweight (v_main s) + wweight (v_watch s) + opened (v_conns s).
Lemma opened_set l n a : nth_error l n = Some (SConn QIdle a) -> S (opened (set_nth n (SConn QClosed a) l)) = opened l.
Proof. revert n; induction l as [|c l IH]; intros [|n] H; cbn in *; try discriminate; [injection H as ->; reflexivity|]. rewrite <- (IH _ H). lia. Qed.
Lemma vweight_step old s t : v_step old false s t -> vweight t < vweight s.
Proof.
  intros T. inversion T; subst; unfold vweight; vsimp; cbn [mweight wweight]; try lia.
  - destruct old; vsimp; cbn; lia.
  - match goal with A : nth_error _ _ = _ |- _ => apply opened_set in A end. lia.
Qed.
Lemma v_keep old n s t : v_runs old n s t -> v_reach old s -> v_reach old t /\ v_done t = v_done s /\ v_minute t = v_minute s /\ n + vweight t <= vweight s.
Proof.
  induction 1 as [|n s t u T R IH]; intros H; [repeat split; auto|].
  destruct IH as (A & B & C & D); [econstructor; eauto|]. apply vweight_step in T as W.
  assert (E : v_done t = v_done s /\ v_minute t = v_minute s) by (inversion T; subst; auto; destruct old; auto).
  destruct E as [E1 E2]. repeat split; auto; try congruence. lia.
Qed.
(** once the context is cancelled, runServer returns by its own steps and those of its
    goroutine, in a bounded number of steps in every schedule: it does not wait for the
    requests in progress (with an old net/http: it may, for the minute) *)
Theorem C79_returns : forall old s, v_reach old s -> v_done s = true -> old = false \/ v_minute s = true ->
  (exists bound, forall n t, v_runs old n s t -> n <= bound) /\
  (forall n t, v_runs old n s t -> (exists e, server_returned t e) \/ exists u, v_step old false t u).
Proof.
  intros old s R D M. split.
  - exists (vweight s). intros n t H. destruct (v_keep _ _ _ _ H R) as (_ & _ & _ & W). lia.
  - intros n t H. destruct (v_keep _ _ _ _ H R) as (Rt & Dt & Mt & _). rewrite D in Dt. rewrite <- Mt in M. clear s R D H Mt n.
    apply vinv_reach in Rt. destruct Rt. destruct t as [m w cs o tr h d x k f r]. vsimp. subst d. destruct m as [| | |e|e].
    + destruct (vi_listen0 eq_refl) as (-> & _). right. eexists. apply vs_listen.
    + right. destruct h; [eexists; apply vs_track_late|eexists; apply vs_track].
    + right. destruct w.
      * destruct (vi_none0 eq_refl) as [X|[? X]]; discriminate.
      * eexists. now apply vs_wake.
      * eexists. apply vs_shutdown.
      * destruct o; [|eexists; apply (vs_accept_closed _ 0%Z)]. destruct M as [->| ->].
        { destruct h; [specialize (vi_new0 eq_refl eq_refl eq_refl); discriminate|].
          destruct (vi_late0 (fun X => X) eq_refl eq_refl); discriminate. }
        eexists. apply vs_polled. reflexivity.
      * eexists. apply vs_lis.
      * destruct o; [|eexists; apply (vs_accept_closed _ 0%Z)].
        specialize (vi_end0 eq_refl). discriminate.
    + right. eexists. apply vs_return.
    + left. exists e. reflexivity.
Qed.
Print Assumptions C79_returns.

(** ** runs *)
Lemma vnext old b s t : v_reach old s -> v_step old b s t -> v_reach old t.
Proof. intros; econstructor; eauto. Qed.
Ltac vgo H t := eapply vnext in H; [|eapply t; reflexivity]; cbn in H.
(** a request is answered, the context is cancelled, nil is returned and the goroutine
    ends *)
Example C79_ex : exists s, v_reach false s /\ server_returned s None /\ v_watch s = VEnd /\ v_conns s = [SConn QClosed 1].
Proof.
  pose proof (v_reach_init false) as H. unfold v_init in H.
  eapply vnext in H; [|eapply vs_listen]. cbn in H.
  eapply vnext in H; [|eapply vs_track]. eapply vnext in H; [|eapply vs_accept]. cbn in H.
  vgo H (fun old => vs_request old 0). vgo H (fun old => vs_answer old 0).
  eapply vnext in H; [|eapply vs_ctx]. vgo H vs_wake. eapply vnext in H; [|eapply vs_shutdown]. cbn in H.
  vgo H (fun old => vs_idle old 0). vgo H vs_polled.
  eapply vnext in H; [|eapply (vs_accept_closed _ 7%Z)]. cbn in H.
  eapply vnext in H; [|eapply vs_return]. eapply vnext in H; [|eapply vs_lis]. cbn in H.
  eexists. split; [exact H|]. repeat split.
Qed.

(** REFUTED: requests in progress are not given the minute that the comment of the code
    promises: Serve returns, and with it runServer, as soon as Shutdown begins.  The
    caller goes on to end the process, which cuts them off. *)
Theorem C79_waits_for_requests_refuted : exists s, v_reach false s /\ server_returned s None /\
  v_minute s = false /\ v_watch s = VPoll /\ v_conns s = [SConn QActive 0].
Proof.
  pose proof (v_reach_init false) as H. unfold v_init in H.
  eapply vnext in H; [|eapply vs_listen]. cbn in H.
  eapply vnext in H; [|eapply vs_track]. eapply vnext in H; [|eapply vs_accept]. cbn in H.
  vgo H (fun old => vs_request old 0).
  eapply vnext in H; [|eapply vs_ctx]. vgo H vs_wake. eapply vnext in H; [|eapply vs_shutdown]. cbn in H.
  eapply vnext in H; [|eapply (vs_accept_closed _ 7%Z)]. cbn in H.
  eapply vnext in H; [|eapply vs_return]. cbn in H.
  eexists. split; [exact H|]. repeat split.
Qed.
Print Assumptions C79_waits_for_requests_refuted.

(** REFUTED (old net/http): a cancellation that comes before the server has started
    makes runServer return an error although nothing failed *)
Theorem C79_early_cancel_refuted : exists s e, v_reach true s /\ server_returned s (Some e) /\
  v_failed s = false /\ v_done s = true.
Proof.
  pose proof (v_reach_init true) as H. unfold v_init in H.
  eapply vnext in H; [|eapply vs_listen]. eapply vnext in H; [|eapply vs_ctx]. cbn in H.
  vgo H vs_wake. eapply vnext in H; [|eapply vs_shutdown]. cbn in H.
  eapply vnext in H; [|eapply vs_track_late]. cbn in H. vgo H vs_polled.
  eapply vnext in H; [|eapply vs_lis]. eapply vnext in H; [|eapply (vs_accept_closed _ 7%Z)]. cbn in H.
  eapply vnext in H; [|eapply vs_return]. cbn in H.
  eexists _, 7%Z. split; [exact H|]. repeat split.
Qed.
Print Assumptions C79_early_cancel_refuted.
