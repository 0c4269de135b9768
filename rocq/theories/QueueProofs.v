From Coq Require Import ZArith List Bool Lia.
From Verif Require Import Base Maps Cache LockPool LockPoolProofs Queue.
Import ListNotations.
Open Scope Z_scope.

Fixpoint sumz {A} (f : A -> Z) (l : list A) : Z :=
  match l with [] => 0 | x :: l => f x + sumz f l end.
Lemma sumz_set {A} (f : A -> Z) n x y l : nth_error l n = Some x ->
  sumz f (set_nth n y l) = sumz f l - f x + f y.
Proof.
  revert n; induction l as [|a l IH]; intros [|n] H; try discriminate; cbn in *.
  - injection H as ->. lia.
  - rewrite (IH n H). lia.
Qed.
Lemma sumz_app {A} (f : A -> Z) a b : sumz f (a ++ b) = sumz f a + sumz f b.
Proof. induction a; cbn; lia. Qed.
Lemma sumz_nonneg {A} (f : A -> Z) l : (forall x, 0 <= f x) -> 0 <= sumz f l.
Proof. intros H. induction l; cbn; [lia|]. pose proof (H a). lia. Qed.
Lemma sumz_ge {A} (f : A -> Z) l n x : (forall x, 0 <= f x) -> nth_error l n = Some x -> f x <= sumz f l.
Proof.
  intros H. revert n; induction l as [|a l IH]; intros [|n] E; try discriminate; cbn in *.
  - injection E as ->. pose proof (sumz_nonneg f l H). lia.
  - specialize (IH n E). pose proof (H a). lia.
Qed.
Lemma sumz_zero {A} (f : A -> Z) l : (forall x, In x l -> f x = 0) -> sumz f l = 0.
Proof. induction l; cbn; intros H; [reflexivity|]. rewrite (H a), IHl by auto. reflexivity. Qed.
Lemma nth_error_set_same {A} n (y : A) l x : nth_error l n = Some x -> nth_error (set_nth n y l) n = Some y.
Proof. revert n; induction l as [|a l IH]; intros [|n] H; try discriminate; cbn in *; auto. Qed.
Lemma nth_error_set_other {A} n m (y : A) l : n <> m -> nth_error (set_nth n y l) m = nth_error l m.
Proof. revert n m; induction l as [|a l IH]; intros [|n] [|m] H; cbn; auto; try congruence. Qed.
Lemma set_nth_len {A} n (x : A) l : length (set_nth n x l) = length l.
Proof. revert n; induction l; destruct n; cbn; auto. Qed.

(** where the obligation to answer call [c] is *)
Definition is (c x : nat) : Z := if Nat.eqb c x then 1 else 0.
Definition tok_caller (s : qsys) (c : nat) : Z :=
  match nth_error (q_callers s) c with Some (CDone _) | None => 0 | Some _ => 1 end.
Definition tok_buf (c : nat) (ch : chan) : Z := sumz (is c) (ch_buf ch).
Definition tok_worker (c : nat) (w : worker) : Z := match w with WHand x => is c x | _ => 0 end.
Definition tok_run (c : nat) (r : runner) : Z :=
  match r with
  | RWork _ ws => sumz (tok_worker c) ws
  | RDrain _ (Some x) => is c x
  | _ => 0
  end.
Definition tokens (s : qsys) (c : nat) : Z :=
  tok_caller s c + sumz (tok_buf c) (q_chans s) + sumz (tok_run c) (q_runs s) + sumz (is c) (q_log s).

Definition chan_of (r : runner) : option nat :=
  match r with
  | RWork ch _ | RClose ch | RSwap ch | RDrain ch _ | RStop ch | RDone ch => Some ch
  | _ => None
  end.

Record qinv (callers : nat) (s : qsys) : Prop := QInv {
  qi_tok : forall c, (c < callers)%nat -> tokens s c = 1;
  qi_len : length (q_callers s) = callers;
  qi_active : cnt active (q_runs s) = if q_on s then 1 else 0;
  qi_cur : exists buf, nth_error (q_chans s) (q_cur s) = Some (Chan buf false);
  qi_run : forall n r, nth_error (q_runs s) n = Some r ->
     match r with
     | RWork ch ws => ch = q_cur s /\ ~ In WZero ws
     | RClose ch => ch = q_cur s
     | RSwap ch => exists buf, nth_error (q_chans s) ch = Some (Chan buf false)
     | RDrain ch _ => exists buf, nth_error (q_chans s) ch = Some (Chan buf true)
     | RStop ch | RDone ch => nth_error (q_chans s) ch = Some (Chan [] true)
     | RPanic => False
     | _ => True
     end;
  qi_swap : forall n ch, nth_error (q_runs s) n = Some (RSwap ch) -> ch <> q_cur s;
  qi_distinct : forall n m r r' ch, nth_error (q_runs s) n = Some r -> nth_error (q_runs s) m = Some r' ->
     chan_of r = Some ch -> chan_of r' = Some ch -> n = m;
  qi_buf : forall ch b c, nth_error (q_chans s) ch = Some b -> In c (ch_buf b) ->
     nth_error (q_callers s) c = Some (CDone ch);
  qi_hand : forall n ch ws c, nth_error (q_runs s) n = Some (RWork ch ws) -> In (WHand c) ws ->
     nth_error (q_callers s) c = Some (CDone ch);
  qi_drain : forall n ch c, nth_error (q_runs s) n = Some (RDrain ch (Some c)) ->
     nth_error (q_callers s) c = Some (CDone ch)
}.

Lemma in_set_nth {A} n (y : A) l x : In x (set_nth n y l) -> x = y \/ In x l.
Proof.
  revert n; induction l as [|a l IH]; intros [|n] H; cbn in *; auto.
  - destruct H as [<-|H]; auto.
  - destruct H as [<-|H]; auto. destruct (IH n H); auto.
Qed.

Lemma is_nonneg c x : 0 <= is c x.
Proof. unfold is. destruct (Nat.eqb c x); lia. Qed.
Lemma tok_buf_nonneg c b : 0 <= tok_buf c b.
Proof. apply sumz_nonneg, is_nonneg. Qed.
Lemma tok_worker_nonneg c w : 0 <= tok_worker c w.
Proof. destruct w; cbn; try lia. apply is_nonneg. Qed.
Lemma tok_run_nonneg c r : 0 <= tok_run c r.
Proof. destruct r as [| | | | | |? [x|]| | |]; cbn; try lia; [apply sumz_nonneg, tok_worker_nonneg|apply is_nonneg]. Qed.

Lemma qinv_init callers runs : qinv callers (q_init callers runs).
Proof.
  assert (Hr : forall n r, nth_error (repeat RIdle runs) n = Some r -> r = RIdle).
  { intros n r H. apply nth_error_In in H. now apply repeat_spec in H. }
  assert (Hc : forall n c, (n < callers)%nat -> nth_error (repeat CStart callers) n = Some c -> c = CStart).
  { intros n r _ H. apply nth_error_In in H. now apply repeat_spec in H. }
  split; cbn [q_init q_callers q_runs q_chans q_log q_on q_cur].
  - intros c Hlt. unfold tokens, tok_caller. cbn [q_init q_callers q_runs q_chans q_log].
    destruct (nth_error (repeat CStart callers) c) as [x|] eqn:E.
    + rewrite (Hc c x Hlt E). cbn [sumz tok_buf ch_buf]. unfold tok_buf; cbn [ch_buf sumz].
      rewrite sumz_zero; [lia|]. intros y Hy. apply repeat_spec in Hy. now subst.
    + apply nth_error_None in E. rewrite repeat_length in E. lia.
  - apply repeat_length.
  - induction runs; [reflexivity|]. cbn in *. apply IHruns. intros n r H. apply (Hr (S n) r H).
  - now exists [].
  - intros n r H. rewrite (Hr n r H). exact I.
  - intros n ch H. apply Hr in H. discriminate.
  - intros n m r r' ch H1 _ H3 _. rewrite (Hr n r H1) in H3. discriminate.
  - intros [|ch] b c H Hin; [|destruct ch; discriminate]. injection H as <-. contradiction.
  - intros n ch ws c H. apply Hr in H. discriminate.
  - intros n ch c H. apply Hr in H. discriminate.
Qed.

Lemma tok_caller_set s n x c : nth_error (q_callers s) n <> None ->
  tok_caller (set_caller s n x) c =
  if Nat.eqb c n then match x with CDone _ => 0 | _ => 1 end else tok_caller s c.
Proof.
  intros H. unfold tok_caller. cbn [set_caller q_callers].
  destruct (Nat.eqb_spec c n) as [->|Hne].
  - destruct (nth_error (q_callers s) n) eqn:E; [|contradiction].
    now rewrite (nth_error_set_same _ _ _ _ E).
  - rewrite nth_error_set_other by auto. reflexivity.
Qed.

Lemma tokens_run s n old x c : nth_error (q_runs s) n = Some old ->
  tokens (set_run s n x) c = tokens s c - tok_run c old + tok_run c x.
Proof.
  intros H. unfold tokens, tok_caller. cbn [set_run q_callers q_runs q_chans q_log].
  rewrite (sumz_set _ _ _ _ _ H). lia.
Qed.
Lemma tokens_chan s n old x c : nth_error (q_chans s) n = Some old ->
  tokens (set_chan s n x) c = tokens s c - tok_buf c old + tok_buf c x.
Proof.
  intros H. unfold tokens, tok_caller. cbn [set_chan q_callers q_runs q_chans q_log].
  rewrite (sumz_set _ _ _ _ _ H). lia.
Qed.
Lemma tokens_answer s n c : tokens (answer s n) c = tokens s c + is c n.
Proof. unfold tokens, tok_caller. cbn [answer q_callers q_runs q_chans q_log sumz]. lia. Qed.
Definition pending (x : caller) : Z := match x with CDone _ => 0 | _ => 1 end.
Lemma tokens_caller s n old x c : nth_error (q_callers s) n = Some old ->
  tokens (set_caller s n x) c = tokens s c - is c n * pending old + is c n * pending x.
Proof.
  intros H. unfold tokens. rewrite tok_caller_set by congruence. cbn [set_caller q_callers q_runs q_chans q_log].
  unfold is at 3 4. destruct (Nat.eqb_spec c n) as [->|]; [|lia].
  unfold tok_caller. rewrite H. unfold pending. destruct old, x; lia.
Qed.
Lemma sum_app1 c buf n : sumz (is c) (buf ++ [n]) = sumz (is c) buf + is c n.
Proof. rewrite sumz_app. cbn. lia. Qed.

Ltac ns H := apply nth_error_set in H; destruct H as [[? ?]|[? H]].

Lemma only_active callers s n m r r' : qinv callers s ->
  nth_error (q_runs s) n = Some r -> nth_error (q_runs s) m = Some r' ->
  active r = true -> active r' = true -> n = m.
Proof.
  intros HI H1 H2 A1 A2. destruct (Nat.eq_dec n m) as [|Hne]; [assumption|].
  pose proof (cnt_two active _ _ _ _ _ H1 H2 A1 A2 Hne). pose proof (qi_active _ _ HI). destruct (q_on s); lia.
Qed.

(** changing a caller that is not done *)
Lemma qinv_caller callers s n old x : qinv callers s -> nth_error (q_callers s) n = Some old ->
  pending old = 1 -> pending x = 1 -> qinv callers (set_caller s n x).
Proof.
  intros HI E P1 P2. pose proof HI as [I1 I2 I3 I4 I5 I6 I7 I8 I9 I10].
  assert (K : forall c ch, nth_error (q_callers s) c = Some (CDone ch) ->
     nth_error (set_nth n x (q_callers s)) c = Some (CDone ch)).
  { intros c ch H. rewrite nth_error_set_other; [exact H|]. intros ->. rewrite E in H. injection H as ->. discriminate. }
  split; cbn [set_caller q_callers q_runs q_chans q_log q_on q_cur]; auto.
  - intros c Hc. rewrite (tokens_caller _ _ _ _ _ E), P1, P2. rewrite I1 by exact Hc. lia.
  - now rewrite set_nth_len.
  - intros ch b c H1 H2. apply K. eauto.
  - intros m ch ws c H1 H2. apply K. eauto.
  - intros m ch c H1. apply K. eauto.
Qed.

(** changing a run without touching channels: the new runner has the same
    channel and no new value in hand *)
Lemma qinv_answer_caller callers s n ch : qinv callers s -> nth_error (q_callers s) n = Some (CFail ch) ->
  qinv callers (answer (set_caller s n (CDone ch)) n).
Proof.
  intros HI E. pose proof HI as [I1 I2 I3 I4 I5 I6 I7 I8 I9 I10].
  assert (K : forall c d, nth_error (q_callers s) c = Some (CDone d) ->
     nth_error (set_nth n (CDone ch) (q_callers s)) c = Some (CDone d)).
  { intros c d H. rewrite nth_error_set_other; [exact H|]. intros ->. rewrite E in H. discriminate. }
  split; cbn [answer set_caller q_callers q_runs q_chans q_log q_on q_cur]; auto.
  - intros c Hc. rewrite tokens_answer, (tokens_caller _ _ _ _ _ E), I1 by exact Hc. cbn [pending]. lia.
  - now rewrite set_nth_len.
  - intros d b c H1 H2. apply K. eauto.
  - intros m d ws c H1 H2. apply K. eauto.
  - intros m d c H1. apply K. eauto.
Qed.

Lemma qinv_step buffer workers callers s s' : qinv callers s -> q_step buffer workers s s' -> qinv callers s'.
Proof.
  intros HI T. pose proof HI as [I1 I2 I3 I4 I5 I6 I7 I8 I9 I10]. destruct T.
  - (* load *) eapply qinv_caller; eauto.
  - (* send *)
    assert (K : forall c d, nth_error (q_callers s) c = Some (CDone d) ->
       nth_error (set_nth n (CDone ch) (q_callers s)) c = Some (CDone d)).
    { intros c d X. rewrite nth_error_set_other; [exact X|]. intros ->. rewrite H in X. discriminate. }
    assert (Hch : forall d b', nth_error (set_nth ch (Chan (buf ++ [n]) false) (q_chans s)) d = Some b' ->
       (d = ch /\ b' = Chan (buf ++ [n]) false) \/ nth_error (q_chans s) d = Some b').
    { intros d b' X. ns X; auto. }
    assert (Hch2 : forall d b', nth_error (q_chans s) d = Some (Chan b' true) ->
        nth_error (set_nth ch (Chan (buf ++ [n]) false) (q_chans s)) d = Some (Chan b' true)).
    { intros d b' X. rewrite nth_error_set_other; [exact X|]. intros ->. congruence. }
    assert (Hch3 : forall d, (exists b', nth_error (q_chans s) d = Some (Chan b' false)) ->
        exists b', nth_error (set_nth ch (Chan (buf ++ [n]) false) (q_chans s)) d = Some (Chan b' false)).
    { intros d (b' & X). destruct (Nat.eq_dec ch d) as [->|].
      - eexists. eapply nth_error_set_same. exact X.
      - rewrite nth_error_set_other by auto. eauto. }
    split; cbn [set_chan set_caller q_callers q_runs q_chans q_log q_on q_cur]; auto.
    + intros c Hc. erewrite tokens_caller by exact H. erewrite tokens_chan by exact H0. rewrite I1 by exact Hc.
      unfold tok_buf. cbn [ch_buf pending]. rewrite sum_app1. lia.
    + now rewrite set_nth_len.
    + intros m r X. specialize (I5 m r X). destruct r; auto.
      destruct I5 as (b' & I5). eauto.
    + intros d b' c X Y. destruct (Hch d b' X) as [[-> ->]|X'].
      * cbn [ch_buf] in Y. apply in_app_or in Y. destruct Y as [Y|[<-|[]]].
        -- apply K. eapply I8; [exact H0|exact Y].
        -- eapply nth_error_set_same. exact H.
      * apply K. eauto.
    + intros m d ws c X Y. apply K. eauto.
    + intros m d c X. apply K. eauto.
  - (* rendezvous *)
    assert (K : forall c d, nth_error (q_callers s) c = Some (CDone d) ->
       nth_error (set_nth n (CDone ch) (q_callers s)) c = Some (CDone d)).
    { intros c d X. rewrite nth_error_set_other; [exact X|]. intros ->. rewrite H in X. discriminate. }
    split; cbn [set_chan set_run set_caller q_callers q_runs q_chans q_log q_on q_cur]; auto.
    + intros c Hc. erewrite tokens_caller by exact H. erewrite tokens_run by exact H1. rewrite I1 by exact Hc.
      cbn [tok_run pending]. rewrite (sumz_set _ _ _ _ _ H2). cbn [tok_worker]. lia.
    + now rewrite set_nth_len.
    + rewrite (cnt_set _ _ _ _ _ H1). cbn [active]. lia.
    + intros k x X. ns X; [|exact (I5 k x X)]. subst. destruct (I5 r _ H1) as [Z1 Z2]. split; [exact Z1|].
      intros Y. apply in_set_nth in Y. destruct Y as [Y|Y]; [discriminate|auto].
    + intros k d X. ns X; [discriminate|]. eauto.
    + intros k l x y d X Y Cx Cy. ns X; ns Y; subst; auto.
      * eapply I7; [exact H1|exact Y|exact Cx|exact Cy].
      * eapply I7; [exact X|exact H1|exact Cx|exact Cy].
      * eapply I7; eauto.
    + intros d b c X Y. apply K. eauto.
    + intros k d w c X Y. ns X.
      * injection H4 as -> ->. apply in_set_nth in Y. destruct Y as [Y|Y].
        -- injection Y as ->. eapply nth_error_set_same. exact H.
        -- apply K. eapply I9; eauto.
      * apply K. eauto.
    + intros k d c X. ns X; [discriminate|]. apply K. eauto.
  - (* give up *) eapply qinv_caller; eauto.
  - (* fail *) now apply qinv_answer_caller.
  - (* recv *)
    destruct (I5 r _ H) as [Z1 Z2]. subst ch. destruct I4 as (b4 & I4). rewrite I4 in H1. injection H1 as -> <-.
    assert (Hch : forall d b', nth_error (set_nth (q_cur s) (Chan buf false) (q_chans s)) d = Some b' ->
       (d = q_cur s /\ b' = Chan buf false) \/ nth_error (q_chans s) d = Some b').
    { intros d b' X. ns X; auto. }
    split; cbn [set_chan set_run set_caller q_callers q_runs q_chans q_log q_on q_cur]; auto.
    + intros x Hc. erewrite tokens_chan by exact I4. erewrite tokens_run by exact H. rewrite I1 by exact Hc.
      cbn [tok_run]. rewrite (sumz_set _ _ _ _ _ H0). unfold tok_buf. cbn [tok_worker ch_buf sumz]. lia.
    + rewrite (cnt_set _ _ _ _ _ H). cbn [active]. lia.
    + eexists. eapply nth_error_set_same. exact I4.
    + assert (G : forall d b', nth_error (q_chans s) d = Some (Chan b' true) ->
         nth_error (set_nth (q_cur s) (Chan buf false) (q_chans s)) d = Some (Chan b' true)).
      { intros d b' X. rewrite nth_error_set_other; [exact X|]. intros <-. congruence. }
      intros k x X. ns X.
      * subst. split; [reflexivity|]. intros Y. apply in_set_nth in Y. destruct Y as [Y|Y]; [discriminate|auto].
      * specialize (I5 k x X). destruct x; auto.
        -- destruct I5 as (b' & I5). destruct (Nat.eq_dec (q_cur s) ch) as [<-|].
           ++ eexists. eapply nth_error_set_same. exact I4.
           ++ rewrite nth_error_set_other by auto. eauto.
        -- destruct I5 as (b' & I5). eauto.
    + intros k d X. ns X; [discriminate|]. eauto.
    + intros k l x y d X Y Cx Cy. ns X; ns Y; subst; auto.
      * eapply I7; [exact H|exact Y|exact Cx|exact Cy].
      * eapply I7; [exact X|exact H|exact Cx|exact Cy].
      * eapply I7; eauto.
    + intros d b' x X Y. destruct (Hch d b' X) as [[-> ->]|X']; [|eauto].
      eapply I8; [exact I4|]. cbn [ch_buf] in *. now right.
    + intros k d w x X Y. ns X; [|eauto]. injection H2 as -> ->. apply in_set_nth in Y. destruct Y as [Y|Y].
      * injection Y as ->. eapply I8; [exact I4|]. cbn. now left.
      * eapply I9; eauto.
    + intros k d x X. ns X; [discriminate|]. eauto.
  - (* recv zero: the channel of a working Run is open *)
    destruct (I5 r _ H) as [Z1 _]. subst ch. destruct I4 as (b4 & I4). congruence.
  - (* written *)
    split; cbn [answer set_chan set_run set_caller q_callers q_runs q_chans q_log q_on q_cur]; auto.
    + intros x Hc. rewrite tokens_answer. erewrite tokens_run by exact H. rewrite I1 by exact Hc.
      cbn [tok_run]. rewrite (sumz_set _ _ _ _ _ H0). cbn [tok_worker]. lia.
    + rewrite (cnt_set _ _ _ _ _ H). cbn [active]. lia.
    + intros k x X. ns X; [|exact (I5 k x X)]. subst. destruct (I5 r _ H) as [Z1 Z2]. split; [exact Z1|].
      intros Y. apply in_set_nth in Y. destruct Y as [Y|Y]; [discriminate|auto].
    + intros k d X. ns X; [discriminate|]. eauto.
    + intros k l x y d X Y Cx Cy. ns X; ns Y; subst; auto.
      * eapply I7; [exact H|exact Y|exact Cx|exact Cy].
      * eapply I7; [exact X|exact H|exact Cx|exact Cy].
      * eapply I7; eauto.
    + intros k d w x X Y. ns X; [|eauto]. injection H2 as -> ->. apply in_set_nth in Y. destruct Y as [Y|Y]; [discriminate|].
      eapply I9; eauto.
    + intros k d x X. ns X; [discriminate|]. eauto.
  - (* cancel *)
    split; cbn [answer set_chan set_run set_caller q_callers q_runs q_chans q_log q_on q_cur]; auto.
    + intros x Hc. erewrite tokens_run by exact H. rewrite I1 by exact Hc.
      cbn [tok_run]. rewrite (sumz_set _ _ _ _ _ H0). cbn [tok_worker]. lia.
    + rewrite (cnt_set _ _ _ _ _ H). cbn [active]. lia.
    + intros k x X. ns X; [|exact (I5 k x X)]. subst. destruct (I5 r _ H) as [Z1 Z2]. split; [exact Z1|].
      intros Y. apply in_set_nth in Y. destruct Y as [Y|Y]; [discriminate|auto].
    + intros k d X. ns X; [discriminate|]. eauto.
    + intros k l x y d X Y Cx Cy. ns X; ns Y; subst; auto.
      * eapply I7; [exact H|exact Y|exact Cx|exact Cy].
      * eapply I7; [exact X|exact H|exact Cx|exact Cy].
      * eapply I7; eauto.
    + intros k d w x X Y. ns X; [|eauto]. injection H2 as -> ->. apply in_set_nth in Y. destruct Y as [Y|Y]; [discriminate|].
      eapply I9; eauto.
    + intros k d x X. ns X; [discriminate|]. eauto.
  - (* start *)
    split; cbn [answer set_chan set_run set_caller q_callers q_runs q_chans q_log q_on q_cur]; auto.
    + intros x Hc. erewrite tokens_run by exact H. 
      change (tokens (QS (q_cur s) (q_chans s) true (q_callers s) (q_runs s) (q_log s)) x) with (tokens s x).
      rewrite I1 by exact Hc. reflexivity.
    + rewrite (cnt_set _ _ _ _ _ H). cbn [active]. rewrite H0 in I3. lia.
    + intros k x X. ns X; [|exact (I5 k x X)]. subst. exact I.
    + intros k d X. ns X; [discriminate|]. eauto.
    + intros k l x y d X Y Cx Cy. ns X; [subst; discriminate|]. ns Y; [subst; discriminate|]. eauto.
    + intros k d w x X Y. ns X; [discriminate|eauto].
    + intros k d x X. ns X; [discriminate|]. eauto.
  - (* already *)
    split; cbn [answer set_chan set_run set_caller q_callers q_runs q_chans q_log q_on q_cur]; auto.
    + intros x Hc. erewrite tokens_run by exact H. rewrite I1 by exact Hc. reflexivity.
    + rewrite (cnt_set _ _ _ _ _ H). cbn [active]. lia.
    + intros k x X. ns X; [|exact (I5 k x X)]. subst. exact I.
    + intros k d X. ns X; [discriminate|]. eauto.
    + intros k l x y d X Y Cx Cy. ns X; [subst; discriminate|]. ns Y; [subst; discriminate|]. eauto.
    + intros k d w x X Y. ns X; [discriminate|eauto].
    + intros k d x X. ns X; [discriminate|]. eauto.
  - (* launch *)
    assert (Hother : forall m x, m <> r -> nth_error (q_runs s) m = Some x -> chan_of x <> Some (q_cur s)).
    { intros m x Hm X Cx. destruct (active x) eqn:A.
      - apply Hm. eapply only_active; [exact HI|exact X|exact H|exact A|reflexivity].
      - destruct x; try discriminate. injection Cx as ->. specialize (I5 m _ X). cbn in I5.
        destruct I4 as (b4 & I4). congruence. }
    split; cbn [answer set_chan set_run set_caller q_callers q_runs q_chans q_log q_on q_cur]; auto.
    + intros x Hc. erewrite tokens_run by exact H. rewrite I1 by exact Hc. cbn [tok_run].
      rewrite sumz_zero; [lia|]. intros w Hw. apply repeat_spec in Hw. now subst.
    + rewrite (cnt_set _ _ _ _ _ H). cbn [active]. lia.
    + intros k x X. ns X; [|exact (I5 k x X)]. subst. split; [reflexivity|]. intros Y. apply repeat_spec in Y. discriminate.
    + intros k d X. ns X; [discriminate|]. eauto.
    + intros k l x y d X Y Cx Cy. ns X; ns Y; subst; auto.
      * cbn in Cx. injection Cx as <-. exfalso. eapply Hother; [|exact Y|exact Cy]. auto.
      * cbn in Cy. injection Cy as <-. exfalso. eapply Hother; [|exact X|exact Cx]. auto.
      * eauto.
    + intros k d w x X Y. ns X; [|eauto]. injection H1 as -> ->. apply repeat_spec in Y. discriminate.
    + intros k d x X. ns X; [discriminate|]. eauto.
  - (* waited *)
    split; cbn [answer set_chan set_run set_caller q_callers q_runs q_chans q_log q_on q_cur]; auto.
    + intros x Hc. erewrite tokens_run by exact H. rewrite I1 by exact Hc. cbn [tok_run].
      rewrite sumz_zero; [lia|]. intros w Hw. rewrite Forall_forall in H0. now rewrite <- (H0 w Hw).
    + rewrite (cnt_set _ _ _ _ _ H). cbn [active]. lia.
    + intros k x X. ns X; [|exact (I5 k x X)]. subst. destruct (I5 r _ H) as [Z1 _]. exact Z1.
    + intros k d X. ns X; [discriminate|]. eauto.
    + intros k l x y d X Y Cx Cy. ns X; ns Y; subst; auto.
      * eapply I7; [exact H|exact Y|exact Cx|exact Cy].
      * eapply I7; [exact X|exact H|exact Cx|exact Cy].
      * eapply I7; eauto.
    + intros k d w x X Y. ns X; [discriminate|eauto].
    + intros k d x X. ns X; [discriminate|]. eauto.
  - (* store *)
    pose proof (I5 r _ H) as Z1. cbn in Z1. subst ch. destruct I4 as (b4 & I4).
    assert (Hlt : (q_cur s < length (q_chans s))%nat) by (apply nth_error_Some; congruence).
    assert (G : forall d b', nth_error (q_chans s) d = Some b' -> nth_error (q_chans s ++ [Chan [] false]) d = Some b').
    { intros d b' X. rewrite nth_error_app1; [exact X|]. apply nth_error_Some. congruence. }
    split; cbn [answer set_chan set_run set_caller q_callers q_runs q_chans q_log q_on q_cur]; auto.
    + intros x Hc. erewrite tokens_run by exact H. 
      assert (tokens (QS (length (q_chans s)) (q_chans s ++ [Chan [] false]) (q_on s) (q_callers s) (q_runs s) (q_log s)) x = tokens s x) as ->.
      { unfold tokens, tok_caller. cbn [q_callers q_runs q_chans q_log]. rewrite sumz_app. cbn [sumz].
        unfold tok_buf at 2. cbn [ch_buf sumz]. lia. }
      rewrite I1 by exact Hc. cbn [tok_run]. lia.
    + rewrite (cnt_set _ _ _ _ _ H). cbn [active]. lia.
    + exists []. rewrite nth_error_app2, Nat.sub_diag by lia. reflexivity.
    + intros k x X. ns X.
      * subst. eauto.
      * pose proof (I5 k x X) as Hx. destruct (active x) eqn:A.
        -- exfalso. apply H0. eapply only_active; [exact HI|exact X|exact H|exact A|reflexivity].
        -- destruct x; try discriminate; auto.
    + intros k d X. ns X; [injection H1 as ->; lia|].
      exfalso. apply H0. eapply only_active; [exact HI|exact X|exact H|reflexivity|reflexivity].
    + intros k l x y d X Y Cx Cy. ns X; ns Y; subst; auto.
      * eapply I7; [exact H|exact Y|exact Cx|exact Cy].
      * eapply I7; [exact X|exact H|exact Cx|exact Cy].
      * eapply I7; eauto.
    + intros d b' c X Y. destruct (Nat.lt_ge_cases d (length (q_chans s))) as [Hd|Hd].
      * rewrite nth_error_app1 in X by exact Hd. eauto.
      * rewrite nth_error_app2 in X by exact Hd. destruct (d - length (q_chans s))%nat as [|q]; [|destruct q; discriminate].
        injection X as <-. contradiction.
    + intros k d w x X Y. ns X; [discriminate|eauto].
    + intros k d x X. ns X; [discriminate|]. eauto.
  - (* close *)
    pose proof (I6 r ch H) as Hne. destruct I4 as (b4 & I4).
    split; cbn [answer set_chan set_run set_caller q_callers q_runs q_chans q_log q_on q_cur]; auto.
    + intros x Hc. erewrite tokens_chan by exact H0. erewrite tokens_run by exact H. rewrite I1 by exact Hc.
      unfold tok_buf. cbn [tok_run ch_buf]. lia.
    + rewrite (cnt_set _ _ _ _ _ H). cbn [active]. lia.
    + exists b4. rewrite nth_error_set_other by auto. exact I4.
    + intros k x X. ns X.
      * subst. eexists. eapply nth_error_set_same. exact H0.
      * pose proof (I5 k x X) as Hx. destruct (active x) eqn:A.
        -- exfalso. apply H1. eapply only_active; [exact HI|exact X|exact H|exact A|reflexivity].
        -- destruct x; try discriminate; auto. rewrite nth_error_set_other; [exact Hx|]. intros <-. congruence.
    + intros k d X. ns X; [discriminate|]. eauto.
    + intros k l x y d X Y Cx Cy. ns X; ns Y; subst; auto.
      * eapply I7; [exact H|exact Y|exact Cx|exact Cy].
      * eapply I7; [exact X|exact H|exact Cx|exact Cy].
      * eapply I7; eauto.
    + intros d b' c X Y. ns X; [|eauto]. subst. eapply I8; [exact H0|exact Y].
    + intros k d w x X Y. ns X; [discriminate|eauto].
    + intros k d x X. ns X; [discriminate|]. eauto.
  - (* close closed *)
    destruct (I5 r _ H) as (b' & Z1). congruence.
  - (* drain *)
    destruct (I5 r _ H) as (b' & Z1). rewrite Z1 in H0. injection H0 as -> <-. destruct I4 as (b4 & I4).
    assert (Hne : ch <> q_cur s) by (intros ->; congruence).
    split; cbn [answer set_chan set_run set_caller q_callers q_runs q_chans q_log q_on q_cur]; auto.
    + intros x Hc. erewrite tokens_chan by exact Z1. erewrite tokens_run by exact H. rewrite I1 by exact Hc.
      unfold tok_buf. cbn [tok_run ch_buf sumz]. lia.
    + rewrite (cnt_set _ _ _ _ _ H). cbn [active]. lia.
    + exists b4. rewrite nth_error_set_other by auto. exact I4.
    + intros k x X. ns X.
      * subst. eexists. eapply nth_error_set_same. exact Z1.
      * pose proof (I5 k x X) as Hx. destruct (active x) eqn:A.
        -- exfalso. apply H0. eapply only_active; [exact HI|exact X|exact H|exact A|reflexivity].
        -- destruct x; try discriminate; auto. rewrite nth_error_set_other; [exact Hx|]. intros <-. congruence.
    + intros k d X. ns X; [discriminate|]. eauto.
    + intros k l x y d X Y Cx Cy. ns X; ns Y; subst; auto.
      * eapply I7; [exact H|exact Y|exact Cx|exact Cy].
      * eapply I7; [exact X|exact H|exact Cx|exact Cy].
      * eapply I7; eauto.
    + intros d b' x X Y. ns X; [|eauto]. subst. eapply I8; [exact Z1|]. cbn [ch_buf] in *. now right.
    + intros k d w x X Y. ns X; [discriminate|eauto].
    + intros k d x X. ns X; [|eauto]. injection H1 as -> ->. eapply I8; [exact Z1|]. cbn. now left.
  - (* drained *)
    split; cbn [answer set_chan set_run set_caller q_callers q_runs q_chans q_log q_on q_cur]; auto.
    + intros x Hc. rewrite tokens_answer. erewrite tokens_run by exact H. rewrite I1 by exact Hc. cbn [tok_run]. lia.
    + rewrite (cnt_set _ _ _ _ _ H). cbn [active]. lia.
    + intros k x X. ns X; [|exact (I5 k x X)]. subst. exact (I5 r _ H).
    + intros k d X. ns X; [discriminate|]. eauto.
    + intros k l x y d X Y Cx Cy. ns X; ns Y; subst; auto.
      * eapply I7; [exact H|exact Y|exact Cx|exact Cy].
      * eapply I7; [exact X|exact H|exact Cx|exact Cy].
      * eapply I7; eauto.
    + intros k d w x X Y. ns X; [discriminate|eauto].
    + intros k d x X. ns X; [discriminate|]. eauto.
  - (* end *)
    split; cbn [answer set_chan set_run set_caller q_callers q_runs q_chans q_log q_on q_cur]; auto.
    + intros x Hc. erewrite tokens_run by exact H. rewrite I1 by exact Hc. reflexivity.
    + rewrite (cnt_set _ _ _ _ _ H). cbn [active]. lia.
    + intros k x X. ns X; [|exact (I5 k x X)]. subst. exact H0.
    + intros k d X. ns X; [discriminate|]. eauto.
    + intros k l x y d X Y Cx Cy. ns X; ns Y; subst; auto.
      * eapply I7; [exact H|exact Y|exact Cx|exact Cy].
      * eapply I7; [exact X|exact H|exact Cx|exact Cy].
      * eapply I7; eauto.
    + intros k d w x X Y. ns X; [discriminate|eauto].
    + intros k d x X. ns X; [discriminate|]. eauto.
  - (* stop *)
    split; cbn [answer set_chan set_run set_caller q_callers q_runs q_chans q_log q_on q_cur]; auto.
    + intros x Hc. erewrite tokens_run by exact H.
      change (tokens (QS (q_cur s) (q_chans s) false (q_callers s) (q_runs s) (q_log s)) x) with (tokens s x).
      rewrite I1 by exact Hc. reflexivity.
    + rewrite (cnt_set _ _ _ _ _ H). cbn [active].
      pose proof (cnt_pos active _ _ _ H eq_refl). destruct (q_on s); lia.
    + intros k x X. ns X; [|exact (I5 k x X)]. subst. exact (I5 r _ H).
    + intros k d X. ns X; [discriminate|]. eauto.
    + intros k l x y d X Y Cx Cy. ns X; ns Y; subst; auto.
      * eapply I7; [exact H|exact Y|exact Cx|exact Cy].
      * eapply I7; [exact X|exact H|exact Cx|exact Cy].
      * eapply I7; eauto.
    + intros k d w x X Y. ns X; [discriminate|eauto].
    + intros k d x X. ns X; [discriminate|]. eauto.
Qed.

Lemma qinv_reach buffer workers callers runs s : q_reach buffer workers callers runs s -> qinv callers s.
Proof. induction 1; [apply qinv_init|eapply qinv_step; eauto]. Qed.
(** a channel that is neither in db.queue nor being emptied by a Run is empty *)
Definition swept (s : qsys) : Prop := forall ch b, nth_error (q_chans s) ch = Some b -> ch <> q_cur s ->
  b = Chan [] true \/ exists n, nth_error (q_runs s) n = Some (RSwap ch) \/ exists h, nth_error (q_runs s) n = Some (RDrain ch h).
Lemma keep_run (l : list runner) r x y ch n : nth_error l r = Some x -> 
  (x <> RSwap ch /\ forall h, x <> RDrain ch h) ->
  (nth_error l n = Some (RSwap ch) \/ exists h, nth_error l n = Some (RDrain ch h)) ->
  (nth_error (set_nth r y l) n = Some (RSwap ch) \/ exists h, nth_error (set_nth r y l) n = Some (RDrain ch h)).
Proof.
  intros Hx [N1 N2] H. destruct (Nat.eq_dec r n) as [->|D].
  - destruct H as [H|[h H]]; rewrite Hx in H; injection H as H; [now destruct N1|now destruct (N2 h)].
  - now rewrite !(nth_error_set_other r n y l D).
Qed.
Lemma keep_run2 (l : list runner) r x ch0 h0 ch n : nth_error l r = Some x -> (x = RSwap ch0 \/ exists h, x = RDrain ch0 h) ->
  (nth_error l n = Some (RSwap ch) \/ exists h, nth_error l n = Some (RDrain ch h)) ->
  (nth_error (set_nth r (RDrain ch0 h0) l) n = Some (RSwap ch) \/ exists h, nth_error (set_nth r (RDrain ch0 h0) l) n = Some (RDrain ch h)).
Proof.
  intros Hx C H. destruct (Nat.eq_dec r n) as [->|D].
  - right. exists h0. rewrite (nth_error_set_same n _ l _ Hx). destruct C as [->|[h1 ->]], H as [H|[h H]]; rewrite Hx in H; congruence.
  - now rewrite !(nth_error_set_other r n _ l D).
Qed.
Lemma set_nth_cases {A} n (y : A) l m x : nth_error (set_nth n y l) m = Some x -> (m = n /\ x = y) \/ (m <> n /\ nth_error l m = Some x).
Proof.
  intros H. destruct (Nat.eq_dec n m) as [<-|D]; [left|right].
  - split; [reflexivity|]. destruct (nth_error l n) eqn:E.
    + rewrite (nth_error_set_same n y l _ E) in H. congruence.
    + assert (nth_error (set_nth n y l) n <> None) as K by congruence. apply nth_error_Some in K. rewrite set_nth_len in K.
      apply nth_error_None in E. lia.
  - split; [auto|]. now rewrite nth_error_set_other in H by auto.
Qed.
Lemma swept_reach buffer workers callers runs s : q_reach buffer workers callers runs s -> swept s.
Proof.
  induction 1 as [|s s' R IH T].
  - intros ch b H N. cbn in *. destruct ch as [|[|ch]]; cbn in H; try discriminate. now destruct N.
  - pose proof (qinv_reach _ _ _ _ _ R) as HI. intros ch b Hb N. destruct T; cbn [set_caller set_run set_chan answer q_chans q_cur q_runs] in *.
    all: try (now apply IH).
    all: try (apply set_nth_cases in Hb as [[-> ->]|[D Hb]]).
    all: try (destruct (IH _ _ Hb N) as [|(k & K)]; [now left|right; exists k; eapply keep_run; [eassumption|split; [discriminate|intros; discriminate]|exact K]]).
    all: try (now apply IH).
    + destruct (IH _ _ H0 N) as [X|X]; [discriminate|now right].
    + destruct N. apply (qi_run _ _ HI _ _ H).
    + destruct (Nat.eq_dec ch ch0) as [->|D].
      * right. exists r. left. eapply nth_error_set_same. exact H.
      * pose proof (qi_run _ _ HI _ _ H) as E0. cbn in E0.
        assert (K : nth_error (q_chans s) ch = Some b).
        { assert (ch < length (q_chans s))%nat; [|now rewrite nth_error_app1 in Hb].
          assert (X : nth_error (q_chans s ++ [Chan [] false]) ch <> None) by congruence. apply nth_error_Some in X. rewrite app_length in X. cbn in X. lia. }
        destruct (IH _ _ K) as [|(k & X)]; [congruence|now left|right]. exists k. eapply keep_run; [exact H|split; [discriminate|intros; discriminate]|exact X].
    + right. exists r. right. exists None. eapply nth_error_set_same. exact H.
    + destruct (IH _ _ Hb N) as [|(k & X)]; [now left|right]. exists k. eapply keep_run2; [exact H|auto|exact X].
    + pose proof (qi_run _ _ HI _ _ H) as (b0 & X). congruence.
    + right. exists r. right. exists (Some c). eapply nth_error_set_same. exact H.
    + destruct (IH _ _ Hb N) as [|(k & X)]; [now left|right]. exists k. eapply keep_run2; [exact H|eauto|exact X].
    + destruct (IH _ _ Hb N) as [|(k & X)]; [now left|right]. exists k. eapply keep_run2; [exact H|eauto|exact X].
    + destruct (Nat.eq_dec ch ch0) as [->|D]; [left; congruence|].
      destruct (IH _ _ Hb N) as [|(k & X)]; [now left|right]. exists k. eapply keep_run; [exact H|split; [discriminate|intros; congruence]|exact X].
Qed.

