From Coq Require Import ZArith List Bool Lia.
From Verif Require Import Base Cache CacheProofs LockPool LockPoolProofs Queue QueueProofs Graphite Listener.
Import ListNotations.
Open Scope Z_scope.

(** ** the scanner fed byte by byte is [scan] *)
Lemma k_feed_app k a b : k_feed k (a ++ b) =
  (fst (k_feed (fst (k_feed k a)) b), snd (k_feed k a) ++ snd (k_feed (fst (k_feed k a)) b)).
Proof.
  revert k; induction a as [|c a IH]; intros k; cbn [k_feed app fst snd].
  - destruct (k_feed k b); reflexivity.
  - destruct (k_byte k c) as [k1 t] eqn:E. rewrite IH. destruct (k_feed k1 a) as [k2 ts] eqn:E2. cbn [fst snd].
    now rewrite app_assoc.
Qed.
Lemma k_feed_dead k bs : k_dead k = true -> k_feed k bs = (k, []).
Proof.
  intros H. induction bs as [|c bs IH]; cbn [k_feed]; [reflexivity|].
  unfold k_byte. rewrite H, IH. reflexivity.
Qed.
Lemma scan_feed bs : forall cur n, n < max_line ->
  scan_ cur n bs = (snd (k_feed (Scanner cur n false) bs) ++ k_end (fst (k_feed (Scanner cur n false) bs)),
                    negb (k_dead (fst (k_feed (Scanner cur n false) bs)))).
Proof.
  induction bs as [|c bs IH]; intros cur n Hn.
  - cbn [scan_ k_feed fst snd app k_end k_dead]. replace (max_line <=? n) with false by (symmetry; apply Z.leb_gt; lia).
    unfold k_end. cbn [k_dead k_cur]. destruct cur; reflexivity.
  - cbn [scan_ k_feed]. replace (max_line <=? n) with false by (symmetry; apply Z.leb_gt; lia).
    unfold k_byte. cbn [k_dead k_cur k_n]. destruct (c =? ch_nl) eqn:E.
    + unfold k_new. rewrite (IH [] 0) by (unfold max_line; lia).
      destruct (k_feed (Scanner [] 0 false) bs) as [k ts]. cbn [fst snd app]. reflexivity.
    + destruct (max_line <=? n + 1) eqn:E2.
      * rewrite k_feed_dead by reflexivity. cbn [fst snd app k_end k_dead negb].
        destruct bs; cbn [scan_]; rewrite E2; reflexivity.
      * apply Z.leb_gt in E2. rewrite (IH (c :: cur) (n + 1)) by lia.
        destruct (k_feed (Scanner (c :: cur) (n + 1) false) bs) as [k ts]. cbn [fst snd app]. reflexivity.
Qed.
Lemma scan_fed bs : fst (scan bs) = snd (k_feed k_new bs) ++ k_end (fst (k_feed k_new bs)).
Proof. unfold scan. rewrite scan_feed by (unfold max_line; lia). reflexivity. Qed.

(** ** one connection *)
Definition hand (c : conn) : list (list Z) := match c_h c with HLine t => [t] | _ => [] end.
Record kinv (c : conn) : Prop := KInv {
  ki_scan : c_scan c = fst (k_feed k_new (c_in c));
  ki_toks : snd (k_feed k_new (c_in c)) ++ (if c_over c then k_end (c_scan c) else []) = c_did c ++ hand c ++ c_buf c;
  ki_out : match c_h c with HScan | HLine _ => True | _ => c_buf c = [] /\ c_over c || k_dead (c_scan c) = true end;
  ki_done : c_h c = HDone -> c_closed c = true
}.
Lemma kinv_new : kinv conn_new.
Proof. split; cbn; auto. discriminate. Qed.
Lemma kinv_step st b c c' t : kinv c -> c_step st b c c' t -> kinv c'.
Proof.
  intros [I1 I2 I3 I4] T. destruct T; cbn [c_scan c_in c_over c_did c_h c_buf c_closed] in *; unfold hand in *; cbn [c_h] in *.
  - split; cbn [c_scan c_in c_over c_did c_h c_buf c_closed]; auto; try discriminate.
    + rewrite k_feed_app. cbn [fst]. now rewrite <- I1.
    + rewrite k_feed_app. cbn [snd]. rewrite <- I1. rewrite !app_nil_r in I2. rewrite I2. cbn. now rewrite app_nil_r.
  - split; cbn [c_scan c_in c_over c_did c_h c_buf c_closed]; auto; try discriminate.
    rewrite !app_nil_r in I2. rewrite I2. reflexivity.
  - split; cbn [c_scan c_in c_over c_did c_h c_buf c_closed]; auto; try discriminate.
    rewrite !app_nil_r in I2. rewrite I2. reflexivity.
  - split; cbn [c_scan c_in c_over c_did c_h c_buf c_closed]; auto. discriminate.
  - split; cbn [c_scan c_in c_over c_did c_h c_buf c_closed]; auto; try discriminate.
    rewrite I2. rewrite <- app_assoc. reflexivity.
  - split; cbn [c_scan c_in c_over c_did c_h c_buf c_closed]; auto. discriminate.
  - split; cbn [c_scan c_in c_over c_did c_h c_buf c_closed]; auto. discriminate.
  - split; cbn [c_scan c_in c_over c_did c_h c_buf c_closed]; auto.
  - split; cbn [c_scan c_in c_over c_did c_h c_buf c_closed]; auto.
Qed.
Lemma kinv_all c : kinv c -> c_h c = HDone -> c_did c = fst (scan (c_in c)).
Proof.
  intros [I1 I2 I3 I4] H. unfold hand in I2. rewrite H in *. destruct I3 as [B O]. rewrite B in I2. rewrite app_nil_r in I2. cbn in I2.
  rewrite scan_fed, <- I1, <- I2.
  destruct (c_over c) eqn:Eo; [reflexivity|]. cbn in O. unfold k_end. rewrite O. reflexivity.
Qed.
Lemma done_stays st b c c' t : c_step st b c c' t -> c_h c = HDone -> c_h c' = HDone /\ t = None.
Proof. intros T H. destruct T; cbn in *; try discriminate; auto. Qed.
Lemma did_step st b c c' t : c_step st b c c' t ->
  c_did c' = c_did c ++ match t with Some t => [t] | None => [] end.
Proof. intros T. destruct T; cbn; now rewrite ?app_nil_r. Qed.

Definition hrank (h : hstate) : nat := match h with HScan => 3 | HLine _ => 4 | HEnd => 2 | HWait => 1 | HDone => 0 end.
Definition cweight (c : conn) : nat :=
  (hrank (c_h c) + 2 * length (c_buf c) + (if c_over c then 0 else 3) + (if c_closed c then 0 else 1))%nat.
Lemma k_end_len k : (length (k_end k) <= 1)%nat.
Proof. unfold k_end. destruct (k_dead k); [cbn; lia|]. destruct (k_cur k); cbn; lia. Qed.
Lemma cweight_step st c c' t : c_step st false c c' t -> (cweight c' < cweight c)%nat.
Proof.
  intros T. inversion T; subst; unfold cweight; cbn [c_h c_buf c_over c_closed hrank length]; try lia.
  pose proof (k_end_len k). lia.
Qed.
Lemma c_progress c : c_h c <> HDone -> exists c' t, c_step true false c c' t.
Proof.
  intros H. destruct c as [h k buf o b x i d]. cbn in H. destruct h.
  - destruct buf as [|t buf]; [|eauto using cs_scan].
    destruct (o || k_dead k) eqn:E; [eauto using cs_end|]. apply orb_false_iff in E as [-> E].
    destruct x; [eauto using cs_cut|eauto using cs_close].
  - eauto using cs_line.
  - eauto using cs_cancel.
  - destruct x; [eauto using cs_done|eauto using cs_close].
  - congruence.
Qed.

(** ** the listener *)
Definition past (a : gacc) : Prop := match a with ANone | AAccept => False | _ => True end.
Definition waited (a : gacc) : Prop := match a with ASend _ | ASent | AGone => True | _ => False end.
Definition sent_ (a : gacc) : Prop := match a with ASent | AGone => True | _ => False end.
Definition lines_of (n : nat) (l : list (nat * list Z)) : list (list Z) :=
  map snd (filter (fun e => Nat.eqb (fst e) n) l).

Record ginv (s : gstate) : Prop := GInv {
  gi_conns : Forall kinv (g_conns s);
  gi_none : g_acc s = ANone -> g_conns s = [] /\ (g_main s = GListen \/ exists e, g_main s = GRet (Some e));
  gi_listen : g_main s = GListen -> g_acc s = ANone /\ g_open s = false /\ g_errs s = None;
  gi_waited : waited (g_acc s) -> Forall (fun c => c_h c = HDone) (g_conns s);
  gi_errs : g_errs s <> None -> sent_ (g_acc s);
  gi_send : ~ sent_ (g_acc s) -> g_errs s = None;
  gi_select : g_main s = GSelect \/ g_main s = GClose -> g_open s = true;
  gi_wait : g_main s = GWait -> g_open s = false;
  gi_ret : forall e, g_main s = GRet e -> g_open s = false;
  gi_done : g_main s = GClose \/ g_main s = GWait \/ g_main s = GRet None -> g_done s = true;
  gi_past : past (g_acc s) -> g_failed s = true \/ g_main s = GWait \/ g_main s = GRet None;
  gi_fail : forall e, g_main s = GRet (Some e) -> g_failed s = true /\ (g_acc s = ANone \/ sent_ (g_acc s));
  gi_nil : g_main s = GRet None -> g_acc s = AGone;
  gi_log : forall n c, nth_error (g_conns s) n = Some c -> lines_of n (g_log s) = c_did c;
  gi_ids : Forall (fun e => (fst e < length (g_conns s))%nat) (g_log s)
}.

Lemma lines_none n l : Forall (fun e => (fst e < n)%nat) l -> lines_of n l = [].
Proof.
  unfold lines_of. induction 1 as [|e l H HF IH]; [reflexivity|]. cbn [filter].
  replace (Nat.eqb (fst e) n) with false by (symmetry; apply Nat.eqb_neq; lia). exact IH.
Qed.
Lemma lines_app n l t k : lines_of n (l ++ [(k, t)]) = lines_of n l ++ (if Nat.eqb k n then [t] else []).
Proof. unfold lines_of. rewrite filter_app, map_app. cbn. destruct (Nat.eqb k n); reflexivity. Qed.
Lemma forall_set {A} (P : A -> Prop) n x l : Forall P l -> P x -> Forall P (set_nth n x l).
Proof. intros H Hx. revert n. induction H; intros n; destruct n; cbn; constructor; auto. Qed.

Ltac gsimp := cbn [g_main g_acc g_conns g_open g_done g_stop g_errs g_failed g_log] in *.
Ltac gauto := gsimp; unfold waited, sent_, past in *; try tauto; try congruence; try discriminate; try (intros [?|[?|?]]; discriminate); try (intros [?|?]; discriminate); auto.
Lemma ginv_init : ginv g_init.
Proof.
  unfold g_init. split; gauto.
  intros n c H. now destruct n.
Qed.
Lemma ginv_step b s s' : ginv s -> g_step b s s' -> ginv s'.
Proof.
  intros [I1 I2 I3 I4 I5 I6 I7 I8 I9 I10 I11 I12 I13 I14 I15] T.
  destruct T; gsimp.
  - split; gauto.
  - split; gauto.
  - split; gauto. eauto.
  - split; gauto.
    + apply Forall_app. split; auto using kinv_new.
    + intros n c H. destruct (Nat.eq_dec n (length cs)) as [->|Hn].
      * rewrite nth_error_app2, Nat.sub_diag in H by lia. cbn in H. injection H as <-. now apply lines_none.
      * apply I14. rewrite nth_error_app1 in H; [exact H|]. assert (nth_error (cs ++ [conn_new]) n <> None) as X by congruence.
        apply nth_error_Some in X. rewrite app_length in X. cbn in X. lia.
    + eapply Forall_impl; [|exact I15]. cbn. intros a Ha. rewrite app_length. lia.
  - split; gauto.
    + intros H. destruct (I3 H) as [X _]. discriminate.
    + intros e' H. split; [reflexivity|]. destruct (I12 e' H) as [_ [X|X]]; [discriminate|tauto].
    + intros H. specialize (I13 H). discriminate.
  - assert (M : m <> GListen) by (intros ->; destruct (I3 eq_refl) as [X _]; discriminate).
    split; gauto.
    + intros _. destruct m as [| | | |[e'|]]; auto; try congruence.
      * specialize (I7 (or_introl eq_refl)). discriminate.
      * specialize (I7 (or_intror eq_refl)). discriminate.
      * left. apply (I12 e' eq_refl).
    + intros e' H. destruct (I12 e' H) as [_ [X|X]]; [discriminate|tauto].
    + intros H. specialize (I13 H). discriminate.
  - split; gauto.
    + intros H. destruct (I3 H) as [X _]. discriminate.
    + intros e' H. destruct (I12 e' H) as [_ [X|X]]; [discriminate|tauto].
    + intros H. specialize (I13 H). discriminate.
  - split; gauto.
    + intros H0. destruct (I3 H0) as [X _]. discriminate.
    + intros e' H0. destruct (I12 e' H0) as [_ [X|X]]; [discriminate|tauto].
    + intros H0. specialize (I13 H0). discriminate.
  - split; gauto.
    + intros H. destruct (I3 H) as [X _]. discriminate.
    + intros e' H. destruct (I12 e' H) as [_ [X|X]]; [discriminate|tauto].
    + intros H. specialize (I13 H). discriminate.
  - split; gauto.
    + intros H. destruct (I3 H) as [X _]. discriminate.
    + intros e' H. destruct (I12 e' H) as [X _]. tauto.
  - assert (S : sent_ a) by (apply I5; discriminate).
    split; gauto.
    + intros H. subst a. destruct S.
    + intros H. destruct (I11 H) as [X|[X|X]]; auto; discriminate.
    + intros e' H. split; [|right; exact S]. destruct I11 as [X|[X|X]]; auto; try discriminate. destruct a; tauto.
  - split; gauto.
    + intros H. destruct (I2 H) as [_ [X|[e X]]]; discriminate.
    + intros H. destruct (I11 H) as [X|[X|X]]; auto; discriminate.
  - split; gauto.
    + intros H. destruct (I2 H) as [_ [X|[e X]]]; discriminate.
  - split; gauto.
  - assert (L : forall k c1, nth_error (set_nth n c' cs) k = Some c1 -> lines_of k (match t with Some t => l ++ [(n, t)] | None => l end) = c_did c1).
    { intros k c1 E. apply nth_error_set in E. destruct E as [[-> ->]|[Hk E]].
      - rewrite (did_step _ _ _ _ _ H0), <- (I14 _ _ H). destruct t; [|now rewrite app_nil_r]. rewrite lines_app, Nat.eqb_refl. reflexivity.
      - destruct t; [|now apply I14]. rewrite lines_app. replace (Nat.eqb n k) with false by (symmetry; apply Nat.eqb_neq; lia).
        rewrite app_nil_r. now apply I14. }
    assert (Hlt : (n < length cs)%nat) by (apply nth_error_Some; congruence).
    split; gauto.
    + apply forall_set; [exact I1|]. eapply kinv_step; [|exact H0]. eapply Forall_forall; [exact I1|]. eapply nth_error_In; eauto.
    + intros X. destruct (I2 X) as [Y _]. subst cs. now destruct n.
    + intros X. specialize (I4 X). apply forall_set; [exact I4|]. eapply done_stays; [exact H0|].
      rewrite Forall_forall in I4. apply I4. eapply nth_error_In; eauto.
    + destruct t; [|now rewrite set_nth_length]. apply Forall_app. rewrite set_nth_length. split; [exact I15|]. repeat constructor. exact Hlt.
Qed.
Lemma ginv_reach s : g_reach s -> ginv s.
Proof. induction 1; [apply ginv_init|eapply ginv_step; eauto]. Qed.

(** ** progress *)
Definition mrank (m : gmain) : nat := match m with GListen => 4 | GSelect => 3 | GClose => 2 | GWait => 1 | GRet _ => 0 end.
Definition arank (a : gacc) : nat := match a with ANone => 6 | AAccept => 5 | AFail _ => 4 | AWait _ => 3 | ASend _ => 2 | ASent => 1 | AGone => 0 end.
Fixpoint csum (l : list conn) : nat := match l with [] => 0 | c :: l => cweight c + csum l end.
Definition gweight (s : gstate) : nat := (mrank (g_main s) + arank (g_acc s) + csum (g_conns s))%nat.
Lemma csum_set l n c c' : nth_error l n = Some c -> (csum (set_nth n c' l) + cweight c = csum l + cweight c')%nat.
Proof. revert n; induction l as [|x l IH]; intros [|n] H; cbn in *; try discriminate; [injection H as ->; lia|]. specialize (IH _ H). lia. Qed.
Lemma gweight_step s s' : g_step false s s' -> (gweight s' < gweight s)%nat.
Proof.
  intros T. inversion T; subst; unfold gweight; gsimp; cbn [mrank arank csum]; try lia.
  match goal with A : nth_error _ _ = Some _, B : c_step _ _ _ _ _ |- _ => 
    pose proof (csum_set _ _ _ c' A); apply cweight_step in B end. lia.
Qed.
Lemma gweight_runs n s s' : g_runs n s s' -> (n + gweight s' <= gweight s)%nat.
Proof. induction 1 as [|n s t u T R IH]; [lia|]. apply gweight_step in T. lia. Qed.

Lemma g_progress s : ginv s -> g_done s = true -> (forall e, g_main s <> GRet e) -> exists s', g_step false s s'.
Proof.
  intros [I1 I2 I3 I4 I5 I6 I7 I8 I9 I10 I11 I12 I13 I14 I15] D M.
  destruct s as [m a cs o d st x f l]. gsimp. subst d. destruct m.
  - destruct (I3 eq_refl) as (-> & -> & ->). destruct (I2 eq_refl) as [-> _]. eexists. apply gs_listen.
  - eexists. apply gs_select_done.
  - eexists. apply gs_close.
  - rewrite (I8 eq_refl) in *. destruct a.
    + destruct (I2 eq_refl) as [_ [X|[e X]]]; discriminate.
    + eexists. apply (gs_accept_closed _ 0).
    + eexists. apply gs_acc_cancel.
    + destruct (Forall_Exists_dec (fun c => c_h c = HDone)) with (l := cs) as [F|F].
      { intros c. destruct (c_h c); (left; reflexivity) || (right; discriminate). }
      * eexists. now apply gs_acc_wait.
      * apply Exists_exists in F as (c & Hin & Hc). apply In_nth_error in Hin as [n Hn].
        destruct (c_progress c Hc) as (c' & t & T). eexists. eapply gs_conn; [exact Hn|]. cbn. exact T.
    + rewrite (I6 (fun X => X)). eexists. apply gs_acc_send.
    + eexists. apply gs_acc_done.
    + eexists. apply gs_wait.
  - now specialize (M e).
Qed.
Lemma g_done_step s s' : g_step false s s' -> g_done s' = g_done s /\ g_failed s' = g_failed s.
Proof. intros T. inversion T; subst; cbn; auto. Qed.
Lemma g_finish : forall n s, (gweight s <= n)%nat -> g_reach s -> g_done s = true ->
  exists k s' e, g_runs k s s' /\ g_reach s' /\ g_main s' = GRet e /\ g_failed s' = g_failed s.
Proof.
  induction n as [n IH] using lt_wf_ind. intros s Hw R D.
  destruct (g_main s) eqn:E; [..|exists 0%nat, s, e; repeat split; auto; constructor].
  all: destruct (g_progress s (ginv_reach s R) D) as [t T]; [congruence|];
    destruct (g_done_step _ _ T) as [D1 F1]; pose proof (gweight_step _ _ T) as W;
    (destruct (IH (gweight t)) with (s := t) as (k & s' & e & A & B & C & F); [lia|lia|econstructor; eauto|congruence|]);
    exists (S k), s', e; (repeat split; [econstructor; eauto|exact B|exact C|congruence]).
Qed.
