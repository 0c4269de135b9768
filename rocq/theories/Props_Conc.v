(** C62: concurrent calls are linearizable.

    Vocabulary: [conc_reach n root size cap max handles rand s] (Conc.v) says
    that [n] goroutines, each making any calls of Query, QueryLatest and write
    one after the other, can bring an empty database into state [s], with their
    atomic actions interleaved in any way and the handle cache emptied at any
    time; [cs_log s] are the invocations and returns so far.  ConcSpec.v says
    what linearizable means.  [db_empty] and [c_run] are the database and the
    single client of C12-C19 (DbSpec.v). *)
From Coq Require Import ZArith List Lia Bool.
From Verif Require Import Base Maps Record Convert File FileProofs Cache CacheProofs
  Metric MetricSpec MetricFile MetricPaths MetricProofs MetricRead DbSpec DbProofs DbLog DbClient DbRetain
  RejectSpec RejectProofs LockPool LockPoolProofs Conc ConcSpec ConcFs ConcSim ConcSeq ConcSafe ConcProofs Props_Storage Props_Reject.
Import ListNotations.
Open Scope Z_scope.

Definition calls (log : list event) : Z := cnt is_inv log.
Lemma fine_intro (ok : op -> Prop) log : (forall t o, In (EInv t o) log -> ok o) -> len log < 2 ^ 61 -> fine ok log.
Proof.
  intros H1 H2. split; [exact H1|]. assert (cnt is_inv log <= len log); [|lia]. clear. unfold len.
  induction log as [|e l IH]; cbn [cnt length]; [lia|]. destruct (is_inv e); lia.
Qed.
Lemma ci_explains root size cap max handles rand nc ok SI s H xs f q g :
  ci root size cap max handles rand nc ok SI s H xs f q g ->
  explains (db_empty root size cap max handles rand) (cs_log s) H.
Proof.
  intros C. split; [exact (ci_log _ _ _ _ _ _ _ _ _ _ _ _ _ _ _ C)|].
  split; [intros t; eexists; apply (ci_fol _ _ _ _ _ _ _ _ _ _ _ _ _ _ _ C)|].
  rewrite (ci_run _ _ _ _ _ _ _ _ _ _ _ _ _ _ _ C). reflexivity.
Qed.

(** With any handle cache, for values that fit an empty file. *)
Theorem C62_linearizable :
  forall n root size cap max handles rand s,
  root <> [] -> process_ok size cap handles rand ->
  conc_reach n root size cap max handles rand s ->
  (forall t o, In (EInv t o) (cs_log s) -> call_fits size cap o) -> len (cs_log s) < 2 ^ 61 ->
  linearizable (db_empty root size cap max handles rand) (cs_log s).
Proof.
  intros n root size cap max handles rand s Hr Hp HR Ho Hn.
  destruct (lin_fit root size cap max handles rand Hr Hp n s HR (fine_intro _ _ Ho Hn)) as (H & xs & f & q & g & C).
  exists H. eapply ci_explains; eauto.
Qed.
Print Assumptions C62_linearizable.

(** Without a handle cache, for values of any size. *)
Theorem C62_any_size_linearizable :
  forall n root size cap max rand s,
  root <> [] -> process_ok size cap 0 rand ->
  conc_reach n root size cap max 0 rand s ->
  (forall t o, In (EInv t o) (cs_log s) -> call_any o) -> len (cs_log s) < 2 ^ 61 ->
  linearizable (db_empty root size cap max 0 rand) (cs_log s).
Proof.
  intros n root size cap max rand s Hr Hp HR Ho Hn.
  destruct (lin_any root size cap max 0 rand Hr Hp n s eq_refl HR (fine_intro _ _ Ho Hn)) as (H & xs & f & q & g & C).
  exists H. eapply ci_explains; eauto.
Qed.
Print Assumptions C62_any_size_linearizable.

(** Between calls the data files are those the single client would have left:
    the same files with the same bytes in every metric directory, and the same
    directories. *)
Definition file_in (st : db) (path : list Z) : option (list Z) := option_map (contents st) (mget beqb path (w_files st)).
Theorem C62_files_between_calls :
  forall n root size cap max handles rand s,
  root <> [] -> process_ok size cap handles rand ->
  conc_reach n root size cap max handles rand s ->
  (forall t o, In (EInv t o) (cs_log s) -> call_fits size cap o) -> len (cs_log s) < 2 ^ 61 ->
  (forall t th, nth_error (cs_threads s) t = Some th -> ct_call th = None) ->
  exists H, explains (db_empty root size cap max handles rand) (cs_log s) H /\
    let st := fst (c_run (lin_ops H) (db_empty root size cap max handles rand)) in
    (forall name i, file_in (cs_db s) (path_of root name i) = file_in st (path_of root name i)) /\
    (forall d, In d (w_dirs (cs_db s)) <-> In d (w_dirs st)).
Proof.
  intros n root size cap max handles rand s Hr Hp HR Ho Hn Hidle.
  destruct (lin_fit root size cap max handles rand Hr Hp n s HR (fine_intro _ _ Ho Hn)) as (H & xs & f & q & g & C).
  exists H. split; [eapply ci_explains; eauto|]. rewrite (ci_run _ _ _ _ _ _ _ _ _ _ _ _ _ _ _ C). cbn [fst].
  destruct (ci_see _ _ _ _ _ _ _ _ _ _ _ _ _ _ _ C) as [S1 S2]. destruct (ci_seq _ _ _ _ _ _ _ _ _ _ _ _ _ _ _ C) as [Q1 Q2]. split.
  - intros name i. unfold file_in. rewrite <- S1, <- Q1.
    destruct (ci_agree _ _ _ _ _ _ _ _ _ _ _ _ _ _ _ C name) as [A|(t & j & o & p & h & r & E & _)].
    + apply A. now apply own_path.
    + specialize (Hidle t _ E). discriminate.
  - intros d. rewrite S2, Q2. apply (ci_dirs _ _ _ _ _ _ _ _ _ _ _ _ _ _ _ C).
Qed.
Print Assumptions C62_files_between_calls.

(** ** what a client sees of it *)
Definition tnext (t : nat) (y : tstate) (e : hevent) (x : tstate) : Prop :=
  (thread_of e <> t /\ x = y) \/ (exists o, e = HInv t o /\ y = TIdle /\ x = TPend o) \/
  (exists o r, e = HLin t o r /\ y = TPend o /\ x = TDone o r) \/ (exists o r, e = HRes t r /\ y = TDone o r /\ x = TIdle).
Lemma follows_last t H e x : follows t (H ++ [e]) x -> exists y, follows t H y /\ tnext t y e x.
Proof.
  intros F. inversion F as [E|H' o F' E|H' o r F' E|H' o r F' E|H' e' x' F' Hne E]; subst.
  - destruct H; discriminate.
  - apply app_inj_tail in E. destruct E as [-> <-]. eexists. split; [exact F'|]. unfold tnext. eauto 10.
  - apply app_inj_tail in E. destruct E as [-> <-]. eexists. split; [exact F'|]. unfold tnext. eauto 10.
  - apply app_inj_tail in E. destruct E as [-> <-]. eexists. split; [exact F'|]. unfold tnext. eauto 10.
  - apply app_inj_tail in E. destruct E as [-> <-]. eexists. split; [exact F'|]. unfold tnext. auto.
Qed.
Lemma follows_prefix t H2 : forall H1 x, follows t (H1 ++ H2) x -> exists y, follows t H1 y.
Proof.
  induction H2 as [|e H2 IH] using rev_ind; intros H1 x F; [rewrite app_nil_r in F; eauto|].
  rewrite app_assoc in F. apply follows_last in F. destruct F as (y & F & _). eauto.
Qed.
Lemma follows_during t o H1 : follows t (H1 ++ [HInv t o]) (TPend o) -> forall H2 x,
  follows t ((H1 ++ [HInv t o]) ++ H2) x -> silent t (observe H2) ->
  x = TPend o \/ exists r a b, x = TDone o r /\ H2 = a ++ HLin t o r :: b.
Proof.
  intros F0. induction H2 as [|e H2 IH] using rev_ind; intros x F Hs.
  - rewrite app_nil_r in F. apply follows_last in F. destruct F as (y & _ & N). left.
    destruct N as [[N _]|[(o' & E & _ & ->)|[(o' & r & E & _)|(o' & r & E & _)]]]; [contradiction N; reflexivity|congruence|discriminate|discriminate].
  - rewrite app_assoc in F. apply follows_last in F. destruct F as (y & F & N).
    unfold observe in Hs. rewrite flat_map_app in Hs.
    specialize (IH y F ltac:(intros e' He'; apply Hs, in_app_iff; now left)).
    assert (Hl : silent t (observe1 e)) by (intros e' He'; apply Hs, in_app_iff; right; cbn; now rewrite app_nil_r).
    destruct N as [[N ->]|[(o' & -> & _ & ->)|[(o' & r & -> & -> & ->)|(o' & r & -> & _)]]].
    + destruct IH as [->|(r & a & b & -> & ->)]; [now left|]. right. exists r, a, (b ++ [e]). split; [reflexivity|].
      now rewrite <- app_assoc.
    + exfalso. apply (Hl (EInv t o')); [now left|reflexivity].
    + destruct IH as [E|(r' & a & b & E & _)]; [|discriminate]. injection E as ->. right. exists r, H2, []. auto.
    + exfalso. apply (Hl (ERes t r)); [now left|reflexivity].
Qed.
Lemma observe_split : forall H A e B, observe H = A ++ e :: B ->
  exists HA he HB, H = HA ++ he :: HB /\ observe HA = A /\ observe1 he = [e] /\ observe HB = B.
Proof.
  induction H as [|h H IH]; intros A e B E; [destruct A; discriminate|].
  unfold observe in E. cbn [flat_map] in E. fold (observe H) in E.
  assert (Go : forall A', observe H = A' ++ e :: B -> observe1 h ++ A' = A -> exists HA he HB,
    h :: H = HA ++ he :: HB /\ observe HA = A /\ observe1 he = [e] /\ observe HB = B).
  { intros A' E1 E2. destruct (IH _ _ _ E1) as (HA & he & HB & -> & <- & H1 & H2). exists (h :: HA), he, HB. auto. }
  assert (One : forall e0, observe1 h = [e0] -> exists HA he HB,
    h :: H = HA ++ he :: HB /\ observe HA = A /\ observe1 he = [e] /\ observe HB = B).
  { intros e0 Ee. rewrite Ee in E. destruct A as [|a A]; cbn in E; injection E as <- E.
    - exists [], h, H. auto.
    - apply (Go A E). now rewrite Ee. }
  destruct h as [t o|t o r|t r]; cbn in E.
  - now apply (One (EInv t o)).
  - now apply (Go A).
  - now apply (One (ERes t r)).
Qed.

(** a call in the log took effect between its invocation and its return *)
Lemma called_lin d log H t o r before after : explains d log H -> called t o r log before after ->
  exists HA a b HB, H = HA ++ HInv t o :: a ++ HLin t o r :: b ++ HRes t r :: HB /\
    observe HA = before /\ observe HB = after.
Proof.
  intros (Eo & Hf & _) (during & El & Hs). rewrite El in Eo.
  destruct (observe_split _ _ _ _ Eo) as (HA & he & H1 & -> & EA & E1 & E2).
  destruct (observe_split _ _ _ _ E2) as (H2 & he2 & HB & -> & E3 & E4 & E5).
  assert (he = HInv t o) as -> by (destruct he; cbn in E1; congruence).
  assert (he2 = HRes t r) as -> by (destruct he2; cbn in E4; congruence).
  destruct (Hf t) as (x & F).
  replace (HA ++ HInv t o :: H2 ++ HRes t r :: HB) with ((((HA ++ [HInv t o]) ++ H2) ++ [HRes t r]) ++ HB) in F
    by now rewrite <- !app_assoc.
  destruct (follows_prefix _ _ _ _ F) as (x1 & F1). apply follows_last in F1. destruct F1 as (y & F1 & N).
  destruct N as [[N _]|[(o' & E & _)|[(o' & r' & E & _)|(o' & r' & E & -> & _)]]]; [contradiction N; reflexivity|discriminate|discriminate|].
  injection E as <-. destruct (follows_prefix _ _ _ _ F1) as (x2 & F2). pose proof F2 as F3. apply follows_last in F3. destruct F3 as (y3 & _ & N).
  destruct N as [[N _]|[(o'' & E & _ & ->)|[(o'' & r' & E & _)|(o'' & r' & E & _)]]]; [contradiction N; reflexivity| |discriminate|discriminate].
  injection E as <-.
  destruct (follows_during t o HA F2 H2 _ F1 ltac:(rewrite E3; exact Hs)) as [E|(r' & a & b & E & ->)]; [discriminate|].
  injection E as -> <-. exists HA, a, b, HB. split; [now rewrite <- !app_assoc|auto].
Qed.

Lemma lin_len H : length (lin_ops H) = length (lin_outs H).
Proof. induction H as [|[] H IH]; cbn; auto. Qed.
Lemma c_run_len : forall ops st, length (snd (c_run ops st)) = length ops.
Proof.
  induction ops as [|o ops IH]; intros st; [reflexivity|]. cbn [c_run]. destruct (c_step o st) as [st1 r].
  specialize (IH st1). destruct (c_run ops st1). cbn in *. congruence.
Qed.
Lemma c_run_split o1 o o2 st r1 r r2 : snd (c_run (o1 ++ o :: o2) st) = r1 ++ r :: r2 -> length r1 = length o1 ->
  exists st1, c_run o1 st = (st1, r1) /\ snd (c_step o st1) = r /\ snd (c_run o2 (fst (c_step o st1))) = r2.
Proof.
  rewrite c_run_app. pose proof (c_run_len o1 st) as L. destruct (c_run o1 st) as [st1 q1]. cbn [snd] in L. cbn [c_run].
  destruct (c_step o st1) as [st2 q] eqn:E1. destruct (c_run o2 st2) as [st3 q2] eqn:E2. cbn [snd fst]. intros E EL.
  assert (q1 = r1 /\ q :: q2 = r :: r2) as [-> E'].
  { revert E. assert (L' : length q1 = length r1) by congruence. clear - L'. revert r1 L'.
    induction q1 as [|x q1 IH]; intros [|y r1] L' E; cbn in *; try lia; [auto|]. injection E as <- E.
    destruct (IH r1 ltac:(lia) E) as [-> ?]. auto. }
  injection E' as -> ->. exists st1. rewrite E1. cbn [fst snd]. rewrite E2. auto.
Qed.
Lemma acked_app name o1 r1 o2 r2 : length o1 = length r1 -> acked name (o1 ++ o2) (r1 ++ r2) = acked_ name o2 r2 (acked name o1 r1).
Proof.
  unfold acked. generalize (@nil value). revert r1. induction o1 as [|o o1 IH]; intros [|r r1] log L; cbn in L; try lia; [reflexivity|].
  cbn [app]. rewrite !acked_cons. apply IH. lia.
Qed.
Lemma acked_more name : forall ops outs log, exists l, acked_ name ops outs log = l ++ log.
Proof.
  induction ops as [|o ops IH]; intros [|r outs] log; try (exists []; reflexivity); [destruct o; exists []; reflexivity|].
  rewrite acked_cons. destruct (IH outs (log1 name o r log)) as (l & ->).
  assert (exists l1, log1 name o r log = l1 ++ log) as (l1 & ->).
  { unfold log1. destruct o; try (exists []; reflexivity). destruct r; try (exists []; reflexivity).
    destruct r as [[]| | |]; try (exists []; reflexivity). destruct (beqb name0 name); [exists [v]|exists []]; reflexivity. }
  exists (l ++ l1). now rewrite app_assoc.
Qed.
Lemma desc_head v l w : desc (w :: l) -> In v (w :: l) -> v_end v <= v_end w.
Proof.
  revert w; induction l as [|x l IH]; intros w Hd [<-|Hin]; try lia; [destruct Hin|].
  destruct Hd as [Hd1 Hd2]. specialize (IH x Hd2 Hin). lia.
Qed.

Lemma lin_ops_mid a t o r b : lin_ops (a ++ HLin t o r :: b) = lin_ops a ++ o :: lin_ops b.
Proof. unfold lin_ops. now rewrite flat_map_app. Qed.
Lemma lin_outs_mid a t o r b : lin_outs (a ++ HLin t o r :: b) = lin_outs a ++ r :: lin_outs b.
Proof. unfold lin_outs. now rewrite flat_map_app. Qed.
Lemma lin_in H : forall o, In o (lin_ops H) -> exists t r, In (HLin t o r) H.
Proof.
  intros o Hin. unfold lin_ops in Hin. apply in_flat_map in Hin. destruct Hin as (e & He & Hin).
  destruct e as [| t o' r|]; cbn in Hin; try contradiction. destruct Hin as [->|[]]. eauto.
Qed.
Lemma follows_lin_inv t H x : follows t H x -> forall o r, In (HLin t o r) H -> In (EInv t o) (observe H).
Proof.
  assert (G : follows t H x -> (forall o r, In (HLin t o r) H -> In (EInv t o) (observe H)) /\
    match x with TPend o | TDone o _ => In (EInv t o) (observe H) | TIdle => True end).
  { induction 1 as [|H o F [IH1 IH2]|H o r F [IH1 IH2]|H o r F [IH1 IH2]|H e x F [IH1 IH2] Hne];
      (split; [intros o0 r0 Hin; try (apply in_app_iff in Hin; destruct Hin as [Hin|[Hin|[]]])|]);
      unfold observe in *; rewrite ?flat_map_app, ?in_app_iff; eauto; try discriminate; try contradiction.
    - right. now left.
    - injection Hin as -> ->. left. exact IH2.
    - subst e. contradiction Hne. reflexivity.
    - destruct x; auto; apply in_app_iff; now left. }
  intros F. exact (proj1 (G F)).
Qed.
Lemma explains_ops d log H (ok : op -> Prop) : explains d log H -> (forall t o, In (EInv t o) log -> ok o) -> forall o, In o (lin_ops H) -> ok o.
Proof.
  intros (Eo & Hf & _) Hok o Hin. destruct (lin_in _ _ Hin) as (t & r & Hl). destruct (Hf t) as (x & F).
  apply (Hok t). rewrite <- Eo. eapply follows_lin_inv; eauto.
Qed.
Lemma ops_ok_all size cap ops : (forall o, In o ops -> call_fits size cap o /\ is_call o) -> ops_ok size cap ops.
Proof.
  induction ops as [|o ops IH]; intros Hin; [exact I|]. destruct (Hin o (or_introl eq_refl)) as [H1 H2].
  specialize (IH ltac:(intros o' Ho'; apply Hin; now right)). destruct o; cbn in *; auto. contradiction.
Qed.
Lemma log_calls n root size cap max handles rand s : conc_reach n root size cap max handles rand s ->
  forall t o, In (EInv t o) (cs_log s) -> is_call o.
Proof.
  induction 1 as [|s s' HR IH St]; intros t o Hin; [destruct Hin|].
  inversion St; subst; cbn [cs_log] in Hin; eauto; apply in_app_iff in Hin; destruct Hin as [Hin|[Hin|[]]]; eauto.
  - injection Hin as -> ->. assumption.
  - discriminate.
Qed.
Lemma explained n root size cap max handles rand s : root <> [] -> process_ok size cap handles rand ->
  conc_reach n root size cap max handles rand s ->
  (forall t o, In (EInv t o) (cs_log s) -> call_fits size cap o) -> len (cs_log s) < 2 ^ 61 ->
  exists H, explains (db_empty root size cap max handles rand) (cs_log s) H /\
    history_ok root size cap handles rand (lin_ops H).
Proof.
  intros Hr Hp HR Ho Hn. pose proof (fine_intro _ _ Ho Hn) as Hf.
  destruct (lin_fit root size cap max handles rand Hr Hp n s HR Hf) as (H & xs & f & q & g & C).
  pose proof (ci_explains _ _ _ _ _ _ _ _ _ _ _ _ _ _ _ C) as Ex. exists H. split; [exact Ex|].
  split; [exact Hr|]. split; [exact Hp|]. split.
  - apply ops_ok_all. apply (explains_ops _ _ _ (fun o => call_fits size cap o /\ is_call o) Ex).
    intros t o Hin. split; [eauto|eapply log_calls; eauto].
  - pose proof (ci_cnt _ _ _ _ _ _ _ _ _ _ _ _ _ _ _ C) as E. pose proof (cnt_nonneg pend xs). destruct Hf. lia.
Qed.
Lemma history_prefix root size cap handles rand o1 o2 : history_ok root size cap handles rand (o1 ++ o2) -> history_ok root size cap handles rand o1.
Proof.
  intros (H1 & H2 & H3 & H4). split; [exact H1|]. split; [exact H2|]. split; [exact (proj1 (ops_ok_app _ _ _ _ H3))|].
  rewrite app_length in H4. lia.
Qed.

(** ends of the acknowledged values *)
Lemma acked_in name : forall ops outs log v, In v (acked_ name ops outs log) -> In v log \/ exists m, In (OWrite m v) ops.
Proof.
  induction ops as [|o ops IH]; intros [|r outs] log v Hin; auto; [destruct o; auto|].
  rewrite acked_cons in Hin. destruct (IH _ _ _ Hin) as [H1|(m & H1)]; [|right; exists m; now right].
  unfold log1 in H1. destruct o; auto. destruct r; auto. destruct r as [[]| | |]; auto. destruct (beqb name0 name); auto.
  destruct H1 as [<-|H1]; [right; exists name0; now left|auto].
Qed.

(** QueryLatest of a single client after [ops] *)
Lemma latest_of root size cap max handles rand ops name st outs : history_ok root size cap handles rand ops ->
  c_run ops (db_empty root size cap max handles rand) = (st, outs) ->
  (forall m v, In (OWrite m v) ops -> v_end v < 2 ^ 63 - 1) ->
  desc (acked name ops outs) /\ exists r, snd (c_step (OLatest name) st) = RLatest (hd_error (acked name ops outs)) r /\
    (acked name ops outs <> [] -> r = Ok tt).
Proof.
  intros HH E Hb. destruct (history_state root size cap max handles rand ops HH)
    as (n & st' & a & outs' & E' & _ & Hn1 & Hn2 & HR & _ & _ & _ & HL & _).
  rewrite E in E'. injection E' as <- <-. split; [exact (proj1 (HL name))|].
  destruct (latest_log n st a name _ HR ltac:(lia) (HL name)) as (st2 & r & E2 & Hr2).
  { intros v l Ev. assert (In v (acked name ops outs)) as Hin by (rewrite Ev; now left).
    destruct (acked_in _ _ _ _ _ Hin) as [[]|(m & Hm)]. eauto. }
  exists r. rewrite E2. auto.
Qed.

(** the second of two calls of which the first had returned takes effect later *)
Lemma called_order d log H t o r t' o' r' before mid after :
  explains d log H -> called t o r log before (mid ++ EInv t' o' :: after) ->
  forall after', called t' o' r' (mid ++ EInv t' o' :: after) mid after' ->
  exists o1 o2 o3 r1 r2 r3, lin_ops H = o1 ++ o :: o2 ++ o' :: o3 /\ lin_outs H = r1 ++ r :: r2 ++ r' :: r3 /\
    length o1 = length r1 /\ length o2 = length r2.
Proof.
  intros Ex C1 after' C2. destruct C1 as (d1 & E1 & S1), C2 as (d2 & E2 & S2).
  assert (Efull : log = (before ++ EInv t o :: d1 ++ ERes t r :: mid) ++ EInv t' o' :: d2 ++ ERes t' r' :: after').
  { rewrite E1. rewrite E2. rewrite <- !app_assoc. cbn [app]. rewrite <- !app_assoc. reflexivity. }
  destruct (called_lin d log H t' o' r' _ after' Ex (ex_intro _ d2 (conj Efull S2))) as (HA & a & b & HB & EH & EA & EB).
  (* the first call lies inside HA *)
  destruct (observe_split _ _ _ _ EA) as (HA1 & he & H1 & -> & F1 & F2 & F3).
  destruct (observe_split _ _ _ _ F3) as (H2 & he2 & HB1 & -> & G1 & G2 & G3).
  assert (he = HInv t o) as -> by (destruct he; cbn in F2; congruence).
  assert (he2 = HRes t r) as -> by (destruct he2; cbn in G2; congruence).
  destruct Ex as (Eo & Hf & Er). destruct (Hf t) as (x & F). rewrite EH in F.
  replace ((HA1 ++ HInv t o :: H2 ++ HRes t r :: HB1) ++ HInv t' o' :: a ++ HLin t' o' r' :: b ++ HRes t' r' :: HB)
    with ((((HA1 ++ [HInv t o]) ++ H2) ++ [HRes t r]) ++ HB1 ++ HInv t' o' :: a ++ HLin t' o' r' :: b ++ HRes t' r' :: HB) in F
    by (rewrite <- !app_assoc; cbn [app]; now rewrite <- !app_assoc).
  destruct (follows_prefix _ _ _ _ F) as (x1 & F0). apply follows_last in F0. destruct F0 as (y & F0 & N).
  destruct N as [[N _]|[(o1 & E & _)|[(o1 & q & E & _)|(o1 & q & E & -> & _)]]]; [contradiction N; reflexivity|discriminate|discriminate|].
  injection E as <-. destruct (follows_prefix _ _ _ _ F0) as (x2 & F4). pose proof F4 as F5. apply follows_last in F5. destruct F5 as (y3 & _ & N).
  destruct N as [[N _]|[(o2 & E & _ & ->)|[(o2 & q & E & _)|(o2 & q & E & _)]]]; [contradiction N; reflexivity| |discriminate|discriminate].
  injection E as <-.
  destruct (follows_during t o HA1 F4 H2 _ F0 ltac:(rewrite G1; exact S1)) as [E|(q & a1 & b1 & E & ->)]; [discriminate|].
  injection E as -> <-.
  rewrite EH. rewrite <- !app_assoc. cbn [app]. rewrite <- !app_assoc. cbn [app].
  exists (lin_ops (HA1 ++ HInv t o :: a1)), (lin_ops (b1 ++ HRes t r :: HB1 ++ HInv t' o' :: a)), (lin_ops (b ++ HRes t' r' :: HB)).
  exists (lin_outs (HA1 ++ HInv t o :: a1)), (lin_outs (b1 ++ HRes t r :: HB1 ++ HInv t' o' :: a)), (lin_outs (b ++ HRes t' r' :: HB)).
  split; [|split; [|split; apply lin_len]]; unfold lin_ops, lin_outs;
    repeat (rewrite ?flat_map_app, ?flat_map_cons; cbn [flat_map app]; rewrite <- ?app_assoc); reflexivity.
Qed.

(** A QueryLatest invoked, by any goroutine, after the return of an acknowledged
    write of the same metric reports that value or a newer one. *)
Theorem C62_acknowledged_writes_are_visible :
  forall n root size cap max handles rand s t name v t' ans before mid after during after',
  root <> [] -> process_ok size cap handles rand ->
  conc_reach n root size cap max handles rand s ->
  (forall t o, In (EInv t o) (cs_log s) -> call_fits size cap o) -> len (cs_log s) < 2 ^ 61 ->
  (forall t m w, In (EInv t (OWrite m w)) (cs_log s) -> v_end w < 2 ^ 63 - 1) ->
  cs_log s = before ++ EInv t (OWrite name v) :: during ++ ERes t (RWrite (Ok true)) ::
             mid ++ EInv t' (OLatest name) :: after ++ ERes t' ans :: after' ->
  silent t during -> silent t' after ->
  exists w, ans = RLatest (Some w) (Ok tt) /\ v_end v <= v_end w.
Proof.
  intros n root size cap max handles rand s t name v t' ans before mid after during after' Hr Hp HR Ho Hn Hb El S1 S2.
  destruct (explained n root size cap max handles rand s Hr Hp HR Ho Hn) as (H & Ex & HH).
  destruct (called_order _ (cs_log s) H t (OWrite name v) (RWrite (Ok true)) t' (OLatest name) ans before mid (after ++ ERes t' ans :: after') Ex
    (ex_intro _ during (conj El S1)) after' (ex_intro _ after (conj eq_refl S2)))
    as (o1 & o2 & o3 & r1 & r2 & r3 & E1 & E2 & L1 & L2).
  assert (HB : forall m w, In (OWrite m w) (lin_ops H) -> v_end w < 2 ^ 63 - 1).
  { intros m w Hin. apply (explains_ops _ _ _ (fun o => forall m w, o = OWrite m w -> v_end w < 2 ^ 63 - 1) Ex) with (o := OWrite m w) (m := m); auto.
    intros t0 o Hin0 m0 w0 ->. eauto. }
  rewrite E1 in HH, HB. destruct Ex as (_ & _ & Er). rewrite E1, E2 in Er.
  replace (o1 ++ OWrite name v :: o2 ++ OLatest name :: o3) with ((o1 ++ OWrite name v :: o2) ++ OLatest name :: o3) in Er, HH, HB
    by (rewrite <- !app_assoc; reflexivity).
  replace (r1 ++ RWrite (Ok true) :: r2 ++ ans :: r3) with ((r1 ++ RWrite (Ok true) :: r2) ++ ans :: r3) in Er by (rewrite <- !app_assoc; reflexivity).
  destruct (c_run_split _ _ _ _ _ _ _ Er) as (st1 & Er1 & Er2 & _); [rewrite !app_length; cbn [length]; lia|].
  destruct (latest_of root size cap max handles rand _ name st1 _ (history_prefix _ _ _ _ _ _ _ HH) Er1) as (Hd & r & El2 & Hok).
  { intros m w Hin. apply (HB m w), in_app_iff. now left. }
  rewrite (acked_app name o1 r1) in * by exact L1. rewrite acked_cons in *. cbn [log1] in *. rewrite beqb_refl in *.
  destruct (acked_more name o2 r2 (v :: acked name o1 r1)) as (l & Eacked). rewrite Eacked in *.
  assert (Hin : In v (l ++ v :: acked name o1 r1)) by (apply in_app_iff; right; now left).
  destruct (l ++ v :: acked name o1 r1) as [|w rest]; [destruct Hin|]. exists w.
  split; [rewrite <- Er2, El2, Hok by discriminate; reflexivity|]. eapply desc_head; eauto.
Qed.
Print Assumptions C62_acknowledged_writes_are_visible.

(** Two QueryLatest calls, the second invoked after the first returned: the
    second never reports an older value. *)
Theorem C62_latest_is_monotonic :
  forall n root size cap max handles rand s t name t' w r ans before mid after during after',
  root <> [] -> process_ok size cap handles rand ->
  conc_reach n root size cap max handles rand s ->
  (forall t o, In (EInv t o) (cs_log s) -> call_fits size cap o) -> len (cs_log s) < 2 ^ 61 ->
  (forall t m w, In (EInv t (OWrite m w)) (cs_log s) -> v_end w < 2 ^ 63 - 1) ->
  cs_log s = before ++ EInv t (OLatest name) :: during ++ ERes t (RLatest (Some w) r) ::
             mid ++ EInv t' (OLatest name) :: after ++ ERes t' ans :: after' ->
  silent t during -> silent t' after ->
  exists w', ans = RLatest (Some w') (Ok tt) /\ v_end w <= v_end w'.
Proof.
  intros n root size cap max handles rand s t name t' w0 r0 ans before mid after during after' Hr Hp HR Ho Hn Hb El S1 S2.
  destruct (explained n root size cap max handles rand s Hr Hp HR Ho Hn) as (H & Ex & HH).
  destruct (called_order _ (cs_log s) H t (OLatest name) (RLatest (Some w0) r0) t' (OLatest name) ans before mid (after ++ ERes t' ans :: after') Ex
    (ex_intro _ during (conj El S1)) after' (ex_intro _ after (conj eq_refl S2)))
    as (o1 & o2 & o3 & r1 & r2 & r3 & E1 & E2 & L1 & L2).
  assert (HB : forall m w, In (OWrite m w) (lin_ops H) -> v_end w < 2 ^ 63 - 1).
  { intros m w Hin. apply (explains_ops _ _ _ (fun o => forall m w, o = OWrite m w -> v_end w < 2 ^ 63 - 1) Ex) with (o := OWrite m w) (m := m); auto.
    intros t0 o Hin0 m0 w1 ->. eauto. }
  rewrite E1 in HH, HB. destruct Ex as (_ & _ & Er). rewrite E1, E2 in Er.
  destruct (c_run_split _ _ _ _ _ _ _ Er) as (st0 & Er0 & Er0' & _); [congruence|].
  destruct (latest_of root size cap max handles rand _ name st0 _ (history_prefix _ _ _ _ _ _ _ HH) Er0) as (_ & q & El0 & _).
  { intros m w Hin. apply (HB m w), in_app_iff. now left. }
  replace (o1 ++ OLatest name :: o2 ++ OLatest name :: o3) with ((o1 ++ OLatest name :: o2) ++ OLatest name :: o3) in Er, HH, HB
    by (rewrite <- !app_assoc; reflexivity).
  replace (r1 ++ RLatest (Some w0) r0 :: r2 ++ ans :: r3) with ((r1 ++ RLatest (Some w0) r0 :: r2) ++ ans :: r3) in Er by (rewrite <- !app_assoc; reflexivity).
  destruct (c_run_split _ _ _ _ _ _ _ Er) as (st1 & Er1 & Er2 & _); [rewrite !app_length; cbn [length]; lia|].
  destruct (latest_of root size cap max handles rand _ name st1 _ (history_prefix _ _ _ _ _ _ _ HH) Er1) as (Hd & r & El2 & Hok).
  { intros m w Hin. apply (HB m w), in_app_iff. now left. }
  rewrite (acked_app name o1 r1) in * by exact L1. rewrite acked_cons in *. cbn [log1] in *.
  destruct (acked_more name o2 r2 (acked name o1 r1)) as (l & Eacked). rewrite Eacked in *.
  assert (Hin : In w0 (l ++ acked name o1 r1)).
  { rewrite El0 in Er0'. apply in_app_iff. right. destruct (acked name o1 r1) as [|x rest]; [discriminate|]. left. cbn in Er0'. congruence. }
  destruct (l ++ acked name o1 r1) as [|w rest]; [destruct Hin|]. exists w.
  split; [rewrite <- Er2, El2, Hok by discriminate; reflexivity|]. eapply desc_head; eauto.
Qed.
Print Assumptions C62_latest_is_monotonic.

(** ** a concrete execution: the hypotheses are met *)
(** one step of goroutine [t], which invokes [o] if it is between calls *)
Definition exec1 (s : csys) (x : nat * op) : option csys :=
  let '(t, o) := x in
  match nth_error (cs_threads s) t with
  | Some (CT LIdle None h) =>
      match o with
      | OReopen _ _ _ _ _ => None
      | _ => match lp_step (name_of o) (cs_pool s) LIdle with
             | Some (p', l') => Some (CS (cs_db s) p'
                 (set_nth t (CT l' (Some (o, prog_of (w_root (cs_db s)) (w_max (cs_db s)) o)) []) (cs_threads s)) (cs_log s ++ [EInv t o]))
             | None => None
             end
      end
  | Some (CT LIdle (Some (o, PRet r)) h) =>
      Some (CS (cs_db s) (cs_pool s) (set_nth t (CT LIdle None []) (cs_threads s)) (cs_log s ++ [ERes t r]))
  | Some (CT (LIn k i) (Some (o, p)) h) =>
      if is_ret p then
        match lp_step [] (cs_pool s) (LIn k i) with
        | Some (p', l') => Some (CS (cs_db s) p' (set_nth t (CT l' (Some (o, p)) h) (cs_threads s)) (cs_log s))
        | None => None
        end
      else let '(st', h', q) := prog_step p h (cs_db s) in
           Some (CS st' (cs_pool s) (set_nth t (CT (LIn k i) (Some (o, q)) h') (cs_threads s)) (cs_log s))
  | Some (CT l (Some (o, p)) h) =>
      match l with
      | LWait _ _ | LOut _ _ =>
          match lp_step [] (cs_pool s) l with
          | Some (p', l') => Some (CS (cs_db s) p' (set_nth t (CT l' (Some (o, p)) h) (cs_threads s)) (cs_log s))
          | None => None
          end
      | _ => None
      end
  | _ => None
  end.
Lemma exec1_step s x s' : exec1 s x = Some s' -> conc_step s s'.
Proof.
  destruct x as [t o]. unfold exec1. destruct (nth_error (cs_threads s) t) as [[l call h]|] eqn:E; [|discriminate].
  destruct l as [|k i|k i|k i|].
  - destruct call as [[o' p]|].
    + destruct p; try discriminate. intros [= <-]. eapply cs_return; eauto.
    + intros G. assert (is_call o) as Hc by (destruct o; [exact I|exact I|exact I|discriminate]).
      destruct o as [name v|name e|name|]; try discriminate;
        (destruct (lp_step _ _ LIdle) as [[p' l']|] eqn:Hl in G; [|discriminate]; injection G as <-; eapply cs_call; eauto).
  - destruct call as [[o' p]|]; [|discriminate]. destruct (lp_step [] _ (LWait k i)) as [[p' l']|] eqn:Hl; [|discriminate].
    intros [= <-]. eapply cs_lock; eauto. exact I.
  - destruct call as [[o' p]|]; [|discriminate]. destruct (is_ret p) eqn:Er.
    + destruct p; try discriminate. destruct (lp_step [] _ (LIn k i)) as [[p' l']|] eqn:Hl; [|discriminate].
      intros [= <-]. eapply cs_unlock; eauto.
    + destruct (prog_step p h (cs_db s)) as [[st' h'] q] eqn:Ep. intros [= <-]. eapply cs_act; eauto.
  - destruct call as [[o' p]|]; [|discriminate]. destruct (lp_step [] _ (LOut k i)) as [[p' l']|] eqn:Hl; [|discriminate].
    intros [= <-]. eapply cs_lock; eauto. exact I.
  - destruct call as [[o' p]|]; discriminate.
Qed.
(** goroutines that are blocked are skipped *)
Fixpoint exec (s : csys) (l : list (nat * op)) : csys :=
  match l with [] => s | x :: l => exec (match exec1 s x with Some s' => s' | None => s end) l end.
Lemma exec_reach n root size cap max handles rand : forall l s, conc_reach n root size cap max handles rand s ->
  conc_reach n root size cap max handles rand (exec s l).
Proof.
  induction l as [|x l IH]; intros s HR; [exact HR|]. cbn [exec]. apply IH. destruct (exec1 s x) as [s'|] eqn:E; [|exact HR].
  eapply cr_step; [exact HR|]. eapply exec1_step; eauto.
Qed.

Definition nm2 : list Z := [97; 46; 99].   (* "a.c" *)
(** round robin of two writers of "a.b" and "a.c" and a reader of "a.b" until
    the first write has returned and the others are under way, then the second
    writer, the reader and another reader *)
Fixpoint robin (k : nat) : list (nat * op) :=
  match k with
  | O => []
  | S k => (0%nat, OWrite ex_name (small 10)) :: (1%nat, OWrite nm2 (two 20)) :: (2%nat, OLatest ex_name) :: robin k
  end.
Definition ex_sched : list (nat * op) := robin 15 ++ repeat (0%nat, OWrite ex_name (small 10)) 4 ++ repeat (1%nat, OWrite nm2 (two 20)) 6 ++
  repeat (2%nat, OLatest ex_name) 9 ++ repeat (3%nat, OLatest ex_name) 10.
Definition ex_conc : csys := exec (conc_init 4 ex_root 79 3 1 2 prng) ex_sched.
Definition ex_log : list event :=
  [EInv 0 (OWrite ex_name (small 10)); EInv 1 (OWrite nm2 (two 20)); EInv 2 (OLatest ex_name);
   ERes 0 (RWrite (Ok true)); ERes 1 (RWrite (Ok true)); ERes 2 (RLatest (Some (small 10)) (Ok tt));
   EInv 3 (OLatest ex_name); ERes 3 (RLatest (Some (small 10)) (Ok tt))].
Example C62_example_log : cs_log ex_conc = ex_log.
Proof. vm_compute. reflexivity. Qed.
Example C62_example_idle : forallb (fun th => match ct_call th with None => true | Some _ => false end) (cs_threads ex_conc) = true.
Proof. vm_compute. reflexivity. Qed.
Lemma ex_conc_reach : conc_reach 4 ex_root 79 3 1 2 prng ex_conc.
Proof. apply exec_reach, cr_init. Qed.
Lemma ex_fits : forall t o, In (EInv t o) (cs_log ex_conc) -> call_fits 79 3 o.
Proof.
  rewrite C62_example_log. intros t o Hin. cbn [ex_log In] in Hin.
  repeat (destruct Hin as [Hin|Hin]; [first [discriminate|injection Hin as _ <-; cbn [call_fits]; try exact I]|]); [..|destruct Hin].
  - ok_history.
  - ok_history.
Qed.
Example C62_example_hypotheses :
  ex_root <> [] /\ process_ok 79 3 2 prng /\ conc_reach 4 ex_root 79 3 1 2 prng ex_conc /\
  (forall t o, In (EInv t o) (cs_log ex_conc) -> call_fits 79 3 o) /\ len (cs_log ex_conc) < 2 ^ 61 /\
  (forall t m w, In (EInv t (OWrite m w)) (cs_log ex_conc) -> v_end w < 2 ^ 63 - 1).
Proof.
  split; [discriminate|]. split; [ok_history|]. split; [exact ex_conc_reach|]. split; [exact ex_fits|].
  rewrite C62_example_log. split; [reflexivity|]. intros t m w Hin. cbn [ex_log In] in Hin.
  repeat (destruct Hin as [Hin|Hin]; [first [discriminate|injection Hin as _ _ <-; cbn; lia]|]); destruct Hin.
Qed.
Example C62_example_linearizable : linearizable (db_empty ex_root 79 3 1 2 prng) ex_log.
Proof.
  rewrite <- C62_example_log. destruct C62_example_hypotheses as (H1 & H2 & H3 & H4 & H5 & _).
  exact (C62_linearizable 4 ex_root 79 3 1 2 prng ex_conc H1 H2 H3 H4 H5).
Qed.
(** every call takes effect at most once *)
Fixpoint lin_ts (H : list hevent) : list nat := match H with [] => [] | HLin t _ _ :: H => t :: lin_ts H | _ :: H => lin_ts H end.
Fixpoint inv_ts (H : list hevent) : list nat := match H with [] => [] | HInv t _ :: H => t :: inv_ts H | _ :: H => inv_ts H end.
Lemma lin_ts_app a b : lin_ts (a ++ b) = lin_ts a ++ lin_ts b.
Proof. induction a as [|[] a IH]; cbn; rewrite ?IH; reflexivity. Qed.
Lemma inv_ts_app a b : inv_ts (a ++ b) = inv_ts a ++ inv_ts b.
Proof. induction a as [|[] a IH]; cbn; rewrite ?IH; reflexivity. Qed.
Lemma lin_ts_len H : length (lin_ts H) = length (lin_ops H).
Proof. induction H as [|[] H IH]; cbn; rewrite ?IH; reflexivity. Qed.
Lemma inv_ts_len H : (length (inv_ts H) <= length (observe H))%nat.
Proof. unfold observe. induction H as [|[] H IH]; cbn [inv_ts flat_map observe1 app length]; lia. Qed.
Lemma once t H x : follows t H x ->
  (count_occ Nat.eq_dec (lin_ts H) t + match x with TPend _ => 1 | _ => 0 end = count_occ Nat.eq_dec (inv_ts H) t)%nat.
Proof.
  induction 1 as [|H o F IH|H o r F IH|H o r F IH|H e x F IH N]; [reflexivity|..]; rewrite lin_ts_app, inv_ts_app, !count_occ_app; cbn [lin_ts inv_ts count_occ].
  1, 2: destruct (Nat.eq_dec t t); [|congruence]. 1-3: lia.
  destruct e as [t' o|t' o r|t' r]; cbn [thread_of] in N; cbn [lin_ts inv_ts count_occ]; try destruct (Nat.eq_dec t' t); try congruence; lia.
Qed.
Lemma count_le (l : list nat) : forall m, (forall x, (count_occ Nat.eq_dec l x <= count_occ Nat.eq_dec m x)%nat) -> (length l <= length m)%nat.
Proof.
  induction l as [|x l IH]; intros m Hc; [cbn; lia|]. pose proof (Hc x) as Hx. cbn [count_occ] in Hx. destruct (Nat.eq_dec x x); [|congruence].
  assert (Hin : In x m) by (apply (count_occ_In Nat.eq_dec); lia). apply in_split in Hin. destruct Hin as (a & b & ->).
  specialize (IH (a ++ b)). rewrite app_length in *. cbn [length]. enough (length l <= length a + length b)%nat by lia. apply IH.
  intros y. specialize (Hc y). rewrite count_occ_app in *. cbn [count_occ] in Hc. destruct (Nat.eq_dec x y); lia.
Qed.
Lemma explains_few d log H : explains d log H -> (length (lin_ops H) <= length log)%nat.
Proof.
  intros (Eo & Hf & _). rewrite <- lin_ts_len, <- Eo. etransitivity; [|apply inv_ts_len]. apply count_le. intros t.
  destruct (Hf t) as (x & F). apply once in F. lia.
Qed.
(** a log that is not linearizable: the reader misses a value acknowledged before *)
Example C62_example_not_linearizable : ~ linearizable (db_empty ex_root 79 3 1 2 prng)
  [EInv 0 (OWrite ex_name (small 10)); ERes 0 (RWrite (Ok true)); EInv 1 (OLatest ex_name); ERes 1 (RLatest None Err)].
Proof.
  intros (H & Ex).
  destruct (called_order _ _ H 0 (OWrite ex_name (small 10)) (RWrite (Ok true)) 1 (OLatest ex_name) (RLatest None Err) [] []
    [ERes 1 (RLatest None Err)] Ex) with (after' := @nil event) as (o1 & o2 & o3 & r1 & r2 & r3 & E1 & E2 & L1 & L2).
  - exists []. split; [reflexivity|]. intros e [].
  - exists []. split; [reflexivity|]. intros e [].
  - assert (Hall : forall o, In o (lin_ops H) -> o = OWrite ex_name (small 10) \/ o = OLatest ex_name).
    { apply (explains_ops _ _ H (fun o => o = OWrite ex_name (small 10) \/ o = OLatest ex_name) Ex).
      intros t o [E|[E|[E|[E|[]]]]]; try discriminate; injection E as _ <-; auto. }
    pose proof (explains_few _ _ _ Ex) as Hfew. cbn [length] in Hfew. destruct Ex as (Eo & Hf & Er).
    rewrite E1 in *. rewrite E2 in Er.
    assert (HH : history_ok ex_root 79 3 2 prng (o1 ++ OWrite ex_name (small 10) :: o2 ++ OLatest ex_name :: o3)).
    { destruct C62_example_hypotheses as (Hr & Hp & _). split; [exact Hr|]. split; [exact Hp|]. split.
      - apply ops_ok_all. intros o Hin. destruct (Hall o Hin) as [-> | ->]; (split; [|exact I]); cbn [call_fits]; try exact I; ok_history.
      - lia. }
    replace (o1 ++ OWrite ex_name (small 10) :: o2 ++ OLatest ex_name :: o3)
      with ((o1 ++ OWrite ex_name (small 10) :: o2) ++ OLatest ex_name :: o3) in * by (rewrite <- !app_assoc; reflexivity).
    replace (r1 ++ RWrite (Ok true) :: r2 ++ RLatest None Err :: r3) with ((r1 ++ RWrite (Ok true) :: r2) ++ RLatest None Err :: r3) in Er
      by (rewrite <- !app_assoc; reflexivity).
    destruct (c_run_split _ _ _ _ _ _ _ Er) as (st1 & Er1 & Er2 & _); [rewrite !app_length; cbn [length]; lia|].
    destruct (latest_of ex_root 79 3 1 2 prng _ ex_name st1 _ (history_prefix _ _ _ _ _ _ _ HH) Er1) as (Hd & r & El2 & Hok).
    { intros m w Hin. destruct (Hall (OWrite m w)) as [E|E]; [apply in_app_iff; now left| |discriminate]. injection E as _ ->. cbn. lia. }
    rewrite (acked_app ex_name o1 r1) in * by exact L1. rewrite acked_cons in *. cbn [log1] in *. rewrite beqb_refl in *.
    destruct (acked_more ex_name o2 r2 (small 10 :: acked ex_name o1 r1)) as (l & Eacked). rewrite Eacked in *.
    destruct (l ++ small 10 :: acked ex_name o1 r1) as [|w rest] eqn:E; [destruct l; discriminate|].
    rewrite El2 in Er2. discriminate.
Qed.
