(** Every execution of Conc.v is linearizable. *)
From Coq Require Import ZArith List Bool Lia.
From Verif Require Import QueueProofs.
From Verif Require Import Base Maps Record RecordSpec Meta Convert ConvertProofs File FileProofs Cache CacheProofs
  Metric MetricSpec MetricFile MetricPaths MetricProofs DbSpec DbProofs DbClient RejectSpec RejectProofs
  LockPool LockPoolProofs Conc ConcFs ConcSim ConcSeq ConcSafe ConcSpec.
Import ListNotations.
Open Scope Z_scope.

(** ** directories *)
Definition closed (D : list (list Z)) : Prop := forall d, In d D -> incl (ancestors [] d) D.
Lemma ancestors_iff : forall p pre a, In a (ancestors pre p) <->
  exists b r, a = pre ++ b /\ p = b ++ r /\ (r = [] \/ exists r', r = 47 :: r').
Proof.
  induction p as [|c p IH]; intros pre a; cbn [ancestors].
  - split.
    + intros [<-|[]]. exists [], []. rewrite app_nil_r. auto.
    + intros (b & r & -> & E & _). destruct b; [|discriminate]. rewrite app_nil_r. now left.
  - assert (G : In a (ancestors (pre ++ [c]) p) <-> exists b r, a = pre ++ c :: b /\ c :: p = (c :: b) ++ r /\ (r = [] \/ exists r', r = 47 :: r')).
    { rewrite IH. split; intros (b & r & E1 & E2 & E3).
      - rewrite <- app_assoc in E1. exists b, r. split; [exact E1|]. split; [cbn; congruence|exact E3].
      - cbn in E2. injection E2 as E2. exists b, r. rewrite <- app_assoc. auto. }
    unfold c_slash. destruct (Z.eqb_spec c 47) as [->|Hc].
    + cbn [In]. rewrite G. split.
      * intros [<-|(b & r & E1 & E2 & E3)]; [exists [], (47 :: p); rewrite app_nil_r; eauto|]. exists (47 :: b), r. auto.
      * intros ([|x b] & r & E1 & E2 & E3); [left; rewrite app_nil_r in E1; congruence|].
        right. injection E2 as <- E2. exists b, r. split; [exact E1|]. split; [cbn; congruence|exact E3].
    + rewrite G. split.
      * intros (b & r & E1 & E2 & E3). exists (c :: b), r. auto.
      * intros ([|x b] & r & E1 & E2 & E3).
        -- cbn in E2. subst r. destruct E3 as [E3|(r' & E3)]; [discriminate|]. injection E3 as E3 _. contradiction.
        -- injection E2 as <- E2. exists b, r. split; [exact E1|]. split; [cbn; congruence|exact E3].
Qed.
Lemma closed_ancestors p : closed (ancestors [] p).
Proof.
  intros d Hd a Ha. rewrite ancestors_iff in *. destruct Hd as (b & r & E1 & E2 & E3), Ha as (b' & r' & E1' & E2' & E3').
  cbn in E1, E1'. subst d a. exists b', (r' ++ r). split; [reflexivity|]. split; [rewrite E2, E2'; now rewrite app_assoc|].
  destruct E3' as [->|(x & ->)]; [exact E3|right; eexists; reflexivity].
Qed.
Lemma closed_app D E : closed D -> closed E -> closed (D ++ E).
Proof.
  intros HD HE d Hd a Ha. apply in_app_iff in Hd. apply in_app_iff. destruct Hd as [Hd|Hd]; [left; eapply HD|right; eapply HE]; eauto.
Qed.

(** ** the world of a database *)
Lemma inv_world n st D A : Inv n st D A -> world st.
Proof.
  intros []. constructor; try assumption.
  - rewrite i_dirs. assumption.
  - intros p ino Hp. exact (proj1 (i_paths p ino Hp)).
Qed.

Section Lin.
Variables (root : list Z) (size cap max handles : Z) (rand : stream) (nc : bool).
Let init := db_empty root size cap max handles rand.
Variables (okop : op -> Prop) (SI : Z -> db -> Prop).
Hypothesis SI_init : SI 1 init.
Hypothesis SI_inv : forall n q, SI n q -> exists D A, Inv n q D A /\ (nc = true \/ Good A) /\ nc_ok nc q /\
  (w_size q = size /\ w_cap q = cap /\ w_max q = max /\ w_root q = root).
Hypothesis SI_step : forall n q o, SI n q -> okop o -> is_call o -> n + 1 < 2 ^ 62 -> SI (n + 1) (fst (c_step o q)).
Hypothesis okop_val : forall o, okop o -> op_val o.

Let run := @run0 size cap.
Let dir name := dir_of root name.

(** ** a call of the single client, on file systems *)
Lemma seq_call n q g o q' r : SI n q -> n + 1 < 2 ^ 62 -> okop o -> is_call o -> sees q g -> c_step o q = (q', r) ->
  let d := dir (name_of o) in
  if exists0 d g then
    exists g', run outcome (body root max o) g = (g', r) /\ sees q' g' /\ safe size cap nc [] None (body root max o) g
  else if writes o then
    let g1 := FS (fs_files g) (ancestors [] (clean_dir d) ++ fs_dirs g) in
    exists g', run outcome (body root max o) g1 = (g', r) /\ sees q' g' /\ safe size cap nc [] None (body root max o) g1
  else r = missing o /\ sees q' g.
Proof.
  intros HS Hn Ho Hc Se Hstep d. destruct (SI_inv n q HS) as (D & A & HI & HG & Hnc & Hopt).
  destruct Hopt as (Es & Ec & Em & Er).
  pose proof (i_root _ _ _ _ HI) as Hroot. rewrite Er in Hroot.
  pose proof (inv_world _ _ _ _ HI) as W. pose proof (i_opts _ _ _ _ HI) as Hopts. rewrite Es, Ec in Hopts.
  pose proof (runw_call root max o q Er Hroot Em Hc) as RC. rewrite Hstep in RC.
  destruct RC as (st1 & h1 & Erun & Heqv).
  { intros name v st1 m -> En. destruct (newMetric_rwb n q D A name HI) as (st' & A' & En' & HI' & _ & HA' & _).
    rewrite En in En'. injection En' as <- ->. destruct (i_num _ _ _ _ HI' _ _ HA') as (H1 & _ & H3).
    pose proof (i_bound _ _ _ _ HI). rewrite Er. split; [reflexivity|]. cbn [t_first t_last]. lia. }
  destruct (prog_shape root max o Hc) as (k & k2 & Ep & Ek & Ek' & Ek2). rewrite Ep in Erun. cbn [runw] in Erun.
  fold (dir (name_of o)) in Erun. fold d in Erun. rewrite (sees_exists q g d Se) in Erun.
  assert (Body : forall q1 g1 D1, Inv n q1 D1 A -> same_opts q q1 -> sees q1 g1 -> nc_ok nc q1 ->
    runw (body root max o) [] q1 = (st1, h1, r) ->
    exists g', run outcome (body root max o) g1 = (g', r) /\ sees q' g' /\ safe size cap nc [] None (body root max o) g1).
  { intros q1 g1 D1 HI1 Hso Se1 Hnc1 Eb. destruct Hso as (S1 & S2 & S3 & S4 & S5). pose proof (inv_world _ _ _ _ HI1) as W1.
    assert (Hsafe : safe size cap nc [] None (body root max o) g1).
    { pose proof (safe_body n q1 D1 A g1 nc max o HI1 Hn Se1 W1 HG (okop_val o Ho)) as Hsf.
      rewrite S1, S2, S4, Es, Ec, Er in Hsf. exact Hsf. }
    assert (Sim : sim nc size cap (dir_of root (name_of o)) q1 [] (body root max o) g1 [] None).
    { unfold sim. split; [exact W1|]. split; [exact Se1|]. split; [intros x []|]. split; [intros x; discriminate|].
      split; [exact Hnc1|]. split; [exact Hsafe|]. split; [now apply local_body|]. split; [intros x []|].
      split; [intros x; discriminate|]. split; [congruence|]. split; [congruence|exact Hopts]. }
    destruct (runw_sim nc size cap (name_of o) root _ q1 [] g1 [] None st1 h1 r ltac:(congruence) Sim Eb) as (g' & E1 & _ & Se' & _).
    exists g'. split; [exact E1|]. split; [|exact Hsafe]. eapply eqv_sees; eauto. }
  destruct (exists0 d g).
  - rewrite Ek in Erun. apply (Body q g D); auto. apply same_opts_refl.
  - rewrite Ek' in Erun. destruct (writes o).
    + cbn [runw] in Erun. pose proof (mkdir_world q g (name_of o) W Se) as M. rewrite Er in M. fold (dir (name_of o)) in M. fold d in M.
      fold (dir (name_of o)) in Erun. fold d in Erun.
      destruct (mkdirAll d q) as [q1 ok]. destruct (mkdir0 d g) as [g1 ok0].
      destruct M as (-> & _ & W1 & Se1 & Hso & E1 & E2). rewrite Ek2 in Erun. subst g1.
      apply (Body q1 _ (ancestors [] (clean_dir d) ++ D)); auto.
      * subst q1. rewrite (i_dirs _ _ _ _ HI). unfold d, dir. rewrite <- Er. now apply inv_mkdir.
      * intros Hn'. destruct Hso as (_ & _ & _ & _ & H5). rewrite H5. auto.
    + cbn [runw] in Erun. injection Erun as <- _ <-. split; [reflexivity|]. eapply eqv_sees; eauto.
Qed.

(** ** the invariant *)
Inductive tinv (st : db) (f g : fs) : cthread -> tstate -> Prop :=
| ti_idle h : tinv st f g (CT LIdle None h) TIdle
| ti_pend l o h i : is_call o -> okop o -> l = LWait (name_of o) i \/ l = LIn (name_of o) i ->
    tinv st f g (CT l (Some (o, prog_of root max o)) h) (TPend o)
| ti_mkdir o h i k2 : is_call o -> okop o -> writes o = true -> k2 true = body root max o ->
    tinv st f g (CT (LIn (name_of o) i) (Some (o, PMkdir (dir (name_of o)) k2)) h) (TPend o)
| ti_run o r p h i hs ev f' : held_ok st hs h -> ev_ok st ev -> safe size cap nc hs ev p f -> local (dir (name_of o)) p ->
    (forall x, In x hs -> own (dir (name_of o)) x) -> (forall x, ev = Some x -> own (dir (name_of o)) x) ->
    run outcome p f = (f', r) -> agree (dir (name_of o)) f' g ->
    tinv st f g (CT (LIn (name_of o) i) (Some (o, p)) h) (TDone o r)
| ti_done o r l h : l = LIdle \/ (exists k i, l = LOut k i) ->
    tinv st f g (CT l (Some (o, PRet r)) h) (TDone o r).

Definition pend (x : tstate) : bool := match x with TPend _ => true | _ => false end.
Definition is_inv (e : event) : bool := match e with EInv _ _ => true | _ => false end.
Definition at_ (xs : list tstate) (t : nat) : tstate := nth t xs TIdle.
Definition busy (ths : list cthread) (xs : list tstate) (name : list Z) : Prop :=
  exists t i o p h r, nth_error ths t = Some (CT (LIn name i) (Some (o, p)) h) /\ at_ xs t = TDone o r.

Record ci (s : csys) (H : list hevent) (xs : list tstate) (f : fs) (q : db) (g : fs) : Prop := CI {
  ci_log : observe H = cs_log s;
  ci_fol : forall t, follows t H (at_ xs t);
  ci_len : length xs = length (cs_threads s);
  ci_cnt : Z.of_nat (length (lin_ops H)) + cnt pend xs = cnt is_inv (cs_log s);
  ci_run : c_run (lin_ops H) init = (q, lin_outs H);
  ci_si : SI (1 + Z.of_nat (length (lin_ops H))) q;
  ci_seq : sees q g;
  ci_world : world (cs_db s);
  ci_see : sees (cs_db s) f;
  ci_nc : nc_ok nc (cs_db s);
  ci_opts : same_opts init (cs_db s);
  ci_dirs : forall d, In d (fs_dirs f) <-> In d (fs_dirs g);
  ci_closed : closed (fs_dirs g);
  ci_lock : linv (cs_pool s) (map ct_lock (cs_threads s));
  ci_thr : forall t th, nth_error (cs_threads s) t = Some th -> tinv (cs_db s) f g th (at_ xs t);
  ci_agree : forall name, agree (dir name) f g \/ busy (cs_threads s) xs name
}.

(** ** small facts *)
Lemma map_set {A B} (F : A -> B) n x l : map F (set_nth n x l) = set_nth n (F x) (map F l).
Proof. revert n; induction l; intros [|n]; cbn; congruence. Qed.
Lemma set_same {A} n (x : A) l : nth_error l n = Some x -> set_nth n x l = l.
Proof. revert n; induction l; intros [|n] E; cbn in *; try discriminate; [congruence|]. now rewrite IHl. Qed.
Lemma at_set_same xs t y : (t < length xs)%nat -> at_ (set_nth t y xs) t = y.
Proof. unfold at_. revert t; induction xs; intros [|t] Hl; cbn in *; try lia; auto. apply IHxs. lia. Qed.
Lemma at_set_other xs t y t' : t <> t' -> at_ (set_nth t y xs) t' = at_ xs t'.
Proof. unfold at_. revert t t'; induction xs; intros [|t] [|t'] Hl; cbn in *; try contradiction; auto. Qed.
Lemma at_some xs t : (t < length xs)%nat -> nth_error xs t = Some (at_ xs t).
Proof. unfold at_. apply nth_error_nth'. Qed.
Lemma cnt_app {A} (F : A -> bool) l1 l2 : cnt F (l1 ++ l2) = cnt F l1 + cnt F l2.
Proof. induction l1; cbn; [lia|]. destruct (F a); lia. Qed.
Lemma follows_snoc H xs t e y : (t < length xs)%nat -> thread_of e = t -> (forall t', follows t' H (at_ xs t')) ->
  follows t (H ++ [e]) y -> forall t', follows t' (H ++ [e]) (at_ (set_nth t y xs) t').
Proof.
  intros Hl He Hf Hy t'. destruct (Nat.eq_dec t t') as [<-|Hne].
  - now rewrite at_set_same.
  - rewrite at_set_other by auto. apply fo_other; [auto|congruence].
Qed.
Lemma lt_of {A} (l : list A) n x : nth_error l n = Some x -> (n < length l)%nat.
Proof. intros E. apply nth_error_Some. congruence. Qed.

Lemma excl p ts t t' k i i' : linv p ts -> nth_error ts t = Some (LIn k i) -> nth_error ts t' = Some (LIn k i') -> t = t'.
Proof.
  intros L E1 E2. destruct (Nat.eq_dec t t') as [|Hne]; [assumption|exfalso].
  pose proof (li_key _ _ L t k i (or_intror E1)) as K1. pose proof (li_key _ _ L t' k i' (or_intror E2)) as K2.
  assert (i' = i) by congruence. subst i'.
  pose proof (cnt_two (holds i) ts t t' _ _ E1 E2) as C. cbn [holds] in C. rewrite !Z.eqb_refl in C.
  specialize (C eq_refl eq_refl Hne). pose proof (li_mu _ _ L i) as M. destruct (lp_mu p i); lia.
Qed.

Hypothesis Hroot : root <> [].
Hypothesis Hopts : opts_ok size cap.
Lemma own_neq n1 n2 x : n1 <> n2 -> own (dir n1) x -> ~ own (dir n2) x.
Proof. intros Hne H1 H2. apply Hne. exact (own_other root n1 n2 x Hroot H1 H2). Qed.
Lemma agree_frame n1 n2 (f f' : fs) : n1 <> n2 -> (forall x, ~ own (dir n1) x -> fget x f' = fget x f) -> agree (dir n2) f' f.
Proof. intros Hne F x Hx. apply F. apply (own_neq n2 n1); auto. Qed.

(** the other goroutines do not notice a step inside one directory *)
Lemma tinv_frame name st st' f f' g g' th x :
  (forall hs h, (forall y, In y hs -> ~ own (dir name) y) -> held_ok st hs h -> held_ok st' hs h) ->
  (forall ev, (forall y, ev = Some y -> ~ own (dir name) y) -> ev_ok st ev -> ev_ok st' ev) ->
  (forall y, ~ own (dir name) y -> fget y f' = fget y f) ->
  (forall y, ~ own (dir name) y -> fget y g' = fget y g) ->
  (forall i, ct_lock th <> LIn name i) -> tinv st f g th x -> tinv st' f' g' th x.
Proof.
  intros F1 F2 Ff Fg Hne T. destruct T as [h|l o h i|o h i k2|o r p h i hs ev f1 Hh He Hs HL Ho1 Ho2 Hr Ha|o r l h];
    [apply ti_idle|eapply ti_pend; eassumption|eapply ti_mkdir; eassumption| |apply ti_done; assumption].
  cbn [ct_lock] in Hne.
  assert (Hn : name <> name_of o) by (intros ->; eapply Hne; reflexivity).
  assert (A : agree (dir (name_of o)) f f') by (apply agree_sym; apply (agree_frame name); auto).
  assert (Ag : agree (dir (name_of o)) g g') by (apply agree_sym; apply (agree_frame name); auto).
  destruct (run0_agree size cap (dir (name_of o)) p HL f f' A) as [E1 E2]. unfold run in Hr. rewrite Hr in E1, E2. cbn [fst snd] in E1, E2.
  destruct (run0 size cap p f') as [f2 r2] eqn:Ef. cbn [fst snd] in E1, E2. subst r2.
  apply (ti_run st' f' g' o r p h i hs ev f2); auto.
  - apply F1; auto. intros y Hy. apply (own_neq (name_of o)); auto.
  - apply F2; auto. intros y Hy. apply (own_neq (name_of o)); auto.
  - eapply safe_agree; eauto.
  - exact (agree_trans _ _ _ _ (agree_sym _ _ _ E2) (agree_trans _ _ _ _ Ha Ag)).
Qed.

Lemma lin_ops_app a b : lin_ops (a ++ b) = lin_ops a ++ lin_ops b. Proof. apply flat_map_app. Qed.
Lemma lin_outs_app a b : lin_outs (a ++ b) = lin_outs a ++ lin_outs b. Proof. apply flat_map_app. Qed.
Lemma observe_app a b : observe (a ++ b) = observe a ++ observe b. Proof. apply flat_map_app. Qed.

(** steps that change neither the world nor what took effect *)
Lemma ci_quiet s H xs f q g t th th' x' p' e :
  ci s H xs f q g -> nth_error (cs_threads s) t = Some th ->
  linv p' (map ct_lock (set_nth t th' (cs_threads s))) ->
  tinv (cs_db s) f g th' x' ->
  e = [] /\ x' = at_ xs t \/ (exists y, e = [y] /\ thread_of y = t /\ lin_ops [y] = [] /\ lin_outs [y] = [] /\ follows t (H ++ [y]) x') ->
  cnt is_inv (observe e) = (if pend x' then 1 else 0) - (if pend (at_ xs t) then 1 else 0) ->
  (forall name i o p h r, th = CT (LIn name i) (Some (o, p)) h -> at_ xs t = TDone o r -> agree (dir name) f g) ->
  ci (CS (cs_db s) p' (set_nth t th' (cs_threads s)) (cs_log s ++ observe e)) (H ++ e) (set_nth t x' xs) f q g.
Proof.
  intros C Ht HL HT He Hc Hb. pose proof C as [K1 K2 K3 K4 K5 K6 K7 K8 K9 K10 K11 K12 K13 K14 K15 K16].
  assert (Hl : (t < length xs)%nat) by (rewrite K3; eapply lt_of; eauto).
  assert (Ho : lin_ops e = [] /\ lin_outs e = []).
  { destruct He as [[-> _]|(y & -> & _ & H1 & H2 & _)]; auto. }
  destruct Ho as [Ho1 Ho2].
  constructor; cbn [cs_db cs_pool cs_threads cs_log]; rewrite ?lin_ops_app, ?lin_outs_app, ?Ho1, ?Ho2, ?app_nil_r; auto.
  - now rewrite observe_app, K1.
  - destruct He as [[-> ->]|(y & -> & H1 & _ & _ & H2)].
    + rewrite app_nil_r. intros t'. rewrite set_same; [auto|]. now apply at_some.
    + now apply follows_snoc.
  - now rewrite !set_nth_len.
  - rewrite cnt_app, (cnt_set pend t (at_ xs t)) by now apply at_some. lia.
  - intros t' th1 E. apply nth_error_set in E. destruct E as [[-> ->]|[Hne E]].
    + now rewrite at_set_same.
    + rewrite at_set_other by auto. auto.
  - intros name. destruct (K16 name) as [A|(t' & i & o & p & h & r & E1 & E2)]; [now left|].
    destruct (Nat.eq_dec t t') as [<-|Hne].
    + left. apply (Hb name i o p h r); [congruence|exact E2].
    + right. exists t', i, o, p, h, r. rewrite nth_error_set_other, at_set_other by auto. auto.
Qed.

(** a call takes effect *)
Lemma ci_lin s H xs f q g t i o p h st' h' p' f1 q' r g' :
  ci s H xs f q g -> nth_error (cs_threads s) t = Some (CT (LIn (name_of o) i) (Some (o, p)) h) ->
  at_ xs t = TPend o -> okop o -> is_call o -> 1 + Z.of_nat (length (lin_ops H)) + 1 < 2 ^ 62 ->
  c_step o q = (q', r) ->
  world st' -> sees st' f1 -> same_opts (cs_db s) st' ->
  (forall hs h, held_ok (cs_db s) hs h -> held_ok st' hs h) -> (forall ev, ev_ok (cs_db s) ev -> ev_ok st' ev) ->
  (forall x, fget x f1 = fget x f) ->
  sees q' g' -> (forall x, ~ own (dir (name_of o)) x -> fget x g' = fget x g) ->
  (forall d, In d (fs_dirs f1) <-> In d (fs_dirs g')) -> closed (fs_dirs g') ->
  tinv st' f1 g' (CT (LIn (name_of o) i) (Some (o, p')) h') (TDone o r) ->
  ci (CS st' (cs_pool s) (set_nth t (CT (LIn (name_of o) i) (Some (o, p')) h') (cs_threads s)) (cs_log s))
     (H ++ [HLin t o r]) (set_nth t (TDone o r) xs) f1 q' g'.
Proof.
  intros C Ht Hx Hok Hc Hn Hstep W1 Se1 Hso Fh Fe Ff Seq Fg Hd Hcl HT.
  pose proof C as [K1 K2 K3 K4 K5 K6 K7 K8 K9 K10 K11 K12 K13 K14 K15 K16].
  assert (Hl : (t < length xs)%nat) by (rewrite K3; eapply lt_of; eauto).
  assert (Hlock : map ct_lock (set_nth t (CT (LIn (name_of o) i) (Some (o, p')) h') (cs_threads s)) = map ct_lock (cs_threads s)).
  { rewrite map_set. apply set_same. cbn [ct_lock]. rewrite nth_error_map, Ht. reflexivity. }
  assert (Hln : nth_error (map ct_lock (cs_threads s)) t = Some (LIn (name_of o) i)) by (rewrite nth_error_map, Ht; reflexivity).
  constructor; cbn [cs_db cs_pool cs_threads cs_log]; rewrite ?lin_ops_app, ?lin_outs_app; cbn [lin_ops lin_outs flat_map app]; auto.
  - rewrite observe_app. cbn. rewrite app_nil_r. exact K1.
  - apply follows_snoc; auto. apply fo_lin. rewrite <- Hx. apply K2.
  - now rewrite !set_nth_len.
  - rewrite app_length, (cnt_set pend t (at_ xs t)) by now apply at_some. rewrite Hx. cbn [length pend]. lia.
  - rewrite c_run_app, K5. cbn [c_run]. rewrite Hstep. reflexivity.
  - rewrite app_length. cbn [length]. replace (1 + Z.of_nat (length (lin_ops H) + 1)) with (1 + Z.of_nat (length (lin_ops H)) + 1) by lia.
    pose proof (SI_step _ q o K6 Hok Hc Hn) as Hs. rewrite Hstep in Hs. exact Hs.
  - intros Hn'. destruct Hso as (_ & _ & _ & _ & H5). rewrite H5. auto.
  - exact (same_opts_trans _ _ _ K11 Hso).
  - rewrite Hlock. exact K14.
  - intros t' th1 E. apply nth_error_set in E. destruct E as [[-> ->]|[Hne E]].
    + now rewrite at_set_same.
    + rewrite at_set_other by auto. apply (tinv_frame (name_of o) (cs_db s) st' f f1 g g'); auto.
      intros j Ej. apply Hne. symmetry. apply (excl _ _ t t' (name_of o) i j K14); [exact Hln|].
      rewrite nth_error_map, E. cbn. now rewrite Ej.
  - intros name. destruct (bytes_eq_dec (name_of o) name) as [<-|Hnn].
    { right. exists t, i, o, p', h', r. rewrite (nth_error_set_same t _ _ _ Ht), at_set_same; auto. }
    destruct (K16 name) as [A|(t' & i' & o' & p1 & h1 & r1 & E1 & E2)].
    + left. intros x Hx'. rewrite Ff, (A x Hx'). symmetry. apply Fg. apply (own_neq name); auto.
    + right. assert (t <> t') by (intros <-; congruence).
      exists t', i', o', p1, h1, r1. rewrite nth_error_set_other, at_set_other by auto. auto.
Qed.

(** a call that took effect goes on *)
Lemma ci_go s H xs f q g t i o p h st' h' p' r :
  ci s H xs f q g -> nth_error (cs_threads s) t = Some (CT (LIn (name_of o) i) (Some (o, p)) h) ->
  at_ xs t = TDone o r -> is_ret p = false -> prog_step p h (cs_db s) = (st', h', p') ->
  exists f', ci (CS st' (cs_pool s) (set_nth t (CT (LIn (name_of o) i) (Some (o, p')) h') (cs_threads s)) (cs_log s)) H xs f' q g.
Proof.
  intros C Ht Hx Hr Hstep. pose proof C as [K1 K2 K3 K4 K5 K6 K7 K8 K9 K10 K11 K12 K13 K14 K15 K16].
  pose proof (K15 t _ Ht) as T. rewrite Hx in T. inversion T as [| | |o1 r1 p1 h1 i1 hs ev f1 Hh He Hs HL Ho1 Ho2 Hrun Ha|o1 r1 l1 h1 Hl]; subst.
  2:{ destruct Hl as [Hl|(k & i0 & Hl)]; discriminate. }
  pose proof K11 as (S1 & S2 & S3 & S4 & S5). assert (Er : w_root (cs_db s) = root) by exact S4.
  assert (Sm : sim nc size cap (dir_of (w_root (cs_db s)) (name_of o)) (cs_db s) h p f hs ev).
  { rewrite Er. unfold sim. do 9 (split; [assumption|]). split; [exact S1|]. split; [exact S2|exact Hopts]. }
  destruct (act_sim nc size cap (name_of o) p (cs_db s) h f hs ev st' h' p' Sm Hr Hstep) as (f' & hs' & ev' & Sm' & Erun & Fr & Ff & Fd).
  rewrite Er in Sm', Fr, Ff. fold (dir (name_of o)) in Sm', Fr, Ff.
  destruct Sm' as (W' & Se' & Hh' & He' & Hnc' & Hs' & HL' & Ho1' & Ho2' & _).
  assert (Hl : (t < length xs)%nat) by (rewrite K3; eapply lt_of; eauto).
  assert (Hlock : map ct_lock (set_nth t (CT (LIn (name_of o) i) (Some (o, p')) h') (cs_threads s)) = map ct_lock (cs_threads s)).
  { rewrite map_set. apply set_same. cbn [ct_lock]. rewrite nth_error_map, Ht. reflexivity. }
  assert (Hln : nth_error (map ct_lock (cs_threads s)) t = Some (LIn (name_of o) i)) by (rewrite nth_error_map, Ht; reflexivity).
  exists f'. constructor; cbn [cs_db cs_pool cs_threads cs_log]; auto.
  - now rewrite set_nth_len.
  - exact (same_opts_trans _ _ _ K11 (proj1 Fr)).
  - rewrite Fd. exact K12.
  - rewrite Hlock. exact K14.
  - intros t' th1 E. apply nth_error_set in E. destruct E as [[-> ->]|[Hne E]].
    + rewrite Hx. apply (ti_run st' f' g o r p' h' i hs' ev' f1); auto. unfold run in *. rewrite <- Erun. exact Hrun.
    + apply (tinv_frame (name_of o) (cs_db s) st' f f' g g); auto.
      * intros hs0 h0 Hn0 G0. eapply frame_held; eauto.
      * intros ev0 Hn0 G0. eapply frame_ev; eauto.
      * intros j Ej. apply Hne. symmetry. apply (excl _ _ t t' (name_of o) i j K14); [exact Hln|].
        rewrite nth_error_map, E. cbn. now rewrite Ej.
  - intros name. destruct (bytes_eq_dec (name_of o) name) as [<-|Hnn].
    { right. exists t, i, o, p', h', r. rewrite (nth_error_set_same t _ _ _ Ht). auto. }
    destruct (K16 name) as [A|(t' & i' & o' & p1 & h1 & r1 & E1 & E2)].
    + left. intros x Hx'. rewrite Ff; [auto|]. apply (own_neq name); auto.
    + right. assert (t <> t') by (intros <-; congruence).
      exists t', i', o', p1, h1, r1. rewrite nth_error_set_other by auto. auto.
Qed.

Lemma ci_empty s H xs f q g : ci s H xs f q g ->
  ci (CS (close_cache (cs_db s)) (cs_pool s) (cs_threads s) (cs_log s)) H xs f q g.
Proof.
  intros C. pose proof C as [K1 K2 K3 K4 K5 K6 K7 K8 K9 K10 K11 K12 K13 K14 K15 K16].
  destruct (close_world (cs_db s) K8) as (W & Fr & Se & Hcold).
  constructor; cbn [cs_db cs_pool cs_threads cs_log]; auto.
  - intros t th E. specialize (K15 t th E).
    destruct K15 as [h|l o h i|o h i k2|o r p h i hs ev f1 Hh He Hs HL Ho1 Ho2 Hr Ha|o r l h];
      [apply ti_idle|eapply ti_pend; eassumption|eapply ti_mkdir; eassumption| |apply ti_done; assumption].
    apply (ti_run _ f g o r p h i hs ev f1); auto.
    intros x _. apply Hcold.
Qed.

(** ** one step *)
Lemma is_dir name (f g : fs) : (forall d, In d (fs_dirs f) <-> In d (fs_dirs g)) -> exists0 (dir name) f = exists0 (dir name) g.
Proof.
  intros Hd. unfold exists0. f_equal. apply eq_true_iff_eq. rewrite !existsb_exists.
  split; intros (x & Hx & E); exists x; (split; [apply Hd; exact Hx|exact E]).
Qed.
Lemma exists0_in name (g : fs) : exists0 (dir name) g = true -> In (clean_dir (dir name)) (fs_dirs g).
Proof.
  unfold exists0. intros E. apply andb_true_iff in E. destruct E as [_ E]. apply existsb_exists in E.
  destruct E as (d & Hd & E). apply beqb_eq in E. now subst.
Qed.

Definition fine (log : list event) : Prop :=
  (forall t o, In (EInv t o) log -> okop o) /\ cnt is_inv log < 2 ^ 61.

Lemma ci_act s H xs f q g t k i o p h st' h' p' :
  ci s H xs f q g -> fine (cs_log s) -> nth_error (cs_threads s) t = Some (CT (LIn k i) (Some (o, p)) h) ->
  is_ret p = false -> prog_step p h (cs_db s) = (st', h', p') ->
  exists H' xs' f' q' g',
    ci (CS st' (cs_pool s) (set_nth t (CT (LIn k i) (Some (o, p')) h') (cs_threads s)) (cs_log s)) H' xs' f' q' g'.
Proof.
  intros C [_ Hcnt] Ht Hr Hstep. pose proof C as [K1 K2 K3 K4 K5 K6 K7 K8 K9 K10 K11 K12 K13 K14 K15 K16].
  assert (Er : w_root (cs_db s) = root) by (destruct K11 as (_ & _ & _ & H4 & _); exact H4).
  pose proof (cnt_nonneg pend xs) as Hp0.
  assert (Hb : 1 + Z.of_nat (length (lin_ops H)) + 1 < 2 ^ 62) by lia.
  assert (Hl : (t < length xs)%nat) by (rewrite K3; eapply lt_of; eauto).
  pose proof (K15 t _ Ht) as T.
  assert (Hagree : at_ xs t = TPend o -> k = name_of o -> agree (dir (name_of o)) f g).
  { intros Hx ->. destruct (K16 (name_of o)) as [A|(t' & i' & o' & p1 & h1 & r1 & E1 & E2)]; [exact A|exfalso].
    assert (t = t') as <-.
    { apply (excl _ _ t t' (name_of o) i i' K14); rewrite nth_error_map, ?Ht, ?E1; reflexivity. }
    congruence. }
  assert (Lock : forall th', ct_lock th' = LIn k i -> linv (cs_pool s) (map ct_lock (set_nth t th' (cs_threads s)))).
  { intros th' E. rewrite map_set, E, set_same; [exact K14|]. rewrite nth_error_map, Ht. reflexivity. }
  (* the call takes effect: its program becomes its body, on f1 and g1 *)
  assert (Take : forall st1 f1 g1 q' r g',
    at_ xs t = TPend o -> k = name_of o -> okop o -> is_call o -> c_step o q = (q', r) ->
    world st1 -> sees st1 f1 -> same_opts (cs_db s) st1 ->
    (forall hs h, held_ok (cs_db s) hs h -> held_ok st1 hs h) -> (forall ev, ev_ok (cs_db s) ev -> ev_ok st1 ev) ->
    (forall x, fget x f1 = fget x f) -> (forall x, fget x g1 = fget x g) ->
    (forall d, In d (fs_dirs f1) <-> In d (fs_dirs g1)) -> closed (fs_dirs g1) ->
    run outcome (body root max o) g1 = (g', r) -> sees q' g' -> safe size cap nc [] None (body root max o) g1 ->
    exists H' xs' f' q' g',
      ci (CS st1 (cs_pool s) (set_nth t (CT (LIn k i) (Some (o, body root max o)) h) (cs_threads s)) (cs_log s)) H' xs' f' q' g').
  { intros st1 f1 g1 q' r g' Hx -> Hok Hc Hcs W1 Se1 Hso Fh Fe Ff Fg Hd Hcl Erun Seq Hsafe.
    pose proof (local_body root max o Hroot) as HL. fold (dir (name_of o)) in HL.
    destruct (run0_frame size cap (dir (name_of o)) (body root max o) HL g1) as [Fr1 Fr2].
    unfold run in Erun. rewrite Erun in Fr1, Fr2. cbn [fst] in Fr1, Fr2.
    assert (A : agree (dir (name_of o)) g1 f1).
    { intros x Hx'. rewrite Ff, Fg. symmetry. exact (Hagree Hx eq_refl x Hx'). }
    destruct (run0_agree size cap (dir (name_of o)) (body root max o) HL g1 f1 A) as [E1 E2].
    rewrite Erun in E1, E2. destruct (run0 size cap (body root max o) f1) as [f2 r2] eqn:Ef. cbn [fst snd] in E1, E2. subst r2.
    exists (H ++ [HLin t o r]), (set_nth t (TDone o r) xs), f1, q', g'.
    apply (ci_lin s H xs f q g t i o p h st1 h (body root max o) f1 q' r g'); auto.
    - intros x Hx'. rewrite Fr2 by exact Hx'. apply Fg.
    - rewrite Fr1. exact Hd.
    - rewrite Fr1. exact Hcl.
    - apply (ti_run st1 f1 g' o r (body root max o) h i [] None f2); auto.
      + intros x [].
      + intros x; discriminate.
      + eapply safe_agree; [exact HL|exact A|exact Hsafe].
      + intros x [].
      + intros x; discriminate.
      + now apply agree_sym. }
  inversion T as [h1 E1 E2|l1 o1 h1 i1 Hc Hok Hl1 E1 E2|o1 h1 i1 k2 Hc Hok Hw Hk2 E1 E2|o1 r1 p1 h1 i1 hs ev f1 Hh He Hs HL Ho1 Ho2 Hrun Ha E1 E2|o1 r1 l1 h1 Hl1 E1 E2]; subst.
  - (* looking for the directory *)
    assert (k = name_of o /\ i1 = i) as [-> ->] by (destruct Hl1 as [Hl1|Hl1]; [discriminate|split; congruence]).
    destruct (prog_shape root max o Hc) as (kk & k2 & Ep & Ek & Ek' & Ek2). rewrite Ep in Hstep. cbn [prog_step] in Hstep.
    injection Hstep as <- <- <-. fold (dir (name_of o)). rewrite (sees_exists (cs_db s) f (dir (name_of o)) K9).
    rewrite (is_dir (name_of o) f g K12).
    destruct (c_step o q) as [q' r] eqn:Hcs.
    pose proof (seq_call _ q g o q' r K6 Hb Hok Hc K7 Hcs) as Sq. cbn zeta in Sq.
    destruct (exists0 (dir (name_of o)) g) eqn:Eex.
    + rewrite Ek. destruct Sq as (g' & Erun & Seq & Hsafe).
      apply (Take (cs_db s) f g q' r g'); auto. apply same_opts_refl.
    + rewrite Ek'. destruct (writes o) eqn:Ew.
      * exists (H ++ []), (set_nth t (TPend o) xs), f, q, g.
        pose proof (ci_quiet s H xs f q g t _ (CT (LIn (name_of o) i) (Some (o, PMkdir (dir_of root (name_of o)) k2)) h) (TPend o) (cs_pool s) [] C Ht) as Q.
        cbn [observe flat_map] in Q. rewrite app_nil_r in Q. apply Q.
        -- now apply Lock.
        -- now apply (ti_mkdir _ f g o h i k2).
        -- left. auto.
        -- rewrite <- E2. reflexivity.
        -- intros; congruence.
      * destruct Sq as [-> Seq].
        exists (H ++ [HLin t o (missing o)]), (set_nth t (TDone o (missing o)) xs), f, q', g.
        apply (ci_lin s H xs f q g t i o _ h (cs_db s) h (PRet (missing o)) f q' (missing o) g C Ht); auto.
        -- apply same_opts_refl.
        -- apply (ti_run _ f g o (missing o) (PRet (missing o)) h i [] None f); auto; try exact I; try discriminate; intros x [].
  - (* making the directory *)
    cbn [prog_step] in Hstep. pose proof (mkdir_world (cs_db s) f (name_of o) K8 K9) as M. rewrite Er in M. fold (dir (name_of o)) in M.
    destruct (mkdirAll (dir (name_of o)) (cs_db s)) as [st1 ok]. destruct (mkdir0 (dir (name_of o)) f) as [f1 ok0].
    destruct M as (-> & _ & W1 & Se1 & Hso & Est & Ef1). injection Hstep as <- <- <-. rewrite Hk2.
    destruct (c_step o q) as [q' r] eqn:Hcs.
    pose proof (seq_call _ q g o q' r K6 Hb Hok Hc K7 Hcs) as Sq. cbn zeta in Sq. rewrite Hw in Sq.
    assert (Fh : forall hs h, held_ok (cs_db s) hs h -> held_ok st1 hs h).
    { intros hs0 h0 G0. eapply held_eq; [exact G0|subst st1; reflexivity|subst st1; reflexivity]. }
    assert (Fe : forall ev, ev_ok (cs_db s) ev -> ev_ok st1 ev) by (intros ev G0; subst st1; exact G0).
    assert (Ff : forall x, fget x f1 = fget x f) by (intros x; subst f1; reflexivity).
    destruct (exists0 (dir (name_of o)) g) eqn:Eex.
    + destruct Sq as (g' & Erun & Seq & Hsafe). apply (Take st1 f1 g q' r g'); auto.
      intros d. subst f1. cbn [fs_dirs]. rewrite in_app_iff, K12. split; [|auto]. intros [Hd|Hd]; [|exact Hd].
      apply exists0_in in Eex. exact (K13 _ Eex d Hd).
    + destruct Sq as (g' & Erun & Seq & Hsafe).
      apply (Take st1 f1 (FS (fs_files g) (ancestors [] (clean_dir (dir (name_of o))) ++ fs_dirs g)) q' r g'); auto.
      * intros d. subst f1. cbn [fs_dirs]. rewrite !in_app_iff, K12. reflexivity.
      * cbn [fs_dirs]. apply closed_app; [apply closed_ancestors|exact K13].
  - (* going on *)
    destruct (ci_go s H xs f q g t i o p h st' h' p' r1 C Ht (eq_sym E2) Hr Hstep) as (f' & C'). eauto 10.
  - destruct Hl1 as [Hl1|(k0 & i0 & Hl1)]; discriminate.
Qed.

Lemma ci_step s s' H xs f q g : ci s H xs f q g -> fine (cs_log s') -> conc_step s s' ->
  exists H' xs' f' q' g', ci s' H' xs' f' q' g'.
Proof.
  intros C Hf St. pose proof C as [K1 K2 K3 K4 K5 K6 K7 K8 K9 K10 K11 K12 K13 K14 K15 K16].
  assert (Er : w_root (cs_db s) = root /\ w_max (cs_db s) = max) by (destruct K11 as (_ & _ & H3 & H4 & _); auto).
  destruct Er as [Er Em].
  assert (Lk : forall t th p' l' k th', nth_error (cs_threads s) t = Some th -> lp_step k (cs_pool s) (ct_lock th) = Some (p', l') ->
    ct_lock th' = l' -> linv p' (map ct_lock (set_nth t th' (cs_threads s))) /\ l' <> LPanic).
  { intros t th p' l' k th' E1 E2 E3. rewrite map_set, E3.
    assert (E4 : nth_error (map ct_lock (cs_threads s)) t = Some (ct_lock th)) by (rewrite nth_error_map, E1; reflexivity).
    pose proof (linv_step _ _ t k _ p' l' K14 E4 E2) as L. split; [exact L|]. intros ->.
    apply (li_panic _ _ L t). eapply nth_error_set_same; eauto. }
  inversion St as [s0 t h o p' l' Ht Hc Hlp|s0 t l o p h p' l' Ht Hl Hlp|s0 t k i o p h st' h' p' Ht Hr Hstep
    |s0 t k i o r h p' l' Ht Hlp|s0 t o r h Ht|s0]; subst s0 s'; cbn [cs_log] in Hf.
  - (* invocation *)
    pose proof (K15 t _ Ht) as T. inversion T as [h1 E1 E2| | | |]; subst.
    exists (H ++ [HInv t o]), (set_nth t (TPend o) xs), f, q, g.
    assert (exists j, l' = LWait (name_of o) j) as (j & ->).
    { cbn [lp_step] in Hlp. destruct (mget beqb (name_of o) (lp_locks (cs_pool s))) as [j|]; injection Hlp as _ <-; eauto. }
    apply (ci_quiet s H xs f q g t _ _ (TPend o) p' [HInv t o] C Ht).
    + refine (proj1 (Lk t _ p' _ (name_of o) _ Ht Hlp _)). reflexivity.
    + rewrite Er, Em. apply ti_pend with (i := j); auto. destruct Hf as [Hf _]. apply (Hf t o). apply in_app_iff. right. now left.
    + right. exists (HInv t o). split; [reflexivity|]. split; [reflexivity|]. split; [reflexivity|]. split; [reflexivity|].
      apply fo_inv. rewrite E2. apply K2.
    + rewrite <- E2. reflexivity.
    + intros; congruence.
  - (* the mutex *)
    pose proof (K15 t _ Ht) as T. exists (H ++ []), (set_nth t (at_ xs t) xs), f, q, g.
    destruct (Lk t _ p' l' [] (CT l' (Some (o, p)) h) Ht Hlp eq_refl) as [L Hnp].
    pose proof (ci_quiet s H xs f q g t _ (CT l' (Some (o, p)) h) (at_ xs t) p' [] C Ht L) as Q.
    cbn [observe flat_map] in Q. rewrite app_nil_r in Q. apply Q.
    + inversion T as [h1 E1 E2|l1 o1 h1 i1 Hc Hok Hl1 E1 E2|o1 h1 i1 k2 Hc Hok Hw Hk2 E1 E2|o1 r1 p1 h1 i1 hs ev f1 Hh He Hs HL Ho1 Ho2 Hrun Ha E1 E2|o1 r1 l1 h1 Hl1 E1 E2]; subst; try contradiction.
      * destruct Hl1 as [->| ->]; [|contradiction]. cbn [ct_lock lp_step] in Hlp. destruct (lp_mu (cs_pool s) i1); [discriminate|].
        injection Hlp as _ <-. apply ti_pend with (i := i1); auto.
      * destruct Hl1 as [->|(k & j & ->)]; [contradiction|]. cbn [ct_lock lp_step] in Hlp.
        destruct (lp_mu (cs_pool s) j); injection Hlp as _ <-; [|contradiction]. apply ti_done. now left.
    + left. auto.
    + destruct (pend (at_ xs t)); reflexivity.
    + intros name i o0 p0 h0 r E. injection E as -> _ _ _. contradiction.
  - eapply ci_act; eauto.
  - (* Unlock *)
    pose proof (K15 t _ Ht) as T. exists (H ++ []), (set_nth t (at_ xs t) xs), f, q, g.
    destruct (Lk t _ p' l' [] (CT l' (Some (o, PRet r)) h) Ht Hlp eq_refl) as [L Hnp].
    pose proof (ci_quiet s H xs f q g t _ (CT l' (Some (o, PRet r)) h) (at_ xs t) p' [] C Ht L) as Q.
    cbn [observe flat_map] in Q. rewrite app_nil_r in Q.
    inversion T as [h1 E1 E2|l1 o1 h1 i1 Hc Hok Hl1 E1 E2|o1 h1 i1 k2 Hc Hok Hw Hk2 E1 E2|o1 r1 p1 h1 i1 hs ev f1 Hh He Hs HL Ho1 Ho2 Hrun Ha E1 E2|o1 r1 l1 h1 Hl1 E1 E2]; subst.
    + exfalso. destruct (prog_shape root max o Hc) as (kk & k2 & Ep & _). congruence.
    + unfold run in Hrun. cbn [run0] in Hrun. injection Hrun as <- <-. try rewrite <- E2 in Q. try rewrite <- E2. apply Q.
      * cbn [ct_lock lp_step] in Hlp. destruct (mget beqb (name_of o) (lp_locks (cs_pool s))) as [j|]; injection Hlp as _ <-; [|contradiction].
        apply ti_done. right. eauto.
      * left. auto.
      * reflexivity.
      * intros name i0 o0 p0 h0 r0 E _. assert (name = name_of o) as -> by congruence. exact Ha.
    + destruct Hl1 as [Hl1|(k0 & i0 & Hl1)]; discriminate.
  - (* return *)
    pose proof (K15 t _ Ht) as T. inversion T as [h1 E1 E2|l1 o1 h1 i1 Hc Hok Hl1 E1 E2| | |o1 r1 l1 h1 Hl1 E1 E2]; subst.
    { destruct Hl1; discriminate. }
    exists (H ++ [HRes t r]), (set_nth t TIdle xs), f, q, g.
    apply (ci_quiet s H xs f q g t _ _ TIdle (cs_pool s) [HRes t r] C Ht).
    + rewrite map_set, set_same; [exact K14|]. rewrite nth_error_map, Ht. reflexivity.
    + apply ti_idle.
    + right. exists (HRes t r). split; [reflexivity|]. split; [reflexivity|]. split; [reflexivity|]. split; [reflexivity|].
      apply fo_res with (o := o). rewrite E2. apply K2.
    + rewrite <- E2. reflexivity.
    + intros; congruence.
  - exists H, xs, f, q, g. now apply ci_empty.
Qed.

Definition fs_of (st : db) : fs := FS (map (fun x => (fst x, contents st (snd x))) (w_files st)) (w_dirs st).
Lemma sees_of st : sees st (fs_of st).
Proof.
  split; [|reflexivity]. intros x. unfold fget, fs_of. cbn [fs_files]. induction (w_files st) as [|[k v] l IH]; [reflexivity|].
  cbn [map fst snd mget]. destruct (beqb _ _); [reflexivity|exact IH].
Qed.

Lemma ci_reach n s : conc_reach n root size cap max handles rand s -> fine (cs_log s) ->
  exists H xs f q g, ci s H xs f q g.
Proof.
  induction 1 as [|s s' HR IH St]; intros Hf.
  - exists [], (repeat TIdle n), (fs_of init), init, (fs_of init).
    destruct (SI_inv 1 init SI_init) as (D & A & HI & _ & Hnc & _).
    assert (Hat : forall t, at_ (repeat TIdle n) t = TIdle).
    { intros t. unfold at_. destruct (nth_in_or_default t (repeat TIdle n) TIdle) as [Hin|E]; [now apply repeat_spec in Hin|exact E]. }
    constructor; cbn [conc_init cs_db cs_pool cs_threads cs_log]; auto.
    + intros t. rewrite Hat. apply fo_nil.
    + now rewrite !repeat_length.
    + cbn. clear. induction n; cbn; lia.
    + apply sees_of.
    + eapply inv_world; eauto.
    + apply sees_of.
    + apply same_opts_refl.
    + reflexivity.
    + cbn. apply closed_ancestors.
    + replace (map ct_lock (repeat (CT LIdle None []) n)) with (repeat LIdle n) by (clear; induction n; cbn; congruence). apply linv_init.
    + intros t th E. apply nth_error_In, repeat_spec in E. subst th. rewrite Hat. apply ti_idle.
    + intros name. left. apply agree_refl.
  - assert (Hf' : fine (cs_log s)).
    { destruct Hf as [F1 F2]. assert (exists l, cs_log s' = cs_log s ++ l) as (l & E).
      { inversion St; subst; cbn [cs_log]; try (exists []; now rewrite app_nil_r); eexists; reflexivity. }
      rewrite E in F1, F2. split; [intros t o Hin; apply (F1 t o); apply in_app_iff; now left|].
      rewrite cnt_app in F2. pose proof (cnt_nonneg is_inv l). lia. }
    destruct (IH Hf') as (H & xs & f & q & g & C). eapply ci_step; eauto.
Qed.
End Lin.

(** ** the two kinds of histories *)
(** values that fit, any cache *)
Definition si_fit (root : list Z) (size cap max : Z) (n : Z) (q : db) : Prop :=
  exists a, R n q a /\ ad_size a = size /\ ad_cap a = cap /\ ad_max a = max /\ ad_root a = root.
(** any values, no cache *)
Definition si_any (root : list Z) (size cap max : Z) (n : Z) (q : db) : Prop :=
  exists a, Rb n q a /\ ad_size a = size /\ ad_cap a = cap /\ ad_max a = max /\ ad_root a = root.

Lemma a_step_opts o a : is_call o -> let a' := fst (a_step o a) in
  ad_size a' = ad_size a /\ ad_cap a' = ad_cap a /\ ad_max a' = ad_max a /\ ad_root a' = ad_root a.
Proof.
  intros Hc. destruct o as [name v|name e|name|]; [| | |contradiction Hc]; cbn [a_step].
  - destruct (a_write _ _ _ _ _); auto.
  - destruct (ad_map a name); [auto|]. destruct (existsb _ _); auto.
  - destruct (ad_map a name); [auto|]. destruct (existsb _ _); auto.
Qed.
Lemma b_step_opts o a : is_call o -> let a' := fst (b_step o a) in
  ad_size a' = ad_size a /\ ad_cap a' = ad_cap a /\ ad_max a' = ad_max a /\ ad_root a' = ad_root a.
Proof.
  intros Hc. destruct o as [name v|name e|name|]; [| | |contradiction Hc].
  - cbn [b_step]. destruct (a_write_any _ _ _ _ _); auto.
  - pose proof (a_step_opts (OQuery name e) a I) as E. cbn [b_step] in *. destruct (ad_map a name); [auto|exact E].
  - pose proof (a_step_opts (OLatest name) a I) as E. cbn [b_step] in *. destruct (ad_map a name); [auto|exact E].
Qed.

Section Two.
Variables (root : list Z) (size cap max handles : Z) (rand : stream).
Hypothesis Hroot : root <> [].
Hypothesis Hproc : process_ok size cap handles rand.

Lemma lin_fit n s : conc_reach n root size cap max handles rand s ->
  fine (call_fits size cap) (cs_log s) ->
  exists H xs f q g, ci root size cap max handles rand false (call_fits size cap) (si_fit root size cap max) s H xs f q g.
Proof.
  intros HR Hf. eapply ci_reach; eauto.
  - exists (adb_empty root size cap max). split; [now apply R_empty|auto].
  - intros m q (a & (HI & HG & E1 & E2 & E3 & E4) & F1 & F2 & F3 & F4). exists (ad_dirs a), (ad_map a).
    split; [exact HI|]. split; [now right|]. split; [discriminate|]. repeat split; congruence.
  - intros m q o (a & HA & F1 & F2 & F3 & F4) Ho Hc Hm.
    assert (Ho' : op_ok (ad_size a) (ad_cap a) o) by (rewrite F1, F2; destruct o; [exact Ho|exact I|exact I|contradiction Hc]).
    destruct (step_sim m q a o HA Ho' Hm) as (st' & E & HA'). rewrite E. cbn [fst]. exists (fst (a_step o a)).
    pose proof (a_step_opts o a Hc) as (G1 & G2 & G3 & G4). split; [exact HA'|]. repeat split; congruence.
  - intros o Ho. destruct o; cbn in *; auto. exact (proj1 Ho).
  - exact (proj1 Hproc).
Qed.
Lemma lin_any n s : handles = 0 -> conc_reach n root size cap max handles rand s ->
  fine call_any (cs_log s) ->
  exists H xs f q g, ci root size cap max handles rand true call_any (si_any root size cap max) s H xs f q g.
Proof.
  intros Hh HR Hf. eapply ci_reach; eauto.
  - exists (adb_empty root size cap max). rewrite Hh in *. split; [now apply Rb_empty|auto].
  - intros m q (a & (HI & HG & E1 & E2 & E3 & E4 & E5) & F1 & F2 & F3 & F4). exists (ad_dirs a), (ad_map a).
    split; [exact HI|]. split; [now left|]. split; [intros _; exact E5|]. repeat split; congruence.
  - intros m q o (a & HA & F1 & F2 & F3 & F4) Ho Hc Hm.
    assert (Ho' : op_any o) by (destruct o; [exact Ho|exact I|exact I|contradiction Hc]).
    destruct (step_simb m q a o HA Ho' Hm) as (st' & E & HA'). rewrite E. cbn [fst]. exists (fst (b_step o a)).
    pose proof (b_step_opts o a Hc) as (G1 & G2 & G3 & G4). split; [exact HA'|]. repeat split; congruence.
  - exact (proj1 Hproc).
Qed.
End Two.
