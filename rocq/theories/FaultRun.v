(** Histories with failing system calls. *)
From Coq Require Import ZArith List Lia Bool.
From Verif Require Import Base Maps Record Convert ConvertProofs File FileProofs Cache CacheProofs
  Metric MetricSpec MetricFile MetricPaths MetricProofs MetricRead DbSpec DbProofs DbLog DbClient Fault FaultProofs FaultJunk FaultSim FaultBroken.
Import ListNotations.
Open Scope Z_scope.

(** the metric has no file that cannot be opened *)
Definition usable (name : list Z) (st : db) : Prop :=
  forall i ino, mget beqb (metricFilenameAt (metricDir (w_root st) name) i) (w_files st) = Some ino -> openFile (contents st ino) <> Err.
Definition ops_of (hs : list item) : list op := map fst (calls hs).

(** ** the log *)
Lemma linv_fx o a a' out name log : frame o a a' -> fx o a a' out -> linv a name log ->
  linv a' name (log1 name o out log) /\ (ad_max a <= 0 -> vals a name = log -> vals a' name = log1 name o out log).
Proof.
  intros (Hr & _ & Hother & _) Hfx HL.
  assert (Same : vals a' name = vals a name -> linv a' name log /\ (ad_max a <= 0 -> vals a name = log -> vals a' name = log)).
  { intros E. unfold linv. rewrite E. auto. }
  assert (Oth : op_name o <> Some name -> vals a' name = vals a name) by (intros H; unfold vals; now rewrite Hother).
  destruct o as [nm v|nm e|nm|]; destruct out as [r|l r|x r|]; try contradiction; cbn [fx] in Hfx; cbn [log1 op_name] in *.
  - destruct (beqb nm name) eqn:En.
    2:{ assert (Hn : nm <> name) by (intros ->; rewrite beqb_refl in En; discriminate).
        assert (El : match r with Ok true => log | _ => log end = log) by (destruct r as [[]| | |]; reflexivity).
        rewrite El. apply Same, Oth. congruence. }
    apply beqb_eq in En. subst nm. destruct HL as (Hd & He & (tl & Etl)).
    destruct r as [[]| | |]; cbn [write_fx] in Hfx; try contradiction.
    + destruct Hfx as (Hnew & kept & dr & Ek & Ev & Hm). unfold linv. rewrite Ev. split.
      * split; [|split; [discriminate|]].
        -- apply desc_cons; [exact Hd|]. intros w l El.
           destruct (vals a name) as [|w0 l0] eqn:E0; [now rewrite (He eq_refl) in El|].
           rewrite El in Etl. injection Etl as <- _. exact (Hnew w l0 eq_refl).
        -- exists (dr ++ tl). rewrite Etl, Ek. now rewrite <- app_assoc.
      * intros H0 Heq. rewrite <- Heq, Ek, (Hm H0), app_nil_r. reflexivity.
    + apply Same, Hfx.
    + destruct Hfx as ((dr & Ek & Hm) & Hne). split.
      * split; [exact Hd|]. split; [intros E; apply He, Hne, E|]. exists (dr ++ tl). rewrite Etl, Ek. now rewrite <- app_assoc.
      * intros H0 Heq. rewrite <- Heq, Ek, (Hm H0), app_nil_r. reflexivity.
  - destruct (bytes_eq_dec nm name) as [->|Hn]; [apply Same, Hfx|apply Same, Oth; congruence].
  - destruct (bytes_eq_dec nm name) as [->|Hn]; [apply Same, Hfx|apply Same, Oth; congruence].
  - apply Same, Oth. discriminate.
Qed.

(** ** the unusable files *)
Lemma rb_root n st a B : RB n st a B -> w_root st = ad_root a /\ ad_root a <> [].
Proof.
  intros HB. pose proof (rb_R _ _ _ _ HB) as HR. split; [|exact (R_root _ _ _ HR)].
  destruct HR as (_ & _ & _ & _ & _ & E). exact E.
Qed.
Lemma rm_contents P st x : contents (rm P st) x = contents st x.
Proof. reflexivity. Qed.
(** a linked file is one of a metric or an unusable one *)
Lemma rb_linked n st a B p x : RB n st a B -> mget beqb p (w_files st) = Some x ->
  (exists name, In name B /\ p = path_of (ad_root a) name (next_num a name) /\ openFile (contents st x) = Err) \/
  (~ In p (junk a B) /\ exists g, openFile (contents st x) = Ok g).
Proof.
  intros HB Hp. destruct (in_dec bytes_eq_dec p (junk a B)) as [Hin|Hout].
  - left. apply in_junk in Hin. destruct Hin as (name & Hn & ->). exists name. split; [exact Hn|]. split; [reflexivity|].
    destruct (rb_file _ _ _ _ HB name Hn) as (x' & c & Hx & Hu & HJ). rewrite Hp in Hx. injection Hx as <-.
    destruct HJ. rewrite <- rm_contents with (P := junk a B). unfold unusable in Hu. congruence.
  - right. split; [exact Hout|]. pose proof (rb_R _ _ _ _ HB) as (HI & _).
    assert (Hq : mget beqb p (w_files (rm (junk a B) st)) = Some x) by (cbn [rm set_files w_files]; now rewrite mget_kept).
    destruct (i_paths _ _ _ _ HI p x Hq) as (_ & name & am & i & -> & HA & Hi).
    set (k := Z.to_nat (a_last am - i)).
    destruct (nth_error (a_files am) k) as [f|] eqn:Ef.
    2:{ exfalso. apply nth_error_None in Ef. unfold k, a_last, len in *. lia. }
    destruct (i_file _ _ _ _ HI name am k f HA Ef) as (ino & c & HF).
    replace (a_last am - Z.of_nat k) with i in HF by (unfold k; lia).
    destruct (file_at_open _ _ _ _ _ _ HF) as (_ & Ho). destruct HF as (Hpp & _).
    change (w_root (rm (junk a B) st)) with (w_root st) in *.
    assert (ino = x) as -> by congruence. eauto.
Qed.
Lemma rb_usable n st a B name : RB n st a B -> (usable name st <-> ~ In name B).
Proof.
  intros HB. destruct (rb_root _ _ _ _ HB) as (Er & Hr). split.
  - intros Hu Hin. destruct (rb_file _ _ _ _ HB name Hin) as (x & c & Hx & Hc & HJ).
    apply (Hu (next_num a name) x).
    + rewrite Er. exact Hx.
    + destruct HJ. rewrite <- rm_contents with (P := junk a B). unfold unusable in Hc. congruence.
  - intros Hout i x Hx. rewrite Er in Hx.
    destruct (rb_linked n st a B _ x HB Hx) as [(nm & Hn & E & _)|(_ & g & Hg)]; [|congruence].
    exfalso. apply Hout. apply path_dir in E; [|exact Hr]. now subst.
Qed.

(** ** the operator deletes an unusable file *)
Definition without (name : list Z) (B : list (list Z)) : list (list Z) := filter (fun x => negb (beqb name x)) B.
Lemma in_without name B x : In x (without name B) <-> In x B /\ x <> name.
Proof.
  unfold without. rewrite filter_In. split; intros (H1 & H2); split; auto.
  - intros ->. rewrite beqb_refl in H2. discriminate.
  - destruct (beqb name x) eqn:E; [apply beqb_eq in E; congruence|reflexivity].
Qed.
Lemma clean_sim n st a B p : RB n st a B -> exists B', RB n (clean p st) a B' /\ incl B' B /\
  (forall name, In name B -> p <> path_of (ad_root a) name (next_num a name) -> In name B') /\
  (forall name, In name B' -> p <> path_of (ad_root a) name (next_num a name)).
Proof.
  intros HB. destruct (rb_root _ _ _ _ HB) as (Er & Hr). unfold clean.
  destruct (mget beqb p (w_files st)) as [x|] eqn:Hx.
  2:{ exists B. split; [exact HB|]. split; [apply incl_refl|]. split; [auto|]. intros name Hn ->.
      destruct (rb_file _ _ _ _ HB name Hn) as (x & c & H & _). congruence. }
  destruct (rb_linked n st a B p x HB Hx) as [(name & Hn & Hp & Ho)|(Hj & g & Hg)].
  2:{ rewrite Hg. exists B. split; [exact HB|]. split; [apply incl_refl|]. split; [auto|]. intros name Hn ->.
      apply Hj, in_junk. eauto. }
  rewrite Ho. exists (without name B).
  assert (Inj : forall nm, path_of (ad_root a) nm (next_num a nm) = p -> nm = name).
  { intros nm E. rewrite Hp in E. now apply path_dir in E. }
  assert (Erm : rm (junk a (without name B)) (osRemove p st) = rm (junk a B) st).
  { unfold rm, osRemove, set_files. cbn [w_ino w_next w_files w_dirs w_toks w_cache w_size w_cap w_max w_root]. f_equal.
    unfold mdel. generalize (w_files st) as l. induction l as [|[q y] l IH]; [reflexivity|].
    cbn [filter]. unfold kept at 2. cbn [fst]. destruct (beqb p q) eqn:Epq.
    - apply beqb_eq in Epq. subst q. cbn [negb].
      assert (existsb (beqb p) (junk a B) = true) as -> by (apply in_existsb, in_junk; eauto). exact IH.
    - cbn [negb filter]. unfold kept at 1. cbn [fst].
      assert (existsb (beqb q) (junk a (without name B)) = existsb (beqb q) (junk a B)) as ->.
      { destruct (existsb (beqb q) (junk a B)) eqn:E.
        - apply in_existsb in E. apply in_existsb. apply in_junk in E. destruct E as (nm & Hnm & Eq). apply in_junk. exists nm. split; [|exact Eq].
          apply in_without. split; [exact Hnm|]. intros ->. rewrite Hp, Eq, beqb_refl in Epq. discriminate.
        - destruct (existsb (beqb q) (junk a (without name B))) eqn:E2; [|reflexivity].
          apply in_existsb, in_junk in E2. destruct E2 as (nm & Hnm & Eq). apply in_without in Hnm.
          assert (existsb (beqb q) (junk a B) = true) by (apply in_existsb, in_junk; exists nm; tauto). congruence. }
      rewrite IH. reflexivity. }
  split; [|split; [|split]].
  - constructor.
    + rewrite Erm. exact (rb_R _ _ _ _ HB).
    + intros nm Hnm. apply in_without in Hnm. apply (rb_dir _ _ _ _ HB), Hnm.
    + intros nm Hnm. apply in_without in Hnm. destruct Hnm as (Hnm & Hne).
      destruct (rb_file _ _ _ _ HB nm Hnm) as (y & c & Hy & Hc & HJ). exists y, c. split; [|split; [exact Hc|now rewrite Erm]].
      cbn [osRemove set_files w_files]. rewrite (mget_del_other beqb eqb_ok_bytes); [exact Hy|]. intros E. apply Hne, Inj; congruence.
  - intros nm Hnm. now apply in_without in Hnm.
  - intros nm Hnm Hne. apply in_without. split; [exact Hnm|]. intros ->. now apply Hne.
  - intros nm Hnm E. apply in_without in Hnm. destruct Hnm as (_ & Hne). apply Hne, Inj; congruence.
Qed.

(** ** histories *)
Lemma frame_opts o a a' : frame o a a' -> ad_root a' = ad_root a /\
  ad_size a' = last_size (ad_size a) [o] /\ ad_cap a' = last_cap (ad_cap a) [o].
Proof. intros (H1 & _ & _ & H2). destruct o; cbn [last_size last_cap]; intuition. Qed.
Definition answered (out : outcome) : Prop :=
  match out with RWrite r => r = Err \/ exists b, r = Ok b | RQuery _ r | RLatest _ r => r = Err \/ r = Ok tt | RReopen => True end.
Lemma answer_ok {X} (cb : callback X) acc l res : (forall acc v, exists acc' b, cb acc v = (acc', Ok b)) -> answer cb acc l res -> snd res = Err \/ snd res = Ok tt.
Proof.
  intros Hcb [->|(l1 & l2 & acc' & _ & _ & ->)]; [|auto]. right. revert acc.
  induction l as [|v l IH]; intros acc; cbn [run_cb]; [reflexivity|].
  destruct (Hcb acc v) as (acc' & b & ->). destruct b; [apply IH|reflexivity].
Qed.
Lemma fx_answered o a a' out : fx o a a' out -> answered out.
Proof.
  destruct o, out; cbn [fx answered]; try contradiction; auto.
  - destruct r as [b| | |]; cbn; eauto; contradiction.
  - intros (_ & H). apply (answer_ok collect_cb) in H; [exact H|]. intros acc v. unfold collect_cb. eauto.
  - intros (_ & H). apply (answer_ok latest_cb) in H; [exact H|]. intros acc v. unfold latest_cb. eauto.
Qed.

Lemma fb_run : forall hs n st a B, RB n st a B -> ops_ok (ad_size a) (ad_cap a) (ops_of hs) -> n + Z.of_nat (length hs) < 2 ^ 62 ->
  exists st' a' B' outs, f_run hs st = (st', outs) /\ RB (n + Z.of_nat (length hs)) st' a' B' /\
    ad_root a' = ad_root a /\ ad_size a' = last_size (ad_size a) (ops_of hs) /\ ad_cap a' = last_cap (ad_cap a) (ops_of hs) /\
    length outs = length (calls hs) /\ Forall answered outs /\
    (forall name log, linv a name log -> linv a' name (acked_ name (ops_of hs) outs log) /\
       (unlimited (ad_max a) (ops_of hs) -> vals a name = log -> vals a' name = acked_ name (ops_of hs) outs log)) /\
    (forall name, In name B' -> In name B \/ exists k o e b out, nth_error (calls hs) k = Some (o, e) /\ nth_error outs k = Some out /\
       op_name o = Some name /\ In (Some b) (snd e) /\ fails out) /\
    (forall name, In name B -> (forall p i, In (IClean p) hs -> p <> path_of (ad_root a) name i) -> In name B' /\
       forall k o e out, nth_error (calls hs) k = Some (o, e) -> nth_error outs k = Some out -> op_name o = Some name -> out = no_answer o).
Proof.
  induction hs as [|[o e|p] hs IH]; intros n st a B HB Hops Hn; cbn [f_run].
  - exists st, a, B, []. cbn [length calls ops_of map last_size last_cap acked_]. change (Z.of_nat 0) with 0. rewrite Z.add_0_r.
    split; [reflexivity|]. split; [exact HB|]. do 4 (split; [reflexivity|]). split; [constructor|]. split; [auto|].
    split; [auto|]. intros name Hin _. split; [exact Hin|]. intros k o e out Hk. destruct k; discriminate.
  - change (ops_of (ICall o e :: hs)) with (o :: ops_of hs) in *. cbn [calls]. cbn [length] in *.
    assert (Hop : op_ok (ad_size a) (ad_cap a) o) by (destruct o; cbn in Hops |- *; tauto).
    destruct (fb_sim n st a B o e HB Hop ltac:(lia)) as (st1 & a1 & B1 & out & E & HB1 & Hfr & Hfx & Hin & Hnew & Hbad).
    rewrite E. destruct (frame_opts o a a1 Hfr) as (F1 & F2 & F3).
    destruct (IH (n + 1) st1 a1 B1 HB1) as (st' & a' & B' & outs & E' & HB' & G1 & G2 & G3 & G4 & G5 & G6 & G7 & G8).
    { rewrite F2, F3. destruct o; cbn in Hops |- *; tauto. } { lia. }
    rewrite E'. exists st', a', B', (out :: outs). split; [reflexivity|].
    split; [replace (n + Z.of_nat (S (length hs))) with (n + 1 + Z.of_nat (length hs)) by lia; exact HB'|].
    split; [congruence|]. split; [rewrite G2, F2; destruct o; reflexivity|]. split; [rewrite G3, F3; destruct o; reflexivity|].
    split; [cbn [length]; now rewrite G4|]. split; [constructor; [exact (fx_answered _ _ _ _ Hfx)|exact G5]|].
    split; [|split].
    + intros name log HL. rewrite acked_cons. destruct (linv_fx o a a1 out name log Hfr Hfx HL) as (HL1 & HU1).
      destruct (G6 name _ HL1) as (HL2 & HU2). split; [exact HL2|]. intros (Hm & Hu) Heq. apply HU2; [|now apply HU1].
      destruct Hfr as (_ & _ & _ & Ho). destruct o; destruct Ho as (_ & _ & ->); exact Hu.
    + intros name Hnm. destruct (G7 name Hnm) as [H|(k & o' & e' & b & out' & H)].
      * destruct (Hnew name H) as [H1|(H1 & H2 & b & H3)]; [now left|]. right. exists 0%nat, o, e, b, out. auto.
      * right. exists (S k), o', e', b, out'. exact H.
    + intros name Hnm Hc.
      destruct (G8 name (Hin _ Hnm)) as (H1 & H2). { intros p i Hp. rewrite F1. apply Hc. now right. }
      split; [exact H1|]. intros [|k] o' e' out' Hk Ho Hname; cbn [nth_error] in *.
      * injection Hk as <- <-. injection Ho as <-. exact (Hbad name Hname Hnm).
      * eauto.
  - destruct (clean_sim n st a B p HB) as (B1 & HB1 & Hin & Hkeep & _).
    change (ops_of (IClean p :: hs)) with (ops_of hs) in *. cbn [calls]. cbn [length] in *.
    destruct (IH n (clean p st) a B1 HB1 Hops ltac:(lia)) as (st' & a' & B' & outs & E' & HB' & G1 & G2 & G3 & G4 & G5 & G6 & G7 & G8).
    exists st', a', B', outs. split; [exact E'|]. split.
    { destruct HB' as [HR' Hd' Hf']. constructor; auto. apply R_mono with (n := n + Z.of_nat (length hs)); [exact HR'|lia]. }
    do 6 (split; [assumption|]). split.
    + intros name Hnm. destruct (G7 name Hnm) as [H|H]; [left; now apply Hin|now right].
    + intros name Hnm Hc. apply G8.
      * apply Hkeep; [exact Hnm|]. apply Hc. now left.
      * intros q i Hq. apply Hc. now right.
Qed.

Definition fhistory_ok (root : list Z) (size cap handles : Z) (rand : stream) (hs : list item) : Prop :=
  history_ok root size cap handles rand (ops_of hs) /\ Z.of_nat (length hs) < 2 ^ 61.

Lemma fstate root size cap max handles rand hs : fhistory_ok root size cap handles rand hs ->
  exists n st a B outs, f_run hs (db_empty root size cap max handles rand) = (st, outs) /\ 1 <= n < 2 ^ 61 + 2 /\ RB n st a B /\
    ad_root a = root /\ w_root st = root /\ ad_size a = last_size size (ops_of hs) /\ ad_cap a = last_cap cap (ops_of hs) /\
    length outs = length (calls hs) /\ Forall answered outs /\
    (forall name, linv a name (acked name (ops_of hs) outs)) /\
    (unlimited max (ops_of hs) -> forall name, vals a name = acked name (ops_of hs) outs) /\
    (forall name, In name B -> exists k o e b out, nth_error (calls hs) k = Some (o, e) /\ nth_error outs k = Some out /\
       op_name o = Some name /\ In (Some b) (snd e) /\ fails out).
Proof.
  intros ((Hr & Hp & Ho & _) & Hn). pose proof (R_empty root size cap max handles rand Hr Hp) as HR.
  assert (HB : RB 1 (db_empty root size cap max handles rand) (adb_empty root size cap max) []).
  { constructor; [|intros ? []|intros ? []]. cbn [junk map]. rewrite rm_nil. exact HR. }
  destruct (fb_run hs 1 _ _ [] HB Ho ltac:(lia)) as (st & a & B & outs & E & HB' & G1 & G2 & G3 & G4 & G5 & G6 & G7 & _).
  exists (1 + Z.of_nat (length hs)), st, a, B, outs. destruct (rb_root _ _ _ _ HB') as (Er & _).
  split; [exact E|]. split; [lia|]. split; [exact HB'|]. split; [exact G1|]. split; [rewrite Er; exact G1|].
  split; [exact G2|]. split; [exact G3|]. split; [exact G4|]. split; [exact G5|]. split; [|split].
  - intros name. exact (proj1 (G6 name [] (linv_empty _ _ _ _ name))).
  - intros Hu name. exact (proj2 (G6 name [] (linv_empty _ _ _ _ name)) Hu eq_refl).
  - intros name Hin. destruct (G7 name Hin) as [[]|H]. exact H.
Qed.

(** ** the calls on a usable metric *)
Lemma usable_step n st a B o name e : RB n st a B -> op_name o = Some name -> ~ In name B ->
  f_step o e (rm (junk a B) st) = (rm (junk a B) (fst (f_step o e st)), snd (f_step o e st)).
Proof.
  intros HB Ho Hn. destruct (rb_root _ _ _ _ HB) as (Er & _). apply f_step_rm. intros nm Hnm. rewrite Ho in Hnm. injection Hnm as <-.
  rewrite Er. eapply junk_off; [exact (rb_R _ _ _ _ HB)|exact Hn].
Qed.
Lemma usable_works n st a B o name : RB n st a B -> op_name o = Some name -> ~ In name B ->
  snd (f_step o no_faults st) = snd (c_step o (rm (junk a B) st)).
Proof. intros HB Ho Hn. pose proof (usable_step n st a B o name no_faults HB Ho Hn) as H. rewrite step_nf in H. now rewrite H. Qed.

Lemma query_of_step a name e : exists r, snd (a_step (OQuery name e) a) = RQuery (query_of a name e) r.
Proof. cbn [a_step]. unfold query_of. destruct (ad_map a name); [eexists; reflexivity|]. destruct (existsb _ _); eexists; reflexivity. Qed.
Lemma latest_of_step a name : exists r, snd (a_step (OLatest name) a) = RLatest (hd_error (query_of a name (2 ^ 63 - 1))) r.
Proof. cbn [a_step]. unfold query_of. destruct (ad_map a name); [eexists; reflexivity|]. destruct (existsb _ _); eexists; reflexivity. Qed.
Lemma answer_collect l res : answer collect_cb [] l res -> exists rest, l = fst res ++ rest /\ (rest = [] /\ snd res = Ok tt \/ snd res = Err).
Proof.
  intros [->|(l1 & l2 & acc & -> & H & ->)].
  - rewrite collect_run. exists []. cbn. rewrite app_nil_r. auto.
  - rewrite collect_run in H. injection H as <-. exists l2. cbn [fst snd app]. auto.
Qed.
Lemma answer_latest l res : answer latest_cb None l res -> fst res = hd_error l /\ snd res = Ok tt \/ fst res = None /\ snd res = Err.
Proof.
  intros [->|(l1 & l2 & acc & -> & H & ->)].
  - left. destruct l; cbn; auto.
  - right. destruct l1 as [|v l1]; cbn in H; [injection H as <-; auto|discriminate].
Qed.

Lemma desc_lt w l : desc (w :: l) -> forall x, In x l -> v_end x < v_end w.
Proof. intros H x Hx. change (w :: l) with ([w] ++ l) in H. apply desc_app_inv in H. destruct H as (_ & H). apply H; [now left|exact Hx]. Qed.
