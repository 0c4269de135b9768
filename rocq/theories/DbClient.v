(** Client level consequences of the refinement (used by Props_Storage.v). *)
From Coq Require Import ZArith List Lia Bool.
From Verif Require Import Base Maps Record Convert File FileProofs Cache CacheProofs
  Metric MetricSpec MetricFile MetricPaths MetricProofs MetricRead DbSpec DbProofs DbLog
  ConvertSpec ConvertProofs.
Import ListNotations.
Open Scope Z_scope.

(** a history of calls on an empty directory, with supported options *)
Definition history_ok (root : list Z) (size cap handles : Z) (rand : stream) (ops : list op) : Prop :=
  root <> [] /\ process_ok size cap handles rand /\ ops_ok size cap ops /\
  Z.of_nat (length ops) < 2 ^ 61.

(** the options in force after a history *)
Fixpoint last_size (size : Z) (ops : list op) : Z :=
  match ops with [] => size | OReopen s _ _ _ _ :: r => last_size s r | _ :: r => last_size size r end.
Fixpoint last_cap (cap : Z) (ops : list op) : Z :=
  match ops with [] => cap | OReopen _ c _ _ _ :: r => last_cap c r | _ :: r => last_cap cap r end.

Lemma a_run_opts : forall ops a,
  ad_size (fst (a_run ops a)) = last_size (ad_size a) ops /\
  ad_cap (fst (a_run ops a)) = last_cap (ad_cap a) ops /\
  ad_root (fst (a_run ops a)) = ad_root a.
Proof.
  induction ops as [|o ops IH]; intros a; cbn [a_run]; [cbn; auto|].
  pose proof (a_step_opts o a) as [H Hr]. destruct (a_step o a) as [a1 r] eqn:E. cbn [fst] in *.
  specialize (IH a1). destruct (a_run ops a1) as [a2 rs]. cbn [fst] in *.
  destruct IH as (I1 & I2 & I3). rewrite I1, I2, I3, Hr.
  destruct o; cbn [last_size last_cap]; try (destruct H as (-> & -> & _); auto).
  cbn [a_step] in E. injection E as <- _. auto.
Qed.

Lemma c_run_app : forall o1 o2 st,
  c_run (o1 ++ o2) st =
  let '(st1, r1) := c_run o1 st in let '(st2, r2) := c_run o2 st1 in (st2, r1 ++ r2).
Proof.
  induction o1 as [|o o1 IH]; intros o2 st; cbn [c_run app].
  - destruct (c_run o2 st). reflexivity.
  - destruct (c_step o st) as [st1 r]. rewrite IH. destruct (c_run o1 st1) as [st2 r1].
    destruct (c_run o2 st2). reflexivity.
Qed.
Lemma a_run_app : forall o1 o2 a,
  a_run (o1 ++ o2) a =
  let '(a1, r1) := a_run o1 a in let '(a2, r2) := a_run o2 a1 in (a2, r1 ++ r2).
Proof.
  induction o1 as [|o o1 IH]; intros o2 a; cbn [a_run app].
  - destruct (a_run o2 a). reflexivity.
  - destruct (a_step o a) as [a1 r]. rewrite IH. destruct (a_run o1 a1) as [a2 r1].
    destruct (a_run o2 a2). reflexivity.
Qed.

(** everything known after a history *)
Lemma history_state root size cap max handles rand ops : history_ok root size cap handles rand ops ->
  exists n st a outs,
    c_run ops (db_empty root size cap max handles rand) = (st, outs) /\
    a_run ops (adb_empty root size cap max) = (a, outs) /\
    1 <= n /\ n < 2 ^ 61 + 1 /\ R n st a /\
    ad_size a = last_size size ops /\ ad_cap a = last_cap cap ops /\ ad_root a = root /\
    (forall name, linv a name (acked name ops outs)) /\
    (unlimited max ops -> forall name, vals a name = acked name ops outs).
Proof.
  intros (Hr & Hp & Ho & Hn).
  destruct (db_refines root size cap max handles rand ops Hr Hp Ho Hn) as (st & E & HR).
  pose proof (a_run_opts ops (adb_empty root size cap max)) as (O1 & O2 & O3).
  assert (HL : forall name, _) by exact (fun name => linv_run ops (adb_empty root size cap max) name []
              (good_empty _ _ _ _) (linv_empty _ _ _ _ name)).
  destruct (a_run ops (adb_empty root size cap max)) as [a outs]. cbn [fst snd] in *.
  exists (1 + Z.of_nat (length ops)), st, a, outs. split; [exact E|]. split; [reflexivity|].
  split; [lia|]. split; [lia|]. split; [exact HR|]. split; [exact O1|]. split; [exact O2|]. split; [exact O3|].
  split.
  - intros name. exact (proj1 (proj2 (HL name))).
  - intros Hu name. exact (proj2 (proj2 (HL name)) Hu eq_refl).
Qed.

(** what a query answers in a state of the refinement *)
Lemma query_answer n st a name e : R n st a -> n + 1 < 2 ^ 62 ->
  exists st', c_step (OQuery name e) st = (st', snd (a_step (OQuery name e) a)).
Proof.
  intros HR Hn. destruct (step_sim n st a (OQuery name e) HR I Hn) as (st' & E & _). eauto.
Qed.

Lemma query_log n st a name log : R n st a -> n + 1 < 2 ^ 62 -> linv a name log ->
  exists kept newest, (newest <= kept <= length log)%nat /\ (log <> [] -> (1 <= newest)%nat) /\
    (vals a name = log -> kept = length log) /\
    forall e, exists st' r,
      c_step (OQuery name e) st =
        (st', RQuery (if existsb (fun v => v_end v <? e) (firstn newest log)
                      then filter (fun v => v_end v <? e) (firstn kept log) else []) r) /\
      (log <> [] -> r = Ok tt).
Proof.
  intros HR Hn (Hd & He & (tl & Etl)). unfold vals in *.
  destruct (ad_map a name) as [am|] eqn:HA.
  - destruct HR as (HI & HG & Hrest).
    destruct (a_query_log am (HG name am HA)) as (newest & H1 & H2 & _ & H3).
    exists (length (a_values am)), newest. split; [rewrite Etl, app_length; lia|].
    split. { intros H. apply H2. intros E. apply H. now apply He. }
    split. { intros E. now rewrite <- E. }
    intros e. destruct (query_answer n st a name e (conj HI (conj HG Hrest)) Hn) as (st' & E).
    cbn [a_step] in E. rewrite HA in E. cbn [snd] in E.
    exists st', (Ok tt). split; [|auto]. rewrite E, H3. do 2 f_equal.
    rewrite Etl, firstn_app, firstn_app.
    replace (newest - length (a_values am))%nat with 0%nat by lia.
    rewrite Nat.sub_diag, firstn_all. cbn [firstn]. now rewrite !app_nil_r.
  - exists 0%nat, 0%nat. split; [split; lia|]. specialize (He eq_refl). subst log.
    split; [contradiction|]. split; [reflexivity|].
    intros e. destruct (query_answer n st a name e HR Hn) as (st' & E).
    cbn [a_step] in E. rewrite HA in E. cbn [firstn existsb filter].
    destruct (existsb _ _); cbn [snd] in E; eexists _, _; (split; [exact E|contradiction]).
Qed.

Lemma latest_log n st a name log : R n st a -> n + 1 < 2 ^ 62 -> linv a name log ->
  (forall v l, log = v :: l -> v_end v < 2 ^ 63 - 1) ->
  exists st' r, c_step (OLatest name) st = (st', RLatest (hd_error log) r) /\ (log <> [] -> r = Ok tt).
Proof.
  intros HR Hn (Hd & He & (tl & Etl)) Hb. unfold vals in *.
  destruct (step_sim n st a (OLatest name) HR I Hn) as (st' & E & _). exists st'.
  cbn [a_step] in E. destruct (ad_map a name) as [am|] eqn:HA.
  - destruct HR as (_ & HG & _). destruct (a_query_log am (HG name am HA)) as (newest & H1 & H2 & _ & H3).
    exists (Ok tt). split; [|auto]. cbn [snd] in E. rewrite E, H3. do 2 f_equal.
    destruct (a_values am) as [|v l] eqn:Ev.
    + rewrite (He eq_refl). destruct (existsb _ _); reflexivity.
    + assert (Hv : v_end v < 2 ^ 63 - 1) by (apply (Hb v (l ++ tl)); rewrite Etl; reflexivity).
      destruct newest as [|newest]; [specialize (H2 ltac:(discriminate)); lia|].
      cbn [firstn existsb filter]. rewrite (proj2 (Z.ltb_lt _ _) Hv). cbn [orb hd_error].
      rewrite Etl. reflexivity.
  - specialize (He eq_refl). subst log. destruct (existsb _ _); cbn [snd] in E;
    eexists; (split; [exact E|contradiction]).
Qed.

(** histories that differ only in the handle cache *)
Fixpoint same_but_cache (ops ops' : list op) : Prop :=
  match ops, ops' with
  | [], [] => True
  | OReopen s c m _ _ :: ops, OReopen s' c' m' _ _ :: ops' =>
      s = s' /\ c = c' /\ m = m' /\ same_but_cache ops ops'
  | o :: ops, o' :: ops' => o = o' /\ same_but_cache ops ops'
  | _, _ => False
  end.

Lemma a_run_same : forall ops ops' a, same_but_cache ops ops' -> a_run ops a = a_run ops' a.
Proof.
  induction ops as [|o ops IH]; intros [|o' ops'] a H.
  - reflexivity.
  - contradiction.
  - cbn in H. destruct o; contradiction.
  - assert (a_step o a = a_step o' a /\ same_but_cache ops ops') as [E H'].
    { destruct o; cbn [same_but_cache] in H; try (destruct H as [<- H]; auto).
      destruct o'; try (destruct H as [H _]; discriminate).
      destruct H as (<- & <- & <- & H). auto. }
    cbn [a_run]. rewrite E. destruct (a_step o' a) as [a1 r]. now rewrite (IH ops' a1 H').
Qed.

(** *** disk usage *)
(** the directory entries of the data files of a metric *)
Definition disk_files (name : list Z) (st : db) : list (list Z * Z) :=
  filter (fun pe => match split_last (fst pe) with
                    | Some (d, _) => beqb d (clean_dir (metricDir (w_root st) name))
                    | None => false
                    end) (w_files st).
Definition disk_bytes (name : list Z) (st : db) : Z :=
  fold_right Z.add 0 (map (fun pe => len (contents st (snd pe))) (disk_files name st)).

(** all processes of the history have the same options *)
Fixpoint same_options (size cap max : Z) (ops : list op) : Prop :=
  match ops with
  | [] => True
  | OReopen s c m _ _ :: ops => s = size /\ c = cap /\ m = max /\ same_options size cap max ops
  | _ :: ops => same_options size cap max ops
  end.

Definition bounded (size cap max : Z) (a : adb) : Prop :=
  ad_size a = size /\ ad_cap a = cap /\ ad_max a = max /\
  forall name am, ad_map a name = Some am ->
    len (a_files am) <= max + 1 /\ Forall (fun f => a_size f = size /\ a_cap f = cap) (a_files am).

Lemma bounded_put size cap max a name am dirs : bounded size cap max a ->
  len (a_files am) <= max + 1 -> Forall (fun f => a_size f = size /\ a_cap f = cap) (a_files am) ->
  bounded size cap max (ADB (ad_size a) (ad_cap a) (ad_max a) (ad_root a) dirs (aput name am (ad_map a))).
Proof.
  intros (H1 & H2 & H3 & H4) Hl Hf. unfold bounded; cbn [ad_size ad_cap ad_max ad_map].
  split; [exact H1|]. split; [exact H2|]. split; [exact H3|]. intros name' am'.
  destruct (bytes_eq_dec name name') as [<-|Hn].
  - rewrite aput_same. intros [= <-]. auto.
  - rewrite aput_other by auto. apply H4.
Qed.

Lemma bounded_step size cap max o a : 0 < max -> Good (ad_map a) -> bounded size cap max a ->
  same_options size cap max [o] -> bounded size cap max (fst (a_step o a)).
Proof.
  intros Hmax HG HB Hs. pose proof HB as (H1 & H2 & H3 & H4).
  assert (Hfresh : len (a_files (a_fresh (ad_size a) (ad_cap a))) <= max + 1 /\
     Forall (fun f => a_size f = size /\ a_cap f = cap) (a_files (a_fresh (ad_size a) (ad_cap a)))).
  { cbn. split; [change (len [AF (ad_cap a) (ad_size a) []]) with 1; lia|]. constructor; [cbn; auto|constructor]. }
  destruct o as [name v|name e|name|s c m h r]; cbn [a_step].
  - pose proof (am_of_ok (ad_size a) (ad_cap a) (ad_map a) name HG) as Hok.
    set (am := am_of (ad_size a) (ad_cap a) (ad_map a) name) in *.
    assert (Ham : len (a_files am) <= max + 1 /\ Forall (fun f => a_size f = size /\ a_cap f = cap) (a_files am)).
    { unfold am, am_of. destruct (ad_map a name) as [x|] eqn:E; [exact (H4 name x E)|exact Hfresh]. }
    destruct Ham as [Hl Hf].
    assert (HX : let '(am', _) := a_write (ad_size a) (ad_cap a) (ad_max a) am v in
       len (a_files am') <= max + 1 /\ Forall (fun f => a_size f = size /\ a_cap f = cap) (a_files am')).
    { unfold a_write. destruct (a_files am) as [|f older] eqn:Efs; [rewrite Efs; auto|].
      destruct (match a_vals f with [] => false | w :: _ => v_end v <=? v_end w end); [rewrite Efs; auto|].
      inversion Hf as [|? ? Hf1 Hf2]; subst x l.
      destruct (_ <=? a_cap f).
      { cbn [a_files]. rewrite !len_cons in *. split; [lia|]. constructor; [exact Hf1|exact Hf2]. }
      destruct (_ && _); [rewrite Efs; auto|]. cbn [a_files].
      destruct ((ad_max a <=? a_last am - a_first am) && (0 <? ad_max a)) eqn:Ed.
      - rewrite len_cons, len_removelast by discriminate. split; [lia|].
        constructor; [cbn; auto|]. now apply removelast_forall.
      - rewrite len_cons. split.
        + unfold a_last in Ed. rewrite Efs, H3 in Ed. apply andb_false_iff in Ed.
          destruct Ed as [Ed|Ed]; [apply Z.leb_gt in Ed; lia|apply Z.ltb_ge in Ed; lia].
        + constructor; [cbn; auto|assumption]. }
    destruct (a_write _ _ _ am v) as [am' r]. cbn [fst]. destruct HX. now apply bounded_put.
  - destruct (ad_map a name); [exact HB|]. destruct (existsb _ _); [|exact HB].
    destruct Hfresh. now apply bounded_put.
  - destruct (ad_map a name); [exact HB|]. destruct (existsb _ _); [|exact HB].
    destruct Hfresh. now apply bounded_put.
  - destruct Hs as (-> & -> & -> & _). unfold bounded; cbn [fst ad_size ad_cap ad_max ad_map].
    split; [reflexivity|]. split; [reflexivity|]. split; [reflexivity|exact H4].
Qed.

Lemma bounded_run size cap max : forall ops a, 0 < max -> Good (ad_map a) -> bounded size cap max a ->
  same_options size cap max ops -> bounded size cap max (fst (a_run ops a)).
Proof.
  induction ops as [|o ops IH]; intros a Hm HG HB Hs; cbn [a_run]; [exact HB|].
  pose proof (good_step o a HG) as HG'.
  pose proof (bounded_step size cap max o a Hm HG HB) as HB'.
  destruct (a_step o a) as [a1 r]. cbn [fst] in *.
  assert (same_options size cap max [o] /\ same_options size cap max ops) as [S1 S2].
  { destruct o; cbn in Hs |- *; tauto. }
  specialize (IH a1 Hm HG' (HB' S1) S2). destruct (a_run ops a1). exact IH.
Qed.

Lemma nodup_range (l : list Z) a b : NoDup l -> (forall x, In x l -> a <= x <= b) -> a <= b + 1 ->
  len l <= b - a + 1.
Proof.
  intros Hn Hr Hab.
  assert (incl l (map (fun k => a + Z.of_nat k) (seq 0 (Z.to_nat (b - a + 1))))) as Hi.
  { intros x Hx. specialize (Hr x Hx). apply in_map_iff. exists (Z.to_nat (x - a)).
    split; [lia|]. apply in_seq. lia. }
  apply NoDup_incl_length in Hi; [|exact Hn]. rewrite map_length, seq_length in Hi. unfold len. lia.
Qed.

Lemma disk_file_in n st D A name p ino : Inv n st D A -> In (p, ino) (disk_files name st) ->
  exists am k f c, A name = Some am /\ nth_error (a_files am) k = Some f /\
    p = path_of (w_root st) name (a_last am - Z.of_nat k) /\
    contents st ino = c /\ file_rep f c.
Proof.
  intros HI Hin. unfold disk_files in Hin. apply filter_In in Hin. destruct Hin as [Hin Hs]. cbn [fst] in Hs.
  assert (exists ino0, mget beqb p (w_files st) = Some ino0) as (ino0 & G).
  { apply in_mget. apply in_map_iff. exists (p, ino). auto. }
  assert (ino0 = ino) as ->.
  { pose proof (i_nodup _ _ _ _ HI) as Hnd. revert G Hin Hnd. clear.
    induction (w_files st) as [|[k x] m IH]; cbn; [contradiction|]. intros G Hin Hnd.
    inversion Hnd as [|? ? Hn Hd]; subst. destruct (beqb p k) eqn:E.
    - apply beqb_eq in E. subst k. injection G as ->. destruct Hin as [[= ->]|Hin]; [reflexivity|].
      exfalso. apply Hn. apply in_map_iff. exists (p, ino). auto.
    - destruct Hin as [[= -> ->]|Hin]; [now rewrite beqb_refl in E|]. auto. }
  destruct (i_paths _ _ _ _ HI p ino G) as (_ & name' & am & i & -> & HA & Hr).
  rewrite path_shape, split_last_app in Hs by (try exact (i_root _ _ _ _ HI); apply filename_no_slash; eapply num_range; eauto).
  apply beqb_eq in Hs. apply clean_dir_inj in Hs; [|exact (i_root _ _ _ _ HI)]. subst name'.
  set (k := Z.to_nat (a_last am - i)).
  assert (Hk : (k < length (a_files am))%nat) by (unfold a_last, len in *; lia).
  destruct (nth_error (a_files am) k) as [f|] eqn:Ef; [|apply nth_error_None in Ef; lia].
  destruct (i_file _ _ _ _ HI name am k f HA Ef) as (ino' & c & P & C & Rr).
  replace (a_last am - Z.of_nat k) with i in P by lia. rewrite G in P. injection P as <-.
  exists am, k, f, c. split; [exact HA|]. split; [exact Ef|]. split; [f_equal; lia|].
  split; [unfold contents; now rewrite C|exact Rr].
Qed.

Lemma disk_bound n st a size cap max name : R n st a -> bounded size cap max a -> 0 < max -> 0 <= size * (cap + 1) ->
  len (disk_files name st) <= max + 1 /\ disk_bytes name st <= size * (cap + 1) * (max + 1).
Proof.
  intros (HI & HG & _) (_ & _ & _ & HB) Hm Hpos.
  assert (Hcount : len (disk_files name st) <= max + 1).
  { destruct (ad_map a name) as [am|] eqn:HA.
    - destruct (HB name am HA) as [Hl _].
      set (nums := map (fun pe => match split_last (fst pe) with
                                  | Some (_, n) => match dataFileNumber n with Some i => i | None => 0 end
                                  | None => 0 end) (disk_files name st)).
      assert (Hnum : forall p ino, In (p, ino) (disk_files name st) ->
                exists i, a_first am <= i <= a_last am /\ p = path_of (w_root st) name i /\
                  match split_last p with
                  | Some (_, n) => match dataFileNumber n with Some i => i | None => 0 end
                  | None => 0 end = i).
      { intros p ino Hin. destruct (disk_file_in n st _ _ name p ino HI Hin) as (am' & k & f & c & HA' & Hk & -> & _).
        rewrite HA in HA'. injection HA' as <-. exists (a_last am - Z.of_nat k).
        assert (Hr : a_first am <= a_last am - Z.of_nat k <= a_last am)
          by (apply last_range; apply nth_error_Some; congruence).
        pose proof (num_range _ _ _ _ _ _ _ HI HA Hr) as Hi.
        split; [exact Hr|]. split; [reflexivity|].
        rewrite path_shape, split_last_app by (try exact (i_root _ _ _ _ HI); now apply filename_no_slash).
        now rewrite dataFileNumber_itoa. }
      assert (Hlen : len nums = len (disk_files name st)) by (unfold nums, len; now rewrite map_length).
      assert (Hnd : NoDup nums).
      { unfold nums.
        assert (Hk : NoDup (map fst (disk_files name st))).
        { pose proof (i_nodup _ _ _ _ HI) as Hd. unfold disk_files. revert Hd. generalize (w_files st).
          intros m. induction m as [|pe m IH]; cbn [filter map]; intros Hd; [constructor|].
          inversion Hd as [|? ? H1 H2]; subst.
          destruct (match split_last (fst pe) with Some (d, _) => beqb d _ | None => false end); [|auto].
          cbn [map]. constructor; [|auto]. intros Hin. apply H1. apply in_map_iff in Hin.
          destruct Hin as (x & Ex & Hx). apply filter_In in Hx. apply in_map_iff. exists x. tauto. }
        revert Hk Hnum. generalize (disk_files name st). intros l. induction l as [|[p ino] l IH]; intros Hk Hnum; cbn [map fst]; [constructor|].
        inversion Hk as [|? ? H1 H2]; subst. constructor.
        - intros Hin. apply in_map_iff in Hin. destruct Hin as ([p' ino'] & Ex & Hx). cbn [fst] in *.
          destruct (Hnum p ino (or_introl eq_refl)) as (i & _ & -> & E1).
          destruct (Hnum p' ino' (or_intror Hx)) as (i' & _ & -> & E2).
          rewrite E1, E2 in Ex. subst i'. apply H1. apply in_map_iff. exists (path_of (w_root st) name i, ino'). auto.
        - apply IH; [assumption|]. intros p' ino' Hx. apply Hnum with (ino := ino'). now right. }
      rewrite <- Hlen. assert (H3 : len nums <= a_last am - a_first am + 1).
      { apply nodup_range; [exact Hnd| |].
        - intros x Hx. unfold nums in Hx. apply in_map_iff in Hx. destruct Hx as ([p ino] & Ex & Hx). cbn [fst] in Ex.
          destruct (Hnum p ino Hx) as (i & Hi & _ & E1). rewrite E1 in Ex. lia.
        - unfold a_last. pose proof (len_nonneg (a_files am)). lia. }
      unfold a_last in H3. lia.
    - destruct (disk_files name st) as [|[p ino] l] eqn:E; [change (len (@nil (list Z * Z))) with 0; lia|].
      assert (Hin : In (p, ino) (disk_files name st)) by (rewrite E; now left).
      destruct (disk_file_in n st _ _ name p ino HI Hin) as (am & ? & ? & ? & HA' & _). congruence. }
  split; [exact Hcount|].
  assert (Hsz : forall pe, In pe (disk_files name st) -> len (contents st (snd pe)) = size * (cap + 1)).
  { intros [p ino] Hin. cbn [snd].
    destruct (disk_file_in n st _ _ name p ino HI Hin) as (am & k & f & c & HA & Hk & _ & -> & Hrep).
    destruct (HB name am HA) as [_ HF]. rewrite Forall_forall in HF.
    destruct (HF f (nth_error_In _ _ Hk)) as [<- <-].
    destruct Hrep as (_ & m & (_ & _ & Hl & _) & _). exact Hl. }
  unfold disk_bytes. revert Hsz Hcount. generalize (disk_files name st). intros l Hsz Hcount.
  assert (fold_right Z.add 0 (map (fun pe => len (contents st (snd pe))) l) = size * (cap + 1) * len l) as ->.
  { clear Hcount. induction l as [|pe l IH]; cbn [map fold_right]; [change (len (@nil (list Z * Z))) with 0; lia|].
    rewrite IH by (intros; apply Hsz; now right). rewrite (Hsz pe) by now left. rewrite len_cons. lia. }
  nia.
Qed.

Lemma bounded_empty root size cap max : bounded size cap max (adb_empty root size cap max).
Proof. unfold bounded, adb_empty; cbn. split; [reflexivity|]. split; [reflexivity|]. split; [reflexivity|]. discriminate. Qed.

(** *** reading changes nothing but the handle cache *)
Lemma acquire_true_fch p st : exists t c, fst (acquireFile p true st) = set_fch st t c.
Proof.
  unfold acquireFile. destruct (mget beqb p (w_toks st)) as [tok|].
  - destruct (cache_take handle_zero (w_cache st) tok) as [c [f|]]; cbn; eauto.
  - exists (w_toks st), (w_cache st). destruct st; reflexivity.
Qed.
Lemma release_fch p f st : exists t c, releaseFile p f st = set_fch st t c.
Proof. unfold releaseFile. destruct (cache_put _ _ _) as [[c tok] ev]. eauto. Qed.

Lemma m_Read__fch {X} (cb : callback X) : forall fuel m num e acc st,
  exists t c, fst (m_Read_ cb fuel m num e acc st) = set_fch st t c.
Proof.
  induction fuel as [|fuel IH]; intros m num e acc st; cbn [m_Read_].
  - exists (w_toks st), (w_cache st). destruct (num <? t_first m); destruct st; reflexivity.
  - destruct (num <? t_first m); [exists (w_toks st), (w_cache st); destruct st; reflexivity|].
    destruct (acquire_true_fch (filenameAt m num) st) as (t & c & E).
    destruct (acquireFile (filenameAt m num) true st) as [st1 [f| | |]]; cbn [fst] in E; subst st1;
      try (eexists _, _; reflexivity).
    destruct (read_file cb (h_geom f) _ e acc) as [acc' r].
    destruct (release_fch (filenameAt m num) f (set_fch st t c)) as (t2 & c2 & E2). rewrite E2.
    destruct r as [[]| | |]; try (eexists _, _; reflexivity).
    destruct (IH m (num - 1) e acc' (set_fch (set_fch st t c) t2 c2)) as (t3 & c3 & E3).
    rewrite E3. eexists _, _; reflexivity.
Qed.

Lemma geometry_run size cap max : forall ops a0, same_options size cap max ops -> ad_size a0 = size -> ad_cap a0 = cap ->
                (forall nm x, ad_map a0 nm = Some x -> Forall (fun f => a_size f = size /\ a_cap f = cap) (a_files x)) ->
                forall nm x, ad_map (fst (a_run ops a0)) nm = Some x -> Forall (fun f => a_size f = size /\ a_cap f = cap) (a_files x).
Proof.
induction ops as [|o ops IH]; intros a0 Hs S1 S2 HF; [exact HF|]. cbn [a_run].
        assert (Hstep : forall nm x, ad_map (fst (a_step o a0)) nm = Some x -> Forall (fun f => a_size f = size /\ a_cap f = cap) (a_files x)).
        { assert (Hfresh : Forall (fun f => a_size f = size /\ a_cap f = cap) (a_files (a_fresh (ad_size a0) (ad_cap a0))))
            by (constructor; [cbn; auto|constructor]).
          destruct o as [name v|name e|name|s c m h r]; cbn [a_step].
          - assert (Ham : Forall (fun f => a_size f = size /\ a_cap f = cap) (a_files (am_of (ad_size a0) (ad_cap a0) (ad_map a0) name))).
            { unfold am_of. destruct (ad_map a0 name) eqn:E; [exact (HF _ _ E)|exact Hfresh]. }
            set (am := am_of _ _ _ _) in *.
            assert (HX : Forall (fun f => a_size f = size /\ a_cap f = cap) (a_files (fst (a_write (ad_size a0) (ad_cap a0) (ad_max a0) am v)))).
            { unfold a_write. destruct (a_files am) as [|f older] eqn:Efs; [cbn; rewrite Efs; auto|].
              destruct (match a_vals f with [] => false | w :: _ => v_end v <=? v_end w end); [cbn; rewrite Efs; auto|].
              inversion Ham as [|? ? Hf1 Hf2]; subst x l.
              destruct (_ <=? a_cap f); [cbn; constructor; assumption|].
              destruct (_ && _); [cbn; rewrite Efs; auto|]. cbn [fst a_files].
              constructor; [cbn; auto|]. destruct (_ && _); [now apply removelast_forall|assumption]. }
            destruct (a_write _ _ _ am v) as [am' r]. cbn [fst ad_map] in *. intros nm x.
            unfold aput. destruct (beqb name nm); [intros [= <-]; exact HX|apply HF].
          - destruct (ad_map a0 name); [exact HF|]. destruct (existsb _ _); [|exact HF].
            intros nm x. cbn [fst ad_map]. unfold aput. destruct (beqb name nm); [intros [= <-]; exact Hfresh|apply HF].
          - destruct (ad_map a0 name); [exact HF|]. destruct (existsb _ _); [|exact HF].
            intros nm x. cbn [fst ad_map]. unfold aput. destruct (beqb name nm); [intros [= <-]; exact Hfresh|apply HF].
          - exact HF. }
        pose proof (a_step_opts o a0) as [Hopt _].
        assert (same_options size cap max ops /\ ad_size (fst (a_step o a0)) = size /\ ad_cap (fst (a_step o a0)) = cap) as (T1 & T2 & T3).
        { destruct o; cbn in Hs; try (destruct Hopt as (-> & -> & _); auto).
          destruct Hs as (-> & -> & _ & Hs). cbn. auto. }
        destruct (a_step o a0) as [a1 r]. cbn [fst] in *. specialize (IH a1 T1 T2 T3 Hstep).
        destruct (a_run ops a1). exact IH. 
Qed.

Lemma same_options_last size cap max : forall ops, same_options size cap max ops ->
  last_size size ops = size /\ last_cap cap ops = cap.
Proof.
  induction ops as [|o ops IH]; cbn; [auto|]. destruct o; try exact IH.
  intros (-> & -> & -> & Hs). now apply IH.
Qed.

Lemma ops_ok_app : forall s c o1 o2, ops_ok s c (o1 ++ o2) ->
  ops_ok s c o1 /\ ops_ok (last_size s o1) (last_cap c o1) o2.
Proof.
  intros s c o1. revert s c. induction o1 as [|o o1 IH]; intros s c o2; [cbn; auto|].
  destruct o; cbn [app ops_ok last_size last_cap]; intros H.
  - destruct H as [H1 H2]. apply IH in H2. tauto.
  - now apply IH.
  - now apply IH.
  - destruct H as [H1 H2]. apply IH in H2. tauto.
Qed.
Lemma ops_ok_app2 : forall s c o1 o2, ops_ok s c o1 -> ops_ok (last_size s o1) (last_cap c o1) o2 -> ops_ok s c (o1 ++ o2).
Proof.
  intros s c o1. revert s c. induction o1 as [|o o1 IH]; intros s c o2; [cbn; auto|].
  destruct o; cbn [app ops_ok last_size last_cap]; intros H H'.
  - destruct H. split; auto.
  - now apply IH.
  - now apply IH.
  - destruct H. split; auto.
Qed.

(** a metric has as many directory entries as files *)
Lemma disk_files_count n st D A name am : Inv n st D A -> A name = Some am ->
  len (a_files am) <= len (disk_files name st).
Proof.
  intros HI HA.
  assert (Hincl : incl (map (fun k => path_of (w_root st) name (a_last am - Z.of_nat k)) (seq 0 (length (a_files am))))
                       (map fst (disk_files name st))).
  { intros p Hp. apply in_map_iff in Hp. destruct Hp as (k & <- & Hk). apply in_seq in Hk.
    destruct (nth_error (a_files am) k) as [f|] eqn:Ef; [|apply nth_error_None in Ef; lia].
    destruct (i_file _ _ _ _ HI name am k f HA Ef) as (ino & c & P & _).
    assert (Hin : In (path_of (w_root st) name (a_last am - Z.of_nat k), ino) (w_files st)).
    { revert P. clear. induction (w_files st) as [|[q x] m IH]; cbn; [discriminate|].
      destruct (beqb _ q) eqn:E; [apply beqb_eq in E; intros [= ->]; subst; now left|auto]. }
    apply in_map_iff. exists (path_of (w_root st) name (a_last am - Z.of_nat k), ino). split; [reflexivity|].
    unfold disk_files. apply filter_In. split; [exact Hin|]. cbn [fst].
    pose proof (i_root _ _ _ _ HI) as Hroot.
    assert (Hr : a_first am <= a_last am - Z.of_nat k <= a_last am) by (apply last_range; lia).
    rewrite path_shape, split_last_app by (auto; apply filename_no_slash; eapply num_range; eauto).
    apply beqb_refl. }
  apply NoDup_incl_length in Hincl.
  - rewrite !map_length, seq_length in Hincl. unfold len. lia.
  - apply NoDup_nth_error. intros i j Hi Hij. rewrite map_length, seq_length in Hi.
    rewrite !nth_error_map in Hij.
    destruct (nth_error (seq 0 (length (a_files am))) j) as [y|] eqn:Ej.
    2:{ rewrite (nth_error_nth' _ 0%nat) in Hij by (rewrite seq_length; lia). discriminate. }
    assert (Hj : (j < length (a_files am))%nat) by (rewrite <- (seq_length (length (a_files am)) 0); apply nth_error_Some; congruence).
    rewrite (nth_error_nth' _ 0%nat) in Ej by (rewrite seq_length; lia).
    rewrite (nth_error_nth' _ 0%nat) in Hij by (rewrite seq_length; lia).
    rewrite seq_nth in Ej, Hij by lia. injection Ej as <-. cbn in Hij. injection Hij as Hij.
    apply (path_neq st n D A name am) in Hij; auto; [lia|apply last_range; lia|].
    eapply num_range; eauto. apply last_range; lia.
Qed.

(** a value with more records than the capacity *)
Lemma too_large_write n st a name v : R n st a -> n + 1 < 2 ^ 62 -> val_ok v ->
  ad_cap a < nrec (ad_size a) v ->
  (forall am, ad_map a name = Some am -> Forall (fun f => a_size f = ad_size a /\ a_cap f = ad_cap a) (a_files am)) ->
  exists st' r, c_step (OWrite name v) st = (st', RWrite r) /\ (r = Err \/ r = Ok false).
Proof.
  intros (HI & HG & E1 & E2 & E3 & E4) Hn Hv Hbig Hgeo. unfold c_step, db_write.
  destruct (newMetric_rw n st _ _ name HI HG) as (st1 & A1 & -> & HI1 & Hso & HA1 & Hok & Hext).
  pose proof Hso as (S1 & S2 & S3 & S4 & S5).
  set (am := am_of (w_size st) (w_cap st) (ad_map a) name) in *.
  assert (HF : Forall (fun f => a_size f = w_size st /\ a_cap f = w_cap st) (a_files am)).
  { rewrite E1, E2. unfold am, am_of. destruct (ad_map a name) as [x|] eqn:E; [exact (Hgeo x eq_refl)|].
    constructor; [cbn; auto|constructor]. }
  rewrite <- E1, <- E2 in *.
  destruct Hok as (Hdesc & Hnn & Hall).
  destruct (a_files am) as [|f older] eqn:Hfs; [contradiction|].
  assert (Hne : older = [] \/ a_vals f <> []).
  { destruct older; [now left|right]. inversion Hall; subst; assumption. }
  inversion HF as [|? ? [G1 G2] _]; subst x l.
  destruct (acquireLast_spec n st1 _ A1 name am f older HI1 HA1 Hfs Hne) as (ino & c & cc & E & HI2 & Hcap1 & HFile).
  rewrite S4 in E. unfold m_Write. rewrite E.
  set (m := Metric _ _ _) in *. set (st2 := set_fch st1 (w_toks st1) cc) in *.
  assert (Hw : exists st3 r, write_with m (Handle ino (geom_of f)) (a_cap f - used f - 1) (v_start v) (v_end v) (v_data v) st2 = (st3, r) /\ (r = Err \/ r = Ok false)).
  { assert (HF2 : file_at st2 name (a_last am) f ino c) by exact HFile.
    destruct (file_at_open _ _ _ _ _ _ HF2) as (Hc2 & _).
    pose proof HF2 as (Pp & Pc & Prep). pose proof Prep as (((Hs & Hcp & Hprod) & Hvs & Hu & Hdf) & _).
    destruct (has_newest f c Prep) as (Hhas & Hrec).
    destruct (recs_spec (a_size f) v Hs Hv) as (_ & Hnum & _ & Hnp & _).
    unfold write_with. cbn [h_geom h_ino]. rewrite Hc2.
    replace (a_cap f - used f - 1 + 1) with (a_cap f - used f) by lia. rewrite Hhas.
    match goal with |- context [match ?e with Some r => (st2, r) | None => _ end] =>
      assert (He : e = None \/ e = Some (Ok false)) end.
    { destruct (a_vals f) as [|w ws] eqn:Ev; [now left|]. destruct (Hrec w ws eq_refl) as (r & -> & _).
      destruct (_ <=? _); auto. }
    destruct He as [-> | ->]; [|eauto]. cbn [g_size geom_of g_cap]. rewrite Hnum.
    destruct (Z.eqb_spec (nrec (a_size f) v) 0); [lia|].
    rewrite G1, G2 in *. pose proof (used_nonneg (w_size st) (a_vals f) ltac:(lia)) as Hun.
    unfold used in *. rewrite G1 in *.
    destruct (Z.ltb_spec (w_cap st - used_ (w_size st) (a_vals f) - nrec (w_size st) v) 0); [|lia].
    destruct (_ && _); [eauto|]. cbn [t_last t_first m]. change (w_max st2) with (w_max st1).
    set (drop := (w_max st1 <=? a_last am - a_first am) && (0 <? w_max st1)).
    set (am1 := if drop then AM (a_first am + 1) (removelast (a_files am)) else am).
    set (st3 := if drop then osRemove (filenameAt m (a_first am)) (evictFile (filenameAt m (a_first am)) st2) else st2).
    assert (Hlen : a_last am - a_first am + 1 = len (a_files am)) by (unfold a_last; lia).
    assert (Hl1 : a_first am1 + len (a_files am1) = a_last am + 1).
    { unfold am1. destruct drop; cbn [a_first a_files]; [|unfold a_last; lia].
      rewrite len_removelast by (rewrite Hfs; discriminate). unfold a_last. lia. }
    assert (Hstep : exists A2, A2 name = Some am1 /\ Inv n st3 (a_dirs (w_root st) (ad_dirs a) name) A2 /\ same_opts st2 st3).
    { unfold st3, am1. destruct drop eqn:Ed.
      - unfold drop in Ed. apply andb_true_iff in Ed. destruct Ed as [Ed1 Ed2].
        apply Z.leb_le in Ed1. apply Z.ltb_lt in Ed2.
        assert (H2 : (2 <= length (a_files am))%nat) by (unfold len in Hlen; lia).
        destruct (drop_spec n st2 _ A1 name am HI2 HA1 H2) as (HI3 & Hso2).
        change (path_of (w_root st2) name (a_first am)) with (path_of (w_root st1) name (a_first am)) in *.
        rewrite S4 in *. eexists. split; [apply aput_same|]. split; [exact HI3|exact Hso2].
      - exists A1. split; [exact HA1|]. split; [exact HI2|apply same_opts_refl]. }
    destruct Hstep as (A2 & HA2 & HI3 & Hso3). pose proof Hso3 as (T1 & T2 & T3 & T4 & T5).
    change (w_size st2) with (w_size st1) in T1. change (w_cap st2) with (w_cap st1) in T2.
    change (w_root st2) with (w_root st1) in T4.
    destruct (create_spec (n + 1) st3 (a_dirs (w_root st) (ad_dirs a) name) A2 name (a_first am1) (a_files am1)) as (ino4 & c4 & st4 & E5 & _).
    - apply inv_mono with (n := n); [exact HI3|]. pose proof (i_bound _ _ _ _ HI). lia.
    - destruct (i_num _ _ _ _ HI3 name am1 HA2). assumption.
    - rewrite Hl1. destruct (i_num _ _ _ _ HI1 name am HA1) as (_ & _ & ?). lia.
    - right. rewrite HA2. destruct am1; reflexivity.
    - rewrite Hl1, T4, S4 in E5.
      change (filenameAt m (a_last am + 1)) with (path_of (w_root st) name (a_last am + 1)).
      rewrite E5. cbn [h_geom g_size g_cap]. rewrite T1, T2, S1, S2, Hnum.
      destruct (Z.eqb_spec (nrec (w_size st) v) 0); [lia|].
      destruct (Z.ltb_spec (w_cap st - nrec (w_size st) v) 0); [|lia]. eauto. }
  destruct Hw as (st3 & r & -> & Hr). eauto.
Qed.
