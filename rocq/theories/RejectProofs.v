(** The program refines the machine of RejectSpec.v. *)
From Coq Require Import ZArith List Lia Bool.
From Verif Require Import Base Maps Record Convert File FileProofs Cache CacheProofs
  Metric MetricSpec MetricFile MetricPaths MetricProofs MetricRead DbSpec DbProofs DbLog DbClient RejectSpec.
Import ListNotations.
Open Scope Z_scope.

Lemma no_handles {F} (c : cache F) t : cinv c -> c_cap c = 0 -> lookup c t = None.
Proof.
  intros (_ & Hl & _ & _ & H) E. unfold lookup. destruct (mget Z.eqb t (c_handles c)) as [e|] eqn:G; [|reflexivity].
  destruct (H t e G) as (Hr & _). lia.
Qed.

(** removing the newest file *)
Lemma remove_newest_spec n st D A name am f older : Inv n st D A -> c_cap (w_cache st) = 0 -> A name = Some am ->
  a_files am = f :: older -> older <> [] ->
  Inv n (osRemove (path_of (w_root st) name (a_last am)) st) D (aput name (AM (a_first am) older) A).
Proof.
  intros HI Hcap HA Hfs Hne. set (fp := path_of (w_root st) name (a_last am)).
  assert (Hlen : 1 <= len older) by (destruct older; [contradiction|rewrite len_cons; pose proof (len_nonneg older); lia]).
  assert (Hlast : a_last (AM (a_first am) older) = a_last am - 1).
  { unfold a_last; cbn [a_first a_files]. rewrite Hfs, len_cons. lia. }
  assert (Hrng : a_first am <= a_last am) by (unfold a_last; rewrite Hfs, len_cons; lia).
  assert (Hff : is_i64 (a_last am)) by (apply (num_range n st D A name am); auto; lia).
  assert (Hneq : forall name' am' i, A name' = Some am' -> a_first am' <= i <= a_last am' ->
     (name <> name' \/ i < a_last am) -> fp <> path_of (w_root st) name' i).
  { intros name' am' i HA' Hr Hd E. unfold fp in E. symmetry in E.
    destruct (path_neq st n D A name' am' i _ _ HI HA' Hr Hff E) as [-> ->]. destruct Hd; [congruence|lia]. }
  assert (Hdel : forall p ino, mget beqb p (mdel beqb fp (w_files st)) = Some ino ->
            p <> fp /\ mget beqb p (w_files st) = Some ino).
  { intros p ino. rewrite mget_del by apply eqb_ok_bytes. destruct (beqb fp p) eqn:E; [discriminate|].
    apply beqb_neq in E. auto. }
  destruct HI as [j1 j2 j3 j4 j5 j6 j7 j8 j9 j10 j11 j12 j13 j14 j15]. constructor; try assumption.
  - intros name' am'. destruct (bytes_eq_dec name name') as [<-|Hn].
    + rewrite aput_same. intros [= <-]. rewrite Hlast. cbn [a_first a_files].
      destruct (j8 name am HA) as (? & _ & ?). split; [lia|]. split; [exact Hne|lia].
    + rewrite aput_other by auto. apply j8.
  - intros name' am'. destruct (bytes_eq_dec name name') as [<-|Hn].
    + intros _. exact (j9 name am HA).
    + rewrite aput_other by auto. apply j9.
  - intros name' am' k g. destruct (bytes_eq_dec name name') as [<-|Hn].
    + rewrite aput_same. intros [= <-]. rewrite Hlast. cbn [a_files]. intros Hk.
      destruct (j10 name am (S k) g HA) as (ino & c & P1 & P2 & P3); [rewrite Hfs; exact Hk|].
      replace (a_last am - Z.of_nat (S k)) with (a_last am - 1 - Z.of_nat k) in P1 by lia.
      exists ino, c. split; [|split; [exact P2|exact P3]]. unfold osRemove, set_files; cbn [w_files w_root].
      rewrite mget_del_other; [exact P1|apply eqb_ok_bytes|].
      assert (Hkl : (k < length older)%nat) by (apply nth_error_Some; congruence).
      apply (Hneq name am); auto; [unfold a_last in *; rewrite Hfs, len_cons in *; unfold len in *; lia|right; lia].
    + rewrite aput_other by auto. intros HA' Hk.
      destruct (j10 name' am' k g HA' Hk) as (ino & c & P1 & P2 & P3). exists ino, c.
      split; [|split; [exact P2|exact P3]]. unfold osRemove, set_files; cbn [w_files w_root].
      rewrite mget_del_other; [exact P1|apply eqb_ok_bytes|].
      apply (Hneq name' am'); auto. apply last_range. apply nth_error_Some. congruence.
  - intros p ino G. unfold osRemove, set_files in G; cbn [w_files] in G.
    apply Hdel in G. destruct G as [Hp G]. destruct (j11 p ino G) as (Hlt & name' & am' & i & -> & HA' & Hr).
    split; [exact Hlt|]. destruct (bytes_eq_dec name name') as [<-|Hn].
    + rewrite HA in HA'. injection HA' as <-.
      exists name, (AM (a_first am) older), i.
      split; [reflexivity|]. rewrite aput_same. split; [reflexivity|]. rewrite Hlast. cbn [a_first].
      assert (i <> a_last am) by (intros ->; now apply Hp). lia.
    + exists name', am', i. rewrite aput_other by auto. auto.
  - intros p q ino G1 G2. unfold osRemove, set_files in G1, G2; cbn [w_files] in G1, G2.
    apply Hdel in G1, G2. apply (j12 p q ino); tauto.
  - unfold osRemove, set_files; cbn [w_files]. now apply nodup_mdel.
  - intros p k h G1 G2. change (lookup (w_cache st) k = Some h) in G2.
    rewrite (no_handles _ k j1 Hcap) in G2. discriminate.
Qed.

(** acquireLast steps back over the empty file *)
Lemma acquireLast_pending n st D A name am : Inv n st D A -> c_cap (w_cache st) = 0 -> A name = Some am ->
  a_pending am = true ->
  exists st', same_opts st st' /\ Inv n st' D (aput name (a_strip am) A) /\
    forall s e d,
    m_Write (Metric (dir_of (w_root st) name) (a_first am) (a_last am)) s e d st =
    m_Write (Metric (dir_of (w_root st) name) (a_first (a_strip am)) (a_last (a_strip am))) s e d st'.
Proof.
  intros HI Hcap HA Hp. unfold a_strip. rewrite Hp. unfold a_pending in Hp.
  destruct (a_files am) as [|f [|g older]] eqn:Hfs; try discriminate.
  destruct (a_vals f) as [|] eqn:Ev; [|discriminate]. clear Hp. cbn [tl].
  destruct (acquire_spec n st D A name am 0 f HI HA) as (ino & c & cc & E & HI' & Hcap' & HF);
    [rewrite Hfs; reflexivity|].
  rewrite Z.sub_0_r in *. set (p := path_of (w_root st) name (a_last am)) in *.
  set (st1 := set_fch st (w_toks st) cc) in *.
  assert (HF1 : file_at st1 name (a_last am) f ino c) by exact HF.
  destruct (file_at_open _ _ _ _ _ _ HF1) as (Hc1 & Ho1). pose proof HF1 as (Pp & _ & Hrep).
  destruct (release_spec n st1 D A p (Handle ino (geom_of f)) HI' Pp Ho1) as (t & c2 & Er & HI2 & Hcap2).
  set (st2 := set_fch st1 t c2) in *.
  assert (Hcap3 : c_cap (w_cache st2) = 0) by (cbn in *; congruence).
  exists (osRemove p st2). split; [unfold same_opts; cbn in *; intuition congruence|].
  split.
  { exact (remove_newest_spec n st2 D A name am f (g :: older) HI2 Hcap3 HA Hfs ltac:(discriminate)). }
  intros s e d. unfold m_Write. 
  assert (EL : acquireLast (Metric (dir_of (w_root st) name) (a_first am) (a_last am)) st =
               acquireLast (Metric (dir_of (w_root st) name) (a_first am) (a_last am - 1)) (osRemove p st2)).
  { unfold acquireLast; cbn [t_last t_first].
    assert (Hln : a_last am - a_first am + 1 = len (a_files am)) by (unfold a_last; lia).
    replace (Z.to_nat (a_last am - a_first am + 1)) with (S (Z.to_nat (a_last am - 1 - a_first am + 1)))
      by (rewrite Hfs, !len_cons in Hln; pose proof (len_nonneg older); lia).
    cbn [acquireLast_ t_last t_first].
    assert (Hge : a_first am < a_last am) by (rewrite Hfs, !len_cons in Hln; pose proof (len_nonneg older); lia).
    destruct (Z.ltb_spec (a_last am) (a_first am)); [lia|].
    change (filenameAt (Metric (dir_of (w_root st) name) (a_first am) (a_last am)) (a_last am)) with p.
    rewrite E. cbn [h_geom h_ino]. fold st1. rewrite Hc1, (file_rep_head f c Hrep). cbn [g_cap geom_of].
    unfold used. rewrite Ev. cbn [used_]. rewrite Z.sub_0_r, Z.eqb_refl.
    destruct (Z.ltb_spec (a_first am) (a_last am)); [|lia]. cbn [andb]. rewrite Er. reflexivity. }
  rewrite EL. cbn [a_first].
  replace (a_last (AM (a_first am) (g :: older))) with (a_last am - 1); [reflexivity|].
  unfold a_last; cbn [a_first a_files]. rewrite Hfs, !len_cons. lia.
Qed.

Definition Goodb (A : amap) : Prop := forall name am, A name = Some am -> am_ok (a_strip am).
Definition Rb (n : Z) (st : db) (a : adb) : Prop :=
  Inv n st (ad_dirs a) (ad_map a) /\ Goodb (ad_map a) /\
  w_size st = ad_size a /\ w_cap st = ad_cap a /\ w_max st = ad_max a /\ w_root st = ad_root a /\
  c_cap (w_cache st) = 0.

Lemma strip_id am : a_pending am = false -> a_strip am = am.
Proof. unfold a_strip. now intros ->. Qed.
Lemma strip_values am : a_values (a_strip am) = a_values am.
Proof.
  unfold a_strip. destruct (a_pending am) eqn:E; [|reflexivity]. unfold a_pending in E. unfold a_values; cbn [a_files].
  destruct (a_files am) as [|f [|g r]]; try discriminate. cbn [flat_map tl]. destruct (a_vals f); [reflexivity|discriminate].
Qed.
Lemma pending_ok am : am_ok am -> a_pending am = false.
Proof.
  intros (_ & _ & H). unfold a_pending. destruct (a_files am) as [|f [|g r]]; try reflexivity.
  cbn [removelast] in H. inversion H; subst. destruct (a_vals f); [contradiction|reflexivity].
Qed.
Lemma strip_ok am : am_ok am -> a_strip am = am.
Proof. intros H. apply strip_id, pending_ok, H. Qed.

Lemma am_ok_app_empty size cap am : am_ok am -> am_ok (a_strip (AM (a_first am) (AF cap size [] :: a_files am))).
Proof.
  intros H. pose proof H as (_ & Hne & _). unfold a_strip, a_pending. cbn [a_files a_vals tl a_first].
  destruct am as [fi fs]. cbn [a_files a_first] in *. destruct fs as [|f fs]; [contradiction|]. exact H.
Qed.

Lemma am_ok_drop am : (2 <= length (a_files am))%nat -> am_ok am -> am_ok (AM (a_first am + 1) (removelast (a_files am))).
Proof.
  intros Hl (Hd & Hne & Hall). unfold am_ok, a_values in *. cbn [a_files].
  destruct (flat_removelast a_vals (a_files am)) as (r & Er). rewrite Er in Hd.
  split; [exact (desc_app_l _ _ Hd)|]. split.
  - destruct (a_files am) as [|f [|g l]]; cbn in Hl; try lia. cbn. destruct l; discriminate.
  - now apply removelast_forall.
Qed.

Lemma b_write_ok size cap max am v : am_ok am -> am_ok (a_strip (fst (a_write_any size cap max am v))).
Proof.
  intros Hok. destruct (Z.leb_spec (nrec size v) cap) as [H|H].
  - rewrite a_write_any_fits by exact H. pose proof (a_write_ok size cap max am v Hok) as H'.
    now rewrite strip_ok.
  - unfold a_write_any. destruct (a_files am) as [|f older] eqn:Ef; [cbn; now rewrite strip_ok|].
    destruct (match a_vals f with [] => false | w :: _ => v_end v <=? v_end w end) eqn:Eo; [cbn; now rewrite strip_ok|].
    pose proof (a_write_ok size cap max am v Hok) as H'. unfold a_write in H'. rewrite Ef, Eo in H'.
    destruct (used f + nrec (a_size f) v <=? a_cap f); [cbn [fst] in *; now rewrite strip_ok|].
    destruct (_ && _); [cbn; now rewrite strip_ok|]. clear H'.
    destruct (Z.leb_spec (nrec size v) cap); [lia|]. cbn [fst].
    destruct ((max <=? a_last am - a_first am) && (0 <? max)) eqn:Ed.
    + apply andb_true_iff in Ed. destruct Ed as [Ed1 Ed2]. apply Z.leb_le in Ed1. apply Z.ltb_lt in Ed2.
      pose proof (am_ok_app_empty size cap (AM (a_first am + 1) (removelast (a_files am)))) as Q.
      cbn [a_first a_files] in Q. rewrite Ef in Q. apply Q. rewrite <- Ef. apply am_ok_drop; [|exact Hok].
      unfold a_last, len in Ed1. lia.
    + pose proof (am_ok_app_empty size cap am Hok) as Q. rewrite Ef in Q. exact Q.
Qed.

Lemma am_of_okb size cap A name : Goodb A -> am_ok (a_strip (am_of size cap A name)).
Proof.
  intros HG. unfold am_of. destruct (A name) eqn:E; [exact (HG _ _ E)|].
  rewrite strip_ok; apply a_fresh_ok.
Qed.
Lemma goodb_put A name am : Goodb A -> am_ok (a_strip am) -> Goodb (aput name am A).
Proof.
  intros HG Ho name' am'. destruct (bytes_eq_dec name name') as [<-|H].
  - rewrite aput_same. now intros [= <-].
  - rewrite aput_other by auto. apply HG.
Qed.

(** newMetric with write access *)
Lemma newMetric_rwb n st D A name : Inv n st D A -> 
  exists st' A',
    let am := am_of (w_size st) (w_cap st) A name in
    newMetric name false st = (st', Ok (Metric (dir_of (w_root st) name) (a_first am) (a_last am))) /\
    Inv n st' (a_dirs (w_root st) D name) A' /\ same_opts st st' /\
    A' name = Some am /\ forall x, aput name am A x = A' x.
Proof.
  intros HI. unfold am_of. destruct (A name) as [am|] eqn:HA.
  - exists st, A. split; [exact (newMetric_some n st D A name am false HI HA)|].
    rewrite (a_dirs_some n st D A name am HI HA). split; [exact HI|]. split; [apply same_opts_refl|].
    split; [exact HA|]. intros x. symmetry. now apply aput_id.
  - destruct (newMetric_none n st D A name false HI HA) as [(? & _)|(_ & st' & E & Hso & HI')]; [discriminate|].
    exists st', (aput name (a_fresh (w_size st) (w_cap st)) A).
    split; [exact E|]. split; [exact HI'|]. split; [exact Hso|]. split; [apply aput_same|reflexivity].
Qed.

Lemma write_stepb n st a name v : Rb n st a -> val_ok v -> n + 1 < 2 ^ 62 ->
  exists st', c_step (OWrite name v) st = (st', snd (b_step (OWrite name v) a)) /\
              Rb (n + 1) st' (fst (b_step (OWrite name v) a)).
Proof.
  intros (HI & HG & E1 & E2 & E3 & E4 & E5) Hv Hn. unfold c_step, db_write, b_step.
  destruct (newMetric_rwb n st _ _ name HI) as (st1 & A1 & -> & HI1 & Hso & HA1 & Hext).
  rewrite <- E1, <- E2, <- E3, <- E4 in *.
  pose proof Hso as (S1 & S2 & S3 & S4 & S5).
  pose proof (am_of_okb (w_size st) (w_cap st) _ name HG) as Hok.
  set (am := am_of (w_size st) (w_cap st) (ad_map a) name) in *.
  assert (Hstrip : exists st2 A2, same_opts st1 st2 /\ Inv n st2 (a_dirs (w_root st) (ad_dirs a) name) A2 /\
     A2 name = Some (a_strip am) /\ (forall x, aput name (a_strip am) A1 x = A2 x) /\
     forall s e d, m_Write (Metric (dir_of (w_root st1) name) (a_first am) (a_last am)) s e d st1 =
       m_Write (Metric (dir_of (w_root st1) name) (a_first (a_strip am)) (a_last (a_strip am))) s e d st2).
  { destruct (a_pending am) eqn:Ep.
    - destruct (acquireLast_pending n st1 _ A1 name am HI1) as (st2 & Hso2 & HI2 & EW); [congruence|exact HA1|exact Ep|].
      exists st2, (aput name (a_strip am) A1). split; [exact Hso2|]. split; [exact HI2|].
      split; [apply aput_same|]. split; [reflexivity|exact EW].
    - rewrite (strip_id am Ep). exists st1, A1. split; [apply same_opts_refl|]. split; [exact HI1|].
      split; [exact HA1|]. split; [|reflexivity]. intros x. symmetry. now apply aput_id. }
  destruct Hstrip as (st2 & A2 & Hso2 & HI2 & HA2 & Hext2 & EW). rewrite S4 in EW. rewrite EW.
  pose proof Hso2 as (T1 & T2 & T3 & T4 & T5).
  destruct (m_Write_any_spec n st2 _ A2 name (a_strip am) v HI2 HA2 Hok Hv Hn) as (st3 & E & HI3 & Hso3).
  rewrite T4, S4 in E. rewrite E. rewrite T1, T2, T3, S1, S2, S3 in *.
  pose proof (b_write_ok (w_size st) (w_cap st) (w_max st) (a_strip am) v Hok) as Hok2.
  destruct (a_write_any (w_size st) (w_cap st) (w_max st) (a_strip am) v) as [am2 r]. cbn [fst snd] in *.
  pose proof Hso3 as (U1 & U2 & U3 & U4 & U5).
  exists st3. split; [reflexivity|].
  unfold Rb. cbn [ad_size ad_cap ad_max ad_root ad_dirs ad_map].
  split; [|split; [|repeat split; congruence]].
  - eapply inv_ext; [|exact HI3]. intros x. unfold aput. destruct (beqb name x) eqn:Ex; [reflexivity|].
    rewrite <- Hext2. unfold aput. rewrite Ex. rewrite <- Hext. unfold aput. now rewrite Ex.
  - now apply goodb_put.
Qed.

(** ** queries *)
Lemma seq_read_queryb {X} (cb : callback X) am e acc : am_ok (a_strip am) ->
  finish_cb (seq_read cb e (a_files am) acc) = finish_cb (run_cb cb acc (b_query am e)).
Proof.
  intros Hok. unfold b_query. destruct (a_pending am) eqn:Ep; cbn [andb].
  - pose proof (seq_read_query cb (a_strip am) e acc Hok) as Q. unfold a_strip in Q |- *. rewrite Ep in Q |- *.
    unfold a_pending in Ep. destruct (a_files am) as [|f [|g r]]; try discriminate.
    destruct (a_vals f) as [|] eqn:Ev; [|discriminate]. cbn [a_files tl] in Q.
    cbn [seq_read]. unfold oldest_end at 1. rewrite Ev. cbn [rev filter run_cb].
    destruct (e <=? 0); [reflexivity|]. exact Q.
  - rewrite (strip_id am Ep) in *. now apply seq_read_query.
Qed.

Lemma m_Read_specb {X} (cb : callback X) n st D A name am e acc :
  Inv n st D A -> A name = Some am -> am_ok (a_strip am) ->
  exists st',
    m_Read cb (Metric (dir_of (w_root st) name) (a_first am) (a_last am)) e acc st =
      (st', finish_cb (run_cb cb acc (b_query am e))) /\
    Inv n st' D A /\ same_opts st st'.
Proof.
  intros HI HA Hok. unfold m_Read. cbn [t_last t_first].
  replace (a_last am - a_first am + 1) with (len (a_files am)) by (unfold a_last; lia).
  unfold len. rewrite Nat2Z.id.
  destruct (m_Read__spec cb n D A name am e HA (a_files am) [] st acc HI eq_refl) as (st' & E & R).
  change (len (@nil afile)) with 0 in E. rewrite Z.sub_0_r in E. rewrite E.
  rewrite seq_read_queryb by assumption. eauto.
Qed.

Lemma query_stepb {X} (cb : callback X) n st a name e acc : Rb n st a ->
  exists st' res, db_query cb name e acc st = (st', res) /\
    match ad_map a name with
    | Some am => res = finish_cb (run_cb cb acc (b_query am e)) /\ Rb n st' a
    | None =>
        if existsb (beqb (clean_dir (dir_of (ad_root a) name))) (ad_dirs a)
        then res = (acc, Ok tt) /\
             Rb n st' (ADB (ad_size a) (ad_cap a) (ad_max a) (ad_root a) (ad_dirs a)
                        (aput name (a_fresh (ad_size a) (ad_cap a)) (ad_map a)))
        else res = (acc, Err) /\ st' = st
    end.
Proof.
  intros (HI & HG & E1 & E2 & E3 & E4 & E5). unfold db_query.
  destruct (ad_map a name) as [am|] eqn:HA.
  - rewrite (newMetric_some n st _ _ name am true HI HA).
    destruct (m_Read_specb cb n st _ _ name am e acc HI HA (HG name am HA)) as (st' & E & HI' & Hso).
    rewrite E. eexists _, _. split; [reflexivity|]. destruct Hso as (S1 & S2 & S3 & S4 & S5).
    split; [reflexivity|]. unfold Rb. split; [exact HI'|]. split; [exact HG|].
    repeat split; congruence.
  - destruct (newMetric_none n st _ _ name true HI HA) as [(_ & Ee & E)|(He & st' & E & Hso & HI')].
    + rewrite E. rewrite E4 in Ee. rewrite Ee. eexists _, _. split; [reflexivity|]. auto.
    + rewrite E. destruct He as [|Ee]; [discriminate|]. rewrite E4 in Ee. rewrite Ee.
      pose proof Hso as (S1 & S2 & S3 & S4 & S5).
      destruct (m_Read_spec cb n st' _ _ name (a_fresh (w_size st) (w_cap st)) e acc HI'
                  (aput_same _ _ _) (a_fresh_ok _ _)) as (st2 & Er & HI2 & Hso2).
      rewrite S4 in Er. change (a_first (a_fresh (w_size st) (w_cap st))) with 1 in Er.
      change (a_last (a_fresh (w_size st) (w_cap st))) with 1 in Er. rewrite Er.
      pose proof Hso2 as (T1 & T2 & T3 & T4 & T5).
      eexists _, _. split; [reflexivity|]. split; [reflexivity|].
      unfold Rb. cbn [ad_size ad_cap ad_max ad_root ad_dirs ad_map].
      assert (Ed : a_dirs (w_root st) (ad_dirs a) name = ad_dirs a)
        by (unfold a_dirs; rewrite E4, Ee; reflexivity).
      rewrite Ed in HI2. rewrite <- E1, <- E2. split; [exact HI2|].
      split; [apply goodb_put; [exact HG|rewrite strip_ok; apply a_fresh_ok]|]. repeat split; congruence.
Qed.

Lemma Rb_mono n m st a : Rb n st a -> n <= m < 2 ^ 62 -> Rb m st a.
Proof. intros (HI & H) Hm. split; [eapply inv_mono; eauto|exact H]. Qed.

Definition op_any (o : op) : Prop :=
  match o with
  | OWrite _ v => val_ok v
  | OReopen size' cap' _ handles rand => process_ok size' cap' handles rand /\ handles = 0
  | _ => True
  end.

Lemma step_simb n st a o : Rb n st a -> op_any o -> n + 1 < 2 ^ 62 ->
  exists st', c_step o st = (st', snd (b_step o a)) /\ Rb (n + 1) st' (fst (b_step o a)).
Proof.
  intros HR Ho Hn. assert (Hb : 1 <= n < 2 ^ 62) by (destruct HR as (HI & _); exact (i_bound _ _ _ _ HI)).
  destruct o as [name v|name e|name|size cap max handles rand]; cbn [op_any] in Ho.
  - exact (write_stepb n st a name v HR Ho Hn).
  - destruct (query_stepb collect_cb n st a name e [] HR) as (st' & r & E & H).
    unfold c_step, b_step, a_step. rewrite E. exists st'.
    destruct (ad_map a name) as [am|].
    + destruct H as (-> & HR'). rewrite collect_run. cbn. split; [reflexivity|].
      apply Rb_mono with (n := n); [exact HR'|lia].
    + destruct (existsb _ _); destruct H as (-> & HR').
      * split; [reflexivity|]. apply Rb_mono with (n := n); [exact HR'|lia].
      * subst st'. split; [reflexivity|]. apply Rb_mono with (n := n); [exact HR|lia].
  - destruct (query_stepb latest_cb n st a name (2 ^ 63 - 1) None HR) as (st' & r & E & H).
    unfold c_step, b_step, a_step, db_query_latest. rewrite E. exists st'.
    destruct (ad_map a name) as [am|].
    + destruct H as (-> & HR'). rewrite latest_run. split; [reflexivity|].
      apply Rb_mono with (n := n); [exact HR'|lia].
    + destruct (existsb _ _); destruct H as (-> & HR').
      * split; [reflexivity|]. apply Rb_mono with (n := n); [exact HR'|lia].
      * subst st'. split; [reflexivity|]. apply Rb_mono with (n := n); [exact HR|lia].
  - eexists. split; [reflexivity|]. destruct HR as (HI & HG & E1 & E2 & E3 & E4 & E5). destruct Ho as [Hp ->].
    unfold Rb; cbn [b_step a_step fst ad_size ad_cap ad_max ad_root ad_dirs ad_map].
    split; [apply inv_mono with (n := n); [now apply inv_reopen|lia]|]. split; [exact HG|].
    cbn. auto.
Qed.

Lemma run_simb : forall ops n st a, Rb n st a -> ops_any ops ->
  n + Z.of_nat (length ops) < 2 ^ 62 ->
  exists st', c_run ops st = (st', snd (b_run ops a)) /\
              Rb (n + Z.of_nat (length ops)) st' (fst (b_run ops a)).
Proof.
  induction ops as [|o ops IH]; intros n st a HR Ho Hn; cbn [c_run b_run length] in *.
  - exists st. split; [reflexivity|]. rewrite Z.add_0_r. exact HR.
  - assert (op_any o /\ ops_any ops) as [Ho1 Ho2] by (destruct o; cbn in *; tauto).
    destruct (step_simb n st a o HR Ho1 ltac:(lia)) as (st1 & E & HR1). rewrite E.
    destruct (b_step o a) as [a1 r]. cbn [fst snd] in *.
    destruct (IH (n + 1) st1 a1 HR1 Ho2 ltac:(lia)) as (st2 & E2 & HR2). rewrite E2.
    destruct (b_run ops a1) as [a2 rs]. cbn [fst snd] in *. exists st2. split; [reflexivity|].
    replace (n + Z.of_nat (S (length ops))) with (n + 1 + Z.of_nat (length ops)) by lia. exact HR2.
Qed.

Lemma Rb_empty root size cap max rand : root <> [] -> process_ok size cap 0 rand ->
  Rb 1 (db_empty root size cap max 0 rand) (adb_empty root size cap max).
Proof.
  intros Hr Hp. destruct (R_empty root size cap max 0 rand Hr Hp) as (HI & _ & H1 & H2 & H3 & H4).
  split; [exact HI|]. split; [intros name am; discriminate|]. auto 10.
Qed.

(** ** the log *)
Lemma b_write_vals size cap max am v : am_ok am ->
  let '(am', r) := a_write_any size cap max am v in
  (r = Ok true /\ (forall w l, a_values am = w :: l -> v_end w < v_end v) /\
   exists kept dropped, a_values am = kept ++ dropped /\ a_values am' = v :: kept /\
     (max <= 0 -> dropped = [])) \/
  (r = Ok false /\ am' = am /\ exists w l, a_values am = w :: l /\ v_end v <= v_end w) \/
  (r = Err /\ (forall w l, a_values am = w :: l -> v_end w < v_end v) /\
   exists kept dropped, a_values am = kept ++ dropped /\ a_values am' = kept /\
     (max <= 0 -> dropped = []) /\ (kept = [] -> dropped = []) /\
     (am' = am \/ cap < nrec size v)).
Proof.
  intros Hok. pose proof (a_write_vals size cap max am v Hok) as HV.
  destruct (Z.leb_spec (nrec size v) cap) as [H|H].
  - rewrite a_write_any_fits by exact H. destruct (a_write size cap max am v) as [am' r] eqn:Ew.
    destruct HV as [?|[?|[(-> & -> & Hn & _)|(-> & -> & Hl & Hf)]]]; [tauto|tauto| |].
    + right. right. split; [reflexivity|]. split; [exact Hn|]. exists (a_values am), []. rewrite app_nil_r. auto 10.
    + right. right. split; [reflexivity|]. split.
      * intros w l Ev. unfold a_write in Ew. destruct (a_files am) as [|f older] eqn:Ef; [unfold a_values in Ev; rewrite Ef in Ev; discriminate|].
        destruct (match a_vals f with [] => false | w :: _ => v_end v <=? v_end w end) eqn:Eo; [congruence|].
        destruct Hok as (_ & _ & Hall). unfold a_values in Ev. rewrite Ef in *. cbn [flat_map] in Ev.
        destruct (a_vals f) as [|w0 ws] eqn:Evf.
        -- destruct older; [discriminate|]. cbn [removelast] in Hall. inversion Hall; subst. contradiction.
        -- injection Ev as <- _. now apply Z.leb_gt in Eo.
      * exists (a_values am), []. rewrite app_nil_r. auto 10.
  - pose proof Hok as (Hd & Hne & Hall). unfold a_write_any, a_write in *.
    destruct (a_files am) as [|f older] eqn:Ef; [contradiction|].
    assert (Hval : a_values am = a_vals f ++ flat_map a_vals older) by (unfold a_values; now rewrite Ef).
    destruct (match a_vals f with [] => false | w :: _ => v_end v <=? v_end w end) eqn:Eo.
    { destruct HV as [(? & _)|[?|[(? & _)|(? & _)]]]; try congruence. tauto. }
    assert (Hnew : forall w l, a_values am = w :: l -> v_end w < v_end v).
    { intros w l E. rewrite Hval in E. destruct (a_vals f) as [|w0 ws] eqn:Ev.
      - destruct older; [discriminate|]. cbn [removelast] in Hall. inversion Hall; subst. contradiction.
      - injection E as <- _. now apply Z.leb_gt in Eo. }
    destruct (used f + nrec (a_size f) v <=? a_cap f).
    { destruct HV as [?|[(? & _)|[(? & _)|(? & _)]]]; try congruence. tauto. }
    destruct ((a_last am =? 1) && (used f =? 1)).
    { right. right. split; [reflexivity|]. split; [exact Hnew|]. exists (a_values am), []. rewrite app_nil_r. auto 10. }
    destruct (Z.leb_spec (nrec size v) cap); [lia|].
    right. right. split; [reflexivity|]. split; [exact Hnew|]. unfold a_values at 2; cbn [a_files flat_map a_vals app].
    destruct ((max <=? a_last am - a_first am) && (0 <? max)) eqn:Edr.
    + destruct (flat_removelast a_vals (f :: older)) as (r & Er).
      exists (flat_map a_vals (removelast (f :: older))), r.
      apply andb_true_iff in Edr. destruct Edr as [Ed1 Edr]. apply Z.leb_le in Ed1. apply Z.ltb_lt in Edr.
      split; [rewrite Hval; exact Er|]. split; [reflexivity|]. split; [lia|]. split; [|now right].
      unfold a_last in Ed1. rewrite Ef, len_cons in Ed1. destruct older as [|g older]; [change (len (@nil afile)) with 0 in Ed1; lia|].
      cbn [removelast flat_map] in *. inversion Hall as [|? ? Hx _]; subst x. destruct (a_vals f); [contradiction|discriminate].
    + exists (a_values am), []. rewrite app_nil_r. rewrite Hval. cbn [flat_map]. auto 10.
Qed.

Lemma goodb_step o a : Goodb (ad_map a) -> Goodb (ad_map (fst (b_step o a))).
Proof.
  intros HG. destruct o; cbn [b_step].
  - pose proof (am_of_okb (ad_size a) (ad_cap a) _ name HG) as Hok. set (am := am_of _ _ _ _) in *.
    pose proof (b_write_ok (ad_size a) (ad_cap a) (ad_max a) _ v Hok).
    destruct (a_write_any _ _ _ _ v) as [am' r]. cbn [fst ad_map] in *. now apply goodb_put.
  - destruct (ad_map a name) eqn:E; [exact HG|]. cbn [a_step]. rewrite E. destruct (existsb _ _); [|exact HG].
    cbn [fst ad_map]. apply goodb_put; [exact HG|]. rewrite strip_ok; apply a_fresh_ok.
  - destruct (ad_map a name) eqn:E; [exact HG|]. cbn [a_step]. rewrite E. destruct (existsb _ _); [|exact HG].
    cbn [fst ad_map]. apply goodb_put; [exact HG|]. rewrite strip_ok; apply a_fresh_ok.
  - exact HG.
Qed.

Lemma query_valsb o a n : (forall m v, o <> OWrite m v) -> vals (fst (b_step o a)) n = vals a n.
Proof.
  intros H. rewrite <- (query_vals o a n H). destruct o as [name v|name e|name|size cap max h r]; cbn [b_step]; try reflexivity.
  - exfalso. exact (H name v eq_refl).
  - destruct (ad_map a name) eqn:E; cbn [a_step]; rewrite ?E; reflexivity.
  - destruct (ad_map a name) eqn:E; cbn [a_step]; rewrite ?E; reflexivity.
Qed.

Lemma linv_stepb o a name log : Goodb (ad_map a) -> linv a name log ->
  linv (fst (b_step o a)) name (log1 name o (snd (b_step o a)) log) /\
  (ad_max a <= 0 -> vals a name = log ->
   vals (fst (b_step o a)) name = log1 name o (snd (b_step o a)) log).
Proof.
  intros HG HL. destruct o as [name' v| | | ] eqn:Eo.
  2,3,4: (assert (Hlog : forall r, log1 name o r log = log) by (intros r; rewrite Eo; reflexivity);
      rewrite <- Eo; rewrite Hlog; unfold linv; rewrite query_valsb by (intros; rewrite Eo; discriminate);
      split; [exact HL|auto]).
  cbn [b_step].
  pose proof (b_write_vals (ad_size a) (ad_cap a) (ad_max a) _ v (am_of_okb (ad_size a) (ad_cap a) _ name' HG)) as Hw.
  rewrite strip_values, vals_am_of in Hw.
  destruct (a_write_any _ _ _ _ _) as [am' r] eqn:Ew. cbn [fst snd log1]. unfold linv. rewrite vals_put.
  destruct (beqb name' name) eqn:En.
  - apply beqb_eq in En. subst name'. destruct HL as (Hd & He & (tl & Etl)).
    destruct Hw as [(-> & Hnew & kept & dropped & Ek & Ev & Hmax)|
                    [(-> & -> & _)|(-> & Hnew & kept & dropped & Ek & Ev & Hmax & Hk & _)]].
    + rewrite Ev. split.
      * split; [|split; [discriminate|]].
        -- apply desc_cons; [exact Hd|]. intros w l El.
           destruct (vals a name) as [|w0 l0] eqn:E0; [now rewrite (He eq_refl) in El|].
           rewrite El in Etl. injection Etl as <- _. exact (Hnew w l0 eq_refl).
        -- exists (dropped ++ tl). rewrite Etl, Ek. now rewrite <- app_assoc.
      * intros Hm Heq. rewrite <- Heq, Ek, (Hmax Hm), app_nil_r. reflexivity.
    + rewrite strip_values, vals_am_of. split; [split; [exact Hd|split; [exact He|eauto]]|auto].
    + rewrite Ev. split.
      * split; [exact Hd|]. split.
        -- intros E. apply He. rewrite Ek, E, (Hk E). reflexivity.
        -- exists (dropped ++ tl). rewrite Etl, Ek. now rewrite <- app_assoc.
      * intros Hm Heq. rewrite <- Heq, Ek, (Hmax Hm), app_nil_r. reflexivity.
  - assert (El : match r with Ok true => log | _ => log end = log) by (destruct r as [[]| | |]; reflexivity).
    rewrite El. split; [exact HL|auto].
Qed.

Lemma b_step_opts o a :
  match o with OReopen s c m _ _ => ad_max (fst (b_step o a)) = m | _ => ad_max (fst (b_step o a)) = ad_max a end.
Proof.
  destruct o; cbn [b_step]; [|destruct (ad_map a name) eqn:E; [reflexivity|]; cbn [a_step]; rewrite E; destruct (existsb _ _); reflexivity..|reflexivity].
  destruct (a_write_any _ _ _ _ _). reflexivity.
Qed.

Lemma linv_runb : forall ops a name log, Goodb (ad_map a) -> linv a name log ->
  linv (fst (b_run ops a)) name (acked_ name ops (snd (b_run ops a)) log) /\
  (unlimited (ad_max a) ops -> vals a name = log ->
   vals (fst (b_run ops a)) name = acked_ name ops (snd (b_run ops a)) log).
Proof.
  induction ops as [|o ops IH]; intros a name log HG HL; cbn [b_run].
  - cbn. auto.
  - pose proof (goodb_step o a HG) as HG'. destruct (linv_stepb o a name log HG HL) as [HL' HU].
    pose proof (b_step_opts o a) as Hm.
    destruct (b_step o a) as [a1 r]. cbn [fst snd] in *.
    destruct (IH a1 name _ HG' HL') as [I1 I2]. destruct (b_run ops a1) as [a2 rs]. cbn [fst snd] in *.
    rewrite acked_cons. split; [exact I1|]. intros Hu Heq. apply I2.
    + destruct Hu as [Hu1 Hu2]. destruct o; rewrite Hm; exact Hu2.
    + apply HU; [exact (proj1 Hu)|exact Heq].
Qed.

Lemma max_runb : forall ops a, unlimited (ad_max a) ops -> ad_max (fst (b_run ops a)) <= 0.
Proof.
  induction ops as [|o ops IH]; intros a Hu; cbn [b_run]; [exact (proj1 Hu)|].
  pose proof (b_step_opts o a) as Hm. destruct (b_step o a) as [a1 r]. cbn [fst] in Hm.
  specialize (IH a1). destruct (b_run ops a1) as [a2 rs]. cbn [fst] in *. apply IH.
  destruct Hu as [_ Hu]. destruct o; rewrite Hm; exact Hu.
Qed.

Lemma history_stateb root size cap max rand ops : history_any root size cap rand ops ->
  exists n st a outs,
    c_run ops (db_empty root size cap max 0 rand) = (st, outs) /\
    1 <= n /\ n < 2 ^ 61 + 1 /\ Rb n st a /\
    (forall name, linv a name (acked name ops outs)) /\
    (unlimited max ops -> ad_max a <= 0 /\ forall name, vals a name = acked name ops outs).
Proof.
  intros (Hr & Hp & Ho & Hn). pose proof (max_runb ops (adb_empty root size cap max)) as HM.
  destruct (run_simb ops 1 _ _ (Rb_empty root size cap max rand Hr Hp) Ho ltac:(lia)) as (st & E & HR).
  assert (HL : forall name, _) by exact (fun name => linv_runb ops (adb_empty root size cap max) name []
              ltac:(intros x y; discriminate) (linv_empty _ _ _ _ name)).
  destruct (b_run ops (adb_empty root size cap max)) as [a outs]. cbn [fst snd] in *.
  exists (1 + Z.of_nat (length ops)), st, a, outs. split; [exact E|]. split; [lia|]. split; [lia|].
  split; [exact HR|]. split.
  - intros name. exact (proj1 (HL name)).
  - intros Hu. split; [exact (HM Hu)|]. intros name. exact (proj2 (HL name) Hu eq_refl).
Qed.
