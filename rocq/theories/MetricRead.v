(** Read and the abstract invariants. *)
From Coq Require Import ZArith List Lia Bool.
From Verif Require Import Base Maps Record Convert File FileProofs Cache CacheProofs
  Metric MetricSpec MetricFile MetricPaths MetricProofs.
Import ListNotations.
Open Scope Z_scope.

(** reading the files one after the other *)
Fixpoint seq_read {X} (cb : callback X) (e : Z) (fs : list afile) (acc : X) : X * res bool :=
  match fs with
  | [] => (acc, Ok true)
  | f :: r =>
      if e <=? match oldest_end f with Some o => o | None => 0 end then (acc, Ok false)
      else match run_cb cb acc (filter (fun v => v_end v <? e) (a_vals f)) with
           | (acc, Ok true) => seq_read cb e r acc
           | other => other
           end
  end.

Lemma run_cb_app {X} (cb : callback X) l1 : forall acc l2,
  run_cb cb acc (l1 ++ l2) =
  match run_cb cb acc l1 with (acc, Ok true) => run_cb cb acc l2 | other => other end.
Proof.
  induction l1 as [|v l1 IH]; intros acc l2; cbn [run_cb app]; [reflexivity|].
  destruct (cb acc v) as [acc' [[]| | |]]; auto.
Qed.

Lemma m_Read__spec {X} (cb : callback X) n D A name am e : A name = Some am ->
  forall rest pre st acc, Inv n st D A -> a_files am = pre ++ rest ->
  exists st',
    m_Read_ cb (length rest) (Metric (dir_of (w_root st) name) (a_first am) (a_last am))
      (a_last am - len pre) e acc st = (st', finish_cb (seq_read cb e rest acc)) /\
    Inv n st' D A /\ same_opts st st'.
Proof.
  intros HA. induction rest as [|f rest IH]; intros pre st acc HI Hfs.
  - cbn [length m_Read_ seq_read t_first]. rewrite app_nil_r in Hfs.
    assert (E : (a_last am - len pre <? a_first am) = true)
      by (apply Z.ltb_lt; unfold a_last; rewrite Hfs; lia).
    rewrite E. exists st. split; [reflexivity|]. split; [exact HI|apply same_opts_refl].
  - cbn [length m_Read_ seq_read t_first].
    assert (E : (a_last am - len pre <? a_first am) = false).
    { apply Z.ltb_ge. unfold a_last. rewrite Hfs, len_app, len_cons. pose proof (len_nonneg rest). lia. }
    rewrite E.
    destruct (acquire_spec n st D A name am (length pre) f HI HA) as (ino & c & cc & Ea & HI1 & Hcap & HF).
    { rewrite Hfs, nth_error_app2, Nat.sub_diag by lia. reflexivity. }
    fold (len pre) in Ea, HF.
    change (filenameAt _ (a_last am - len pre)) with (path_of (w_root st) name (a_last am - len pre)).
    rewrite Ea. cbn [h_geom h_ino]. set (st1 := set_fch st (w_toks st) cc) in *.
    assert (HF1 : file_at st1 name (a_last am - len pre) f ino c) by exact HF.
    destruct (file_at_open _ _ _ _ _ _ HF1) as (Hc & Ho). rewrite Hc.
    pose proof HF1 as (Pp & _ & Hrep). rewrite (read_file_spec cb f c e acc Hrep).
    destruct (release_spec n st1 D A (path_of (w_root st) name (a_last am - len pre))
                (Handle ino (geom_of f)) HI1 Pp Ho) as (t & c2 & Er & HI2 & Hcap2).
    assert (Hso : same_opts st (set_fch st1 t c2)).
    { unfold same_opts; cbn in *. intuition congruence. }
    destruct (e <=? _).
    + rewrite Er. eexists. split; [reflexivity|]. split; [exact HI2|exact Hso].
    + destruct (run_cb cb acc _) as [acc' [[]| | |]]; rewrite Er;
        try (eexists; split; [reflexivity|]; split; [exact HI2|exact Hso]).
      specialize (IH (pre ++ [f]) (set_fch st1 t c2) acc' HI2).
      rewrite <- app_assoc in IH. specialize (IH Hfs).
      rewrite len_app in IH. change (len [f]) with 1 in IH.
      destruct IH as (st' & Es & HI3 & Hso3).
      replace (a_last am - len pre - 1) with (a_last am - (len pre + 1)) by lia.
      exists st'. split; [exact Es|]. split; [exact HI3|]. eapply same_opts_trans; eassumption.
Qed.

(** *** order of the values *)
Lemma desc_app_inv : forall l1 l2, desc (l1 ++ l2) ->
  desc l2 /\ forall a b, In a l1 -> In b l2 -> v_end b < v_end a.
Proof.
  assert (Hd : forall l v, desc (v :: l) -> forall b, In b l -> v_end b < v_end v).
  { induction l as [|w l IH]; intros v Hd b Hb; [contradiction|]. destruct Hd as [H1 H2].
    destruct Hb as [<-|Hb]; [exact H1|]. specialize (IH w H2 b Hb). lia. }
  induction l1 as [|v l1 IH]; intros l2 H; cbn [app] in H.
  - split; [exact H|]. contradiction.
  - assert (desc (l1 ++ l2)) as H' by (destruct (l1 ++ l2); [exact I|apply H]).
    destruct (IH l2 H') as [H1 H2]. split; [exact H1|]. intros a b [<-|Ha] Hb; [|auto].
    apply (Hd (l1 ++ l2) v H). apply in_app_iff. auto.
Qed.

Lemma oldest_in f o : oldest_end f = Some o -> exists v, In v (a_vals f) /\ v_end v = o.
Proof.
  unfold oldest_end. destruct (rev (a_vals f)) as [|v l] eqn:E; [discriminate|].
  intros [= <-]. exists v. split; [|reflexivity]. apply in_rev. rewrite E. now left.
Qed.
Lemma oldest_some f : a_vals f <> [] -> exists o, oldest_end f = Some o.
Proof.
  unfold oldest_end. destruct (rev (a_vals f)) as [|v l] eqn:E; [|eauto].
  intros H. exfalso. apply H. apply (f_equal (@rev value)) in E. now rewrite rev_involutive in E.
Qed.

Lemma filter_all {X} (p : X -> bool) l : (forall x, In x l -> p x = true) -> filter p l = l.
Proof.
  induction l as [|x l IH]; intros H; cbn; [reflexivity|]. rewrite H by now left.
  f_equal. apply IH. intros y Hy. apply H. now right.
Qed.

Lemma seq_read_all {X} (cb : callback X) e : forall fs acc,
  Forall (fun g => a_vals g <> []) (removelast fs) ->
  (forall v, In v (flat_map a_vals fs) -> v_end v < e) ->
  finish_cb (seq_read cb e fs acc) = finish_cb (run_cb cb acc (flat_map a_vals fs)).
Proof.
  induction fs as [|f fs IH]; intros acc Hne Hlt; [reflexivity|]. cbn [seq_read flat_map] in *.
  rewrite run_cb_app.
  destruct (a_vals f) as [|v vs] eqn:Ev.
  - destruct fs as [|g fs]; [|exfalso; inversion Hne; subst; contradiction].
    unfold oldest_end. rewrite Ev. cbn [rev filter run_cb flat_map seq_read].
    destruct (e <=? 0); reflexivity.
  - destruct (oldest_some f) as (o & Eo); [rewrite Ev; discriminate|]. rewrite Eo.
    destruct (oldest_in f o Eo) as (w & Hw & <-). rewrite Ev in Hw.
    destruct (Z.leb_spec e (v_end w)) as [Hle|_].
    { specialize (Hlt w). rewrite in_app_iff in Hlt. specialize (Hlt (or_introl Hw)). lia. }
    rewrite filter_all.
    2:{ intros x Hx. apply Z.ltb_lt, Hlt. apply in_app_iff. auto. }
    destruct (run_cb cb acc (v :: vs)) as [acc' [[]| | |]]; try reflexivity.
    apply IH.
    + destruct fs; [constructor|]. inversion Hne; subst; assumption.
    + intros x Hx. apply Hlt. apply in_app_iff. auto.
Qed.

Lemma seq_read_query {X} (cb : callback X) am e acc : am_ok am ->
  finish_cb (seq_read cb e (a_files am) acc) = finish_cb (run_cb cb acc (a_query am e)).
Proof.
  intros (Hd & Hne & Hall). unfold a_query, a_values in *.
  destruct (a_files am) as [|f older]; [contradiction|]. cbn [seq_read flat_map] in *.
  destruct (a_vals f) as [|v vs] eqn:Ev.
  - destruct older as [|g older]; [|exfalso; inversion Hall; subst; contradiction].
    unfold oldest_end. rewrite Ev. cbn [rev filter run_cb flat_map seq_read app].
    destruct (e <=? 0); reflexivity.
  - destruct (oldest_some f) as (o & Eo); [rewrite Ev; discriminate|]. rewrite Eo.
    destruct (Z.leb_spec e o) as [Hle|Hgt]; [reflexivity|].
    rewrite <- Ev in *. rewrite filter_app, run_cb_app.
    destruct (run_cb cb acc _) as [acc' [[]| | |]]; try reflexivity.
    destruct (oldest_in f o Eo) as (w & Hw & <-).
    apply desc_app_inv in Hd. destruct Hd as [_ Hd].
    rewrite (filter_all _ (flat_map a_vals older)).
    2:{ intros x Hx. apply Z.ltb_lt. specialize (Hd w x Hw Hx). lia. }
    apply seq_read_all.
    + destruct older; [constructor|]. inversion Hall; subst; assumption.
    + intros x Hx. specialize (Hd w x Hw Hx). lia.
Qed.

Lemma m_Read_spec {X} (cb : callback X) n st D A name am e acc :
  Inv n st D A -> A name = Some am -> am_ok am ->
  exists st',
    m_Read cb (Metric (dir_of (w_root st) name) (a_first am) (a_last am)) e acc st =
      (st', finish_cb (run_cb cb acc (a_query am e))) /\
    Inv n st' D A /\ same_opts st st'.
Proof.
  intros HI HA Hok. unfold m_Read. cbn [t_last t_first].
  replace (a_last am - a_first am + 1) with (len (a_files am)) by (unfold a_last; lia).
  unfold len. rewrite Nat2Z.id.
  destruct (m_Read__spec cb n D A name am e HA (a_files am) [] st acc HI eq_refl) as (st' & E & R).
  change (len (@nil afile)) with 0 in E. rewrite Z.sub_0_r in E. rewrite E.
  rewrite seq_read_query by assumption. eauto.
Qed.

(** *** a_write keeps metrics well formed *)
Lemma flat_removelast {X Y} (g : X -> list Y) l : exists r, flat_map g l = flat_map g (removelast l) ++ r.
Proof.
  destruct l as [|x l]; [exists []; reflexivity|].
  destruct (exists_last (l := x :: l) ltac:(discriminate)) as (l' & y & ->).
  rewrite removelast_last, flat_map_app. eauto.
Qed.

Lemma removelast_forall {X} (P : X -> Prop) l : Forall P l -> Forall P (removelast l).
Proof.
  induction 1 as [|x l Hx Hl IH]; [constructor|]. destruct l; [constructor|].
  change (removelast (x :: x0 :: l)) with (x :: removelast (x0 :: l)). constructor; assumption.
Qed.

Lemma removelast_cons {X} (x : X) l : l <> [] -> removelast (x :: l) = x :: removelast l.
Proof. destruct l; [contradiction|reflexivity]. Qed.

Lemma a_write_ok size cap max am v : am_ok am -> am_ok (fst (a_write size cap max am v)).
Proof.
  intros (Hd & Hne & Hall). unfold a_write.
  destruct (a_files am) as [|f older] eqn:Hfs; [contradiction|].
  destruct (match a_vals f with [] => false | w :: _ => v_end v <=? v_end w end) eqn:Eo.
  { split; [exact Hd|]. cbn [fst]. rewrite Hfs. split; [discriminate|exact Hall]. }
  assert (Hdv : desc (v :: a_values am)).
  { apply desc_cons; [exact Hd|]. intros w r Ew. unfold a_values in Ew. rewrite Hfs in Ew.
    cbn [flat_map] in Ew. destruct (a_vals f) as [|w0 ws] eqn:Ev.
    - destruct older; [discriminate|]. inversion Hall; subst; contradiction.
    - cbn in Ew. injection Ew as <- _. now apply Z.leb_gt in Eo. }
  destruct (_ <=? a_cap f).
  { cbn [fst]. unfold am_ok, a_values in *. cbn [a_files flat_map a_vals app]. rewrite Hfs in Hdv. cbn [flat_map] in Hdv.
    split; [exact Hdv|]. split; [discriminate|].
    destruct older as [|g older]; [constructor|]. rewrite removelast_cons in * by discriminate.
    inversion Hall; subst. constructor; [cbn; discriminate|assumption]. }
  destruct (_ && _).
  { split; [exact Hd|]. cbn [fst]. rewrite Hfs. split; [discriminate|exact Hall]. }
  cbn [fst]. unfold am_ok, a_values in *. cbn [a_files flat_map a_vals app]. rewrite Hfs in *.
  destruct ((max <=? _) && _).
  - split; [|split; [discriminate|]].
    + destruct (flat_removelast a_vals (f :: older)) as (r & Er). rewrite Er in Hdv.
      change (v :: flat_map a_vals (removelast (f :: older)) ++ r)
        with ((v :: flat_map a_vals (removelast (f :: older))) ++ r) in Hdv.
      exact (desc_app_l _ _ Hdv).
    + destruct (removelast (f :: older)) as [|g l] eqn:E; [constructor|].
      rewrite removelast_cons by discriminate. constructor; [cbn; discriminate|].
      now apply removelast_forall.
  - split; [exact Hdv|]. split; [discriminate|].
    rewrite removelast_cons by discriminate. constructor; [cbn; discriminate|exact Hall].
Qed.

Lemma a_fresh_ok size cap : am_ok (a_fresh size cap).
Proof. split; [exact I|]. split; [discriminate|constructor]. Qed.
