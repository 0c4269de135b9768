(** What clients see of the specification machine: the log of acknowledged
    writes determines the answers. *)
From Coq Require Import ZArith List Lia Bool.
From Verif Require Import Base Maps Record Convert File FileProofs Cache CacheProofs
  Metric MetricSpec MetricFile MetricPaths MetricProofs MetricRead DbSpec DbProofs.
Import ListNotations.
Open Scope Z_scope.

Definition vals (a : adb) (name : list Z) : list value :=
  match ad_map a name with Some am => a_values am | None => [] end.

Lemma good_step o a : Good (ad_map a) -> Good (ad_map (fst (a_step o a))).
Proof.
  intros HG. destruct o; cbn [a_step].
  - set (am := am_of _ _ _ _).
    assert (am_ok am) as Hok.
    { unfold am, am_of. destruct (ad_map a name) eqn:E; [exact (HG _ _ E)|apply a_fresh_ok]. }
    pose proof (a_write_ok (ad_size a) (ad_cap a) (ad_max a) am v Hok).
    destruct (a_write _ _ _ am v) as [am' r]. cbn [fst ad_map]. now apply good_put.
  - destruct (ad_map a name); [exact HG|]. destruct (existsb _ _); [|exact HG].
    cbn [fst ad_map]. apply good_put; [exact HG|apply a_fresh_ok].
  - destruct (ad_map a name); [exact HG|]. destruct (existsb _ _); [|exact HG].
    cbn [fst ad_map]. apply good_put; [exact HG|apply a_fresh_ok].
  - exact HG.
Qed.

(** effect of one accepted or refused write on the values *)
Lemma a_write_vals size cap max am v : am_ok am ->
  let '(am', r) := a_write size cap max am v in
  (r = Ok true /\ (forall w l, a_values am = w :: l -> v_end w < v_end v) /\
   exists kept dropped, a_values am = kept ++ dropped /\ a_values am' = v :: kept /\
     (max <= 0 -> dropped = [])) \/
  (r = Ok false /\ am' = am /\ exists w l, a_values am = w :: l /\ v_end v <= v_end w) \/
  (r = Err /\ am' = am /\ (forall w l, a_values am = w :: l -> v_end w < v_end v) /\
   exists f, a_files am = [f] /\ a_first am = 1 /\ used f = 1 /\
     a_cap f < used f + nrec (a_size f) v) \/
  (r = Err /\ am' = am /\ a_last am = 1 /\ a_first am <> 1).
Proof.
  intros (Hd & Hne & Hall). unfold a_write, a_values in *.
  destruct (a_files am) as [|f older] eqn:Hfs; [contradiction|]. cbn [flat_map].
  destruct (match a_vals f with [] => false | w :: _ => v_end v <=? v_end w end) eqn:Eo.
  { right. left. destruct (a_vals f) as [|w ws]; [discriminate|]. apply Z.leb_le in Eo.
    split; [reflexivity|]. split; [reflexivity|]. exists w, (ws ++ flat_map a_vals older). auto. }
  assert (Hnew : forall w l, a_vals f ++ flat_map a_vals older = w :: l -> v_end w < v_end v).
  { intros w l E. destruct (a_vals f) as [|w0 ws] eqn:Ev.
    - destruct older; [discriminate|]. inversion Hall; subst; contradiction.
    - injection E as <- _. now apply Z.leb_gt in Eo. }
  destruct (Z.leb_spec (used f + nrec (a_size f) v) (a_cap f)).
  { left. split; [reflexivity|]. split; [exact Hnew|]. 
    exists (a_vals f ++ flat_map a_vals older), []. rewrite app_nil_r. auto. }
  destruct ((a_last am =? 1) && (used f =? 1)) eqn:Ee.
  { apply andb_true_iff in Ee. destruct Ee as [E1 E2]. apply Z.eqb_eq in E1, E2.
    destruct (Z.eq_dec (a_first am) 1) as [Hf1|Hf1].
    - right. right. left. split; [reflexivity|]. split; [reflexivity|]. split; [exact Hnew|].
      exists f. split; [|auto]. unfold a_last in E1. rewrite Hfs, len_cons in E1.
      assert (len older = 0) by lia. now rewrite (len_0_nil older).
    - right. right. right. auto. }
  left. split; [reflexivity|]. split; [exact Hnew|]. cbn [a_files flat_map a_vals app].
  destruct ((max <=? a_last am - a_first am) && (0 <? max)) eqn:Edr.
  - destruct (flat_removelast a_vals (f :: older)) as (r & Er).
    exists (flat_map a_vals (removelast (f :: older))), r. split; [exact Er|]. split; [reflexivity|].
    apply andb_true_iff in Edr. destruct Edr as [_ Edr]. apply Z.ltb_lt in Edr. lia.
  - exists (flat_map a_vals (f :: older)), []. cbn [flat_map]. rewrite app_nil_r. auto.
Qed.

(** one step of the client's log *)
Definition log1 (name : list Z) (o : op) (r : outcome) (log : list value) : list value :=
  match o, r with
  | OWrite name' v, RWrite (Ok true) => if beqb name' name then v :: log else log
  | _, _ => log
  end.
Lemma acked_cons name o ops r outs log :
  acked_ name (o :: ops) (r :: outs) log = acked_ name ops outs (log1 name o r log).
Proof. destruct o; try reflexivity. destruct r; try reflexivity. destruct r as [[]| | |]; reflexivity. Qed.

Definition linv (a : adb) (name : list Z) (log : list value) : Prop :=
  desc log /\ (vals a name = [] -> log = []) /\
  exists r, log = vals a name ++ r.

Lemma vals_put a name am size cap max root dirs n : 
  vals (ADB size cap max root dirs (aput name am (ad_map a))) n =
  if beqb name n then a_values am else vals a n.
Proof. unfold vals, aput; cbn [ad_map]. now destruct (beqb name n). Qed.

Lemma fresh_vals size cap : a_values (a_fresh size cap) = [].
Proof. reflexivity. Qed.

Lemma vals_am_of a name : a_values (am_of (ad_size a) (ad_cap a) (ad_map a) name) = vals a name.
Proof. unfold am_of, vals. destruct (ad_map a name); reflexivity. Qed.

(** queries do not change values *)
Lemma query_vals o a n : (forall m v, o <> OWrite m v) -> vals (fst (a_step o a)) n = vals a n.
Proof.
  intros H. destruct o as [name v|name e|name|size cap max h r]; cbn [a_step].
  - exfalso. exact (H name v eq_refl).
  - destruct (ad_map a name) eqn:E; [reflexivity|]. destruct (existsb _ _); [|reflexivity].
    cbn [fst]. rewrite vals_put, fresh_vals. destruct (beqb name n) eqn:En; [|reflexivity].
    apply beqb_eq in En. subst. unfold vals. now rewrite E.
  - destruct (ad_map a name) eqn:E; [reflexivity|]. destruct (existsb _ _); [|reflexivity].
    cbn [fst]. rewrite vals_put, fresh_vals. destruct (beqb name n) eqn:En; [|reflexivity].
    apply beqb_eq in En. subst. unfold vals. now rewrite E.
  - reflexivity.
Qed.

Lemma am_of_ok size cap A name : Good A -> am_ok (am_of size cap A name).
Proof. intros HG. unfold am_of. destruct (A name) eqn:E; [exact (HG _ _ E)|apply a_fresh_ok]. Qed.

Lemma linv_step o a name log : Good (ad_map a) -> linv a name log ->
  linv (fst (a_step o a)) name (log1 name o (snd (a_step o a)) log) /\
  (ad_max a <= 0 -> vals a name = log ->
   vals (fst (a_step o a)) name = log1 name o (snd (a_step o a)) log).
Proof.
  intros HG HL. destruct o as [name' v| | | ] eqn:Eo.
  2,3,4: (assert (Hlog : forall r, log1 name o r log = log) by (intros r; rewrite Eo; reflexivity);
      rewrite <- Eo; rewrite Hlog; unfold linv; rewrite query_vals by (intros; rewrite Eo; discriminate);
      split; [exact HL|auto]).
  cbn [a_step].
  pose proof (a_write_vals (ad_size a) (ad_cap a) (ad_max a) _ v (am_of_ok (ad_size a) (ad_cap a) _ name' HG)) as Hw.
  rewrite vals_am_of in Hw.
  destruct (a_write _ _ _ _ _) as [am' r] eqn:Ew. cbn [fst snd log1]. unfold linv. rewrite vals_put.
  destruct (beqb name' name) eqn:En.
  - apply beqb_eq in En. subst name'. destruct HL as (Hd & He & (tl & Etl)).
    destruct Hw as [(-> & Hnew & kept & dropped & Ek & Ev & Hmax)|
                    [(-> & -> & _)|[(-> & -> & _)|(-> & -> & _)]]].
    + rewrite Ev. split.
      * split; [|split; [discriminate|]].
        -- apply desc_cons; [exact Hd|]. intros w l El.
           destruct (vals a name) as [|w0 l0] eqn:E0; [now rewrite (He eq_refl) in El|].
           rewrite El in Etl. injection Etl as <- _. exact (Hnew w l0 eq_refl).
        -- exists (dropped ++ tl). rewrite Etl, Ek. now rewrite <- app_assoc.
      * intros Hm Heq. rewrite <- Heq, Ek, (Hmax Hm), app_nil_r. reflexivity.
    + rewrite vals_am_of. split; [split; [exact Hd|split; [exact He|eauto]]|auto].
    + rewrite vals_am_of. split; [split; [exact Hd|split; [exact He|eauto]]|auto].
    + rewrite vals_am_of. split; [split; [exact Hd|split; [exact He|eauto]]|auto].
  - assert (El : match r with Ok true => log | _ => log end = log) by (destruct r as [[]| | |]; reflexivity).
    rewrite El. split; [exact HL|auto].
Qed.

(** no process of the history drops files *)
Fixpoint unlimited (max : Z) (ops : list op) : Prop :=
  max <= 0 /\
  match ops with
  | [] => True
  | OReopen _ _ max' _ _ :: ops => unlimited max' ops
  | _ :: ops => unlimited max ops
  end.

Lemma linv_run : forall ops a name log, Good (ad_map a) -> linv a name log ->
  Good (ad_map (fst (a_run ops a))) /\
  linv (fst (a_run ops a)) name (acked_ name ops (snd (a_run ops a)) log) /\
  (unlimited (ad_max a) ops -> vals a name = log ->
   vals (fst (a_run ops a)) name = acked_ name ops (snd (a_run ops a)) log).
Proof.
  induction ops as [|o ops IH]; intros a name log HG HL; cbn [a_run].
  - cbn. auto.
  - pose proof (good_step o a HG) as HG'. pose proof (linv_step o a name log HG HL) as [HL' HU].
    pose proof (a_step_opts o a) as [Hopt _].
    destruct (a_step o a) as [a1 r] eqn:Es. cbn [fst snd] in *.
    destruct (IH a1 name _ HG' HL') as (G & L & U).
    destruct (a_run ops a1) as [a2 rs]. cbn [fst snd] in *. rewrite acked_cons.
    split; [exact G|]. split; [exact L|]. intros Hu Heq.
    destruct Hu as [Hm Hu]. apply U; [|apply HU; assumption].
    destruct o; try (destruct Hopt as (_ & _ & ->); exact Hu).
    cbn [a_step] in Es. injection Es as <- _. exact Hu.
Qed.

(** *** answers of a query *)
Lemma a_query_log am : am_ok am ->
  exists newest, (newest <= length (a_values am))%nat /\
    (a_values am <> [] -> (1 <= newest)%nat) /\
    (len (a_files am) = 1 -> newest = length (a_values am)) /\
    forall e, a_query am e =
      if existsb (fun v => v_end v <? e) (firstn newest (a_values am))
      then filter (fun v => v_end v <? e) (a_values am) else [].
Proof.
  intros (Hd & Hne & Hall). unfold a_query, a_values in *.
  destruct (a_files am) as [|f older]; [contradiction|]. cbn [flat_map] in *.
  exists (length (a_vals f)). split; [rewrite app_length; lia|]. split; [|split].
  - intros H. destruct (a_vals f) eqn:E; [|cbn; lia].
    destruct older; [contradiction|]. inversion Hall; subst; contradiction.
  - intros El. rewrite len_cons in El. rewrite (len_0_nil older) by lia. cbn. now rewrite app_nil_r.
  - intros e. rewrite firstn_app, Nat.sub_diag, firstn_all. cbn [firstn]. rewrite app_nil_r.
    destruct (a_vals f) as [|v vs] eqn:Ev.
    + destruct older; [|inversion Hall; subst; contradiction].
      unfold oldest_end. rewrite Ev. reflexivity.
    + destruct (oldest_some f) as (o & Eo); [rewrite Ev; discriminate|]. rewrite Eo.
      destruct (oldest_in f o Eo) as (w & Hw & Ew). rewrite <- Ev.
      assert (Hmin : forall x, In x (a_vals f) -> o <= v_end x).
      { intros x Hx. unfold oldest_end in Eo. destruct (rev (a_vals f)) as [|y l] eqn:Er; [discriminate|].
        injection Eo as Eo. assert (a_vals f = rev l ++ [y]) as Es.
        { apply (f_equal (@rev value)) in Er. rewrite rev_involutive in Er. exact Er. }
        rewrite Es in Hx. apply in_app_iff in Hx. destruct Hx as [Hx|[<-|[]]]; [|lia].
        rewrite <- Ev in Hd. apply desc_app_l in Hd. rewrite Es in Hd. apply desc_app_inv in Hd.
        destruct Hd as [_ Hd]. specialize (Hd x y Hx (or_introl eq_refl)). lia. }
      destruct (Z.leb_spec e o) as [Hle|Hgt].
      * destruct (existsb _ _) eqn:Ex; [|reflexivity]. exfalso. apply existsb_exists in Ex.
        destruct Ex as (x & Hx & Hlt). apply Z.ltb_lt in Hlt. specialize (Hmin x Hx). lia.
      * assert (existsb (fun v => v_end v <? e) (a_vals f) = true) as ->; [|reflexivity].
        apply existsb_exists. exists w. split; [exact Hw|]. apply Z.ltb_lt. lia.
Qed.

Lemma linv_empty root size cap max name : linv (adb_empty root size cap max) name [].
Proof. split; [exact I|]. split; [auto|]. exists []. reflexivity. Qed.
Lemma good_empty root size cap max : Good (ad_map (adb_empty root size cap max)).
Proof. intros name am. discriminate. Qed.
