(** How much is retained when the number of files is limited (used by
    Props_Storage.v). *)
From Coq Require Import ZArith List Lia Bool.
From Verif Require Import Base Maps Record Convert File FileProofs Cache CacheProofs
  Metric MetricSpec MetricFile MetricPaths MetricProofs MetricRead DbSpec DbProofs DbLog DbClient.
Import ListNotations.
Open Scope Z_scope.

Lemma used_app size : forall a b, used_ size (a ++ b) = used_ size a + used_ size b.
Proof. induction a as [|v a IH]; intros b; cbn [used_ app]; [lia|]. rewrite IH. lia. Qed.
Lemma nrec_ge1 size v : 24 < size -> 1 <= nrec size v.
Proof.
  intros H. unfold nrec. destruct (Z.eqb_spec (len (v_data v)) 0); [lia|].
  pose proof (len_nonneg (v_data v)). apply Z.div_le_lower_bound; lia.
Qed.
Lemma used_nn size vs : 24 < size -> 0 <= used_ size vs.
Proof. intros H. induction vs as [|v vs IH]; cbn [used_]; [lia|]. pose proof (nrec_ge1 size v H). lia. Qed.

Definition full_am (size cap max r : Z) (am : ametric) (log : list value) : Prop :=
  Forall (fun f => cap - r + 1 <= used_ size (a_vals f)) (tl (a_files am)) /\
  (1 < len (a_files am) -> exists f fs, a_files am = f :: fs /\ a_vals f <> []) /\
  (a_values am = log \/ len (a_files am) = max + 1).

Lemma removelast_Forall_tl {A} (P : A -> Prop) (l : list A) : Forall P l -> Forall P (removelast l).
Proof. apply removelast_forall. Qed.

Lemma full_write size cap max r am v log : 0 < max -> len (a_files am) <= max + 1 ->
  Forall (fun f => a_size f = size /\ a_cap f = cap) (a_files am) ->
  nrec size v <= r -> full_am size cap max r am log ->
  let '(am', x) := a_write size cap max am v in
  full_am size cap max r am' (match x with Ok true => v :: log | _ => log end).
Proof.
  intros Hm Hl Hg Hv (H1 & H2 & H3). unfold a_write.
  destruct (a_files am) as [|f older] eqn:Ef; [split; [rewrite Ef; exact H1|split; rewrite ?Ef; assumption]|].
  assert (Hsame : full_am size cap max r am log)
    by (unfold full_am; rewrite Ef; split; [exact H1|split; assumption]).
  destruct (match a_vals f with [] => false | w :: _ => v_end v <=? v_end w end); [exact Hsame|].
  inversion Hg as [|? ? [G1 G2] G3]; subst x l. cbn [tl] in H1.
  destruct (Z.leb_spec (used f + nrec (a_size f) v) (a_cap f)).
  { unfold full_am; cbn [a_files tl a_vals]. split; [exact H1|]. split.
    - intros _. eexists _, _. split; [reflexivity|]. discriminate.
    - rewrite len_cons in *. destruct H3 as [H3|H3]; [left|right; lia].
      unfold a_values in *. rewrite Ef in H3. cbn [a_files flat_map a_vals app]. now rewrite <- H3. }
  destruct (_ && _); [exact Hsame|].
  assert (Hc : Forall (fun f => cap - r + 1 <= used_ size (a_vals f)) (f :: older)).
  { constructor; [|exact H1]. unfold used in *. rewrite G1, G2 in *. lia. }
  unfold full_am; cbn [a_files tl].
  destruct ((max <=? a_last am - a_first am) && (0 <? max)) eqn:Ed.
  - split; [now apply removelast_forall|]. split.
    + intros _. eexists _, _. split; [reflexivity|]. discriminate.
    + right. rewrite len_cons, len_removelast by discriminate.
      apply andb_true_iff in Ed. destruct Ed as [Ed _]. apply Z.leb_le in Ed.
      unfold a_last in Ed. rewrite Ef in Ed. lia.
  - split; [exact Hc|]. split.
    + intros _. eexists _, _. split; [reflexivity|]. discriminate.
    + rewrite len_cons. apply andb_false_iff in Ed. unfold a_last in Ed. rewrite Ef in Ed.
      assert (len (f :: older) <= max) by (destruct Ed as [Ed|Ed]; [apply Z.leb_gt in Ed; lia|apply Z.ltb_ge in Ed; lia]).
      destruct H3 as [H3|H3]; [left|lia].
      unfold a_values in *. rewrite Ef in H3. cbn [a_files flat_map a_vals app] in *. now rewrite <- H3.
Qed.

Definition full (size cap max r : Z) (a : adb) (name : list Z) (log : list value) : Prop :=
  match ad_map a name with Some am => full_am size cap max r am log | None => log = [] end.

Definition small_writes (size r : Z) (ops : list op) : Prop :=
  forall name v, In (OWrite name v) ops -> nrec size v <= r.

Lemma full_fresh size cap max r : full_am size cap max r (a_fresh size cap) [].
Proof.
  unfold full_am, a_fresh; cbn [a_files tl]. split; [constructor|]. split; [|left; reflexivity].
  change (len [_]) with 1. lia.
Qed.

Lemma full_step size cap max r o a name log : 0 < max -> bounded size cap max a ->
  small_writes size r [o] -> full size cap max r a name log ->
  full size cap max r (fst (a_step o a)) name (log1 name o (snd (a_step o a)) log).
Proof.
  intros Hm (B1 & B2 & B3 & B4) Hv HF. unfold full in *.
  assert (Hq : forall nm dirs, ad_map a nm = None ->
     match aput nm (a_fresh (ad_size a) (ad_cap a)) (ad_map a) name with
     | Some am => full_am size cap max r am log | None => log = [] end /\ dirs = dirs :> list (list Z)).
  { intros nm dirs E. split; [|reflexivity]. unfold aput. destruct (beqb nm name) eqn:En; [|exact HF].
    apply beqb_eq in En. subst nm. rewrite E in HF. subst log. rewrite B1, B2. apply full_fresh. }
  destruct o as [nm v|nm e|nm|s c m h rd]; cbn [a_step].
  - set (am := am_of _ _ _ _).
    assert (Ham : len (a_files am) <= max + 1 /\ Forall (fun f => a_size f = size /\ a_cap f = cap) (a_files am)).
    { unfold am, am_of. destruct (ad_map a nm) as [x|] eqn:E; [exact (B4 nm x E)|].
      cbn. split; [change (len [_]) with 1; lia|]. constructor; [cbn; auto|constructor]. }
    destruct Ham as [A1 A2].
    destruct (beqb nm name) eqn:En.
    + apply beqb_eq in En. subst nm.
      assert (full_am size cap max r am log) as HA.
      { unfold am, am_of. destruct (ad_map a name); [exact HF|]. subst log. rewrite B1, B2. apply full_fresh. }
      pose proof (full_write size cap max r am v log Hm A1 A2 (Hv name v (or_introl eq_refl)) HA) as HW.
      rewrite B1, B2, B3. destruct (a_write size cap max am v) as [am' x]. cbn [fst snd ad_map log1].
      rewrite aput_same, beqb_refl. destruct x as [[]| | |]; exact HW.
    + destruct (a_write _ _ _ am v) as [am' x]. cbn [fst snd ad_map log1]. unfold aput. rewrite En.
      destruct x as [[]| | |]; exact HF.
  - destruct (ad_map a nm) eqn:E; [exact HF|]. destruct (existsb _ _); [|exact HF].
    cbn [fst ad_map log1]. exact (proj1 (Hq nm [] E)).
  - destruct (ad_map a nm) eqn:E; [exact HF|]. destruct (existsb _ _); [|exact HF].
    cbn [fst ad_map log1]. exact (proj1 (Hq nm [] E)).
  - exact HF.
Qed.

Lemma full_run size cap max r name : forall ops a log, 0 < max -> Good (ad_map a) -> bounded size cap max a ->
  same_options size cap max ops -> small_writes size r ops -> full size cap max r a name log ->
  full size cap max r (fst (a_run ops a)) name (acked_ name ops (snd (a_run ops a)) log).
Proof.
  induction ops as [|o ops IH]; intros a log Hm HG HB Hs Hv HF; cbn [a_run]; [exact HF|].
  pose proof (good_step o a HG) as HG'.
  assert (same_options size cap max [o] /\ same_options size cap max ops) as [S1 S2].
  { destruct o; cbn in Hs |- *; tauto. }
  pose proof (bounded_step size cap max o a Hm HG HB S1) as HB'.
  assert (small_writes size r [o]) as V1 by (intros nm v [E|[]]; apply (Hv nm v); left; exact E).
  assert (small_writes size r ops) as V2 by (intros nm v E; apply (Hv nm v); right; exact E).
  pose proof (full_step size cap max r o a name log Hm HB V1 HF) as HF'.
  destruct (a_step o a) as [a1 x]. cbn [fst snd] in *.
  specialize (IH a1 _ Hm HG' HB' S2 V2 HF'). destruct (a_run ops a1) as [a2 outs]. cbn [fst snd] in *.
  rewrite acked_cons. exact IH.
Qed.

Lemma full_sum size m : forall fs, 24 < size -> Forall (fun f => m <= used_ size (a_vals f)) fs ->
  m * len fs <= used_ size (flat_map a_vals fs).
Proof.
  intros fs Hs H. induction H as [|f fs H1 H2 IH]; cbn [flat_map used_]; [change (len (@nil afile)) with 0; lia|].
  rewrite used_app, len_cons. nia.
Qed.

Lemma full_keeps size cap max r a name log k : 24 < size -> 0 < max -> linv a name log ->
  full size cap max r a name log -> (k <= length log)%nat ->
  used_ size (firstn k log) <= max * (cap - r + 1) + 1 -> (k <= length (vals a name))%nat.
Proof.
  intros Hs Hm (_ & _ & (t & Et)) HF Hk Hu. unfold full in HF. unfold vals in *.
  destruct (ad_map a name) as [am|]; [|rewrite HF in Hk; exact Hk].
  destruct HF as (H1 & H2 & [H3|H3]); [rewrite H3; exact Hk|].
  destruct (Nat.le_gt_cases k (length (a_values am))) as [Hle|Hgt]; [exact Hle|exfalso].
  destruct (H2 ltac:(lia)) as (f & fs & Ef & Hne). rewrite Ef in H1, H3. cbn [tl] in H1.
  pose proof (full_sum size _ fs Hs H1) as HS. rewrite len_cons in H3.
  destruct t as [|v t]; [rewrite app_nil_r in Et; subst log; lia|].
  rewrite Et, firstn_app, firstn_all2 in Hu by lia.
  destruct (k - length (a_values am))%nat as [|j] eqn:Ej; [lia|]. cbn [firstn] in Hu.
  rewrite used_app in Hu. cbn [used_] in Hu.
  pose proof (nrec_ge1 size v Hs). pose proof (used_nn size (firstn j t) Hs).
  unfold a_values in Hu. rewrite Ef in Hu. cbn [flat_map] in Hu. rewrite used_app in Hu.
  destruct (a_vals f) as [|w ws]; [contradiction|]. cbn [used_] in Hu.
  pose proof (nrec_ge1 size w Hs). pose proof (used_nn size ws Hs). nia.
Qed.
