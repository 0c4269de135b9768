(** Reading a damaged file. *)
From Coq Require Import ZArith List Lia Bool.
From Verif Require Import Base Maps Crc Record RecordSpec RecordProofs Pb Meta File FileProofs Metric MetricSpec MetricFile DamageSpec.
Import ListNotations.
Open Scope Z_scope.

Lemma f_record_cases g n c : (exists r, f_record g n c = Ok r) \/ f_record g n c = Err.
Proof.
  unfold f_record. destruct (_ || _); [auto|]. unfold readRecord, parse.
  repeat match goal with |- context [if ?b then _ else _] => destruct b end; eauto.
Qed.

(** what can be read from slot [head] on *)
Definition tailo (g : geom) (c : list Z) (head : Z) (os : list (option record)) : Prop :=
  0 <= head /\ head + len os = g_cap g /\
  forall i o, nth_error os i = Some o -> f_record g (head + Z.of_nat i) c = match o with Some r => Ok r | None => Err end.

Lemma tailo_cons g c head o os : tailo g c head (o :: os) ->
  head < g_cap g /\ f_record g head c = match o with Some r => Ok r | None => Err end /\ tailo g c (head + 1) os.
Proof.
  intros (H0 & Hl & H). rewrite len_cons in Hl. pose proof (len_nonneg os).
  split; [lia|]. split.
  - specialize (H 0%nat o eq_refl). now rewrite Z.add_0_r in H.
  - split; [lia|]. split; [lia|]. intros i r' Hi. specialize (H (S i) r' Hi).
    replace (head + 1 + Z.of_nat i) with (head + Z.of_nat (S i)) by lia. exact H.
Qed.
Lemma tailo_app g c : forall o1 head o2, tailo g c head (o1 ++ o2) -> tailo g c (head + len o1) o2.
Proof.
  induction o1 as [|r o1 IH]; intros head o2 H; cbn [app] in H.
  - change (len (@nil (option record))) with 0. now rewrite Z.add_0_r.
  - apply tailo_cons in H. destruct H as (_ & _ & H). apply IH in H. rewrite len_cons.
    now replace (head + (1 + len o1)) with (head + 1 + len o1) by lia.
Qed.

(** slots that are skipped *)
Definition junk (e : Z) (o : option record) : Prop :=
  match o with None => True | Some r => e <= r_end r \/ (r_kind r <> 2 /\ r_kind r <> 3) end.
Lemma read_junk {A} (cb : callback A) g c e : forall o1 o2 head acc fuel,
  tailo g c head (o1 ++ o2) -> Forall (junk e) o1 -> (length (o1 ++ o2) <= fuel)%nat ->
  exists fuel', (length o2 <= fuel')%nat /\
    read_new cb fuel g c e head acc = read_new cb fuel' g c e (head + len o1) acc.
Proof.
  induction o1 as [|o o1 IH]; intros o2 head acc fuel HT HF Hfu.
  - exists fuel. change (len (@nil (option record))) with 0. rewrite Z.add_0_r. auto.
  - cbn [app] in *. apply tailo_cons in HT. destruct HT as (Hlt & Hr & HT).
    pose proof (Forall_inv HF) as Hj. apply Forall_inv_tail in HF. cbn [length] in Hfu.
    destruct fuel as [|fuel]; [lia|]. cbn [read_new].
    destruct (Z.ltb_spec head (g_cap g)); [|lia]. cbn [negb]. rewrite Hr.
    destruct (IH o2 (head + 1) acc fuel HT HF ltac:(lia)) as (fuel' & Hf' & E).
    exists fuel'. split; [exact Hf'|]. rewrite len_cons.
    replace (head + (1 + len o1)) with (head + 1 + len o1) by lia. rewrite <- E.
    destruct o as [r|]; [|reflexivity]. cbn in Hj.
    destruct (Z.leb_spec e (r_end r)) as [|Hl]; [reflexivity|]. destruct Hj as [Hj|[K1 K2]]; [lia|].
    change kind_complete with 2. change kind_begin with 3.
    destruct (Z.eqb_spec (r_kind r) 2); [contradiction|]. destruct (Z.eqb_spec (r_kind r) 3); [contradiction|]. reflexivity.
Qed.

Definition seen (r : record) (o : option record) : Prop := o = Some r \/ o = None.
Definition is_none {A} (o : option A) : bool := match o with None => true | _ => false end.

Lemma seen_junk e rs os : Forall2 seen rs os -> Forall (fun r => e <= r_end r \/ (r_kind r <> 2 /\ r_kind r <> 3)) rs -> Forall (junk e) os.
Proof.
  induction 1 as [|r o rs os H _ IH]; intros F; constructor.
  - destruct H as [-> | ->]; cbn; auto. exact (Forall_inv F).
  - apply IH. exact (Forall_inv_tail F).
Qed.

(** the inner loop *)
Lemma read_conts_o {A} (cb : callback A) g c e s en : forall n rsm sg o2 head buf acc fuel,
  tailo g c head (sg ++ o2) -> Forall2 seen rsm sg ->
  map r_kind rsm = repeat 4 n ++ [5] ->
  Forall (fun r => r_start r = s /\ r_end r = en) rsm ->
  (length (sg ++ o2) <= fuel)%nat ->
  exists fuel', (length o2 <= fuel')%nat /\
    read_more cb fuel g c e head buf acc =
    if existsb is_none sg then read_new cb fuel' g c e (head + len sg) acc
    else match cb acc (Val s en (buf ++ concat (map r_data rsm))) with
         | (acc, Ok true) => read_new cb fuel' g c e (head + len sg) acc
         | other => other
         end.
Proof.
  intros n rsm. revert n. induction rsm as [|r rsm IH]; intros n sg o2 head buf acc fuel HT HS HK HF Hfu.
  { destruct n; discriminate. }
  inversion HS as [|? o ? sg' Ho HS']; subst. cbn [app] in *.
  apply tailo_cons in HT. destruct HT as (Hlt & Hr & HT). cbn [length] in Hfu.
  destruct fuel as [|fuel]; [lia|]. cbn [read_more]. rewrite Hr.
  destruct Ho as [-> | ->].
  2:{ (* lost: the rest of the value is skipped *)
      assert (J : Forall (junk e) sg').
      { apply (seen_junk e rsm sg' HS'). destruct n as [|n]; cbn in HK; injection HK as HK0 HK.
        - destruct rsm; [constructor|discriminate].
        - assert (KK : Forall (fun k => k <> 2 /\ k <> 3) (map r_kind rsm)).
          { rewrite HK. apply Forall_app. split; [|repeat constructor; lia].
            apply Forall_forall. intros k Hk. apply repeat_spec in Hk. lia. }
          rewrite Forall_map in KK. eapply Forall_impl; [|exact KK]. cbn. auto. }
      destruct (read_junk cb g c e sg' o2 (head + 1) acc fuel HT J ltac:(lia)) as (fuel' & Hf' & E).
      exists fuel'. split; [exact Hf'|]. cbn [existsb is_none orb]. rewrite E, len_cons. f_equal. lia. }
  cbn [existsb is_none orb]. pose proof (Forall_inv HF) as (H1 & H2). apply Forall_inv_tail in HF.
  destruct n as [|n]; cbn in HK; injection HK as HK0 HK.
  - destruct rsm; [|discriminate]. inversion HS'; subst. exists fuel. split; [cbn in *; lia|].
    rewrite HK0. change (5 =? kind_continue) with false. change (5 =? kind_end) with true. cbn [negb existsb map concat].
    rewrite app_nil_r, len_cons. change (len (@nil (option record))) with 0. rewrite Z.add_0_r. reflexivity.
  - destruct (IH n sg' o2 (head + 1) (buf ++ r_data r) acc fuel HT HS' HK HF ltac:(lia)) as (fuel' & Hf' & E).
    exists fuel'. split; [exact Hf'|]. rewrite HK0. change (4 =? kind_continue) with true. cbn match. rewrite E.
    cbn [map concat]. rewrite <- app_assoc, len_cons.
    replace (head + (1 + len sg')) with (head + 1 + len sg') by lia. reflexivity.
Qed.

(** one value *)
Lemma read_value_o {A} (cb : callback A) g c e size v sg o2 head acc fuel :
  79 <= size < 65560 -> val_ok v ->
  tailo g c head (sg ++ o2) -> Forall2 seen (recs size v) sg ->
  (length (sg ++ o2) <= fuel)%nat ->
  exists fuel', (length o2 <= fuel')%nat /\
    read_new cb fuel g c e head acc =
    if (e <=? v_end v) || existsb is_none sg then read_new cb fuel' g c e (head + len sg) acc
    else match cb acc v with
         | (acc, Ok true) => read_new cb fuel' g c e (head + len sg) acc
         | other => other
         end.
Proof.
  intros Hs Hv HT HS Hfu.
  destruct (recs_spec size v Hs Hv) as (_ & _ & L & P & C & K & F).
  destruct (Z.leb_spec e (v_end v)) as [Hle|Hgt]; cbn [orb].
  { apply read_junk; auto. apply (seen_junk e _ _ HS). eapply Forall_impl; [|exact F]. cbn. intros a (_ & _ & -> & _). auto. }
  destruct (recs size v) as [|r rs] eqn:Er; [change (len (@nil record)) with 0 in L; lia|].
  inversion HS as [|? o ? sg' Ho HS']; subst. cbn [app] in *. 
  apply tailo_cons in HT. destruct HT as (Hlt & Hr & HT).
  pose proof (Forall_inv F) as (Hr1 & Hr2 & Hr3 & _). apply Forall_inv_tail in F.
  destruct fuel as [|fuel]; [cbn in Hfu; lia|]. cbn [length] in Hfu.
  assert (Ev : v = Val (v_start v) (v_end v) (concat (map r_data (r :: rs)))).
  { rewrite C. now destruct v. }
  remember (map r_kind (r :: rs)) as ks eqn:K1. cbn [read_new].
  destruct (Z.ltb_spec head (g_cap g)); [|lia]. cbn [negb]. rewrite Hr.
  destruct Ho as [-> | ->].
  2:{ assert (J : Forall (junk e) sg').
      { apply (seen_junk e rs sg' HS'). destruct K as [|n]; cbn [map app] in K1.
        - destruct rs; [constructor|discriminate].
        - injection K1 as K1 K2.
          assert (KK : Forall (fun k => k <> 2 /\ k <> 3) (map r_kind rs)).
          { rewrite <- K2. apply Forall_app. split; [|repeat constructor; lia].
            apply Forall_forall. intros k Hk. apply repeat_spec in Hk. lia. }
          rewrite Forall_map in KK. eapply Forall_impl; [|exact KK]. cbn. auto. }
      destruct (read_junk cb g c e sg' o2 (head + 1) acc fuel HT J ltac:(lia)) as (fuel' & Hf' & E).
      exists fuel'. split; [exact Hf'|]. cbn [existsb is_none orb]. rewrite E, len_cons. f_equal. lia. }
  cbn [existsb is_none orb]. destruct (Z.leb_spec e (r_end r)); [lia|].
  destruct K as [|n].
  - destruct rs; [|cbn in K1; discriminate]. inversion HS'; subst.
    exists fuel. split; [cbn in *; lia|]. cbn [map] in K1. injection K1 as K1. rewrite <- K1.
    change (2 =? kind_complete) with true. cbn match. cbn [existsb].
    rewrite len_cons. change (len (@nil (option record))) with 0. rewrite Z.add_0_r.
    cbn [map concat] in Ev. rewrite app_nil_r in Ev. rewrite Hr2, Hr3, <- Ev. reflexivity.
  - cbn [map app] in K1. injection K1 as K1 K2.
    destruct (read_conts_o cb g c e (v_start v) (v_end v) n rs sg' o2 (head + 1) (r_data r) acc fuel HT HS') as (fuel' & Hf' & E).
    + symmetry. exact K2.
    + eapply Forall_impl; [|exact F]. cbn. intuition.
    + lia.
    + exists fuel'. split; [exact Hf'|]. rewrite <- K1.
      change (3 =? kind_complete) with false. change (3 =? kind_begin) with true. cbn [negb]. cbn match.
      rewrite E. cbn [map concat] in Ev. rewrite <- Ev, len_cons.
      replace (head + (1 + len sg')) with (head + 1 + len sg') by lia. reflexivity.
Qed.

Lemma read_values_o {A} (cb : callback A) g c e size (L : value -> bool) : 79 <= size < 65560 ->
  forall vs sgs head acc fuel, Forall val_ok vs ->
  Forall2 (fun v sg => Forall2 seen (recs size v) sg /\ existsb is_none sg = L v) vs sgs ->
  tailo g c head (concat sgs) -> (length (concat sgs) <= fuel)%nat ->
  read_new cb fuel g c e head acc = run_cb cb acc (filter (fun v => v_end v <? e) (filter (fun v => negb (L v)) vs)).
Proof.
  intros Hs. induction vs as [|v vs IH]; intros sgs head acc fuel HV HS HT Hfu; inversion HS as [|? sg ? sgs' (Hsg & HL) HS']; subst; cbn [filter concat] in *.
  - destruct HT as (_ & Hl & _). change (len (@nil (option record))) with 0 in Hl.
    destruct fuel; cbn [read_new run_cb]; destruct (Z.ltb_spec head (g_cap g)); try lia; reflexivity.
  - pose proof (Forall_inv HV) as Hv. apply Forall_inv_tail in HV.
    destruct (read_value_o cb g c e size v sg _ head acc fuel Hs Hv HT Hsg Hfu) as (fuel' & Hf' & E).
    rewrite E, HL. pose proof (tailo_app _ _ _ _ _ HT) as HT'.
    destruct (L v); cbn [negb filter].
    + rewrite orb_true_r. eapply IH; eauto.
    + rewrite orb_false_r. destruct (Z.leb_spec e (v_end v)), (Z.ltb_spec (v_end v) e); try lia.
      * eapply IH; eauto.
      * cbn [run_cb]. destruct (cb acc v) as [acc' [[|]| | |]]; try reflexivity. eapply IH; eauto.
Qed.
