(** One file after a power failure. *)
From Coq Require Import ZArith List Lia Bool.
From Verif Require Import Base Maps Record RecordSpec RecordProofs Pb Meta File FileProofs Metric MetricSpec MetricFile
  MetricRead DamageSpec DamageFile DamageRepr DamageProof.
Import ListNotations.
Open Scope Z_scope.

(** [f'] is [f] with more values *)
Definition ext (f f' : afile) : Prop :=
  a_cap f' = a_cap f /\ a_size f' = a_size f /\ exists ws, a_vals f' = ws ++ a_vals f.
Lemma ext_refl f : ext f f.
Proof. split; [reflexivity|]. split; [reflexivity|now exists []]. Qed.
Lemma ext_trans f g h : ext f g -> ext g h -> ext f h.
Proof.
  intros (A1 & A2 & ws & A3) (B1 & B2 & us & B3). split; [congruence|]. split; [congruence|].
  exists (us ++ ws). rewrite B3, A3. apply app_assoc.
Qed.
Lemma ext_geom f f' : ext f f' -> geom_of f' = geom_of f.
Proof. intros (A & B & _). unfold geom_of. congruence. Qed.

Lemma file_record f c n r : file_rep f c -> f_record (geom_of f) n c = Ok r ->
  exists j, nth_error (flat_map (recs (a_size f)) (a_vals f)) j = Some r /\ n = a_cap f - used f + Z.of_nat j.
Proof.
  intros HF Hr. pose proof HF as (((Hs & _) & Hv & Hu & _) & _).
  pose proof (f_record_ok_lt _ _ _ _ Hr) as Hn. cbn [g_cap geom_of] in Hn.
  destruct (Z_lt_ge_dec n (a_cap f - used f)) as [Hlt|Hge].
  { rewrite (free_slot f c n HF ltac:(lia)) in Hr. discriminate. }
  pose proof (flat_recs_len (a_size f) (a_vals f) Hs Hv) as L. fold (used f) in L. unfold len in L.
  set (j := Z.to_nat (n - (a_cap f - used f))).
  destruct (nth_error (flat_map (recs (a_size f)) (a_vals f)) j) as [r'|] eqn:Ej.
  - pose proof (used_slot f c j r' HF Ej) as H. replace (a_cap f - used f + Z.of_nat j) with n in H by (unfold j; lia).
    exists j. split; [congruence|unfold j; lia].
  - apply nth_error_None in Ej. unfold j in Ej. lia.
Qed.

Lemma ext_record f f' c c' n r : ext f f' -> file_rep f c -> file_rep f' c' ->
  f_record (geom_of f) n c = Ok r -> f_record (geom_of f) n c' = Ok r.
Proof.
  intros HE HF HF' Hr. pose proof (ext_geom _ _ HE) as Eg. destruct HE as (E1 & E2 & ws & E3).
  destruct (file_record f c n r HF Hr) as (j & Hj & ->).
  pose proof HF' as (((Hs & _) & Hv & _) & _). rewrite E3 in Hv. apply Forall_app in Hv. destruct Hv as (Hvw & _).
  pose proof (flat_recs_len (a_size f') ws Hs Hvw) as L. unfold len in L.
  pose proof (used_slot f' c' (length (flat_map (recs (a_size f')) ws) + j)%nat r HF') as H.
  rewrite Eg in H. unfold used in *. rewrite E1, E2, E3, used_app in *.
  rewrite flat_map_app, nth_error_app2 in H by lia. replace (_ + j - _)%nat with j in H by lia.
  specialize (H Hj). replace (a_cap f - used_ (a_size f) (a_vals f) + Z.of_nat j)
    with (a_cap f - (used_ (a_size f) ws + used_ (a_size f) (a_vals f)) + Z.of_nat (length (flat_map (recs (a_size f)) ws) + j)) by lia.
  exact H.
Qed.

Lemma oldest_ext f f' : ext f f' -> a_vals f <> [] -> oldest_end f' = oldest_end f.
Proof.
  intros (_ & _ & ws & E) Hne. unfold oldest_end. rewrite E, rev_app_distr.
  destruct (rev (a_vals f)) as [|v l] eqn:Er; [|reflexivity].
  exfalso. apply Hne. rewrite <- (rev_involutive (a_vals f)), Er. reflexivity.
Qed.

(** what may be on disk of a file that was [f0] at the sync and is [f1] now *)
Definition moment (f0 f1 : afile) (P : list Z -> Prop) : Prop :=
  exists ft ct, ext f0 ft /\ ext ft f1 /\ file_rep ft ct /\ exact ft ct /\ P ct.
Record afile_lost (f0 f1 : afile) (c0 c1 c' : list Z) : Prop := MkLost {
  al_rep0 : file_rep f0 c0;
  al_rep1 : file_rep f1 c1;
  al_ext : ext f0 f1;
  al_ne : a_vals f0 <> [] \/ a_vals f1 = [];
  al_len : len c' = len c1;
  al_bytes : is_bytes c';
  al_meta : moment f0 f1 (fun c => sub 0 (a_size f1) c' = sub 0 (a_size f1) c);
  al_slot : forall n, 0 <= n < a_cap f1 ->
    moment f0 f1 (fun c => slot (geom_of f1) c' n = slot (geom_of f1) c n) \/
    (parse (slot (geom_of f1) c' n) = Err /\ f_record (geom_of f1) n c0 = Err)
}.

Section Lost.
Variables (f0 f1 : afile) (c0 c1 c' : list Z).
Hypothesis HL : afile_lost f0 f1 c0 c1 c'.
Notation g := (geom_of f1).

Lemma lost_slot n : 0 <= n < a_cap f1 -> f_record g n c' = Err \/ f_record g n c' = f_record g n c1.
Proof.
  intros Hn. destruct HL as [R0 R1 HE Hne _ _ _ Hs]. destruct (Hs n Hn) as [(ft & ct & E1 & E2 & HF & _ & E)|(E & _)].
  - apply slot_record in E. rewrite E. destruct (f_record_cases g n ct) as [(r & Hr)| ->]; [|auto]. right.
    rewrite Hr. pose proof (ext_geom _ _ E2) as Eg. rewrite Eg in *. symmetry. exact (ext_record ft f1 ct c1 n r E2 HF R1 Hr).
  - left. unfold f_record. destruct (_ || _); [reflexivity|exact E].
Qed.
Lemma lost_old n r : f_record g n c0 = Ok r -> f_record g n c' = Ok r.
Proof.
  intros Hr. pose proof (f_record_ok_lt _ _ _ _ Hr) as Hn. cbn [g_cap geom_of] in Hn.
  destruct HL as [R0 R1 HE Hne _ _ _ Hs]. destruct (Hs n Hn) as [(ft & ct & E1 & E2 & HF & _ & E)|(E & E0)]; [|congruence].
  apply slot_record in E. rewrite E. pose proof (ext_geom _ _ HE) as Eg. pose proof (ext_geom _ _ E1) as Eg1.
  rewrite Eg in *. exact (ext_record f0 ft c0 ct n r E1 R0 HF Hr).
Qed.

Lemma lost_meta : exists ft ct m, ext f0 ft /\ ext ft f1 /\ file_rep ft ct /\ f_metadata g c' = Ok m /\
  m_head m = a_cap f1 - used ft - 1 /\ m_size m = a_size f1 /\ m_smallest m = match oldest_end f1 with Some o => o | None => 0 end /\
  openFile c' = Ok g.
Proof.
  destruct HL as [R0 R1 HE Hne Hlen Hb (ft & ct & E1 & E2 & HF & (m & HM & Hh) & Em) _].
  pose proof (ext_geom _ _ E2) as Eg.
  pose proof HF as (_ & m' & HR & Hms & _ & _ & Hsm). pose proof (rep_meta _ _ _ _ HR) as HM'. rewrite HM in HM'. injection HM' as <-.
  pose proof HR as (Hg & Hbt & Hlt & _). pose proof R1 as (_ & m1 & (Hg1 & _ & Hl1 & _) & _).
  assert (HT : twin g ct c').
  { unfold twin. rewrite Eg in *. split; [exact Hg|]. split; [exact Hlt|]. split; [rewrite Hlen, Hl1, Hlt; reflexivity|].
    split; [exact Hbt|]. split; [exact Hb|]. destruct E2 as (_ & E2 & _). cbn [g_size geom_of]. rewrite <- E2. exact Em. }
  pose proof (twin_meta _ _ _ HT) as EM. rewrite Eg, HM in EM.
  exists ft, ct, m. split; [exact E1|]. split; [exact E2|]. split; [exact HF|]. rewrite Eg. split; [exact EM|].
  destruct E2 as (A & B & C). split; [lia|]. split; [congruence|]. split.
  - rewrite Hsm. destruct Hne as [Hne|Hnil].
    + rewrite (oldest_ext ft f1); [reflexivity|repeat split; auto|].
      destruct E1 as (_ & _ & ws & ->). intros E. apply app_eq_nil in E. tauto.
    + destruct C as (ws & C). rewrite C in Hnil. apply app_eq_nil in Hnil. unfold oldest_end. destruct Hnil as (-> & Hnil).
      rewrite C, Hnil. reflexivity.
  - rewrite <- Eg. apply (twin_open _ ct _ m HT); [rewrite Eg; exact HM|]. cbn [g_size geom_of]. congruence.
Qed.

Lemma used_ext f f' : ext f f' -> 79 <= a_size f -> used f <= used f'.
Proof.
  intros (_ & E & ws & Ev) Hs. unfold used. rewrite E, Ev, used_app. pose proof (used_nonneg (a_size f) ws Hs). lia.
Qed.

(** the head is above the records that were there at the sync *)
Lemma lost_head : exists h, getHeadPointer g c' = Ok h /\ -1 <= h < a_cap f1 - used f0.
Proof.
  destruct lost_meta as (ft & ct & m & E1 & E2 & HF & HM & Hh & _).
  pose proof (al_rep0 _ _ _ _ _ HL) as R0. pose proof (al_ext _ _ _ _ _ HL) as HE.
  pose proof R0 as (((Hs & Hc & _) & Hv & Hu & _) & _).
  pose proof HF as (((Hst & _) & _ & Hut & _) & _).
  pose proof (used_ext _ _ E1 ltac:(lia)) as Hle. pose proof HE as (A & B & _). pose proof E1 as (A1 & B1 & _).
  pose proof (used_nonneg (a_size f0) (a_vals f0) ltac:(lia)) as Hu0. fold (used f0) in Hu0.
  unfold getHeadPointer. rewrite HM. cbn [bind]. rewrite Hh.
  destruct (Z.ltb_spec (a_cap f1 - used ft - 1) 0).
  { eexists. split; [reflexivity|]. lia. }
  destruct (f_has_record g (a_cap f1 - used ft - 1) c') eqn:Eh.
  - destruct (walk_down g c' (Z.to_nat (g_cap g) + 2) (a_cap f1 - used ft - 1)) as (h & -> & ?);
      [cbn [g_cap geom_of]; lia|cbn [g_cap geom_of]; lia|]. exists h. split; [reflexivity|]. lia.
  - destruct (walk_up g c' (Z.to_nat (g_cap g) + 2) (a_cap f1 - used ft - 1)) as (h & -> & ? & Hn);
      [cbn [g_cap geom_of]; lia|cbn [g_cap geom_of]; lia|]. cbn [g_cap geom_of] in *.
    exists h. split; [reflexivity|]. split; [lia|]. destruct (Z_lt_ge_dec h (a_cap f1 - used f0)) as [|Hge]; [lia|]. exfalso.
    assert (Hpos : 0 < used f0) by lia.
    assert (X : f_record g (a_cap f1 - used f0) c' = Err).
    { apply no_record; [cbn; lia|]. apply Hn. lia. }
    pose proof (flat_recs_len (a_size f0) (a_vals f0) Hs Hv) as L. fold (used f0) in L. unfold len in L.
    destruct (nth_error (flat_map (recs (a_size f0)) (a_vals f0)) 0) as [r|] eqn:E0; [|apply nth_error_None in E0; lia].
    pose proof (used_slot f0 c0 0 r R0 E0) as Hr. rewrite <- (ext_geom _ _ HE) in Hr.
    apply lost_old in Hr. rewrite Z.add_0_r in Hr. rewrite <- A in Hr. congruence.
Qed.

(** the values from a place on, and the one that is cut *)
Lemma split_from size p cap : forall vs, exists us ws, vs = us ++ ws /\ (p <= cap -> p <= cap - used_ size ws) /\
  (us = [] \/ exists us' u, us = us' ++ [u] /\ cap - used_ size (u :: ws) < p).
Proof.
  induction vs as [|v vs IH].
  - exists [], []. split; [reflexivity|]. split; [cbn; lia|now left].
  - destruct (Z_le_gt_dec p (cap - used_ size (v :: vs))) as [H|H].
    + exists [], (v :: vs). split; [reflexivity|]. split; [auto|now left].
    + destruct IH as (us & ws & -> & H1 & H2). exists (v :: us), ws. split; [reflexivity|]. split; [exact H1|]. right.
      destruct H2 as [->|(us' & u & -> & H2)].
      * exists [], v. split; [reflexivity|]. cbn [app] in H. lia.
      * exists (v :: us'), u. split; [reflexivity|exact H2].
Qed.

Lemma filter_none {X} (p : X -> bool) l : (forall x, In x l -> p x = false) -> filter p l = [].
Proof.
  induction l as [|x l IH]; intros H; [reflexivity|]. cbn [filter]. rewrite (H x (or_introl eq_refl)). apply IH.
  intros y Hy. apply H. now right.
Qed.

Lemma read_file_lost : exists k : value -> bool,
  (forall v, In v (a_vals f0) -> k v = true) /\
  forall A (cb : callback A) e acc,
  read_file cb g c' e acc =
  if e <=? match oldest_end f1 with Some o => o | None => 0 end then (acc, Ok false)
  else run_cb cb acc (filter (fun v => v_end v <? e) (filter k (a_vals f1))).
Proof.
  destruct lost_meta as (ft & ct & m & E1 & E2 & HFt & HM & Hh & _ & Hsm & _). clear HFt E1 E2 Hh ft ct.
  destruct lost_head as (h & HH & Hhb).
  pose proof (al_rep0 _ _ _ _ _ HL) as R0. pose proof (al_rep1 _ _ _ _ _ HL) as R1. pose proof (al_ext _ _ _ _ _ HL) as HE.
  pose proof R1 as (((Hs & Hc & _) & Hv & Hu & Hd) & _). pose proof HE as (A & B & zs & Ez).
  pose proof (used_nonneg (a_size f1) (a_vals f1) ltac:(lia)) as Hu1. fold (used f1) in Hu1.
  pose proof (used_nonneg (a_size f0) (a_vals f0) ltac:(lia)) as Hu0. fold (used f0) in Hu0.
  destruct (split_from (a_size f1) (h + 1) (a_cap f1) (a_vals f1)) as (us & ws & Ev & Hp & Hcut).
  specialize (Hp ltac:(lia)).
  assert (Hvs : Forall val_ok us /\ Forall val_ok ws) by (rewrite Ev in Hv; now apply Forall_app in Hv).
  destruct Hvs as (Hvu & Hvw).
  pose proof (used_nonneg (a_size f1) ws ltac:(lia)) as Huw.
  assert (Huv : used f1 = used_ (a_size f1) us + used_ (a_size f1) ws) by (unfold used; now rewrite Ev, used_app).
  pose proof (used_nonneg (a_size f1) us ltac:(lia)) as Huu.
  (* old values are visible *)
  assert (Hold : exists xs, ws = xs ++ a_vals f0).
  { rewrite Ev in Ez. apply app_eq_app in Ez. destruct Ez as (l & [(E3 & E4)|(E3 & E4)]); [|eauto].
    destruct Hcut as [->|(us' & u & -> & Hcut)].
    - symmetry in E3. apply app_eq_nil in E3. destruct E3 as (_ & ->). exists []. now rewrite E4.
    - destruct l as [|x l0] eqn:El; [exists []; now rewrite E4|]. rewrite <- El in *.
      destruct (exists_last (l := l)) as (l' & u' & El'); [rewrite El; discriminate|]. rewrite El' in *.
      rewrite app_assoc in E3. apply app_inj_tail in E3. destruct E3 as (_ & <-).
      exfalso. unfold used in Hhb. rewrite E4 in Hhb. rewrite <- app_assoc in Hhb. cbn [app] in Hhb. rewrite <- B in Hhb.
      pose proof (used_suffix (a_size f1) l' u ws ltac:(lia)). lia. }
  destruct Hold as (xs & Hxs).
  set (kk := fun v => negb (bad_in f1 c' v (a_vals f1))).
  assert (Hkk : kept kk f1 c').
  { intros vs1 v vs2 E. unfold kk. rewrite negb_true_iff. split.
    - intros Hb. assert (Hok : val_ok v) by (rewrite E in Hv; apply Forall_app in Hv; destruct Hv as (_ & Hv); exact (Forall_inv Hv)).
      split; [exact Hok|]. apply rd_spec. cbn [g_size geom_of].
      destruct (rd g c' (a_cap f1 - used_ (a_size f1) (v :: vs2)) (recs (a_size f1) v)) eqn:Er; [reflexivity|].
      assert (X : bad_in f1 c' v (a_vals f1) = true); [|congruence]. apply bad_in_spec. eauto.
    - intros (_ & Hst). apply rd_spec in Hst. cbn [g_size geom_of] in Hst. apply not_true_iff_false. intros Hb.
      apply bad_in_spec in Hb. destruct Hb as (ws1 & ws2 & E' & Hb).
      rewrite E in Hd. destruct (desc_unique vs1 v vs2 ws1 ws2 Hd) as (_ & <-); [congruence|]. congruence. }
  exists (fun v => (if in_dec value_eq_dec v ws then true else false) && kk v). split.
  { intros v Hin. destruct (in_dec value_eq_dec v ws) as [_|Hn]; cbn [andb].
    2:{ exfalso. apply Hn. rewrite Hxs. apply in_app_iff. now right. }
    apply in_split in Hin. destruct Hin as (vs1 & vs2 & E).
    apply (Hkk (us ++ xs ++ vs1) v vs2).
    { rewrite Ev, Hxs, E, <- !app_assoc. reflexivity. }
    pose proof (stored_rep f0 c0 vs1 v vs2 R0 E) as (Hok & Hst). split; [exact Hok|].
    rewrite <- A, <- B in Hst. rewrite <- (ext_geom _ _ HE) in Hst. intros j r Hj. apply lost_old. exact (Hst j r Hj). }
  intros X cb e acc. unfold read_file. rewrite HM, Hsm, HH. destruct (_ <=? _); [reflexivity|]. cbn [g_cap geom_of].
  assert (EK : filter (fun v => (if in_dec value_eq_dec v ws then true else false) && kk v) (a_vals f1) = filter kk ws).
  { rewrite Ev, filter_app, filter_none.
    - cbn [app]. apply filter_ext_in. intros v Hi. destruct (in_dec value_eq_dec v ws); [reflexivity|contradiction].
    - intros v Hi. destruct (in_dec value_eq_dec v ws) as [Hi'|]; [|reflexivity]. exfalso.
      rewrite Ev in Hd. pose proof (desc_app_inv _ _ Hd) as (_ & Hlt). specialize (Hlt v v Hi Hi'). lia. }
  rewrite EK.
  destruct (segs g c' (a_size f1) kk Hs eq_refl ws (a_cap f1 - used_ (a_size f1) ws) Hvw) as (sgs & HFs & HTs).
  - lia.
  - cbn [g_cap geom_of]. lia.
  - intros j r Hj. pose proof (flat_recs_len (a_size f1) us Hs Hvu) as L. unfold len in L.
    pose proof (used_slot f1 c1 (length (flat_map (recs (a_size f1)) us) + j)%nat r R1) as Hr.
    rewrite Ev, flat_map_app, nth_error_app2 in Hr by lia. replace (_ + j - _)%nat with j in Hr by lia. specialize (Hr Hj).
    replace (a_cap f1 - used f1 + Z.of_nat (length (flat_map (recs (a_size f1)) us) + j))
      with (a_cap f1 - used_ (a_size f1) ws + Z.of_nat j) in Hr by lia.
    pose proof (f_record_ok_lt _ _ _ _ Hr) as Hlt. cbn [g_cap geom_of] in Hlt.
    destruct (lost_slot _ Hlt) as [E|E]; [now left|right; now rewrite E].
  - intros vs1 v vs2 E. apply (Hkk (us ++ vs1)). rewrite Ev, E. apply app_assoc.
  - set (q := a_cap f1 - used_ (a_size f1) ws) in *.
    set (o1 := map (fun i => obs g c' (h + 1 + Z.of_nat i)) (seq 0 (Z.to_nat (q - (h + 1))))).
    assert (Lo1 : len o1 = q - (h + 1)) by (unfold len, o1; rewrite map_length, seq_length; lia).
    assert (HT : tailo g c' (h + 1) (o1 ++ concat sgs)).
    { destruct HTs as (T1 & T2 & T3). split; [lia|]. split; [rewrite len_app; lia|]. intros i o Ho.
      destruct (Nat.ltb_spec i (length o1)) as [Hi|Hi].
      - rewrite nth_error_app1 in Ho by exact Hi. unfold o1 in Ho. rewrite nth_error_mapseq in Ho.
        destruct (Nat.ltb_spec i (Z.to_nat (q - (h + 1)))); [|discriminate]. injection Ho as <-. apply obs_spec.
      - rewrite nth_error_app2 in Ho by exact Hi. specialize (T3 _ _ Ho). unfold len in Lo1.
        replace (h + 1 + Z.of_nat i) with (q + Z.of_nat (i - length o1)) by lia. exact T3. }
    assert (HJ : Forall (junk e) o1).
    { apply Forall_forall. intros o Ho. unfold o1 in Ho. apply in_map_iff in Ho. destruct Ho as (i & <- & Hi). apply in_seq in Hi.
      set (n := h + 1 + Z.of_nat i). assert (Hn : h + 1 <= n < q) by (unfold n; lia).
      unfold obs. destruct (lost_slot n ltac:(lia)) as [-> | ->]; [exact I|].
      destruct (f_record_cases g n c1) as [(r & Hr)| ->]; [|exact I]. rewrite Hr. right.
      destruct (file_record f1 c1 n r R1 Hr) as (j & Hj & Enj).
      destruct Hcut as [->|(us' & u & -> & Hcut)]; [cbn [used_] in Huv; lia|].
      rewrite Ev, <- app_assoc in Hj. cbn [app] in Hj. rewrite flat_map_app in Hj. cbn [flat_map] in Hj.
      rewrite used_app in Huv. cbn [used_] in Huv, Hcut.
      apply Forall_app in Hvu. destruct Hvu as (Hvu' & Hvu). apply Forall_inv in Hvu.
      pose proof (flat_recs_len (a_size f1) us' Hs Hvu') as L. unfold len in L.
      destruct (recs_spec (a_size f1) u Hs Hvu) as (_ & _ & Lu & Pu & _ & K & _). unfold len in Lu.
      rewrite nth_error_app2 in Hj by lia. rewrite nth_error_app1 in Hj by lia.
      destruct (j - length (flat_map (recs (a_size f1)) us'))%nat as [|j'] eqn:Ej; [lia|].
      pose proof (later_kind _ j' (r_kind r) K ltac:(now rewrite (map_nth_error r_kind _ _ Hj))). lia. }
    destruct (read_junk cb g c' e o1 (concat sgs) (h + 1) acc (Z.to_nat (a_cap f1 - (h + 1)) + 1) HT HJ) as (fuel' & Hf' & E).
    { destruct HT as (_ & T2 & _). unfold len in T2. cbn [g_cap geom_of] in T2. lia. }
    rewrite E, Lo1. replace (h + 1 + (q - (h + 1))) with q by lia.
    rewrite (read_values_o cb g c' e (a_size f1) (fun v => negb (kk v)) Hs ws sgs q acc fuel' Hvw HFs HTs Hf').
    f_equal. f_equal. apply filter_ext. intros v. apply negb_involutive.
Qed.
End Lost.
